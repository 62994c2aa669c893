(** Vocabulary of C30: limit groups *)
From Coq Require Import ZArith String Ascii.
From stdpp Require Import base option strings gmap list.
From Verif Require Import LimiterModel LimiterSpec GoHeap QueueModel ServerModel ServerSpec.
Open Scope Z_scope.

(** What limiter calls add to a group's count. *)
Fixpoint net (g : string) (l : list lcall) : Z :=
  match l with
  | [] => 0
  | CInc gs :: l => occ g gs + net g l
  | CDec gs :: l => net g l - occ g gs
  end.
(** The limiter calls since the server was (re)started, oldest first. *)
Fixpoint calls (es : list entry) : list lcall :=
  match es with
  | [] => []
  | Entry _ o _ l _ :: es => match o with ACrash _ _ _ => l | _ => calls es ++ l end
  end.
Definition sumZ (l : list Z) : Z := foldr Z.add 0 l.
(** How many running jobs are counted in a group (as often as each is). *)
Definition running_in (g : string) (s : sstate) : Z :=
  sumZ ((λ k, match seen s k with Some (SRun, j) => occ g (jincr j) | _ => 0 end) <$> elements (dom (items (sq s)))).
(** A restarted server finds no job recorded as running that has exited, or that
    waits for others: all of these run again. *)
Definition clean_restart (s : sstate) (o : sop) : Prop :=
  match o with
  | ACrash _ _ _ => ∀ s' r l k st j, sstep s o = Some (s', r, l) → seen s' k = Some (st, j) → jst j = JRunning →
      st = SRun ∧ jexited j = false
  | _ => True
  end.
Definition counting (s : sstate) (o : sop) : Prop := spares_busy s o ∧ clean_restart s o.
(** The granted increments and the decrements of a limiter history. *)
Fixpoint grants (s : lstate) (ops : list lop) : list lcall :=
  match ops with
  | [] => []
  | o :: ops =>
      match tries s o, (lstep s o).2 with
      | Some (_, _, names), LimiterModel.RBool true => [CInc names]
      | _, _ => match o with LDecrement names => [CDec names] | _ => [] end
      end ++ grants (lstep s o).1 ops
  end.
(** The limit groups of the scheduler group under which job [k] was last
    reserved; none once its exit was reported (by a request to archive it that
    the server refused). *)
Fixpoint charged (k : key) (es : list entry) : list string :=
  match es with
  | [] => []
  | Entry _ o r _ _ :: es =>
      match o, r with
      | AReserve _ _ g _ _, SReserved k' => if decide (k' = k) then sched_limits g else charged k es
      | AArchive _ k' _ _, SErr EBadRequest => if decide (k' = k) then [] else charged k es
      | _, _ => charged k es
      end
  end.
(** A name that can be told apart in a scheduler group. *)
Fixpoint lacks (c : ascii) (s : string) : Prop :=
  match s with EmptyString => True | String a s => a ≠ c ∧ lacks c s end.
