(** Vocabulary of the properties about the limits that the server keeps. *)
From Coq Require Import ZArith String.
From stdpp Require Import base option strings gmap list.
From Verif Require Import LimiterModel LimitNameModel LimitNameSpec LimiterSpec LimitStoreModel.
Open Scope Z_scope.

(** the limit groups, as the user writes them, of a request *)
Definition written (r : lreq) : list string :=
  match r with QAdd raws => raws | QGetSet group => [group] | _ => [] end.
(** [raw] gives the group [g] the limit [n]; or takes its limit away *)
Definition numbers (local : zone) (raw g : string) (n : Z) : Prop := spells local raw g (GData MCount n 0).
Definition unlimits (local : zone) (raw g : string) : Prop := spells local raw g (GData MUnknown 0 0).
(** the last thing that the request says about [g] is the limit [n] *)
Definition gives (local : zone) (r : lreq) (g : string) (n : Z) : Prop :=
  ∃ a raw b, written r = (a ++ raw :: b)%list ∧ numbers local raw g n ∧ ∀ raw' d, raw' ∈ b → ¬ spells local raw' g d.
(** the request gives [g] some limit *)
Definition limits (local : zone) (r : lreq) (g : string) : Prop := ∃ raw n, raw ∈ written r ∧ numbers local raw g n.
(** it was not refused *)
Definition accepted (p : lreply) : Prop := p ≠ PStored false ∧ p ≠ PLimit None.
(** the name of a group that can have a limit *)
Definition plain (g : string) : Prop := g ≠ EmptyString ∧ colon_free g.

(** The number of jobs of [g] that were let start and are not done: from the requests and the
    state they meet *)
Definition trying (s : lsrv) (r : lreq) : option (list string) :=
  match r with
  | QTry _ names _ => Some names
  | QWake _ ch => if decide (ch ∈ sent (mem s)) then waiting (mem s) !! ch else None
  | _ => None
  end.
Definition running_step (s : lsrv) (r : lreq) (p : lreply) (g : string) (k : Z) : Z :=
  match p, trying s r, r with
  | PLim (RBool true), Some names, _ => if decide (g ∈ names) then k + 1 else k
  | _, _, QDone names => if decide (g ∈ names) then k - 1 else k
  | _, _, QRestart => 0 (* those running are then tried again: server.go:785 *)
  | _, _, _ => k
  end.
Fixpoint running (local : zone) (s : lsrv) (h : list lreq) (g : string) (k : Z) : Z :=
  match h with
  | [] => k
  | r :: h => let '(s', p) := lreq_step local s r in running local s' h g (running_step s r p g k)
  end.
(** Groups are named once in each request, and only jobs that run are done. *)
Definition once (r : lreq) : Prop := match r with QTry _ names _ | QDone names => NoDup names | _ => True end.
Fixpoint matched (local : zone) (s : lsrv) (h : list lreq) (g : string) (k : Z) : Prop :=
  match h with
  | [] => True
  | r :: h =>
      match r with QDone names => g ∈ names → 0 < k | _ => True end ∧
      let '(s', p) := lreq_step local s r in matched local s' h g (running_step s r p g k)
  end.
(** the request says that [g] has no limit *)
Definition unlimiting (local : zone) (r : lreq) (g : string) : Prop := ∃ raw, raw ∈ written r ∧ unlimits local raw g.
(** a job of [g] is asked to be let start *)
Definition asks (r : lreq) (g : string) : Prop := match r with QTry _ names _ => g ∈ names | _ => False end.
(** In the history [h0 ++ r0 :: h1], [r0] gives [g] a limit before any job of it asks to start,
    and no later request says that it has none. *)
Record begun (local : zone) (h0 : list lreq) (r0 : lreq) (h1 : list lreq) (g : string) : Prop := Begun {
  be_plain : plain g; be_given : ∃ n, gives local r0 g n; be_ok : accepted (lreq_step local (lreq_run local srv0 h0).1 r0).2;
  be_none : Forall (λ r, ¬ asks r g) h0; be_keep : Forall (λ r, ¬ unlimiting local r g) h1; be_once : Forall once (h0 ++ r0 :: h1);
  be_match : matched local srv0 (h0 ++ r0 :: h1) g 0 }.
