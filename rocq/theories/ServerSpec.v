(** Vocabulary of the server properties (C26-C30, C32, C46): what can be seen of a
    server and what a history of requests says, without the server's helpers. *)
From Coq Require Import ZArith String.
From stdpp Require Import base option strings gmap list.
From RecordUpdate Require Import RecordSet.
From Verif Require Import GoHeap QueueModel ServerModel.
Import RecordSetNotations.
Open Scope Z_scope.

(** The state of a job and the job, as the web interface or GetByEssence shows it;
    [None] if the queue does not have it. *)
Definition seen (s : sstate) (k : key) : option (istate * job) :=
  match items (sq s) !! k with
  | None => None
  | Some x => match objs (sq s) !! x with
              | None => None
              | Some it => match sjobs s !! idata it with None => None | Some j => Some (ist it, j) end
              end
  end.
(** What a job waits for. *)
Definition waits_for (s : sstate) (k : key) : gset key :=
  match items (sq s) !! k with
  | None => ∅
  | Some x => match objs (sq s) !! x with None => ∅ | Some it => iremain it end
  end.

(** The queue does not have the job any more. *)
Definition removed (s s' : sstate) (k : key) : Prop := is_Some (seen s k) ∧ seen s' k = None.

(** ** Histories *)
Record entry := Entry { e_before : sstate; e_op : sop; e_res : sres; e_calls : list lcall; e_after : sstate }.
(** From [s0] to [s], newest entry first, every step allowed by [ok]. *)
Inductive hist (ok : sstate → sop → Prop) (s0 : sstate) : list entry → sstate → Prop :=
| h_nil : hist ok s0 [] s0
| h_cons es s o s' r l : hist ok s0 es s → ok s o → sstep s o = Some (s', r, l) →
    hist ok s0 (Entry s o r l s' :: es) s'.
(** From an empty database. *)
Definition reachable (ok : sstate → sop → Prop) (es : list entry) (s : sstate) : Prop :=
  ∃ t, hist ok (s_new t) es s.

Definition is_crash (o : sop) : Prop := match o with ACrash _ _ _ => True | _ => False end.
Global Instance is_crash_dec o : Decision (is_crash o).
Proof. destruct o; apply _. Defined.
Definition no_crash (s : sstate) (o : sop) : Prop := ¬ is_crash o.

(** *** Jobs that an add request concerns besides those it names: the jobs that
    depend on a group some added job is in, and so on through the groups that
    these are in. *)
Definition group_names (js : list job) (g : string) : Prop := g ≠ ""%string ∧ ∃ j, j ∈ js ∧ g ∈ jdepgroups j.
Inductive touched (d : db) (js : list job) : key → Prop :=
| t_first g k : group_names js g → (g, k) ∈ rdtk d → touched d js k
| t_next k j g k' : touched d js k →
    live d !! k = Some j ∨ (live d !! k = None ∧ k ∉ jkey <$> js ∧ complete d !! k = Some j) →
    g ∈ jdepgroups j → g ≠ ""%string → (g, k') ∈ rdtk d → touched d js k'.
(** the jobs that the request really adds: with ignoreComplete, only those that
    are not known yet *)
Definition really_added (d : db) (js : list job) (ignore : bool) : list job :=
  if ignore then filter (λ j, live d !! jkey j = None ∧ complete d !! jkey j = None) js else js.

(** No add request concerns a job that is running or buried. *)
Definition spares_busy (s : sstate) (o : sop) : Prop :=
  match o with
  | AAdd _ js ignore => ∀ k st j, touched (sdb s) (really_added (sdb s) js ignore) k →
      seen s k = Some (st, j) → st ≠ SRun ∧ st ≠ SBury
  | _ => True
  end.
(** No add request concerns job [k] (it may name it). *)
Definition spares (k : key) (s : sstate) (o : sop) : Prop :=
  match o with
  | AAdd _ js ignore => ¬ touched (sdb s) (really_added (sdb s) js ignore) k
  | _ => True
  end.

(** ** What a history says about a job *)
(** The client of the latest reservation, [c0] if there is none. *)
Fixpoint holder (k : key) (c0 : N) (es : list entry) : N :=
  match es with
  | [] => c0
  | Entry _ o r _ _ :: es =>
      match o, r with
      | AReserve _ c _ _ _, SReserved k' => if decide (k' = k) then c else holder k c0 es
      | _, _ => holder k c0 es
      end
  end.
(** Whether a start was accepted since the latest reservation. *)
Fixpoint started (k : key) (b0 : bool) (es : list entry) : bool :=
  match es with
  | [] => b0
  | Entry _ o r _ _ :: es =>
      match o, r with
      | AReserve _ _ _ _ _, SReserved k' => if decide (k' = k) then false else started k b0 es
      | AStart _ _ k' _, SOk => if decide (k' = k) then true else started k b0 es
      | _, _ => started k b0 es
      end
  end.
(** The exit code reported for the job since its latest reservation: the first
    report counts. A report comes with a request to archive the job that the
    server refuses (the job stays with the client). *)
Definition exit_of (jes : option endstate) : option Z :=
  match jes with Some e => if e_exited e then Some (e_exit e) else None | None => None end.
Fixpoint reported (k : key) (x0 : option Z) (es : list entry) : option Z :=
  match es with
  | [] => x0
  | Entry _ o r _ _ :: es =>
      match o, r with
      | AReserve _ _ _ _ _, SReserved k' => if decide (k' = k) then None else reported k x0 es
      | AArchive _ k' jes _, SErr EBadRequest =>
          match reported k x0 es with
          | Some x => Some x
          | None => if decide (k' = k) then exit_of jes else None
          end
      | _, _ => reported k x0 es
      end
  end.
Definition reserver (s : sstate) (k : key) : N := match seen s k with Some (_, j) => jreserved j | None => 0%N end.
Definition was_started (s : sstate) (k : key) : bool :=
  match seen s k with Some (_, j) => negb (jstart j =? 0) | None => false end.
Definition had_exited (s : sstate) (k : key) : option Z :=
  match seen s k with Some (_, j) => if jexited j then Some (jexit j) else None | None => None end.
(** A request about job [k] by client [c]. *)
Definition asks (c : N) (k : key) (o : sop) : Prop :=
  match o with
  | AStart _ c' k' _ | ATouch _ c' k' | AArchive c' k' _ _ | ARelease _ c' k' _ | ABury _ c' k' _ => c' = c ∧ k' = k
  | _ => False
  end.
Definition needs_running (o : sop) : Prop :=
  match o with AStart _ _ _ _ | ATouch _ _ _ | AArchive _ _ _ _ => True | _ => False end.
(** The clock is not at Go's zero time. *)
Definition clocked (o : sop) : Prop := match o with AStart now _ _ _ => now ≠ 0 | _ => True end.
(** Uninterrupted service by one server process. *)
Definition serving (s : sstate) (o : sop) : Prop := spares_busy s o ∧ no_crash s o ∧ clocked o.

(** *** Completion *)
(** Job [k] is named by an add request, or depends on a group of a job that is. *)
Definition adds (k : key) (s : sstate) (o : sop) : Prop :=
  match o with
  | AAdd _ js ignore | ACrash (CutAdd js ignore _ _ _) _ _ =>
      k ∈ jkey <$> js ∨ touched (sdb s) (really_added (sdb s) js ignore) k
  | _ => False
  end.
(** The jobs that a request asks to be added. *)
Definition requested (o : sop) : list job :=
  match o with AAdd _ js _ | ACrash (CutAdd js _ _ _ _) _ _ => js | _ => [] end.
(** What defines a job: it never changes. *)
Definition definition_of (j : job) : key * N * list string * list string * list dependency :=
  (jkey j, jretries j, jlimits j, jdepgroups j, jdeps j).

(** *** Jobs owed to the users *)
(** Added with an answer, and since then neither archived nor deleted. A request
    to archive or delete the job that was cut short by a crash counts. *)
Fixpoint owed (k : key) (es : list entry) : Prop :=
  match es with
  | [] => False
  | Entry s o r _ s' :: es =>
      match o with
      | AAdd _ js ignore => k ∈ jkey <$> really_added (sdb s) js ignore ∨ owed k es
      | AArchive _ k' _ _ => owed k es ∧ (k' = k → r ≠ SOk)
      | ADelete ks _ => owed k es ∧ (k ∈ ks → seen s' k ≠ None)
      | ACrash (CutArchive _ k' _) _ _ => owed k es ∧ k' ≠ k
      | ACrash (CutDelete ks _ _) _ _ => owed k es ∧ k ∉ ks
      | _ => owed k es
      end
  end.
(** Added with an answer at some time, and no delete request named it since. *)
Fixpoint kept (k : key) (es : list entry) : Prop :=
  match es with
  | [] => False
  | Entry s o _ _ _ :: es =>
      match o with
      | AAdd _ js ignore => k ∈ jkey <$> really_added (sdb s) js ignore ∨ kept k es
      | ADelete ks _ | ACrash (CutDelete ks _ _) _ _ => kept k es ∧ k ∉ ks
      | _ => kept k es
      end
  end.

(** *** Retries *)
(** Clients ask to archive job [k] only if they started it and it exited with 0. *)
Definition honest (k : key) (s : sstate) (o : sop) : Prop :=
  match o with
  | AArchive _ k' jes _ => k' = k → was_started s k = true ∧ exit_of jes = Some 0 ∧
      match jes with Some e => e_end e ≠ 0 | None => False end
  | _ => True
  end.
(** Retries is an uint8. *)
Definition small_retries (o : sop) : Prop := ∀ i, i ∈ requested o → (jretries i ≤ 255)%N.
(** The times the job was started and did not complete, since it was added or
    kicked. *)
Fixpoint failures (k : key) (es : list entry) : nat :=
  match es with
  | [] => 0
  | Entry s o r l s' :: es =>
      match seen s k, seen s' k with
      | None, _ => 0
      | Some (SBury, _), Some (st, _) => if decide (st = SBury) then failures k es else 0
      | Some (SRun, _), Some (st, _) =>
          if decide (st = SRun) then failures k es
          else (if started k false es then 1 else 0) + failures k es
      | _, _ => failures k es
      end
  end%nat.
(** The reservations of the job that led to a start, since it was added or kicked. *)
Fixpoint attempts (k : key) (es : list entry) : nat :=
  match es with
  | [] => 0
  | Entry s o r l s' :: es =>
      match seen s k, seen s' k with
      | None, _ => 0
      | Some (SBury, _), Some (st, _) => if decide (st = SBury) then attempts k es else 0
      | _, _ =>
          match o, r with
          | AStart _ _ k' _, SOk => (if decide (k' = k) then if started k false es then 0 else 1 else 0) + attempts k es
          | _, _ => attempts k es
          end
      end
  end%nat.
(** The job was last moved to the buried ones at the request of its client. *)
Fixpoint put_aside (k : key) (es : list entry) : Prop :=
  match es with
  | [] => False
  | Entry s o r l s' :: es =>
      match seen s k, seen s' k with
      | Some (SRun, _), Some (SBury, _) => match o with ABury _ _ k' _ => k' = k | _ => False end
      | _, _ => put_aside k es
      end
  end.

(** *** Dependencies *)
(** Whenever a job is added, it has the same dependency groups and dependencies. *)
Definition steady (gr : key → list string) (dp : key → list dependency) (o : sop) : Prop :=
  ∀ j, j ∈ requested o → jdepgroups j = gr (jkey j) ∧ jdeps j = dp (jkey j).
(** [j'] is in a dependency group that [j] depends on. *)
Definition group_dep (j j' : job) : Prop := ∃ g, g ≠ ""%string ∧ DGroup g ∈ jdeps j ∧ g ∈ jdepgroups j'.
(** An add request with ignoreComplete does not both name a complete job and bring
    a complete one back. *)
Definition plain_restore (s : sstate) (o : sop) : Prop :=
  match o with
  | AAdd _ js true =>
      (∀ j, j ∈ js → complete (sdb s) !! jkey j = None ∨ is_Some (seen s (jkey j))) ∨
      (∀ k, touched (sdb s) (really_added (sdb s) js true) k → complete (sdb s) !! k = None ∨ is_Some (seen s k))
  | _ => True
  end.
(** The server does not die while it stores the jobs of an add request. *)
Definition whole_adds (o : sop) : Prop := match o with ACrash (CutAdd _ _ _ _ _) _ _ => False | _ => True end.
Definition depending (gr : key → list string) (dp : key → list dependency) (s : sstate) (o : sop) : Prop :=
  spares_busy s o ∧ steady gr dp o ∧ plain_restore s o ∧ whole_adds o.
