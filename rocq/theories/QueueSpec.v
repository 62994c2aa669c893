(** Vocabulary of the queue properties. It only reads the model's state (the
    fields of the Go structs) and runs histories; it uses none of the functions
    by which the model computes a step. *)
From Coq Require Import ZArith String.
From stdpp Require Import base option strings gmap list.
From RecordUpdate Require Import RecordSet.
From Verif Require Import GoHeap QueueModel.
Open Scope Z_scope.

(** A history: calls [ops] made on a queue created at time [t] all returned (no
    panic) and left it in state [s]. *)
Definition history (t : Z) (ops : list op) (s : qstate) : Prop :=
  ∃ out, run (q_new t) ops = Some (s, out).

(** [P] holds of every call of the history, in the state it is made in. *)
Fixpoint always (P : qstate → op → Prop) (s : qstate) (ops : list op) : Prop :=
  match ops with
  | [] => True
  | o :: ops => P s o ∧ match step s o with
                        | Some (s', _, _) => always P s' ops
                        | None => True
                        end
  end.

(** The item that key [k] names, with its fields. *)
Definition named (s : qstate) (k : key) (x : nat) (it : item) : Prop :=
  items s !! k = Some x ∧ objs s !! x = Some it.

(** Item.Stats().State *)
Definition state_of (s : qstate) (x : nat) : option istate := ist <$> objs s !! x.

(** What each sub-queue holds, by the state name that goes with it. *)
Definition holding (s : qstate) (q : istate) : list nat :=
  match q with
  | SDelay => arr (delayQ s)
  | SReady => concat (snd <$> map_to_list (rgroups (readyQ s)))
  | SRun => arr (runQ s)
  | SBury => arr (buryQ s)
  | SDep => arr (depQ s)
  | SRemoved => []
  end.
(** How many times [x] occurs in [l]. *)
Definition occurs (x : nat) (l : list nat) : nat := length (filter (λ y, y = x) l).

(** Every item named by a key sits exactly once in the sub-queue its state
    names and in no other; a ready item is in its own group's heap; nothing
    else is in a sub-queue. *)
Definition well_filed (s : qstate) : Prop :=
  (∀ k x, items s !! k = Some x →
     ∃ it, objs s !! x = Some it ∧ ikey it = k ∧ ist it ≠ SRemoved ∧
       (∀ q, occurs x (holding s q) = if decide (q = ist it) then 1%nat else 0%nat) ∧
       (ist it = SReady → x ∈ default [] (rgroups (readyQ s) !! igroup it))) ∧
  (∀ q x, x ∈ holding s q → ∃ k, items s !! k = Some x).

(** ** Ways of calling Update that the code does not survive *)

(** Update is not given an explicitly empty dependency list for an item that
    still has unresolved dependencies but is not in the dependent sub-queue. *)
Definition clears_safely (s : qstate) (o : op) : Prop :=
  match o with
  | OUpdate _ k _ _ _ _ _ (Some []) =>
      ∀ x it, named s k x it → iremain it ≠ ∅ → ist it = SDep
  | _ => True
  end.
(** Update does not change only the priority of a ready item unless the ready
    sub-queue's last operation was on that item's group. *)
Definition reprioritises_safely (s : qstate) (o : op) : Prop :=
  match o with
  | OUpdate _ k g _ prio delay _ _ =>
      ∀ x it, named s k x it → ist it = SReady → idelay it = delay → igroup it = g →
        iprio it ≠ prio → rlast (readyQ s) = g
  | _ => True
  end.
Definition safely (s : qstate) (o : op) : Prop := clears_safely s o ∧ reprioritises_safely s o.

(** Call lists for which the above holds whatever the state. *)
Definition never_clears (o : op) : Prop :=
  match o with OUpdate _ _ _ _ _ _ _ (Some []) => False | _ => True end.
Definition never_updates (o : op) : Prop :=
  match o with OUpdate _ _ _ _ _ _ _ _ => False | _ => True end.

(** ** Reserve order: higher priority, then larger size, then older *)
Definition better (a b : item) : Prop :=
  (iprio b < iprio a)%N ∨
  (iprio a = iprio b ∧ (isize b < isize a)%N) ∨
  (iprio a = iprio b ∧ isize a = isize b ∧ creation a < creation b).

(** ** Leaving the run sub-queue *)
(** Calls that may take the item named [k] out of the run sub-queue. *)
Definition may_stop (o : op) (k : key) : Prop :=
  match o with
  | ORelease _ k' | OBury k' | ORemove k' _ => k' = k
  | OUpdate _ k' _ _ _ _ _ (Some (_ :: _)) => k' = k
  | OTickTTR _ _ => True
  | _ => False
  end.

(** ** Timers *)
(** Item [it] is due: a delayed item becomes ready, a running one is handed to
    the TTR callback. *)
Definition due_at (it : item) : option Z :=
  match ist it with SDelay => Some (readyAt it) | SRun => Some (releaseAt it) | _ => None end.
(** When the goroutine that deals with due items of that state wakes up. *)
Definition wakes_at (s : qstate) (q : istate) : Z :=
  match q with SRun => ttrTime s | _ => delayTime s end.
(** Update does not bring forward the time a delayed or running item is due. *)
Definition postpones (s : qstate) (o : op) : Prop :=
  match o with
  | OUpdate now k _ _ _ delay ttr _ => ∀ x it, named s k x it →
      (ist it = SDelay → delay ≠ idelay it → readyAt it ≤ now + delay) ∧
      (ist it = SRun → ttr ≠ ittr it → releaseAt it ≤ now + ttr)
  | _ => True
  end.
Definition timed_safely (s : qstate) (o : op) : Prop := clears_safely s o ∧ postpones s o.

(** ** Errors *)
Definition fails (r : qres) : Prop :=
  match r with RErr _ | RErrItem _ _ => True | _ => False end.
(** Nothing a caller can see differs. *)
Definition unchanged (s s' : qstate) : Prop :=
  objs s' = objs s ∧ items s' = items s ∧ dependants s' = dependants s ∧
  closed s' = closed s ∧ (∀ q, holding s' q = holding s q) ∧
  (∀ g, rgroups (readyQ s') !! g = rgroups (readyQ s) !! g).

(** ** Following an item by its key *)
(** The key under which the item named [k] is found after call [o] returned
    [r]; None: it is no longer in the queue. *)
Definition key_after (o : op) (r : qres) (k : key) : option key :=
  match o, r with
  | ORemove k' _, ROk => if decide (k' = k) then None else Some k
  | ODestroy, ROk => None
  | OChangeKey old new, ROk => if decide (old = k) then Some new else Some k
  | _, _ => Some k
  end.
(** Its data after the call. *)
Definition data_after (o : op) (r : qres) (k : key) (d : N) : N :=
  match o, r with
  | OUpdate _ k' _ d' _ _ _ _, ROk => if decide (k' = k) then d' else d
  | _, _ => d
  end.
Fixpoint follow (k : key) (d : N) (calls : list (op * qres)) : option (key * N) :=
  match calls with
  | [] => Some (k, d)
  | (o, r) :: calls =>
      match key_after o r k with
      | None => None
      | Some k' => follow k' (data_after o r k d) calls
      end
  end.

(** ** AddMany *)
(** The definitions that AddMany adds: those whose key is neither in the queue
    nor in an earlier definition. *)
Fixpoint first_defs (known : gset key) (ds : list itemdef) : list itemdef :=
  match ds with
  | [] => []
  | d :: ds => if decide (d_key d ∈ known) then first_defs known ds
               else d :: first_defs ({[d_key d]} ∪ known) ds
  end.

(** ** Time *)
(** A call that leaves the timer of item [x] alone: it does not Update or
    SetDelay the item, and is not delay processing later than [T]. *)
Definition before_ready (x : nat) (T : Z) (s : qstate) (o : op) : Prop :=
  match o with
  | OUpdate _ k _ _ _ _ _ _ | OSetDelay _ k _ => items s !! k ≠ Some x
  | OTickDelay now => now ≤ T
  | _ => True
  end.
(** A call that neither takes the item [x] away from its user nor extends its
    time: not a Touch, Release, Bury, Remove or Update of the item, nor TTR
    processing later than [T]. *)
Definition before_timeout (x : nat) (T : Z) (s : qstate) (o : op) : Prop :=
  match o with
  | OUpdate _ k _ _ _ _ _ _ | OTouch _ k | ORelease _ k | OBury k | ORemove k _ => items s !! k ≠ Some x
  | OTickTTR now _ => now ≤ T
  | _ => True
  end.
(** Sane clocks: readings are after Go's zero time and TTRs are not negative. *)
Definition clocked (o : op) : Prop :=
  match o with
  | OAdd now _ _ _ _ _ _ ttr _ _ => 0 < now ∧ 0 ≤ ttr
  | OAddMany now ds => 0 < now ∧ Forall (λ d, 0 ≤ d_ttr d) ds
  | OUpdate now _ _ _ _ _ ttr _ => 0 < now ∧ 0 ≤ ttr
  | OReserve now _ _ | OTouch now _ | OTickTTR now _ => 0 < now
  | _ => True
  end.
(** The state an item is in after the TTR callback answered. *)
Definition ttr_state (d : ttrdest) : istate :=
  match d with ToRun => SRun | ToDelay => SDelay | ToBury => SBury | ToReady => SReady end.

(** ** Counting *)
(** Sum over the calls of a history of [f state call result]. *)
Fixpoint tally (f : qstate → op → qres → N) (s : qstate) (ops : list op) : N :=
  match ops with
  | [] => 0
  | o :: ops => match step s o with
                | Some (s', r, _) => f s o r + tally f s' ops
                | None => 0
                end
  end%N.
Definition if1 (b : bool) : N := if b then 1%N else 0%N.
(** the call is a Reserve that returned [x] *)
Definition reserves_of (x : nat) (_ : qstate) (o : op) (r : qres) : N :=
  match o with OReserve _ _ _ => if1 (bool_decide (r = RItem x)) | _ => 0%N end.
(** the call is a successful Kick of [x] *)
Definition kicks_of (x : nat) (s : qstate) (o : op) (r : qres) : N :=
  match o with
  | OKick k => if1 (bool_decide (r = ROk ∧ items s !! k = Some x))
  | _ => 0%N
  end.
(** the call moved [x] from the state [from] to the state [to] *)
Definition moves_of (x : nat) (from to : istate) (s : qstate) (o : op) (_ : qres) : N :=
  match step s o with
  | Some (s', _, _) => if1 (bool_decide (state_of s x = Some from ∧ state_of s' x = Some to))
  | None => 0%N
  end.
(** the call took [x] out of the run sub-queue without Bury or Remove having
    been asked for *)
Definition given_up (x : nat) (s : qstate) (o : op) (r : qres) : N :=
  (moves_of x SRun SReady s o r + moves_of x SRun SDelay s o r + moves_of x SRun SDep s o r +
   match o with OTickTTR _ _ => moves_of x SRun SBury s o r | _ => 0 end)%N.
(** the call is a successful Release of [x] *)
Definition releases_of (x : nat) (s : qstate) (o : op) (r : qres) : N :=
  match o with
  | ORelease _ k => if1 (bool_decide (r = ROk ∧ items s !! k = Some x))
  | _ => 0%N
  end.

(** ** Notifications *)
Definition name_of (q : istate) : subq :=
  match q with
  | SDelay => QDelay | SReady => QReady | SRun => QRun | SBury => QBury | SDep => QDep
  | SRemoved => QRemoved
  end.
(** What a listener adds to its count for [q] on seeing one notification. *)
Definition hears (q : subq) (e : event) : Z :=
  let '(from, to, l) := e in
  (if decide (to = q) then Z.of_nat (length l) else 0) -
  (if decide (from = q) then Z.of_nat (length l) else 0).
Definition heard (q : subq) (es : list event) : Z := fold_right (λ e n, hears q e + n) 0 es.

(** ** Dependencies *)
(** The unresolved dependencies of each item, computed from the calls and their
    results alone: set by Add, AddMany and Update; a key is resolved by Removing
    it; ChangeKey renames it (in every item but the renamed one itself). *)
Definition unres_step (s : qstate) (o : op) (r : qres) (s' : qstate) (U : nat → gset key) (x : nat) : gset key :=
  match o, r with
  | OAdd _ _ _ _ _ _ _ _ _ deps, RItem y => if decide (x = y) then list_to_set deps else U x
  | OAddMany _ ds, RAdded _ _ =>
      match objs s !! x, objs s' !! x with
      | None, Some it =>
          match find (λ d, bool_decide (d_key d = ikey it)) ds with
          | Some d => list_to_set (d_deps d)
          | None => ∅
          end
      | _, _ => U x
      end
  | OUpdate _ k _ _ _ _ _ (Some deps), ROk =>
      if decide (items s !! k = Some x) then list_to_set deps else U x
  | ORemove k _, ROk => U x ∖ {[k]}
  | OChangeKey old new, ROk =>
      if decide (items s !! old = Some x) then U x
      else if decide (old ∈ U x) then {[new]} ∪ U x ∖ {[old]} else U x
  | _, _ => U x
  end.
Fixpoint unres_run (U : nat → gset key) (s : qstate) (ops : list op) : nat → gset key :=
  match ops with
  | [] => U
  | o :: ops => match step s o with
                | Some (s', r, _) => unres_run (unres_step s o r s' U) s' ops
                | None => U
                end
  end.
Definition unresolved (t : Z) (ops : list op) : nat → gset key := unres_run (λ _, ∅) (q_new t) ops.

(** Kick is only used on an item with unresolved dependencies if one of the
    dependencies it was given is (again) the key of a queued item. *)
Definition kicks_soundly (s : qstate) (o : op) : Prop :=
  match o with
  | OKick k => ∀ x it, named s k x it → iremain it ≠ ∅ →
      ∃ d, d ∈ ideps it ∧ is_Some (items s !! d)
  | _ => True
  end.
(** ... and on one without unresolved dependencies only if none of them is. *)
Definition kicks_exactly (s : qstate) (o : op) : Prop :=
  kicks_soundly s o ∧
  match o with
  | OKick k => ∀ x it d, named s k x it → iremain it = ∅ → d ∈ ideps it → items s !! d = None
  | _ => True
  end.
(** ChangeKey is not used on an item that depends on itself, nor with a new key
    that queued items wait for when old may have dependents. *)
Definition renames_safely (s : qstate) (o : op) : Prop :=
  match o with
  | OChangeKey old new =>
      (∀ x it, named s old x it → old ∉ iremain it) ∧
      (dependants s !! old = None ∨ ∀ k x it, named s k x it → new ∉ iremain it)
  | _ => True
  end.
Definition waits_safely (s : qstate) (o : op) : Prop :=
  clears_safely s o ∧ kicks_exactly s o ∧ renames_safely s o.

(** ** Guarded calls *)
(** The key, the state the item must be in, and the error if it is not. *)
Definition demands (o : op) : option (key * istate * qerr) :=
  match o with
  | OTouch _ k | ORelease _ k | OBury k => Some (k, SRun, ENotRunning)
  | OKick k => Some (k, SBury, ENotBuried)
  | _ => None
  end.
(** One of the item's dependencies is a key in the queue. *)
Definition has_queued_dep (s : qstate) (it : item) : Prop :=
  Exists (λ d, is_Some (items s !! d)) (ideps it).
Global Instance has_queued_dep_dec s it : Decision (has_queued_dep s it).
Proof. unfold has_queued_dep. apply _. Defined.
(** The documented state of the item after the call succeeded. *)
Definition lands (s : qstate) (it : item) (o : op) : istate :=
  match o with
  | OTouch _ _ => SRun
  | ORelease _ _ => if decide (idelay it = 0) then SReady else SDelay
  | OBury _ => SBury
  | OKick _ => if decide (has_queued_dep s it) then SDep else SReady
  | _ => ist it
  end.
(** What the user gave the item is the same. *)
Definition same_settings (it it' : item) : Prop :=
  ikey it' = ikey it ∧ igroup it' = igroup it ∧ idata it' = idata it ∧ iprio it' = iprio it ∧
  isize it' = isize it ∧ idelay it' = idelay it ∧ ittr it' = ittr it ∧ creation it' = creation it.

(** ** ChangeKey *)
(** Everything but the keys the item is known by and waits for. *)
Definition same_but_keys (it it' : item) : Prop :=
  igroup it' = igroup it ∧ idata it' = idata it ∧ iprio it' = iprio it ∧
  isize it' = isize it ∧ idelay it' = idelay it ∧ ittr it' = ittr it ∧ creation it' = creation it ∧
  ist it' = ist it ∧ readyAt it' = readyAt it ∧ releaseAt it' = releaseAt it ∧
  nreserves it' = nreserves it ∧ ntimeouts it' = ntimeouts it ∧ nreleases it' = nreleases it ∧
  nburies it' = nburies it ∧ nkicks it' = nkicks it.
(** The outcome of ChangeKey(old, new), new first (queue.go documentation). *)
Definition rename_answer (s : qstate) (old new : key) : qres :=
  if closed s then RErr EClosed
  else if decide (is_Some (items s !! new)) then RErr EExists
  else if decide (is_Some (items s !! old)) then ROk
  else RErr ENotFound.

(** ** Update *)
(** Update was given these properties and the item has them. *)
Definition given (it : item) (g : group) (d prio : N) (delay ttr : Z) (deps : option (list key)) : Prop :=
  igroup it = g ∧ idata it = d ∧ iprio it = prio ∧ idelay it = delay ∧ ittr it = ttr ∧
  match deps with Some ds => iremain it = list_to_set ds | None => True end.
(** At most one of the delay, the priority or group, and the TTR is changed
    (clearing the unresolved dependencies counting as a change of group). *)
Definition one_at_a_time (it : item) (g : group) (prio : N) (delay ttr : Z) (deps : option (list key)) : Prop :=
  (idelay it = delay ∨ (iprio it = prio ∧ igroup it = g ∧ ittr it = ttr)) ∧
  (ittr it = ttr ∨ (iprio it = prio ∧ igroup it = g ∧ (deps = Some [] → iremain it = ∅))).
(** The state that the new dependencies call for. *)
Definition waiting_state (it : item) (deps : option (list key)) : istate :=
  match deps with
  | None => ist it
  | Some [] => if decide (iremain it = ∅) then ist it else SReady
  | Some ds => if decide (ist it = SBury) then SBury
               else if decide (list_to_set ds = iremain it ∧ NoDup ds) then ist it else SDep
  end.

(** ** Destroy *)
(** The answer of a destroyed queue. A Reserve that was already waiting when the
    queue was destroyed only gets the weaker error; background processing has
    nothing to do. *)
Definition closed_answer (o : op) : qres :=
  match o with
  | OReserve _ _ true => RErr ENothingReady
  | OTickDelay _ | OTickTTR _ _ => ROk
  | _ => RErr EClosed
  end.
