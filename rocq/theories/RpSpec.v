(** Vocabulary of the resource protector properties: what is read off a trace. *)
From Coq Require Import ZArith.
From stdpp Require Import base option gmap list sorting.
From Verif Require Import RpModel.
Open Scope Z_scope.

(** The receipts given out, with the tokens asked for. *)
Definition receipts (es : list event) : list (nat * Z) :=
  omap (λ e, match e with EReceipt id n => Some (id, n) | _ => None end) es.
(** The grants, with their times. *)
Definition grants (es : list event) : list (nat * Z) :=
  omap (λ e, match e with EGrant id t => Some (id, t) | _ => None end) es.
(** The requests whose tokens have been returned. *)
Definition returned (es : list event) : list nat :=
  omap (λ e, match e with EReturned id _ => Some id | _ => None end) es.
(** The requests that their users have released. *)
Definition released (es : list event) : list nat :=
  omap (λ e, match e with ERelease id => Some id | _ => None end) es.

(** The tokens of the requests with a given property. *)
Fixpoint sum_tokens (P : nat → bool) (rs : list (nat * Z)) : Z :=
  match rs with
  | [] => 0
  | (id, n) :: rs => (if P id then n else 0) + sum_tokens P rs
  end.
(** Granted and not returned. *)
Definition out (es : list event) (id : nat) : bool :=
  bool_decide (id ∈ (grants es).*1) && negb (bool_decide (id ∈ returned es)).
Definition in_use (es : list event) : Z := sum_tokens (out es) (receipts es).
(** Granted and neither released nor returned. *)
Definition unreleased (es : list event) (id : nat) : bool :=
  out es id && negb (bool_decide (id ∈ released es)).

(** Nobody asks for a negative number of tokens. *)
Definition sensible (o : pop) : Prop := match o with PRequest n => 0 ≤ n | _ => True end.
Definition no_shutdown (o : pop) : Prop := match o with PShutdown => False | _ => True end.
(** No request is cancelled because WaitUntilGranted timed out. *)
Definition no_cancel (o : pop) : Prop := match o with PTimer _ => False | _ => True end.

(** [P] holds of every step in the state it is taken in. *)
Fixpoint palways (P : pstate → pop → Prop) (s : pstate) (ops : list pop) : Prop :=
  match ops with
  | [] => True
  | o :: ops => P s o ∧ palways P (pstep s o).1 ops
  end.
(** A process() that has been started runs before anything else happens. *)
Definition prompt (s : pstate) (o : pop) : Prop := (0 < nproc s)%nat → ∃ a, o = PProcess a.

(** Steps of the protector's own goroutine for a granted request; no time passes
    in the [instant] ones. *)
Definition own (id : nat) (o : pop) : Prop :=
  o = PReadTouch id ∨ o = PReadRelease id ∨ o = PLimit id ∨ o = PFinish id ∨ o = PReturn id.
Definition own_or_time (id : nat) (o : pop) : Prop := own id o ∨ ∃ d, o = PAdvance d.
(** The goroutine waits for r.mu, which is held by a touch() that waits for the
    goroutine. *)
Definition deadlocked (s : pstate) (id : nat) : Prop :=
  watch s !! id = Some WFinish ∧ ∃ r, store s !! id = Some r ∧ rblocked r = true.

(** The first waiting request could be granted now. *)
Definition could_grant (s : pstate) : Prop :=
  ∃ id rest r, pending s = id :: rest ∧ store s !! id = Some r ∧
    used s < pmax s ∧ used s + rtokens r ≤ pmax s.
(** Something is going to look. *)
Definition will_look (s : pstate) : Prop := (0 < nproc s)%nat ∨ (0 < nre s)%nat ∨ sleepers s ≠ [].

(** The protector's own steps towards a grant, its callback content. *)
Definition looking (o : pop) : Prop := (∃ d, o = PAdvance d) ∨ o = PReprocess ∨ o = PWake 0 ∨ o = PProcess None.
(** The second grant is at least [d] after the first. *)
Definition apart (d : Z) (a b : nat * Z) : Prop := a.2 + d ≤ b.2.

(** WaitUntilGranted is called with a time-out at most once per receipt. *)
Fixpoint timed_waits (ops : list pop) : list nat :=
  match ops with
  | [] => []
  | PWait id (Some _) :: ops => id :: timed_waits ops
  | _ :: ops => timed_waits ops
  end.
