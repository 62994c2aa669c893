(** Property C16: the ready-added callback. Vocabulary in ReadySpec.v. *)
From Coq Require Import Lia.
From stdpp Require Import base option gmap list.
From Verif Require Import ReadyModel ReadySpec ReadyProofs.

(** * C16 *)
(** At most one callback runs at any moment of any schedule. *)
Theorem C16_one_at_a_time : ∀ ls s,
  rrun r_new ls = Some s → length (filter (λ p, in_callback p = true) (threads s)) ≤ 1.
Proof. exact one_callback. Qed.
Print Assumptions C16_one_at_a_time.
(** After items [xs] became ready, a callback starts (by the time the machinery
    is idle) that is handed every one of them that is not taken before. *)
Theorem C16_seen : ∀ ls xs ls' s,
  rrun r_new (ls ++ LPush xs :: ls') = Some s → settled s →
  ∃ a i b s1 s2, ls' = a ++ LSnap i :: b ∧ rrun r_new (ls ++ LPush xs :: a) = Some s1 ∧
    rstep s1 (LSnap i) = Some s2 ∧ threads s2 !! i = Some (Calling (ready s1)) ∧
    ∀ x, x ∈ xs → (∀ ys, LTake ys ∈ a → x ∉ ys) → x ∈ ready s1.
Proof. exact seen. Qed.
Print Assumptions C16_seen.
(** Left to itself the machinery becomes idle after boundedly many steps,
    having shown everything that is ready. *)
Theorem C16_settles : ∀ ls s, rrun r_new ls = Some s →
  ∃ n, ∀ ls' s', Forall internal ls' → rrun s ls' = Some s' →
    length ls' ≤ n ∧ (settled s' ∨ ∃ l, internal l ∧ is_Some (rstep s' l)) ∧
    (settled s' → ready s ⊆ shown s').
Proof. exact settles. Qed.
Print Assumptions C16_settles.
(** A second item becomes ready during the callback for the first: it is shown
    by the recall. *)
Example C16_case : ∃ s,
  rrun r_new ([LPush {[1]}; LEnter; LSnap 0] ++ LPush {[2]} ::
    [LEnter; LTake {[1]}; LReturn 0; LDecide 0; LRecall 0; LEnter; LSnap 1; LReturn 1; LDecide 1]) = Some s ∧
  settled s ∧ ready s = {[2]} ∧ shown s = {[2]}.
Proof.
  eexists. split; [by vm_compute|]. split; [by split; repeat constructor|].
  split; apply (bool_decide_unpack _); by vm_compute.
Qed.
