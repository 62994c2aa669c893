(** The resource protector properties (C23, C24, C25, C48, C49). A run is any
    sequence of steps of the goroutines, in any order, with any clock. *)
From Coq Require Import ZArith Lia.
From stdpp Require Import base option gmap list sorting.
From Verif Require Import RpModel RpSpec RpProofs RpProofs2 RpProofs3 RpProofs4 RpProofs5.
Open Scope Z_scope.

(** ** C23 *)
(** The tokens of the granted requests that have not been returned are what
    usedTokens says, and at most the maximum; so are those of the granted
    requests not yet released. Missing: Shutdown, and requests for fewer than 0
    tokens (both refuted below). *)
Theorem C23_at_most_max_partial d m t ops :
  0 ≤ m → Forall (λ o, sensible o ∧ no_shutdown o) ops →
  let '(s, es) := prun (p_new d m t) ops in
  used s = in_use es ∧ in_use es ≤ m ∧ sum_tokens (unreleased es) (receipts es) ≤ m.
Proof. exact (tokens_bounded d m t ops). Qed.
Print Assumptions C23_at_most_max_partial.
Definition demo_ops : list pop :=
  [PRequest 1; PProcess None; PRequest 2; PRequest 1; PReprocess; PReprocess; PAdvance 10; PWake 0; PProcess None; PFind 0; PRelease 0;
   PReadRelease 0; PReturn 0].
Example C23_case :
  Forall (λ o, sensible o ∧ no_shutdown o) demo_ops ∧
  let '(s, es) := prun (p_new 10 3 100) demo_ops in
  used s = 2 ∧ in_use es = 2 ∧ pending s = [2%nat] ∧ grants es = [(0%nat, 0); (1%nat, 10)] ∧ returned es = [0%nat].
Proof. split; [repeat constructor; done|]. vm_compute. done. Qed.
(** Shutdown sets usedTokens to 0 and leaves the waiting requests waiting: with a
    maximum of 2, tokens for 4 are then granted to two requests neither of which
    is released. *)
Definition shutdown_ops : list pop :=
  [PRequest 2; PProcess None; PRequest 2; PRequest 2; PShutdown; PReprocess; PProcess None; PReadRelease 0; PReturn 0; PReprocess; PProcess None].
Theorem C23_shutdown_refuted :
  ∃ ops, Forall sensible ops ∧ let '(s, es) := prun (p_new 0 2 100) ops in sum_tokens (unreleased es) (receipts es) = 4.
Proof. exists shutdown_ops. split; [repeat constructor; done|]. by vm_compute. Qed.
Print Assumptions C23_shutdown_refuted.
(** Request accepts a negative number of tokens; when they are returned the
    others are above the maximum. *)
Definition negative_ops : list pop :=
  [PRequest (-1); PProcess None; PRequest 1; PRequest 1; PReprocess; PReprocess; PProcess None; PProcess None; PFind 0; PRelease 0; PReadRelease 0; PReturn 0].
Theorem C23_negative_refuted :
  ∃ ops, Forall no_shutdown ops ∧ let '(s, es) := prun (p_new 0 1 100) ops in used s = 2 ∧ sum_tokens (unreleased es) (receipts es) = 2.
Proof. exists negative_ops. split; [repeat constructor; done|]. by vm_compute. Qed.
Print Assumptions C23_negative_refuted.

(** ** C24 *)
(** In every run, Shutdown and negative requests included, requests are granted
    in the order they were made (receipts are numbered in that order). *)
Theorem C24_in_order d m t ops : StronglySorted lt (grants (prun (p_new d m t) ops).2).*1.
Proof. exact (grants_sorted d m t ops). Qed.
Print Assumptions C24_in_order.
(** Any two grants are at least delayBetween apart. Missing: schedules in which a
    process() that has been started is overtaken (refuted below). *)
Theorem C24_apart_partial d m t ops :
  palways prompt (p_new d m t) ops → StronglySorted (apart d) (grants (prun (p_new d m t) ops).2).
Proof. exact (grants_apart d m t ops). Qed.
Print Assumptions C24_apart_partial.
Example C24_case :
  palways prompt (p_new 10 3 100) demo_ops ∧ grants (prun (p_new 10 3 100) demo_ops).2 = [(0%nat, 0); (1%nat, 10)].
Proof.
  split; [|by vm_compute]. unfold demo_ops. cbn [palways].
  repeat match goal with
  | |- _ ∧ _ => split
  | |- True => exact I
  | |- prompt _ (PProcess _) => intros _; eauto
  | |- prompt _ _ => intros H; exfalso; vm_compute in H; lia
  end.
Qed.
(** Two reprocess() calls both see that enough time has passed before either of
    the process() calls they start has run: two grants at the same moment, with
    a delay of 10. *)
Definition burst_ops : list pop :=
  [PRequest 1; PProcess None; PAdvance 10; PRequest 1; PRequest 1; PReprocess; PReprocess; PProcess None; PProcess None].
Theorem C24_apart_refuted :
  ∃ ops, grants (prun (p_new 10 3 100) ops).2 = [(0%nat, 0); (1%nat, 10); (2%nat, 10)].
Proof. exists burst_ops. by vm_compute. Qed.
Print Assumptions C24_apart_refuted.

(** ** C25 *)
(** In every run: tokens are returned at most once, only after a grant, and only
    once the request has been released, or Shutdown was called, or the release
    time-out has passed since the grant. *)
Theorem C25_returned_once d m to ops l1 id t l2 :
  (prun (p_new d m to) ops).2 = l1 ++ EReturned id t :: l2 →
  id ∉ returned l1 ∧ ∃ t0, EGrant id t0 ∈ l1 ∧ (ERelease id ∈ l1 ∨ EShutdown ∈ l1 ∨ t0 + to ≤ t).
Proof.
  intros H. destruct (ret_ok_run d m to ops _ _ _ H) as (A & t0 & B & C). split; [exact A|]. exists t0. split.
  - apply elem_of_list_omap in B as ([] & Hx & [= -> ->]). exact Hx.
  - destruct C as [C|C]; [left|right; exact C]. apply elem_of_list_omap in C as ([] & Hx & [= ->]). exact Hx.
Qed.
Print Assumptions C25_returned_once.
(** The time-out counts from the last touch the request's goroutine received. *)
Theorem C25_touch_renews d m to ops l1 id t l2 t0 :
  (prun (p_new d m to) ops).2 = l1 ++ EReturned id t :: l2 → ENoted id t0 ∈ l1 →
  ERelease id ∈ l1 ∨ EShutdown ∈ l1 ∨ t0 + to ≤ t.
Proof.
  intros H Hin. destruct (renewed_run d m to ops _ _ _ H t0) as [C|C].
  - apply elem_of_list_omap. by exists (ENoted id t0).
  - left. apply elem_of_list_omap in C as ([] & Hx & [= ->]). exact Hx.
  - right. exact C.
Qed.
Print Assumptions C25_touch_renews.
Example C25_touch_renews_case :
  (prun (p_new 10 3 100) [PRequest 1; PProcess None; PAdvance 60; PFind 0; PTouch 0; PReadTouch 0; PAdvance 99; PLimit 0; PAdvance 1; PLimit 0; PFinish 0; PReturn 0]).2
  = [EReceipt 0 1; EGrant 0 0; ETouch 0; ENoted 0 60] ++ EReturned 0 160 :: [].
Proof. by vm_compute. Qed.
(** A touch made before the time-out but not received before it may be lost: the
    goroutine's select may choose either of its channels. *)
Theorem C25_touch_overtaken_refuted :
  ∃ ops1 ops2, (prun (p_new 10 3 100) ops1).2 = [EReceipt 0 1; EGrant 0 0; ETouch 0] ∧ now (prun (p_new 10 3 100) ops1).1 = 99 ∧
    (prun (p_new 10 3 100) (ops1 ++ ops2)).2 = [EReceipt 0 1; EGrant 0 0; ETouch 0; EReturned 0 100].
Proof.
  exists [PRequest 1; PProcess None; PFind 0; PAdvance 99; PTouch 0], [PAdvance 1; PLimit 0; PFinish 0; PReturn 0]. by vm_compute.
Qed.
Print Assumptions C25_touch_overtaken_refuted.
(** And a request is granted at most once, after it was made. *)
Theorem C25_granted_once d m to ops l1 id t l2 :
  (prun (p_new d m to) ops).2 = l1 ++ EGrant id t :: l2 → id ∉ (grants l1).*1 ∧ ∃ n, EReceipt id n ∈ l1.
Proof.
  intros H. destruct (ret_ok_run d m to ops _ _ _ H) as (A & B). split; [exact A|].
  apply elem_of_list_fmap in B as ([j n] & -> & B). exists n. apply elem_of_list_omap in B as ([] & Hx & [= -> ->]). exact Hx.
Qed.
Print Assumptions C25_granted_once.
(** After Release the protector returns the tokens in a few steps of its own that
    take no time. Missing: a protector whose lock is never freed (C49). *)
Theorem C25_release_returns_partial d m t ops id :
  let '(s, es) := prun (p_new d m t) ops in
  stuck s = false → ERelease id ∈ es → id ∉ returned es → ∃ more, Forall (own id) more ∧ id ∈ returned (prun s more).2.
Proof.
  pose proof (PI_run d m t ops) as HI. destruct (prun (p_new d m t) ops) as [s es]. intros Hs Hr Hn. apply (released_returnable s es); auto.
  apply elem_of_list_omap. eauto.
Qed.
Print Assumptions C25_release_returns_partial.
(** Without Release, it returns them when the time-out has passed. Missing: the
    deadlock with touch() (refuted below). *)
Theorem C25_timeout_returns_partial d m t ops id :
  let '(s, es) := prun (p_new d m t) ops in
  stuck s = false → id ∈ (grants es).*1 → id ∉ returned es → ¬ deadlocked s id →
  ∃ more, Forall (own_or_time id) more ∧ id ∈ returned (prun s more).2.
Proof. pose proof (PI_run d m t ops) as HI. destruct (prun (p_new d m t) ops) as [s es]. intros. by apply (returnable s es). Qed.
Print Assumptions C25_timeout_returns_partial.
Example C25_case :
  let '(s, es) := prun (p_new 10 3 100) [PRequest 1; PProcess None; PFind 0; PTouch 0; PRelease 0] in
  stuck s = false ∧ ERelease 0 ∈ es ∧ 0%nat ∈ (grants es).*1 ∧ 0%nat ∉ returned es ∧ ¬ deadlocked s 0 ∧
  (prun s [PReadTouch 0; PReadRelease 0; PReturn 0]).2 = [ENoted 0 0; EReturned 0 0].
Proof.
  destruct (prun _ _) as [s es] eqn:E. vm_compute in E. injection E as <- <-. split; [done|]. split; [do 3 right; left|].
  split; [left|]. split; [apply not_elem_of_nil|]. split; [intros [H _]; vm_compute in H; done|]. by vm_compute.
Qed.
Example C25_timeout_case :
  (prun (p_new 10 3 100) [PRequest 1; PProcess None; PAdvance 60; PFind 0; PTouch 0; PReadTouch 0; PAdvance 99; PLimit 0; PAdvance 1; PLimit 0; PFinish 0; PReturn 0]).2
  = [EReceipt 0 1; EGrant 0 0; ETouch 0; ENoted 0 60; EReturned 0 160].
Proof. by vm_compute. Qed.
(** Two touches while the goroutine of the request has already chosen its time
    limit: the second touch() waits for the goroutine, holding r.mu, and the
    goroutine waits for r.mu in finish(). The tokens are never returned, whatever
    happens next. *)
Definition touch_ops : list pop := [PRequest 1; PProcess None; PFind 0; PTouch 0; PTouch 0; PAdvance 100; PLimit 0].
Theorem C25_touch_deadlock_refuted :
  ∃ ops, let '(s, es) := prun (p_new 10 1 100) ops in
  0%nat ∈ (grants es).*1 ∧ 0%nat ∉ returned es ∧ now s = 100 ∧ ∀ more, 0%nat ∉ returned (prun s more).2.
Proof.
  exists touch_ops. pose proof (PI_run 10 1 100 touch_ops) as HI. destruct (prun _ _) as [s es] eqn:E. simpl in HI.
  assert (deadlocked s 0) as Hd.
  { vm_compute in E. injection E as <- <-. split; [by vm_compute|]. eexists. split; by vm_compute. }
  assert (es = [EReceipt 0 1; EGrant 0 0; ETouch 0; ETouch 0] ∧ now s = 100) as [Hes Hnow] by (vm_compute in E; by injection E as <- <-).
  split; [rewrite Hes; left|]. split; [rewrite Hes; apply not_elem_of_nil|]. split; [exact Hnow|]. intros more. exact (deadlocked_forever s es more 0 HI Hd).
Qed.
Print Assumptions C25_touch_deadlock_refuted.
(** After Shutdown the requests already waiting are still granted. *)
Theorem C25_shutdown_refuted :
  ∃ ops l1 id t, (prun (p_new 10 1 100) ops).2 = l1 ++ [EGrant id t] ∧ EShutdown ∈ l1.
Proof.
  exists [PRequest 1; PShutdown; PProcess None], [EReceipt 0 1; EShutdown], 0%nat, 0. split; [by vm_compute|]. right. left.
Qed.
Print Assumptions C25_shutdown_refuted.

(** ** C48 *)
(** If the first waiting request fits, the protector is going to look: a
    process() or reprocess() has been started or is sleeping, and running it
    grants the request. Missing: requests cancelled because WaitUntilGranted
    timed out (refuted below), and Shutdown. *)
Theorem C48_no_lost_wakeup_partial d m t ops :
  Forall (λ o, no_cancel o ∧ no_shutdown o) ops →
  let '(s, es) := prun (p_new d m t) ops in
  could_grant s → will_look s ∧ ∃ id rest more, pending s = id :: rest ∧ Forall looking more ∧ id ∈ (grants (prun s more).2).*1.
Proof.
  intros HF. pose proof (LW_run d m t ops HF) as HL. destruct (prun (p_new d m t) ops) as [s es]. intros Hc. split; [exact (lw_look _ _ HL Hc)|].
  exact (grant_follows s es HL Hc).
Qed.
Print Assumptions C48_no_lost_wakeup_partial.
Example C48_case :
  Forall (λ o, no_cancel o ∧ no_shutdown o) demo_ops ∧
  could_grant (prun (p_new 10 3 100) demo_ops).1 ∧ pending (prun (p_new 10 3 100) demo_ops).1 = [2%nat].
Proof.
  split; [repeat constructor; done|]. split; [|by vm_compute]. exists 2%nat, [], (Req 1 false false false false false false false false false).
  split; [by vm_compute|]. split; [by vm_compute|]. by vm_compute.
Qed.
(** The request at the head is too big and is cancelled; the next one fits, and
    nobody looks: no amount of time and of the protector's own steps grants it. *)
Definition cancel_ops : list pop :=
  [PRequest 1; PProcess None; PRequest 2; PRequest 1; PReprocess; PReprocess; PProcess None; PProcess None;
   PFind 1; PWait 1 (Some 5); PAdvance 5; PTimer 0].
Theorem C48_cancel_refuted :
  ∃ ops, Forall no_shutdown ops ∧ let '(s, es) := prun (p_new 0 2 100) ops in
  could_grant s ∧ ∀ more, Forall looking more → grants (prun s more).2 = [].
Proof.
  exists cancel_ops. split; [repeat constructor; done|]. destruct (prun _ _) as [s es] eqn:E. split.
  - vm_compute in E. injection E as <- <-. exists 2%nat, [], (Req 1 false false false false false false false false false).
    split; [by vm_compute|]. split; [by vm_compute|]. by vm_compute.
  - assert (nproc s = O ∧ nre s = O ∧ sleepers s = []) as H by (vm_compute in E; by injection E as <- <-).
    clear E. intros more HF. revert s H. induction HF as [|o more Ho HF IH]; intros s (H1 & H2 & H3); [done|].
    assert (grants (pstep s o).2 = [] ∧ nproc (pstep s o).1 = O ∧ nre (pstep s o).1 = O ∧ sleepers (pstep s o).1 = []) as (A & B & C & D).
    { destruct Ho as [[d ->]|[->|[->| ->]]]; cbn [pstep].
      - by destruct (_ <? _).
      - unfold reprocess. by rewrite H2.
      - by rewrite H3.
      - unfold process. by rewrite H1. }
    cbn [prun]. destruct (pstep s o) as [s' e]. simpl in *. specialize (IH s' (conj B (conj C D))). destruct (prun s' more) as [s2 e2]. simpl in *.
    by rewrite grants_app, A, IH.
Qed.
Print Assumptions C48_cancel_refuted.

(** ** C49 *)
(** The protector's lock is never held for ever, whatever else is called in
    whatever order. Missing: two WaitUntilGranted with a time-out for the same
    receipt (refuted below). *)
Theorem C49_never_stuck_partial d m t ops : NoDup (timed_waits ops) → stuck (prun (p_new d m t) ops).1 = false.
Proof. exact (never_stuck d m t ops). Qed.
Print Assumptions C49_never_stuck_partial.
Example C49_case : NoDup (timed_waits cancel_ops) ∧ timed_waits cancel_ops = [1%nat].
Proof. split; [|done]. apply NoDup_singleton. Qed.
(** WaitUntilGranted with a time-out twice, both times granted, then Release: when
    the times are up the protector accepts, grants and takes back nothing any
    more. *)
Definition twice_ops : list pop :=
  [PRequest 1; PProcess None; PFind 0; PWait 0 (Some 5); PWait 0 (Some 5); PRelease 0; PReadRelease 0; PReturn 0; PAdvance 5; PTimer 0; PTimer 0].
Theorem C49_stuck_refuted :
  ∃ ops, let '(s, es) := prun (p_new 10 1 100) ops in
  stuck s = true ∧ es = [EReceipt 0 1; EGrant 0 0; EWaited 0 true; EWaited 0 true; ERelease 0; EReturned 0 0] ∧
  ∀ more, receipts (prun s more).2 = [] ∧ grants (prun s more).2 = [] ∧ returned (prun s more).2 = [].
Proof.
  exists twice_ops. destruct (prun _ _) as [s es] eqn:E.
  assert (stuck s = true ∧ es = [EReceipt 0 1; EGrant 0 0; EWaited 0 true; EWaited 0 true; ERelease 0; EReturned 0 0]) as [Hs Hes]
    by (vm_compute in E; by injection E as <- <-).
  split; [exact Hs|]. split; [exact Hes|]. intros more. exact (stuck_forever s more Hs).
Qed.
Print Assumptions C49_stuck_refuted.
