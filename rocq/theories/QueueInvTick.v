(** The background goroutines: one firing of the delay timer and of the
    time-to-run timer. *)
From Coq Require Import ZArith Lia String.
From stdpp Require Import base option strings gmap list.
From RecordUpdate Require Import RecordSet.
From Verif Require Import GoHeap GoHeapProofs QueueModel QueueCore QueueInv QueueInvAdd.
Import RecordSetNotations.
Open Scope Z_scope.

Global Instance ttrdest_eq_dec : EqDecision ttrdest.
Proof. solve_decision. Defined.

Lemma core_perm_del b b' s s' lm lm' l x :
  core b s lm → core b' s' lm' → lm !! x = Some l →
  (∀ y, lm' !! y = Some l ↔ y ≠ x ∧ lm !! y = Some l) →
  arr (cont s l) ≡ₚ x :: arr (cont s' l).
Proof.
  intros Hc Hc' Hx Hlm. apply NoDup_Permutation.
  - apply (c_wf Hc l).
  - apply NoDup_cons. split; [|apply (c_wf Hc' l)].
    rewrite (c_in Hc'), Hlm. naive_solver.
  - intros y. rewrite elem_of_cons, (c_in Hc), (c_in Hc'), Hlm.
    destruct (decide (y = x)); naive_solver.
Qed.

(** the items keep their keys and none appears or disappears *)
Lemma inv_rebuild b s s' :
  Inv b s → core b s' (locs (objs s')) → rest_eq s s' →
  (∀ y, objs s !! y = None → objs s' !! y = None) →
  (∀ y it, objs s !! y = Some it → ∃ it', objs s' !! y = Some it' ∧ ikey it' = ikey it ∧
       (ist it' = SRemoved ↔ ist it = SRemoved)) →
  Inv b s'.
Proof.
  intros HI Hc (Hi & Hd & Hn & Hcl) H1 H2.
  assert (His : ∀ y, is_Some (objs s' !! y) ↔ is_Some (objs s !! y)).
  { intros y. destruct (objs s !! y) as [it|] eqn:Hy.
    - destruct (H2 _ _ Hy) as (it' & -> & _). done.
    - by rewrite (H1 _ Hy). }
  split.
  - rewrite Hcl. apply HI.
  - done.
  - intros k y. rewrite Hi, (i_items HI). split.
    + intros (it & Hy & Hk & Hr). destruct (H2 _ _ Hy) as (it' & Hy' & Hk' & Hr').
      exists it'. split_and!; try done; [congruence|]. by rewrite Hr'.
    + intros (it' & Hy' & Hk' & Hr'). destruct (objs s !! y) as [it|] eqn:Hy.
      * destruct (H2 _ _ Hy) as (it2 & Hy2 & Hk2 & Hr2). rewrite Hy' in Hy2. injection Hy2 as <-.
        exists it. split_and!; try done; [congruence|]. by rewrite <- Hr2.
      * rewrite (H1 _ Hy) in Hy'. done.
  - intros y. rewrite His, Hn. apply HI.
  - intros d m k y. rewrite Hd, His. apply (i_deps HI).
Qed.

(** ** Delay timer *)
Lemma delay_one_ok b s x it :
  core b s (locs (objs s)) → objs s !! x = Some it → ist it = SDelay →
  ∃ s1 s2, delay_remove x s = Some s1 ∧ ready_push x s1 = Some s2 ∧
    let s' := clr_delay x (mod_obj switch_delay_ready x s2) in
    core b s' (locs (objs s')) ∧ objs s' = alter switch_delay_ready x (objs s) ∧ rest_eq s s'.
Proof.
  intros Hc Hx Hst.
  assert (Hlm : locs (objs s) !! x = Some LDelay) by (by rewrite (locs_Some _ _ _ Hx); unfold loc_of; rewrite Hst).
  destruct (delay_remove_core b s _ x Hc Hlm) as (q & Hq & Hc1).
  assert (Hd : delete x (locs (objs s)) !! x = None) by apply lookup_delete.
  destruct (ready_push_core b _ _ x it Hc1 Hd) as (r & Hr & _ & Hc2); [done|].
  eexists _, _. split; [done|]. split; [done|]. simpl.
  pose proof (core_fin_delay _ _ _ _ _ switch_delay_ready Hc2 ltac:(done) ltac:(done)) as Hc9.
  split; [|split; [done|by split_and!]].
  eapply core_lm; [|exact Hc9]. intros z. simpl. rewrite !locs_lookup.
  destruct (decide (z = x)) as [->|Hne].
  - rewrite lookup_insert, lookup_alter, Hx. done.
  - rewrite lookup_insert_ne, lookup_delete_ne, lookup_alter_ne by done. by rewrite locs_lookup.
Qed.

Definition due (now : Z) (s : qstate) (y : nat) : Prop :=
  ∃ it, objs s !! y = Some it ∧ ist it = SDelay ∧ readyAt it < now.

Lemma delay_loop_ok b now n s moved :
  core b s (locs (objs s)) → n = length (arr (delayQ s)) →
  ∃ s' new, delay_loop now n s moved = Some (s', moved ++ new) ∧
    core b s' (locs (objs s')) ∧ rest_eq s s' ∧ NoDup new ∧
    (∀ y, y ∈ new ↔ due now s y) ∧
    (∀ y, objs s' !! y = if decide (y ∈ new) then switch_delay_ready <$> objs s !! y else objs s !! y).
Proof.
  revert s moved. induction n as [|n IH]; intros s moved Hc Hn; simpl.
  { exists s, []. rewrite app_nil_r. split_and!; try done; [constructor|].
    intros y. rewrite elem_of_nil. split; [done|]. intros (it & Hy & Hst & _).
    assert (Hin : y ∈ arr (delayQ s)).
    { apply (c_in Hc LDelay). rewrite (locs_Some _ _ _ Hy). unfold loc_of. by rewrite Hst. }
    symmetry in Hn. apply nil_length_inv in Hn. rewrite Hn in Hin. by apply elem_of_nil in Hin. }
  destruct (arr (delayQ s)) as [|x rest] eqn:Ha; [done|].
  assert (Hlx : locs (objs s) !! x = Some LDelay) by (apply (c_in Hc LDelay); simpl; rewrite Ha; by left).
  assert (∃ it, objs s !! x = Some it ∧ ist it = SDelay) as (it & Hx & Hst).
  { rewrite locs_lookup in Hlx. destruct (objs s !! x) as [it|]; [|done]. exists it.
    simpl in Hlx. unfold loc_of in Hlx. split; [done|]. destruct (ist it); naive_solver. }
  rewrite Hx. simpl. unfold isready. destruct (Z.ltb_spec (readyAt it) now) as [Hlt|Hge].
  - destruct (delay_one_ok b s x it Hc Hx Hst) as (s1 & s2 & -> & Hs2 & Hc3 & Ho3 & Hr3).
    simpl. rewrite Hs2. simpl. set (s3 := clr_delay x (mod_obj switch_delay_ready x s2)) in *.
    destruct (IH s3 (moved ++ [x])) as (s' & new & -> & Hc' & Hr' & Hnd & Hin & Hobj).
    { done. }
    { assert (Hp : arr (cont s LDelay) ≡ₚ x :: arr (cont s3 LDelay)).
      { eapply core_perm_del; [exact Hc|exact Hc3|done|]. intros y. rewrite Ho3, !locs_lookup.
        destruct (decide (y = x)) as [->|Hne].
        - rewrite lookup_alter, Hx. simpl. naive_solver.
        - rewrite lookup_alter_ne by done. naive_solver. }
      apply Permutation_length in Hp. cbn [cont length] in Hp. rewrite Ha in Hp. cbn [length] in Hp, Hn. lia. }
    exists s', (x :: new). rewrite <- app_assoc. split; [done|]. split; [done|].
    split. { destruct Hr3 as (?&?&?&?), Hr' as (?&?&?&?). split_and!; congruence. }
    assert (Hdue : ∀ y, due now s3 y ↔ y ≠ x ∧ due now s y).
    { intros y. unfold due. rewrite Ho3. destruct (decide (y = x)) as [->|Hne].
      - rewrite lookup_alter, Hx. simpl. split; [|naive_solver]. by intros (it' & [= <-] & ? & _).
      - rewrite lookup_alter_ne by done. naive_solver. }
    split_and!.
    + apply NoDup_cons. split; [|done]. rewrite Hin, Hdue. naive_solver.
    + intros y. rewrite elem_of_cons, Hin, Hdue. destruct (decide (y = x)) as [->|Hne]; [|naive_solver].
      split; [|by left]. intros _. exists it. done.
    + intros y. rewrite Hobj, Ho3. destruct (decide (y = x)) as [->|Hne].
      * rewrite (decide_True (P:=x ∈ x :: new)) by (by left).
        rewrite decide_False; [by rewrite lookup_alter|]. rewrite Hin, Hdue. naive_solver.
      * rewrite lookup_alter_ne by done. apply decide_ext. rewrite elem_of_cons. naive_solver.
  - exists s, []. rewrite app_nil_r. split_and!; try done; [constructor|].
    intros y. rewrite elem_of_nil. split; [done|]. intros (it' & Hy & Hst' & Hlt').
    assert (Hiny : y ∈ arr (delayQ s)).
    { apply (c_in Hc LDelay). rewrite (locs_Some _ _ _ Hy). unfold loc_of. by rewrite Hst'. }
    pose proof (heap_min _ (arr (delayQ s)) x y (c_ord Hc LDelay ltac:(done))) as Hm.
    rewrite Ha in Hm, Hiny. specialize (Hm eq_refl Hiny).
    simpl in Hm. unfold less_delay in Hm. rewrite (obj_Some _ _ _ Hx), (obj_Some _ _ _ Hy) in Hm.
    apply Z.ltb_ge in Hm. lia.
Qed.

Lemma q_tick_delay_ok b now s :
  Inv b s →
  ∃ s' moved, q_tick_delay now s = Some (s', ROk,
        match moved with [] => [] | _ => [ev s' QDelay QReady moved] end) ∧
    Inv b s' ∧ rest_eq s s' ∧ NoDup moved ∧
    (∀ y, y ∈ moved ↔ due now s y) ∧
    (∀ y, objs s' !! y = if decide (y ∈ moved) then switch_delay_ready <$> objs s !! y else objs s !! y).
Proof.
  intros HI. unfold q_tick_delay.
  destruct (delay_loop_ok b now _ s [] (i_core HI) eq_refl) as (s1 & moved & -> & Hc & Hr & Hnd & Hin & Ho).
  simpl. destruct (delay_loop_top_ok b now s1 _ Hc (live_locs _)) as (t & ->). simpl.
  eexists _, moved. split; [done|].
  split; [|split_and!; try done; by destruct Hr as (?&?&?&?)].
  eapply (inv_rebuild b s); [done|by apply core_dt|by destruct Hr as (?&?&?&?)|..]; simpl.
  - intros y Hy. rewrite Ho, Hy. by case_decide.
  - intros y it Hy. rewrite Ho, Hy. case_decide as Hm; [|by eauto]. eexists. split; [done|]. split; [done|].
    simpl. apply Hin in Hm as (it' & Hy' & Hst & _). rewrite Hy in Hy'. injection Hy' as <-. by rewrite Hst.
Qed.

(** ** Time-to-run timer *)
Definition ttr_apply (now : Z) (d : ttrdest) (it : item) : item :=
  match d with
  | ToRun => temp_disable_ttr now it
  | ToDelay => switch_run_delay true (restart now it)
  | ToBury => switch_run_bury true it
  | ToReady => switch_run_ready it
  end.
Definition overdue (now : Z) (s : qstate) (y : nat) : Prop :=
  ∃ it, objs s !! y = Some it ∧ ist it = SRun ∧ releasable now it = true.

Fixpoint picks (d : ttrdest) (cb : nat → ttrdest) (i : nat) (ord : list nat) : list nat :=
  match ord with
  | [] => []
  | x :: l => (if decide (cb i = d) then [x] else []) ++ picks d cb (S i) l
  end.

Lemma ttr_move_locs b s s' x it f l :
  core b s' (<[x:=l]> (delete x (locs (objs s)))) → objs s !! x = Some it →
  objs s' = alter f x (objs s) → loc_of (f it) = Some l →
  core b s' (locs (objs s')).
Proof.
  intros Hc Hx Ho Hf. eapply core_lm; [|exact Hc]. intros z. rewrite Ho, !locs_lookup.
  destruct (decide (z = x)) as [->|Hne].
  - rewrite lookup_insert, lookup_alter, Hx. by rewrite <- Hf.
  - rewrite lookup_insert_ne, lookup_delete_ne, lookup_alter_ne by done. by rewrite locs_lookup.
Qed.

Lemma ttr_one_run b now s x it :
  core b s (locs (objs s)) → objs s !! x = Some it → ist it = SRun →
  ∃ s', run_update x (mod_obj (temp_disable_ttr now) x s) = Some s' ∧
    core b s' (locs (objs s')) ∧ objs s' = alter (ttr_apply now ToRun) x (objs s) ∧ rest_eq s s'.
Proof.
  intros Hc Hx Hst.
  assert (Hlm : locs (objs s) !! x = Some LRun) by (by rewrite (locs_Some _ _ _ Hx); unfold loc_of; rewrite Hst).
  destruct (run_update_core b s _ x (temp_disable_ttr now) Hc Hlm) as (q & Hq & Hc1).
  eexists. split; [done|]. split; [|split; [done|by split_and!]].
  eapply core_lm; [|exact Hc1]. intros z. simpl. rewrite !locs_lookup.
  destruct (decide (z = x)) as [->|Hne]; [by rewrite lookup_alter, Hx|by rewrite lookup_alter_ne].
Qed.
Lemma ttr_one_delay b now s x it :
  core b s (locs (objs s)) → objs s !! x = Some it → ist it = SRun →
  ∃ s1 s2, run_remove x s = Some s1 ∧ delay_push x (mod_obj (restart now) x s1) = Some s2 ∧
    let s' := clr_run x (mod_obj (switch_run_delay true) x s2) in
    core b s' (locs (objs s')) ∧ objs s' = alter (ttr_apply now ToDelay) x (objs s) ∧ rest_eq s s'.
Proof.
  intros Hc Hx Hst.
  assert (Hlm : locs (objs s) !! x = Some LRun) by (by rewrite (locs_Some _ _ _ Hx); unfold loc_of; rewrite Hst).
  destruct (run_remove_core b s _ x Hc Hlm) as (q & Hq & Hc1).
  assert (Hd : delete x (locs (objs s)) !! x = None) by apply lookup_delete.
  apply (core_mod_out _ _ (restart now) x _ Hc1) in Hd as Hc2.
  destruct (delay_push_core b _ _ x Hc2 Hd) as (q2 & Hq2 & Hc3).
  eexists _, _. split; [done|]. split; [done|]. cbv zeta.
  pose proof (core_fin_run _ _ _ _ _ (switch_run_delay true) Hc3 ltac:(done) ltac:(done)) as Hc9.
  match goal with |- core _ ?s' _ ∧ _ => assert (Ho : objs s' = alter (ttr_apply now ToDelay) x (objs s)) end.
  { simpl. by rewrite <- alter_compose. }
  split; [|split; [done|by split_and!]].
  by eapply ttr_move_locs.
Qed.
Lemma ttr_one_bury b now s x it :
  core b s (locs (objs s)) → objs s !! x = Some it → ist it = SRun →
  ∃ s1, run_remove x s = Some s1 ∧
    let s' := clr_run x (mod_obj (switch_run_bury true) x (bury_push x s1)) in
    core b s' (locs (objs s')) ∧ objs s' = alter (ttr_apply now ToBury) x (objs s) ∧ rest_eq s s'.
Proof.
  intros Hc Hx Hst.
  assert (Hlm : locs (objs s) !! x = Some LRun) by (by rewrite (locs_Some _ _ _ Hx); unfold loc_of; rewrite Hst).
  destruct (run_remove_core b s _ x Hc Hlm) as (q & Hq & Hc1).
  assert (Hd : delete x (locs (objs s)) !! x = None) by apply lookup_delete.
  apply (bury_push_core b _ _ x Hc1) in Hd as Hc3.
  eexists. split; [done|]. cbv zeta.
  pose proof (core_fin_run _ _ _ _ _ (switch_run_bury true) Hc3 ltac:(done) ltac:(done)) as Hc9.
  split; [|split; [done|by split_and!]].
  eapply (ttr_move_locs b s _ x it (ttr_apply now ToBury)); try done.
Qed.
Lemma ttr_one_ready b now s x it :
  core b s (locs (objs s)) → objs s !! x = Some it → ist it = SRun →
  ∃ s1 s2, run_remove x s = Some s1 ∧ ready_push x s1 = Some s2 ∧
    let s' := clr_run x (mod_obj switch_run_ready x s2) in
    core b s' (locs (objs s')) ∧ objs s' = alter (ttr_apply now ToReady) x (objs s) ∧ rest_eq s s'.
Proof.
  intros Hc Hx Hst.
  assert (Hlm : locs (objs s) !! x = Some LRun) by (by rewrite (locs_Some _ _ _ Hx); unfold loc_of; rewrite Hst).
  destruct (run_remove_core b s _ x Hc Hlm) as (q & Hq & Hc1).
  assert (Hd : delete x (locs (objs s)) !! x = None) by apply lookup_delete.
  destruct (ready_push_core b _ _ x it Hc1 Hd) as (r & Hr & _ & Hc2); [done|].
  eexists _, _. split; [done|]. split; [done|]. cbv zeta.
  pose proof (core_fin_run _ _ _ _ _ switch_run_ready Hc2 ltac:(done) ltac:(done)) as Hc9.
  split; [|split; [done|by split_and!]].
  eapply (ttr_move_locs b s _ x it (ttr_apply now ToReady)); try done.
Qed.

(** the running items still to be asked about *)
Definition pend (now : Z) (s : qstate) : list nat :=
  filter (λ y, releasable now (obj (objs s) y) = true) (arr (runQ s)).

Lemma temp_disabled now it : releasable now (temp_disable_ttr now it) = false.
Proof.
  unfold releasable. apply andb_false_iff. right. apply Z.ltb_ge.
  change (releaseAt (temp_disable_ttr now it)) with (now + 8760 * 3600 * 1000000000). lia.
Qed.

Lemma in_run b s y : core b s (locs (objs s)) →
  y ∈ arr (runQ s) ↔ ∃ it, objs s !! y = Some it ∧ ist it = SRun.
Proof.
  intros Hc. rewrite (c_in Hc LRun). rewrite locs_lookup. split.
  - destruct (objs s !! y) as [it|]; [|done]. intros H. exists it. split; [done|].
    simpl in H. unfold loc_of in H. by destruct (ist it).
  - intros (it & -> & Hst). simpl. unfold loc_of. by rewrite Hst.
Qed.

Lemma pend_in b now s y : core b s (locs (objs s)) → y ∈ pend now s ↔ overdue now s y.
Proof.
  intros Hc. unfold pend, overdue. rewrite elem_of_list_filter, (in_run b) by done. split.
  - intros [Hr (it & Hy & Hst)]. rewrite (obj_Some _ _ _ Hy) in Hr. eauto.
  - intros (it & Hy & Hst & Hr). rewrite (obj_Some _ _ _ Hy). eauto.
Qed.

Lemma ttr_apply_dead now d it : ist it = SRun →
  ¬ (ist (ttr_apply now d it) = SRun ∧ releasable now (ttr_apply now d it) = true).
Proof.
  intros Hst [H1 H2]. destruct d; simpl in H1; try done.
  cbn [ttr_apply] in H2. by rewrite temp_disabled in H2.
Qed.

Lemma overdue_step now s s' x it d :
  objs s !! x = Some it → ist it = SRun → objs s' = alter (ttr_apply now d) x (objs s) →
  ∀ y, overdue now s' y ↔ y ≠ x ∧ overdue now s y.
Proof.
  intros Hx Hst Ho y. unfold overdue. rewrite Ho. destruct (decide (y = x)) as [->|Hne].
  - rewrite lookup_alter, Hx. simpl. split; [|naive_solver]. intros (it' & [= <-] & H1 & H2).
    exfalso. by eapply (ttr_apply_dead now d it).
  - rewrite lookup_alter_ne by done. naive_solver.
Qed.

Lemma pend_step b now s s' x it d :
  core b s (locs (objs s)) → core b s' (locs (objs s')) →
  objs s !! x = Some it → ist it = SRun → releasable now it = true →
  objs s' = alter (ttr_apply now d) x (objs s) →
  length (pend now s) = S (length (pend now s')).
Proof.
  intros Hc Hc' Hx Hst Hr Ho.
  assert (Hp : pend now s ≡ₚ x :: pend now s').
  { apply NoDup_Permutation.
    - apply NoDup_filter. apply (c_wf Hc LRun).
    - apply NoDup_cons. split; [|apply NoDup_filter, (c_wf Hc' LRun)].
      rewrite (pend_in b) by done. rewrite (overdue_step _ _ _ _ _ _ Hx Hst Ho). naive_solver.
    - intros y. rewrite elem_of_cons, !(pend_in b) by done. rewrite (overdue_step _ _ _ _ _ _ Hx Hst Ho).
      destruct (decide (y = x)) as [->|Hne]; [|naive_solver]. split; [by left|]. intros _. exists it. done. }
  by rewrite Hp.
Qed.

Definition rel_nz (s : qstate) : Prop :=
  ∀ y it, objs s !! y = Some it → ist it = SRun → releaseAt it ≠ time_zero.

Lemma rel_nz_step now s s' x d it :
  0 < now → rel_nz s → objs s !! x = Some it → ist it = SRun → objs s' = alter (ttr_apply now d) x (objs s) → rel_nz s'.
Proof.
  intros Hn Hz Hx Hst Ho y it'. rewrite Ho. destruct (decide (y = x)) as [->|Hne].
  - rewrite lookup_alter, Hx. intros [= <-]. destruct d; simpl; try done. unfold time_zero. lia.
  - rewrite lookup_alter_ne by done. apply Hz.
Qed.

Lemma rest_eq_trans s1 s2 s3 : rest_eq s1 s2 → rest_eq s2 s3 → rest_eq s1 s3.
Proof. intros (?&?&?&?) (?&?&?&?). split_and!; congruence. Qed.

Lemma run_len_step b s s' x it now d :
  core b s (locs (objs s)) → core b s' (locs (objs s')) →
  objs s !! x = Some it → ist it = SRun → objs s' = alter (ttr_apply now d) x (objs s) →
  (length (arr (runQ s)) ≤ S (length (arr (runQ s'))))%nat.
Proof.
  intros Hc Hc' Hx Hst Ho.
  assert (Hsub : arr (runQ s) ⊆+ x :: arr (runQ s')).
  { apply NoDup_submseteq; [apply (c_wf Hc LRun)|]. intros y. rewrite elem_of_cons, !(in_run b) by done.
    rewrite Ho. destruct (decide (y = x)) as [->|Hne]; [by left|]. rewrite lookup_alter_ne by done. by right. }
  by apply submseteq_length in Hsub.
Qed.

Lemma ttr_loop_ok b now cb n i s dl bl rl :
  core b s (locs (objs s)) → (length (pend now s) ≤ n ≤ length (arr (runQ s)))%nat →
  ∃ s' ord, ttr_loop now n cb i s dl bl rl =
      Some (s', (dl ++ picks ToDelay cb i ord, bl ++ picks ToBury cb i ord, rl ++ picks ToReady cb i ord)) ∧
    core b s' (locs (objs s')) ∧ rest_eq s s' ∧ NoDup ord ∧
    (∀ y, y ∈ ord → overdue now s y) ∧
    (0 < now → rel_nz s → ∀ y, overdue now s y → y ∈ ord) ∧
    (∀ j y, ord !! j = Some y → objs s' !! y = ttr_apply now (cb (i + j)%nat) <$> objs s !! y) ∧
    (∀ y, y ∉ ord → objs s' !! y = objs s !! y).
Proof.
  revert i s dl bl rl. induction n as [|n IH]; intros i s dl bl rl Hc Hn.
  { exists s, []. simpl. rewrite !app_nil_r. split_and!; try done; [constructor|by intros ? []%elem_of_nil|].
    intros _ _ y Hy. exfalso. apply (pend_in b) in Hy; [|done].
    destruct (pend now s); [by apply elem_of_nil in Hy|]. simpl in Hn. lia. }
  cbn [ttr_loop].
  destruct (arr (runQ s)) as [|x rest] eqn:Ha; [simpl in Hn; lia|].
  assert (∃ it, objs s !! x = Some it ∧ ist it = SRun) as (it & Hx & Hst).
  { apply (in_run b s x Hc). rewrite Ha. by left. }
  rewrite Hx. cbn beta iota zeta delta [mbind option_bind].
  destruct (releasable now it) eqn:Hrel.
  - assert (Hgo : ∀ s1 dl1 bl1 rl1, core b s1 (locs (objs s1)) → rest_eq s s1 →
        objs s1 = alter (ttr_apply now (cb i)) x (objs s) →
        dl1 = dl ++ (if decide (cb i = ToDelay) then [x] else []) →
        bl1 = bl ++ (if decide (cb i = ToBury) then [x] else []) →
        rl1 = rl ++ (if decide (cb i = ToReady) then [x] else []) →
        ∃ s' ord, ttr_loop now n cb (S i) s1 dl1 bl1 rl1 =
          Some (s', (dl ++ picks ToDelay cb i ord, bl ++ picks ToBury cb i ord, rl ++ picks ToReady cb i ord)) ∧
        core b s' (locs (objs s')) ∧ rest_eq s s' ∧ NoDup ord ∧
        (∀ y, y ∈ ord → overdue now s y) ∧
        (0 < now → rel_nz s → ∀ y, overdue now s y → y ∈ ord) ∧
        (∀ j y, ord !! j = Some y → objs s' !! y = ttr_apply now (cb (i + j)%nat) <$> objs s !! y) ∧
        (∀ y, y ∉ ord → objs s' !! y = objs s !! y)).
    { intros s1 dl1 bl1 rl1 Hc1 Hr1 Ho1 -> -> ->.
      pose proof (pend_step b now s s1 x it _ Hc Hc1 Hx Hst Hrel Ho1) as Hpl.
      pose proof (run_len_step b s s1 x it now _ Hc Hc1 Hx Hst Ho1) as Hrl.
      rewrite Ha in Hrl. simpl in Hn, Hrl.
      pose proof (overdue_step now s s1 x it _ Hx Hst Ho1) as Hov.
      destruct (IH (S i) s1 (dl ++ (if decide (cb i = ToDelay) then [x] else []))
                  (bl ++ (if decide (cb i = ToBury) then [x] else []))
                  (rl ++ (if decide (cb i = ToReady) then [x] else [])) Hc1)
        as (s' & ord & -> & Hc' & Hr' & Hnd & H1 & H2 & H3 & H4); [lia|].
      exists s', (x :: ord). cbn [picks]. rewrite <- !app_assoc. split; [done|]. split; [done|].
      split; [by eapply rest_eq_trans|].
      assert (Hxn : x ∉ ord). { intros Hxo. apply H1, Hov in Hxo. by destruct Hxo. }
      split_and!.
      - by apply NoDup_cons.
      - intros y. rewrite elem_of_cons. intros [->|Hy]; [by exists it|]. by apply H1, Hov in Hy as [_ Hy].
      - intros Hnow Hz y Hy. rewrite elem_of_cons. destruct (decide (y = x)) as [->|Hne]; [by left|right].
        apply H2; [done|by eapply rel_nz_step|]. by apply Hov.
      - intros [|j] y Hj; simpl in Hj.
        + injection Hj as <-. rewrite (H4 _ Hxn), Ho1, lookup_alter. by rewrite Nat.add_0_r.
        + rewrite (H3 _ _ Hj), Ho1. rewrite lookup_alter_ne; [by rewrite Nat.add_succ_r|].
          intros ->. apply Hxn. by eapply elem_of_list_lookup_2.
      - intros y Hy. apply not_elem_of_cons in Hy as [Hne Hy]. rewrite (H4 _ Hy), Ho1.
        by rewrite lookup_alter_ne. }
    destruct (cb i) eqn:Hcb.
    + destruct (ttr_one_run b now s x it Hc Hx Hst) as (s1 & -> & Hc1 & Ho1 & Hr1).
      cbn beta iota zeta delta [mbind option_bind]. apply Hgo; try done; by rewrite app_nil_r.
    + destruct (ttr_one_delay b now s x it Hc Hx Hst) as (s1 & s2 & -> & Hs2 & Hc1 & Ho1 & Hr1).
      cbn beta iota zeta delta [mbind option_bind]. rewrite Hs2.
      cbn beta iota zeta delta [mbind option_bind]. apply Hgo; try done; by rewrite app_nil_r.
    + destruct (ttr_one_bury b now s x it Hc Hx Hst) as (s1 & -> & Hc1 & Ho1 & Hr1).
      cbn beta iota zeta delta [mbind option_bind]. apply Hgo; try done; by rewrite app_nil_r.
    + destruct (ttr_one_ready b now s x it Hc Hx Hst) as (s1 & s2 & -> & Hs2 & Hc1 & Ho1 & Hr1).
      cbn beta iota zeta delta [mbind option_bind]. rewrite Hs2.
      cbn beta iota zeta delta [mbind option_bind]. apply Hgo; try done; by rewrite app_nil_r.
  - exists s, []. simpl. rewrite !app_nil_r. split_and!; try done; [constructor|by intros ? []%elem_of_nil|].
    intros Hnow Hz y (it' & Hy & Hst' & Hrel'). exfalso.
    assert (Hiny : y ∈ arr (runQ s)) by (apply (in_run b s y Hc); eauto).
    pose proof (heap_min _ (arr (runQ s)) x y (c_ord Hc LRun ltac:(done))) as Hm.
    rewrite Ha in Hm, Hiny. specialize (Hm eq_refl Hiny).
    simpl in Hm. unfold less_run in Hm. rewrite (obj_Some _ _ _ Hx), (obj_Some _ _ _ Hy) in Hm.
    apply Z.ltb_ge in Hm. specialize (Hz _ _ Hx Hst). unfold releasable in Hrel, Hrel'.
    apply andb_true_iff in Hrel' as [_ Hlt%Z.ltb_lt].
    apply andb_false_iff in Hrel as [He%negb_false_iff%Z.eqb_eq|Hge%Z.ltb_ge]; [done|lia].
Qed.

Lemma trigger_all_ok b now xs s :
  core b s (locs (objs s)) → (∀ x, x ∈ xs → is_Some (objs s !! x)) →
  ∃ t, trigger_all now xs s = Some (s <| delayTime := t |>).
Proof.
  revert s. induction xs as [|x xs IH]; intros s Hc Hx; simpl.
  { exists (delayTime s). by rewrite set_delayTime_id. }
  destruct (delay_trigger_ok b now x s _ Hc (live_locs _)) as (t & ->); [apply Hx; by left|]. simpl.
  destruct (IH (s <| delayTime := t |>)) as (t' & ->).
  - simpl. by apply core_dt.
  - intros y Hy. apply Hx. by right.
  - exists t'. done.
Qed.

Lemma elem_of_picks d cb i ord y : y ∈ picks d cb i ord ↔ ∃ j, ord !! j = Some y ∧ cb (i + j)%nat = d.
Proof.
  revert i. induction ord as [|x ord IH]; intros i; simpl.
  { rewrite elem_of_nil. naive_solver. }
  rewrite elem_of_app, IH. split.
  - intros [Hd|(j & Hj & Hd)].
    + case_decide; [|by apply elem_of_nil in Hd]. apply elem_of_list_singleton in Hd as ->.
      exists 0%nat. by rewrite Nat.add_0_r.
    + exists (S j). by rewrite Nat.add_succ_r.
  - intros ([|j] & Hj & Hd).
    + left. simpl in Hj. injection Hj as <-. rewrite Nat.add_0_r in Hd. rewrite decide_True by done. by left.
    + right. exists j. by rewrite Nat.add_succ_r in Hd.
Qed.

Lemma picks_nodup d cb i ord : NoDup ord → NoDup (picks d cb i ord).
Proof.
  revert i. induction ord as [|x ord IH]; intros i; simpl; [by constructor|].
  rewrite NoDup_cons. intros [Hx Hnd]. case_decide; simpl; [|by apply IH].
  apply NoDup_cons. split; [|by apply IH]. intros (j & Hj & _)%elem_of_picks.
  apply Hx. by eapply elem_of_list_lookup_2.
Qed.

Definition ev_some (s : qstate) (f t : subq) (l : list nat) : list event :=
  match l with [] => [] | _ => [ev s f t l] end.

Lemma q_tick_ttr_ok b now cb s :
  Inv b s →
  ∃ s' ord, q_tick_ttr now cb s = Some (s', ROk,
      ev_some s' QRun QDelay (picks ToDelay cb 0 ord) ++
      ev_some s' QRun QBury (picks ToBury cb 0 ord) ++
      ev_some s' QRun QReady (picks ToReady cb 0 ord)) ∧
    Inv b s' ∧ rest_eq s s' ∧ NoDup ord ∧
    (∀ y, y ∈ ord → overdue now s y) ∧
    (0 < now → rel_nz s → ∀ y, overdue now s y → y ∈ ord) ∧
    (∀ j y, ord !! j = Some y → objs s' !! y = ttr_apply now (cb j) <$> objs s !! y) ∧
    (∀ y, y ∉ ord → objs s' !! y = objs s !! y).
Proof.
  intros HI. unfold q_tick_ttr.
  destruct (ttr_loop_ok b now cb (length (arr (runQ s))) 0 s [] [] [] (i_core HI))
    as (s1 & ord & -> & Hc & Hr & Hnd & H1 & H2 & H3 & H4).
  { split; [|done]. apply filter_length. }
  cbn beta iota zeta delta [mbind option_bind]. rewrite !app_nil_l.
  assert (His : ∀ y, is_Some (objs s1 !! y) ↔ is_Some (objs s !! y)).
  { intros y. destruct (decide (y ∈ ord)) as [Hy|Hy]; [|by rewrite H4].
    apply elem_of_list_lookup_1 in Hy as (j & Hj). by rewrite (H3 _ _ Hj), fmap_is_Some. }
  destruct (trigger_all_ok b now (picks ToDelay cb 0 ord) s1 Hc) as (t & ->).
  { intros y (j & Hj & _)%elem_of_picks. apply His.
    destruct (H1 y) as (it & Hy & _); [by eapply elem_of_list_lookup_2|]. by eexists. }
  cbn beta iota zeta delta [mbind option_bind].
  destruct (ttr_loop_top_ok b now (s1 <| delayTime := t |>) _ (core_dt _ _ _ _ Hc) (live_locs _)) as (t2 & ->).
  cbn beta iota zeta delta [mbind option_bind].
  eexists _, ord. split; [done|].
  split; [|split_and!; try done; by destruct Hr as (?&?&?&?)].
  eapply (inv_rebuild b s); [done|by apply core_tt, core_dt|by destruct Hr as (?&?&?&?)|..]; simpl.
  - intros y Hy. destruct (objs s1 !! y) eqn:Hy1; [|done].
    assert (is_Some (objs s !! y)) as [? ?] by (apply His; eauto). congruence.
  - intros y it Hy. destruct (decide (y ∈ ord)) as [Ho|Ho]; [|rewrite H4 by done; by eauto].
    destruct (H1 _ Ho) as (it' & Hy' & Hst & _). rewrite Hy in Hy'. injection Hy' as <-.
    apply elem_of_list_lookup_1 in Ho as (j & Hj). rewrite (H3 _ _ Hj), Hy. eexists. split; [done|].
    destruct (cb (0 + j)%nat); cbn; rewrite ?Hst; done.
Qed.
