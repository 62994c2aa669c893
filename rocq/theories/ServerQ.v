(** The queue calls behind each server step, and queue invariants carried along *)
From Coq Require Import ZArith Lia String.
From stdpp Require Import base option strings gmap list relations.
From RecordUpdate Require Import RecordSet.
From Verif Require Import GoHeap QueueModel QueueCore QueueInv QueueInvAdd QueueInvUpd QueueInvRem
  QueueInvTick QueueEff QueueItem QueueFrame QueueSpec QueueProofs QueueProofs2 QueueProofs3 QueueProofs5 QueueDep
  ServerModel ServerCore ServerTick ServerEff ServerEff2 ServerEff3 ServerEff4 ServerPrep ServerEff5 ServerEff6.
Import RecordSetNotations.
Open Scope Z_scope.

(** an item with unresolved dependencies is in the dependent sub-queue *)
Definition held (q : qstate) : Prop :=
  ∀ x it, objs q !! x = Some it → ist it ≠ SRemoved → iremain it ≠ ∅ → ist it = SDep.
(** the calls the server makes; [b]: also those that add or make items wait *)
Definition srv_op (b : bool) (q : qstate) (o : op) : Prop :=
  match o with
  | OUpdate _ k _ _ _ _ _ (Some deps) =>
      b = true ∧ ∀ x it, items q !! k = Some x → objs q !! x = Some it →
        ist it ≠ SBury ∧ ist it ≠ SRun ∧ ∀ d, d ∈ iremain it → is_Some (items q !! d)
  | OAddMany _ _ => b = true
  | OUpdate _ _ _ _ _ _ _ None | OAdd _ _ _ _ _ _ _ _ _ _ | OChangeKey _ _ | ODestroy => False
  | _ => True
  end.
Record QI (q : qstate) : Prop := {
  qi_inv : Inv false q;
  qi_look : looked_up (objs q) (dependants q);
  qi_held : held q;
  qi_x : QX q;
}.
Inductive qreach (b : bool) : qstate → qstate → Prop :=
| qr_refl q : qreach b q q
| qr_step q q1 q2 o r e : srv_op b q o → step q o = Some (q1, r, e) → qreach b q1 q2 → qreach b q q2.
Lemma qreach_trans b q1 q2 q3 : qreach b q1 q2 → qreach b q2 q3 → qreach b q1 q3.
Proof. induction 1; [done|]. intros. eapply qr_step; eauto. Qed.
Lemma qreach_one b q q' o r e : srv_op b q o → step q o = Some (q', r, e) → qreach b q q'.
Proof. intros. eapply qr_step; eauto. constructor. Qed.

Lemma held_good b q o : held q → Inv false q → srv_op b q o → good false q o.
Proof.
  intros HH HI Ho. apply good_false. unfold clears_safely. destruct o; try done. destruct deps as [[|]|]; try done.
  intros x it [Hx Hk] Hr. apply (HH x it); [done| |done].
  destruct (items_inj _ _ _ _ _ HI Hx Hk) as [_ ?]. done.
Qed.

Lemma held_step b q o q' r e : Inv false q → eff false q o q' r e → srv_op b q o → held q → held q'.
Proof.
  intros HI He Ho HB x it' Hx' Hl' Hr'.
  destruct (objs q !! x) as [it|] eqn:Hx.
  - destruct (eff_item false q o q' r e x it HI He Hx) as (it1 & Hx1 & Hc). simplify_eq.
    assert (Hl : ist it ≠ SRemoved).
    { intros Hr. apply Hl'. destruct Hc; try done; try congruence. by apply resolve_live. }
    specialize (HB x it Hx Hl).
    destruct Hc; simpl in *; try (by auto); try (exfalso; specialize (HB Hr'); congruence).
    + destruct deps as [ds|]; [|done]. rewrite updated_remain in Hr'. rewrite updated_ist.
      destruct (proj2 Ho x it (live_named _ _ _ _ HI Hx Hl) Hx) as [Hb _].
      destruct ds as [|d0 ds]; [done|].
      destruct (dep_changed (d0 :: ds) it) eqn:Ed.
      * by destruct (ist it).
      * apply dep_changed_false in Ed. apply HB. by rewrite Ed.
    + rewrite set_delay_ist. apply HB. intros E. apply Hr'. unfold set_delay.
      destruct (_ =? _); [done|]. by destruct (ist it).
    + exfalso. enough (ist it = SDep) by congruence. apply HB. intros E. apply Hr'. unfold released. by destruct (_ =? _).
    + exfalso. enough (ist it = SDep) by congruence. apply HB. intros E. apply Hr'. by destruct (item_has_deps x q).
    + rewrite resolve_ist. assert (iremain (resolve k it) = iremain it ∖ {[k]}) as E by (by rewrite resolve_cases).
      rewrite decide_False; [|intros [_ H']; apply Hr'; by rewrite E].
      apply HB. intros E'. apply Hr'. rewrite E, E'. set_solver.
    + exfalso. enough (ist it = SDep) by congruence. apply HB. intros E. apply Hr'. by destruct (cb j).
  - apply (new_item_ok o r x); [|done]. by eapply eff_new.
Qed.

Lemma qi_step b q o q' r e : QI q → srv_op b q o → step q o = Some (q', r, e) → QI q'.
Proof.
  intros [HI HL HH HX] Ho Hs.
  destruct (step_eff false q o q' r e HI (held_good _ _ _ HH HI Ho) Hs) as [He [HI'|[-> _]]]; [|done].
  split; [done| |by apply (held_step b q o q' r e)|].
  - apply (looked_step false q o q' r e HI He); [by destruct o|by intros ->|done].
  - apply (qx_step false q o q' r e HI He); [|done|done]. destruct o; try done. cbn in *. destruct deps; [|done].
    intros x it d0 Hx Hit Hd0. by apply (proj2 Ho x it).
Qed.
Lemma qi_reach b q q' : QI q → qreach b q q' → QI q'.
Proof. intros HQ H. induction H; [done|]. apply IHqreach. by eapply qi_step. Qed.
Lemma qi_new t : QI (q_new t).
Proof.
  split; [apply inv_new| | |].
  - intros x it d Hx. cbn in Hx. by rewrite lookup_empty in Hx.
  - intros x it Hx. cbn in Hx. by rewrite lookup_empty in Hx.
  - apply qx_new.
Qed.
Lemma queued_reach q q' : QI q → qreach false q q' → queued q → queued q'.
Proof.
  intros HQ H. induction H as [|q q1 q2 o r e Ho Hs Hr IH]; [done|]. intros Hq.
  apply IH; [by eapply qi_step|].
  destruct (step_eff false q o q1 r e (qi_inv _ HQ) (held_good _ _ _ (qi_held _ HQ) (qi_inv _ HQ) Ho) Hs) as [He _].
  apply (queued_step false q o q1 r e (qi_inv _ HQ) He (qi_look _ HQ)); [|done].
  destruct o; try done. destruct deps; [|done]. by destruct Ho.
Qed.

(** ** The server steps *)
Lemma qdo_reach b o s s' r : srv_op b (sq s) o → qdo o s = Some (s', r) → qreach b (sq s) (sq s').
Proof.
  intros Ho Hq. destruct (qdo_inv _ _ _ _ Hq) as (q & e & Hs & ->). cbn. by eapply qreach_one.
Qed.
Lemma set_job_q p f s : sq (set_job p f s) = sq s. Proof. done. Qed.
Lemma write_behind_q k j s : sq (write_behind k j s) = sq s. Proof. done. Qed.

(** destructs the calls in [H], collecting what they reach *)
Ltac qcalls :=
  repeat (match goal with
  | H : context [qdo ?o ?s] |- _ =>
      let s' := fresh "s'" in let r := fresh "r" in let Hq := fresh "Hq" in
      destruct (qdo o s) as [[s' r]|] eqn:Hq; [apply (qdo_reach false) in Hq; [|exact I]|done];
      cbn beta iota zeta delta [mbind option_bind] in H
  end).
Ltac qfin :=
  repeat match goal with
  | H : context [match ?x with _ => _ end] |- _ =>
      lazymatch type of H with _ = Some _ => destruct x eqn:?; try done end
  end.

Lemma after_release_reach p jes force s s' r l : after_release p jes force s = Some (s', r, l) → sq s' = sq s.
Proof.
  unfold after_release. destruct (sjobs s !! p) as [j|]; [|done]. cbn beta iota zeta delta [mbind option_bind].
  destruct (update_after_exit jes j). by intros [= <- _ _].
Qed.
Lemma release_reach now p jes force s s' r l : release_job now p jes force s = Some (s', r, l) → qreach false (sq s) (sq s').
Proof.
  unfold release_job. destruct (sjobs s !! p) as [j|]; [|done]. cbn beta iota zeta delta [mbind option_bind].
  destruct (items (sq s) !! jkey j) as [x|]; [|intros [= <- _ _]; constructor].
  destruct (objs (sq s) !! x) as [it|]; [|done]. cbn beta iota zeta delta [mbind option_bind].
  assert (Ht : ∀ s1 r1, qreach false (sq s) (sq s1) →
    match r1 with ROk => after_release p jes force s1 | _ => Some (s1, SErr EInternal, []) end = Some (s', r, l) → qreach false (sq s) (sq s')).
  { intros s1 r1 H1 H. destruct r1; try (injection H as <- _ _; done). apply after_release_reach in H. by rewrite H. }
  destruct (force || _).
  - destruct (decide (ist it = SBury)).
    + destruct (decide (jst j = JBuried)); [intros [= <- _ _]; constructor|].
      intros H. apply after_release_reach in H. rewrite H. constructor.
    + intros H. qcalls. by eapply Ht.
  - destruct (decide (ist it = SDelay)).
    + destruct (decide (jst j = JDelayed)); [intros [= <- _ _]; constructor|].
      intros H. apply after_release_reach in H. rewrite H. constructor.
    + intros H. qcalls. by eapply Ht.
Qed.

Lemma reserve_reach now c g granted delay s s' r l :
  s_reserve now c g granted delay s = Some (s', r, l) → qreach false (sq s) (sq s').
Proof.
  unfold s_reserve. destruct (c =? 0)%N; [intros [= <- _ _]; constructor|].
  destruct (_ && _); [intros [= <- _ _]; constructor|].
  destruct (qdo (OReserve now g false) s) as [[s1 r1]|] eqn:Hq; [apply (qdo_reach false) in Hq; [|exact I]|done].
  cbn beta iota zeta delta [mbind option_bind]. destruct r1; try (by intros [= <- _ _]).
  - destruct (objs (sq s1) !! x) as [it|]; [|done]. cbn beta iota zeta delta [mbind option_bind].
    match goal with |- context [qdo ?o ?s] => destruct (qdo o s) as [[s2 r2]|] eqn:Hq2; [apply (qdo_reach false) in Hq2; [|exact I]|done] end.
    cbn beta iota zeta delta [mbind option_bind]. intros [= <- _ _]. eapply qreach_trans; [exact Hq|].
    rewrite set_job_q in Hq2. destruct (sched_limits g); exact Hq2.
  - destruct e; by intros [= <- _ _].
Qed.
Lemma start_reach now c k b s s' r l : s_start now c k b s = Some (s', r, l) → sq s' = sq s.
Proof.
  unfold s_start. destruct (getij c k true s) as [|[[it p] j]]; [by intros [= <- _ _]|].
  destruct (negb b); by intros [= <- _ _].
Qed.
Lemma touch_reach now c k s s' r l : s_touch now c k s = Some (s', r, l) → qreach false (sq s) (sq s').
Proof.
  unfold s_touch. destruct (getij c k true s) as [|[[it p] j]]; [intros [= <- _ _]; constructor|].
  destruct (jkilled j); [intros [= <- _ _]; constructor|]. intros H. qcalls.
  destruct r0; try (injection H as <- _ _; done). by destruct (jlost j); injection H as <- _ _.
Qed.
Lemma archive_reach c k jes ord s s' r l : s_archive c k jes ord s = Some (s', r, l) → qreach false (sq s) (sq s').
Proof.
  unfold s_archive. destruct (getij c k true s) as [|[[it p] j]]; [intros [= <- _ _]; constructor|].
  destruct (update_after_exit jes j) as [j1 l1]. destruct (_ || _); [intros [= <- _ _]; constructor|].
  intros H. qcalls. destruct r0; injection H as <- _ _; exact Hq.
Qed.
Lemma kick_reach ps s n s' n' : fold_left kick_one ps (Some (s, n)) = Some (s', n') → qreach false (sq s) (sq s').
Proof.
  revert s n. induction ps as [|p ps IH]; intros s n; cbn [fold_left]; [intros [= <- _]; constructor|].
  unfold kick_one at 2. cbn beta iota zeta delta [mbind option_bind].
  destruct (sjobs s !! p) as [j|]; [|cbn; by rewrite kick_fold_None]. cbn beta iota zeta delta [mbind option_bind].
  destruct (qdo (OKick (jkey j)) s) as [[s1 r1]|] eqn:Hq; [apply (qdo_reach false) in Hq; [|exact I]|cbn; by rewrite kick_fold_None].
  cbn beta iota zeta delta [mbind option_bind]. intros H.
  eapply qreach_trans; [exact Hq|]. destruct r1; apply IH in H; exact H.
Qed.
Lemma delete_fold_reach ord ks s a b s' a' b' :
  fold_left (delete_one ord) ks (Some (s, a, b)) = Some (s', a', b') → qreach false (sq s) (sq s').
Proof.
  revert s a b. induction ks as [|k ks IH]; intros s a b; cbn [fold_left]; [intros [= <- _ _]; constructor|].
  unfold delete_one at 2. cbn beta iota zeta delta [mbind option_bind].
  destruct (qdo (OHasDependents k) s) as [[s1 r1]|] eqn:Hq; [apply (qdo_reach false) in Hq; [|exact I]|cbn; by rewrite delete_fold_None].
  cbn beta iota zeta delta [mbind option_bind].
  assert (Hskip : ∀ b, fold_left (delete_one ord) ks (Some (s1, a, b)) = Some (s', a', b') → qreach false (sq s) (sq s')).
  { intros b0 H. eapply qreach_trans; [exact Hq|by eapply IH]. }
  destruct r1 as [| | |[]| |]; try (exact (Hskip _)).
  destruct (qdo (ORemove k ord) s1) as [[s2 r2]|] eqn:Hq2; [apply (qdo_reach false) in Hq2; [|exact I]|cbn; by rewrite delete_fold_None].
  cbn beta iota zeta delta [mbind option_bind]. intros H.
  eapply qreach_trans; [exact Hq|]. eapply qreach_trans; [exact Hq2|]. destruct r2; by eapply IH.
Qed.
Lemma delete_rounds_reach fuel ord ks s s' dels : delete_rounds fuel ord ks s = Some (s', dels) → qreach false (sq s) (sq s').
Proof.
  revert ks s dels. induction fuel as [|fuel IH]; intros ks s dels; cbn [delete_rounds]; [intros [= <- _]; constructor|].
  destruct (fold_left (delete_one ord) ks (Some (s, [], []))) as [[[s1 del] skip]|] eqn:Hf; [|done].
  apply delete_fold_reach in Hf. cbn beta iota zeta delta [mbind option_bind].
  destruct del as [|d del]; [by intros [= <- _]|]. destruct skip as [|k0 skip]; [by intros [= <- _]|].
  destruct (delete_rounds fuel ord (k0 :: skip) _) as [[s3 dels0]|] eqn:Hr; [|done].
  cbn beta iota zeta delta [mbind option_bind]. intros [= <- _]. apply IH in Hr. eapply qreach_trans; [exact Hf|exact Hr].
Qed.
Lemma kill_reach now k s s' r l : s_kill now k s = Some (s', r, l) → qreach false (sq s) (sq s').
Proof.
  unfold s_kill. destruct (find_job k s) as [[[it p] j]|]; [|intros [= <- _ _]; constructor].
  destruct (decide (ist it = SRun)); [|intros [= <- _ _]; constructor].
  destruct (jlost j); [|intros [= <- _ _]; constructor].
  match goal with |- context [release_job ?a ?b ?c ?d ?e] => destruct (release_job a b c d e) as [[[s1 r1] l1]|] eqn:Hr end; [|done].
  apply release_reach in Hr. cbn beta iota zeta delta [mbind option_bind].
  destruct r1; intros [= <- _ _]; exact Hr.
Qed.
Lemma lost_reach now k s s' r l : s_lost_release now k s = Some (s', r, l) → qreach false (sq s) (sq s').
Proof.
  unfold s_lost_release. destruct (find_job k s) as [[[it p] j]|]; [|intros [= <- _ _]; constructor].
  destruct (_ && _); [|intros [= <- _ _]; constructor].
  match goal with |- context [release_job ?a ?b ?c ?d ?e] => destruct (release_job a b c d e) as [[[s1 r1] l1]|] eqn:Hr end; [|done].
  apply release_reach in Hr. cbn beta iota zeta delta [mbind option_bind]. intros [= <- _ _]; exact Hr.
Qed.
Lemma regroup_reach k g s s' r l : s_regroup k g s = Some (s', r, l) → qreach false (sq s) (sq s').
Proof.
  unfold s_regroup. destruct (find_job k s) as [[[it p] j]|]; [|intros [= <- _ _]; constructor].
  intros H. qcalls. injection H as <- _ _. exact Hq.
Qed.
(** the TTR loop with the server's callback is the queue's, with its answers *)
Lemma ttr_loop_ext now n cb cb' i q dl bl rl : (∀ m, (i ≤ m)%nat → cb m = cb' m) →
  ttr_loop now n cb i q dl bl rl = ttr_loop now n cb' i q dl bl rl.
Proof.
  revert i q dl bl rl. induction n as [|n IH]; intros i q dl bl rl Hcb; [done|]. cbn [ttr_loop].
  destruct (arr (runQ q)) as [|x ?]; [done|]. destruct (objs q !! x) as [it|]; [|done].
  cbn beta iota zeta delta [mbind option_bind]. destruct (releasable now it); [|done]. rewrite <- (Hcb i) by lia.
  assert (H : ∀ q dl bl rl, ttr_loop now n cb (S i) q dl bl rl = ttr_loop now n cb' (S i) q dl bl rl).
  { intros. apply IH. intros m Hm. apply Hcb. lia. }
  destruct (cb i); cbn beta iota zeta delta [mbind option_bind];
    repeat (match goal with |- context [?X ≫= _] => destruct X; [|done] end; cbn beta iota zeta delta [mbind option_bind]); apply H.
Qed.
Lemma s_ttr_loop_queue now n i q js dl l q' js' dl' l' : s_ttr_loop now n q js dl l = Some (q', js', dl', l') →
  ∃ cb, ttr_loop now n cb i q dl [] [] = Some (q', (dl', [], [])).
Proof.
  revert i q js dl l. induction n as [|n IH]; intros i q js dl l; cbn [s_ttr_loop ttr_loop].
  { intros [= <- <- <- <-]. by exists (λ _, ToRun). }
  destruct (arr (runQ q)) as [|x ?]; [done|]. destruct (objs q !! x) as [it|]; [|done].
  cbn beta iota zeta delta [mbind option_bind]. destruct (releasable now it).
  2: { intros [= <- <- <- <-]. by exists (λ _, ToRun). }
  destruct (js !! idata it) as [j|]; [|done]. cbn beta iota zeta delta [mbind option_bind].
  pose proof (callback_dest now j) as Hd. destruct (ttr_callback now j) as [[j1 dest] l1]. cbn [fst snd] in Hd.
  set (ans := λ (cb : nat → ttrdest) m, if decide (m = i) then dest else cb m).
  assert (Hext : ∀ cb q dl, ttr_loop now n (ans cb) (S i) q dl [] [] = ttr_loop now n cb (S i) q dl [] []).
  { intros cb q0 dl0. apply ttr_loop_ext. intros m Hm. unfold ans. by rewrite decide_False by lia. }
  assert (Hat : ∀ cb, ans cb i = dest) by (intros cb; unfold ans; by rewrite decide_True).
  destruct Hd as [-> | ->].
  - destruct (run_update x _) as [q1|]; [|done]. cbn beta iota zeta delta [mbind option_bind]. intros H.
    apply (IH (S i)) in H as [cb Hcb]. exists (ans cb). rewrite Hat, Hext. exact Hcb.
  - destruct (run_remove x q) as [q1|]; [|done]. cbn beta iota zeta delta [mbind option_bind].
    destruct (delay_push x _) as [q2|]; [|done]. cbn beta iota zeta delta [mbind option_bind]. intros H.
    apply (IH (S i)) in H as [cb Hcb]. exists (ans cb). rewrite Hat. cbn beta iota zeta. rewrite Hext. exact Hcb.
Qed.
Lemma tick_ttr_reach now s s' r l : s_tick_ttr now s = Some (s', r, l) → qreach false (sq s) (sq s').
Proof.
  unfold s_tick_ttr. destruct (s_ttr_loop _ _ _ _ _ _) as [[[[q js] dl] l1]|] eqn:Hl; [|done].
  cbn beta iota zeta delta [mbind option_bind].
  destruct (s_ttr_loop_queue _ _ 0 _ _ _ _ _ _ _ _ Hl) as [cb Hcb].
  destruct (trigger_all now dl q) as [q1|] eqn:H1; [|done]. cbn beta iota zeta delta [mbind option_bind].
  destruct (ttr_loop_top now q1) as [q2|] eqn:H2; [|done]. cbn beta iota zeta delta [mbind option_bind].
  intros [= <- _ _]. cbn [sq set].
  assert (∃ e, step (sq s) (OTickTTR now cb) = Some (q2, ROk, e)) as [e Hs].
  { cbn [step]. unfold q_tick_ttr. rewrite Hcb. cbn beta iota zeta delta [mbind option_bind]. rewrite H1.
    cbn beta iota zeta delta [mbind option_bind]. rewrite H2. by eexists. }
  eapply (qreach_one false _ _ (OTickTTR now cb)); [exact I|exact Hs].
Qed.

(** ** Adding: no running or buried job may be updated *)
Definition gentle_keys (ks : list key) (q : qstate) : Prop :=
  ∀ k x it, k ∈ ks → items q !! k = Some x → objs q !! x = Some it → ist it ≠ SBury ∧ ist it ≠ SRun.

Definition waiting_keys (ks : list key) (q : qstate) : Prop :=
  ∀ k x it d, k ∈ ks → items q !! k = Some x → objs q !! x = Some it → d ∈ iremain it → is_Some (items q !! d).
Lemma update_deps_reach now js s s' b : QI (sq s) → NoDup (jkey <$> js) → gentle_keys (jkey <$> js) (sq s) →
  waiting_keys (jkey <$> js) (sq s) →
  update_deps_of now js s = Some (s', b) → qreach true (sq s) (sq s').
Proof.
  revert s. induction js as [|j js IH]; intros s HQ Hnd Hg Hw; cbn [update_deps_of]; [intros [= <- _]; constructor|].
  destruct (new_job j s) as [p s1] eqn:Hn. assert (Es1 : sq s1 = sq s) by (unfold new_job in Hn; by injection Hn as _ <-).
  match goal with |- context [qdo ?o ?s] => destruct (qdo o s) as [[s2 r]|] eqn:Hq; [set (op0 := o) in Hq|done] end.
  cbn beta iota zeta delta [mbind option_bind].
  destruct (qdo_inv _ _ _ _ Hq) as (q2 & e & Hs & ->). rewrite Es1 in Hs.
  assert (Hop : srv_op true (sq s) op0).
  { split; [done|]. intros x it Hx Hit. destruct (Hg (jkey j) x it) as [? ?]; [left|done|done|].
    split_and!; try done. intros d Hd. apply (Hw (jkey j) x it d); [left|done..]. }
  assert (HQ2 : QI q2) by (by eapply qi_step).
  assert (H1 : qreach true (sq s) q2) by (by eapply qreach_one).
  apply NoDup_cons in Hnd as [Hjn Hnd].
  destruct r; try (intros [= <- _]; exact H1).
  assert (HQ3 : QI (sq (s1 <| sq := q2 |>))) by exact HQ2.
  destruct (step_eff false (sq s) op0 q2 ROk e (qi_inv _ HQ) (held_good _ _ _ (qi_held _ HQ) (qi_inv _ HQ) Hop) Hs) as [He _].
  assert (Hsame : items q2 = items (sq s) ∧ ∀ k x it, k ∈ jkey <$> js → items q2 !! k = Some x → objs q2 !! x = Some it → objs (sq s) !! x = Some it).
  { subst op0. inversion He; subst; [done|].
    match goal with H : items q2 = _ |- _ => rewrite H end. split; [done|].
    intros k x0 it0 Hk Hx Hit.
    match goal with H : objs q2 = _ |- _ => rewrite H in Hit end.
    assert (Hne : k ≠ jkey j) by (intros ->; done).
    rewrite lookup_insert_ne in Hit; [done|].
    intros <-. apply Hne.
    destruct (items_inj _ _ _ _ _ (qi_inv _ HQ) Hx ltac:(eassumption)) as [<- _]. done. }
  destruct Hsame as [Hi Ho].
  intros H. eapply qreach_trans; [exact H1|]. apply (IH (s1 <| sq := q2 |>) HQ3 Hnd); [| |exact H].
  - change (gentle_keys (jkey <$> js) q2). intros k x it Hk Hx Hit.
    eapply (Hg k x it); [by right|by rewrite <- Hi|by eapply Ho].
  - change (waiting_keys (jkey <$> js) q2). intros k x it d Hk Hx Hit Hd. rewrite Hi.
    eapply (Hw k x it); [by right|by rewrite <- Hi|by eapply Ho|done].
Qed.

(** An add request disturbs no running or buried job. *)
Definition gentle (s : sstate) (o : sop) : Prop :=
  match o with
  | AAdd _ js ignore =>
      let kept := kept_of (init_job <$> js) ignore (sdb s) in
      ∀ k st j, affected (sdb s) (list_to_set (jkey <$> kept)) (member_groups kept) k →
        look s k = Some (st, j) → st ≠ SRun ∧ st ≠ SBury
  | _ => True
  end.

Lemma add_reach now js ignore s s' r l : SInv s → DInv s → QI (sq s) → queued (sq s) → gentle s (AAdd now js ignore) →
  s_add now js ignore s = Some (s', r, l) → calm_add js ignore s ∧ qreach true (sq s) (sq s').
Proof.
  intros HS HD HQ HW Hg. unfold s_add, calm_add.
  destruct (prepare (init_job <$> js) ignore (sdb s)) as [[[stored toq] upd] already] eqn:Hprep. cbn [fst snd].
  pose proof (prepare_facts _ _ _ _ _ _ _ (dinv_keys _ HD) Hprep) as Hpf. cbv zeta in Hpf. cbn [gentle] in Hg. cbv zeta in Hg.
  set (kept := kept_of (init_job <$> js) ignore (sdb s)) in *.
  destruct Hpf as (res & _ & _ & _ & Hun & _ & Hupd & _).
  assert (Hgk : gentle_keys (jkey <$> upd) (sq s)).
  { intros k x it (j & -> & Hj)%elem_of_list_fmap Hx Hit.
    destruct (items_found _ _ _ HS Hx) as (it' & j' & HF).
    assert (it' = it) as -> by (pose proof (f_obj HF); congruence).
    destruct (Hg (jkey j) (ist it) j') as [? ?]; [by apply Hupd|by apply found_look with x|done]. }
  intros H. split.
  - intros k it p j Hk Hf Hr. destruct (find_found _ _ _ _ _ HS Hf) as (_ & x & HF).
    apply (qi_held _ HQ x it); [apply HF|apply HF|done].
  - set (s1 := s <| sdb ::= db_store stored (new_dtk kept) (new_rdtk kept) |>) in *.
    assert (HS1 : SInv s1) by (by apply sdb_inv).
    destruct (itemdefs (λ _, StartDefault) toq s1) as [defs s2] eqn:Hdefs.
    destruct (itemdefs_facts _ _ _ _ _ Hdefs HS1) as (_ & _ & Hq2 & _). change (sq s1) with (sq s) in Hq2.
    destruct (update_deps_of now upd s2) as [[s3 b]|] eqn:Hup; [|done]. cbn beta iota zeta delta [mbind option_bind] in H.
    apply update_deps_reach in Hup; [|by rewrite Hq2|done|by rewrite Hq2|].
    2: { rewrite Hq2. intros k x it d _ Hx Hit. destruct (items_inj _ _ _ _ _ (qi_inv _ HQ) Hx Hit) as [_ ?]. by apply (HW x it). }
    rewrite Hq2 in Hup. destruct b; [|by injection H as <- _ _].
    destruct (qdo (OAddMany now defs) s3) as [[s4 r0]|] eqn:Hq; [apply (qdo_reach true) in Hq; [|done]|done].
    cbn beta iota zeta delta [mbind option_bind] in H.
    eapply qreach_trans; [exact Hup|]. destruct r0; injection H as <- _ _; exact Hq.
Qed.

Lemma crash_reach now granted d s' r l : s_recover now granted d = Some (s', r, l) → qreach true (q_new now) (sq s').
Proof.
  unfold s_recover. set (s0 := SState (q_new now) ∅ 1%N (d <| pend := [] |>)).
  destruct (itemdefs recover_start _ s0) as [defs s1] eqn:Hdefs.
  destruct (itemdefs_facts _ _ _ _ _ Hdefs (new_inv _ _)) as (_ & _ & Hq1 & _).
  destruct (qdo (OAddMany now defs) s1) as [[s2 r0]|] eqn:Hq; [apply (qdo_reach true) in Hq; [|done]|done].
  cbn beta iota zeta delta [mbind option_bind]. intros [= <- _ _]. rewrite Hq1 in Hq. exact Hq.
Qed.

Lemma incomplete_live d j k : k ∈ incomplete_keys d j → is_Some (live d !! k).
Proof.
  unfold incomplete_keys. rewrite elem_of_elements, elem_of_union_list. intros (X & HX & Hk).
  apply elem_of_list_fmap in HX as (dp & -> & _). destruct dp as [g|k']; cbn [dep_keys] in Hk.
  - apply elem_of_map in Hk as ([g' k0] & -> & Hf). apply elem_of_filter in Hf as [[_ H] _]. done.
  - destruct (decide _); [|by apply elem_of_empty in Hk]. by apply elem_of_singleton in Hk as ->.
Qed.
Lemma find_queued s k : is_Some (find_job k s) → is_Some (items (sq s) !! k).
Proof. unfold find_job. destruct (items (sq s) !! k); [by eexists|]. by intros [? ?]. Qed.
(** what is waited for is in the queue, if it is known of each job *)
Lemma queued_by s : SInv s →
  (∀ k it p j, find_job k s = Some (it, p, j) → ∀ d, d ∈ iremain it → is_Some (items (sq s) !! d)) → queued (sq s).
Proof.
  intros HS H x it d Hx Hl Hd. destruct (si_ptr HS _ _ Hx Hl) as (j & Hj & Hjk).
  apply (H (ikey it) it (idata it) j); [|done]. unfold find_job.
  rewrite (live_named _ _ _ _ (si_q HS) Hx Hl). cbn. rewrite Hx. cbn. by rewrite Hj.
Qed.

Lemma add_queued now js ignore s s' r l : SInv s → queued (sq s) → SInv s' → DInv s' →
  seff s (AAdd now js ignore) s' r l → queued (sq s').
Proof.
  intros HS HW HS' HD' He. inversion He as [? ? ? ? Hl Hdb Hst| | | | | | | | | | | | | | | |? ? ? ? ? stored toq upd already _ _ _ Hnew Hold|]; subst.
  - by destruct Hst.
  - done.
  - apply queued_by; [done|]. intros k it p j Hf d Hd.
    assert (Hinc : ∀ j', d ∈ (list_to_set (incomplete_keys (sdb s') j') : gset key) → is_Some (items (sq s') !! d)).
    { intros j' H. apply elem_of_list_to_set, incomplete_live in H. by apply find_queued, (di_in HD'). }
    destruct (find_job k s) as [[[it0 p0] j0]|] eqn:Hk.
    + destruct (Hold k it0 p0 j0 Hk) as [[_ Hs]|(it' & p' & j' & Hs & _ & _ & Hr & _)].
      * rewrite Hs, Hk in Hf. injection Hf as -> -> ->. destruct (find_found _ _ _ _ _ HS Hk) as (_ & x & HF).
        assert (Hd0 : is_Some (items (sq s) !! d)) by (apply (HW x it d); [apply HF|apply HF|done]).
        apply find_queued. destruct Hd0 as [y Hy]. destruct (items_found _ _ _ HS Hy) as (ity & jy & HFy).
        destruct (Hold d ity _ jy (found_find _ _ _ _ _ HFy)) as [[_ Hs']|(? & ? & ? & Hs' & _)];
          rewrite Hs'; [rewrite (found_find _ _ _ _ _ HFy)|]; by eexists.
      * rewrite Hs in Hf. simplify_eq. rewrite Hr in Hd. by eapply Hinc.
    + specialize (Hnew k Hk). destruct (head _) as [j'|]; [|congruence].
      destruct Hnew as (it' & p' & Hs & Hr & _). rewrite Hs in Hf. simplify_eq. rewrite Hr in Hd. by eapply Hinc.
Qed.
Lemma crash_queued now granted d s' r l : SInv s' → DInv s' →
  s_recover now granted d = Some (s', r, l) → queued (sq s').
Proof.
  intros HS' HD'. unfold s_recover. set (s0 := SState (q_new now) ∅ 1%N (d <| pend := [] |>)).
  destruct (itemdefs recover_start _ s0) as [defs s1] eqn:Hdefs.
  destruct (itemdefs_facts _ _ _ _ _ Hdefs (new_inv _ _)) as (_ & Hdb1 & Hq1 & _ & _ & _ & HF & _).
  destruct (qdo (OAddMany now defs) s1) as [[s2 r0]|] eqn:Hq; [|done].
  cbn beta iota zeta delta [mbind option_bind]. intros [= <- _ _].
  destruct (qdo_inv _ _ _ _ Hq) as (q & e & Hs & ->). rewrite Hq1 in Hs.
  assert (HI0 : Inv false (q_new now)) by apply inv_new.
  destruct (step_eff false (q_new now) (OAddMany now defs) _ _ _ HI0 I Hs) as [He _].
  intros x it dk Hx Hl Hd. cbn [sq set] in Hx |- *.
  assert (Hn : objs (q_new now) !! x = None) by (cbn; apply lookup_empty).
  pose proof (eff_new _ _ _ _ _ _ _ _ HI0 He Hn Hx) as Hin. inversion Hin; subst.
  match goal with H : ?df ∈ defs |- _ => apply elem_of_list_lookup in H as [i Hi];
    destruct (Forall2_lookup_r _ _ _ _ _ HF Hi) as (j & _ & _ & _ & _ & _ & _ & Hdeps & _) end.
  unfold added_def in Hd. rewrite added_item_remain, Hdeps in Hd.
  apply elem_of_list_to_set, incomplete_live in Hd. change q with (sq (s1 <| sq := q |>)).
  apply find_queued, (di_in HD'). change (sdb (s1 <| sq := q |>)) with (sdb s1). by rewrite Hdb1.
Qed.

Lemma sstep_qi s o s' r l : SInv s → DInv s → QI (sq s) → queued (sq s) → gentle s o → sstep s o = Some (s', r, l) →
  calm s o ∧ QI (sq s') ∧
  (qreach false (sq s) (sq s') ∨ (∃ now js ignore, o = AAdd now js ignore) ∨ ∃ c now granted, o = ACrash c now granted).
Proof.
  intros HS HD HQ HW Hg Hs.
  assert (Hr : calm s o ∧ (qreach false (sq s) (sq s') ∨
    ((qreach true (sq s) (sq s') ∧ ∃ now js ignore, o = AAdd now js ignore) ∨
     ((∃ t, qreach true (q_new t) (sq s')) ∧ ∃ c now granted, o = ACrash c now granted)))).
  { destruct o; cbn [sstep calm] in *; [|split; [done|left]..|split; [done|right; right]].
    - destruct (add_reach _ _ _ _ _ _ _ HS HD HQ HW Hg Hs). split; [done|]. right. left. by eauto.
    - by eapply reserve_reach.
    - apply start_reach in Hs. rewrite Hs. constructor.
    - by eapply touch_reach.
    - by eapply archive_reach.
    - unfold s_release in Hs. destruct (getij c k false s) as [|[[it p] j]]; [injection Hs as <- _ _; constructor|by eapply release_reach].
    - unfold s_release in Hs. destruct (getij c k false s) as [|[[it p] j]]; [injection Hs as <- _ _; constructor|by eapply release_reach].
    - unfold s_kick in Hs. destruct (fold_left kick_one _ _) as [[s1 n]|] eqn:Hf; [|done]. cbn in Hs. injection Hs as <- _ _. by eapply kick_reach.
    - unfold s_delete in Hs. destruct (delete_rounds _ _ _ _) as [[s1 n]|] eqn:Hf; [|done]. cbn in Hs. injection Hs as <- _ _. by eapply delete_rounds_reach.
    - by eapply kill_reach.
    - by eapply lost_reach.
    - qcalls. by injection Hs as <- _ _.
    - by eapply tick_ttr_reach.
    - by eapply regroup_reach.
    - injection Hs as <- _ _. unfold s_land. destruct (pend (sdb s) !! i) as [[]|]; constructor.
    - split; [exists now; by eapply crash_reach|by eauto]. }
  destruct Hr as [Hc [Hr|[[Hr ?]|[[t Hr] ?]]]]; (split; [done|]); (split; [|by eauto]).
  - by eapply qi_reach.
  - by eapply qi_reach.
  - eapply qi_reach; [apply qi_new|exact Hr].
Qed.

Theorem sstep_full s o s' r l : SInv s → DInv s → QI (sq s) → queued (sq s) → gentle s o → sstep s o = Some (s', r, l) →
  seff s o s' r l ∧ SInv s' ∧ DInv s' ∧ QI (sq s') ∧ queued (sq s').
Proof.
  intros HS HD HQ HW Hg Hs. destruct (sstep_qi _ _ _ _ _ HS HD HQ HW Hg Hs) as (Hc & HQ' & Hr).
  destruct (sstep_ok _ _ _ _ _ HS HD Hc Hs) as (He & HS' & HD'). split_and!; try done.
  destruct Hr as [Hr|[(now & js & ignore & ->)|(c & now & granted & ->)]].
  - exact (queued_reach _ _ HQ Hr HW).
  - exact (add_queued _ _ _ _ _ _ _ HS HW HS' HD' He).
  - exact (crash_queued _ _ _ _ _ _ HS' HD' Hs).
Qed.
