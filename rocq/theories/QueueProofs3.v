(** Proofs about what happens to single items along a history. *)
From Coq Require Import ZArith Lia String.
From stdpp Require Import base option strings gmap list.
From RecordUpdate Require Import RecordSet.
From Verif Require Import GoHeap GoHeapProofs QueueModel QueueCore QueueInv QueueInvAdd
  QueueInvUpd QueueInvRem QueueInvTick QueueEff QueueItem QueueFrame QueueSpec QueueProofs QueueProofs2.
Import RecordSetNotations.
Open Scope Z_scope.

Lemma prop_change_ist now g prio delay ttr added it :
  ist (prop_change now g prio delay ttr added it) = ist it.
Proof.
  unfold prop_change. destruct (negb _); [by destruct (ist it) eqn:E; simpl; rewrite ?E|].
  destruct (_ || _); [done|]. destruct (negb _); [|done]. by destruct (ist it) eqn:E; simpl; rewrite ?E.
Qed.

(** what Update makes of an item's state *)
Lemma updated_ist now g d prio delay ttr deps it :
  ist (updated now g d prio delay ttr deps it) =
  match deps with
  | Some (d0 :: ds) => if dep_changed (d0 :: ds) it
      then match ist it with SBury => SBury | SRemoved => SRemoved | _ => SDep end else ist it
  | Some [] => if bool_decide (iremain it = ∅) then ist it else SReady
  | None => ist it
  end.
Proof.
  unfold updated, dep_part. destruct deps as [[|d0 ds]|].
  - unfold dep_changed. cbn [deps_diff fold_left fst snd]. change (iremain (it <| idata := d |>)) with (iremain it).
    destruct (bool_decide (iremain it = ∅)); simpl; rewrite prop_change_ist; done.
  - assert (dep_changed (d0 :: ds) (it <| idata := d |>) = dep_changed (d0 :: ds) it) as -> by done.
    destruct (dep_changed (d0 :: ds) it); rewrite prop_change_ist; [|done]. simpl.
    destruct (ist it) eqn:E; simpl; by rewrite ?E.
  - by rewrite prop_change_ist.
Qed.

Lemma changed_key_props old new it :
  ist (changed_key old new it) = ist it ∧ readyAt (changed_key old new it) = readyAt it ∧
  releaseAt (changed_key old new it) = releaseAt it ∧ ittr (changed_key old new it) = ittr it ∧
  nreserves (changed_key old new it) = nreserves it ∧ nkicks (changed_key old new it) = nkicks it ∧
  nburies (changed_key old new it) = nburies it ∧ nreleases (changed_key old new it) = nreleases it ∧
  ntimeouts (changed_key old new it) = ntimeouts it.
Proof. unfold changed_key. by case_decide. Qed.
Lemma set_delay_ist now delay it : ist (set_delay now delay it) = ist it.
Proof. unfold set_delay. destruct (_ =? _); [done|]. by destruct (ist it) eqn:E; simpl; rewrite ?E. Qed.
Lemma resolve_ist k it : ist (resolve k it) = if decide (freed k it) then SReady else ist it.
Proof. by rewrite resolve_cases. Qed.

(** ** C03 *)
Lemma stops s x it o r it' :
  ichange s x it o r it' → ist it = SRun → ist it' = SRun ∨ may_stop o (ikey it).
Proof.
  intros Hc Hr. destruct Hc; try (by left); try (by right); try congruence.
  - rewrite updated_ist. destruct deps as [[|d0 ds]|]; [left|by right|by left].
    rewrite bool_decide_true; [done|]. destruct (decide (iremain it = ∅)) as [|Hn]; [done|].
    rewrite H0 in Hr by done. done.
  - left. by rewrite changed_key_ist.
  - left. by rewrite set_delay_ist.
  - left. rewrite resolve_ist. rewrite decide_False; [done|]. intros [? _]. congruence.
Qed.

Lemma good_run_cons b s o ops s' r e :
  good_run b s (o :: ops) → step s o = Some (s', r, e) → good b s o ∧ good_run b s' ops.
Proof. simpl. intros [H1 H2] Hs. by rewrite Hs in H2. Qed.

Lemma leaves_run s ops s' out x it :
  Ok false s → good_run false s ops → run s ops = Some (s', out) → objs s !! x = Some it → ist it = SRun →
  state_of s' x ≠ Some SRun →
  ∃ ops1 o ops2 sa outa sb r e ita, ops = ops1 ++ o :: ops2 ∧ run s ops1 = Some (sa, outa) ∧
    step sa o = Some (sb, r, e) ∧ objs sa !! x = Some ita ∧ ist ita = SRun ∧
    state_of sb x ≠ Some SRun ∧ may_stop o (ikey ita).
Proof.
  revert s out it. induction ops as [|o ops IH]; intros s out it HO Hg Hr Hx Hst Hn.
  { simpl in Hr. injection Hr as <- <-. unfold state_of in Hn. rewrite Hx in Hn. simpl in Hn. congruence. }
  apply run_cons in Hr as (s1 & r & e & out1 & Hs & Hr & ->).
  destruct (good_run_cons _ _ _ _ _ _ _ Hg Hs) as [Hg1 Hg2].
  destruct (ok_item _ _ _ _ _ _ _ _ HO Hg1 Hs Hx) as (it1 & Hx1 & Hc).
  destruct (ok_step _ _ _ _ _ _ HO Hg1 Hs) as [HO1 _].
  destruct (decide (ist it1 = SRun)) as [Hst1|Hst1].
  - destruct (IH s1 out1 it1 HO1 Hg2 Hr Hx1 Hst1 Hn)
      as (ops1 & o' & ops2 & sa & outa & sb & r' & e' & ita & -> & Hra & Hsa & Hxa & Ha & Hb & Hm).
    exists (o :: ops1), o', ops2, sa, ((r, e) :: outa), sb, r', e', ita. split_and!; try done.
    simpl. rewrite Hs. simpl. by rewrite Hra.
  - destruct (stops _ _ _ _ _ _ Hc Hst) as [|Hm]; [done|].
    exists [], o, ops, s, [], s1, r, e, it. split_and!; try done.
    unfold state_of. rewrite Hx1. simpl. congruence.
Qed.

Lemma always_app P s ops1 ops2 :
  always P s (ops1 ++ ops2) → always P s ops1 ∧ ∀ s' out, run s ops1 = Some (s', out) → always P s' ops2.
Proof.
  revert s. induction ops1 as [|o ops1 IH]; intros s; simpl.
  - intros H. split; [done|]. by intros s' out [= <- <-].
  - intros [H1 H2]. destruct (step s o) as [[[s1 r] e]|]; simpl.
    + apply IH in H2 as [H2 H3]. split; [done|]. intros s' out H. mdest H. simplify_eq. by eapply H3.
    + split; [done|]. by intros.
Qed.

Lemma reserve_runs b s now g retry s' x e :
  Ok b s → step s (OReserve now g retry) = Some (s', RItem x, e) →
  ∃ it, objs s !! x = Some it ∧ ist it = SReady ∧ igroup it = g ∧
    objs s' !! x = Some (switch_ready_run (touch now it)).
Proof.
  intros HO Hs. destruct (ok_step b s (OReserve now g retry) s' (RItem x) e HO I Hs) as [_ [[HI He]|(HD & _ & _ & _ & Hr & _)]].
  - inversion He; subst; [done|]. exists it. split_and!; try done.
    match goal with H : objs s' = _ |- _ => rewrite H end. rewrite lookup_alter.
    match goal with H : objs s !! x = _ |- _ => by rewrite H end.
  - simpl in Hr. by destruct retry.
Qed.

Lemma reserved_once t pre s0 now1 g1 w1 s1 e1 mid s2 out now2 g2 w2 s3 e2 x :
  history t pre s0 →
  step s0 (OReserve now1 g1 w1) = Some (s1, RItem x, e1) →
  run s1 mid = Some (s2, out) →
  step s2 (OReserve now2 g2 w2) = Some (s3, RItem x, e2) →
  always clears_safely (q_new t) (pre ++ OReserve now1 g1 w1 :: mid) →
  ∃ mid1 o mid2 sa outa sb r e it,
    mid = mid1 ++ o :: mid2 ∧ run s1 mid1 = Some (sa, outa) ∧ step sa o = Some (sb, r, e) ∧
    objs sa !! x = Some it ∧ ist it = SRun ∧ state_of sb x ≠ Some SRun ∧ may_stop o (ikey it).
Proof.
  intros [out0 Hh] H1 Hm H2 Ha.
  apply always_app in Ha as [Ha1 Ha2]. specialize (Ha2 _ _ Hh). destruct Ha2 as [_ Ha2]. rewrite H1 in Ha2.
  assert (HO0 : Ok false s0) by (eapply ok_hist; [by eexists|by apply good_run_false]).
  destruct (ok_step false s0 (OReserve now1 g1 w1) _ _ _ HO0 I H1) as [HO1 _].
  destruct (reserve_runs _ _ _ _ _ _ _ _ HO0 H1) as (it & Hx & _ & _ & Hx1).
  eapply leaves_run; [exact HO1|by apply good_run_false|done|done|done|].
  assert (HO2 : Ok false s2) by (eapply run_inv; [exact HO1|by apply good_run_false|done]).
  destruct (reserve_runs _ _ _ _ _ _ _ _ HO2 H2) as (it2 & Hx2 & Hst & _).
  unfold state_of. rewrite Hx2. simpl. congruence.
Qed.

(** ** C08 *)
Lemma ok_run b s ops s' out : Ok b s → good_run b s ops → run s ops = Some (s', out) → Ok b s'.
Proof. intros. by eapply run_inv. Qed.

Definition waiting (T : Z) (it : item) : Prop := ist it = SDelay ∧ readyAt it = T ∨ ist it = SRemoved.
Lemma waiting_step b s x it o r it' T :
  Inv b s → objs s !! x = Some it → ichange s x it o r it' → waiting T it → before_ready x T s o → waiting T it'.
Proof.
  intros HI Hx Hc Hw Hb.
  assert (Hnm : ist it ≠ SRemoved → items s !! ikey it = Some x) by (intros; apply (i_items HI); eauto).
  destruct Hc; try done; try (by destruct Hw as [[??]|?]; congruence).
  - simpl in Hb. by rewrite Hnm in Hb.
  - destruct (changed_key_props old new it) as (E1 & E2 & _). unfold waiting. by rewrite E1, E2.
  - simpl in Hb. by rewrite Hnm in Hb.
  - by right.
  - destruct Hw as [[Hst Hrd]|Hst].
    + left. rewrite resolve_cases. simpl. rewrite decide_False; [done|]. intros [? _]. congruence.
    + right. by apply resolve_live.
  - simpl in Hb. destruct Hw as [[Hst Hrd]|Hst]; [lia|congruence].
Qed.
Lemma waiting_run b s ops s' out x it T :
  Ok b s → good_run b s ops → run s ops = Some (s', out) → objs s !! x = Some it → waiting T it →
  always (before_ready x T) s ops → ∃ it', objs s' !! x = Some it' ∧ waiting T it'.
Proof.
  revert s out it. induction ops as [|o ops IH]; intros s out it HO Hg Hr Hx Hw Ha.
  { simpl in Hr. injection Hr as <- <-. eauto. }
  apply run_cons in Hr as (s1 & r & e & out1 & Hs & Hr & ->).
  destruct (good_run_cons _ _ _ _ _ _ _ Hg Hs) as [Hg1 Hg2].
  destruct Ha as [Ha1 Ha2]. rewrite Hs in Ha2.
  destruct (ok_step _ _ _ _ _ _ HO Hg1 Hs) as [HO1 [[HI He]|(_ & _ & Ho & _)]].
  - destruct (eff_item _ _ _ _ _ _ _ _ HI He Hx) as (it1 & Hx1 & Hc).
    eapply IH; try done. by eapply waiting_step.
  - eapply IH; try done. congruence.
Qed.

Lemma not_early_add t pre s now k g d prio size delay ttr s1 x e ops s2 out :
  history t pre s → delay ≠ 0 →
  step s (OAdd now k g d prio size delay ttr StartDefault []) = Some (s1, RItem x, e) →
  run s1 ops = Some (s2, out) →
  always clears_safely (q_new t) (pre ++ OAdd now k g d prio size delay ttr StartDefault [] :: ops) →
  always (before_ready x (now + delay)) s1 ops →
  state_of s2 x = Some SDelay ∨ state_of s2 x = Some SRemoved.
Proof.
  intros [out0 Hh] Hd Hs Hr Ha Hb. apply always_app in Ha as [Ha1 Ha2].
  specialize (Ha2 _ _ Hh). destruct Ha2 as [Hc Ha2]. rewrite Hs in Ha2.
  assert (HO0 : Ok false s) by (eapply ok_hist; [by eexists|by apply good_run_false]).
  destruct (ok_step false s _ _ _ _ HO0 (good_false _ _ Hc) Hs) as [HO1 [[HI He]|(_ & _ & _ & _ & Hr1 & _)]]; [|done].
  assert (∃ it, objs s1 !! x = Some it ∧ waiting (now + delay) it) as (it & Hx & Hw).
  { inversion He; subst; [done|]. match goal with H : objs s1 = _ |- _ => rewrite H end.
    rewrite lookup_insert. eexists. split; [done|]. unfold added_item.
    destruct (Z.eqb_spec delay 0) as [->|_]; [done|]. left. done. }
  destruct (waiting_run false s1 ops s2 out x it (now + delay) HO1 (good_run_false _ _ Ha2) Hr Hx Hw Hb)
    as (it' & Hx' & Hw').
  unfold state_of. rewrite Hx'. simpl. destruct Hw' as [[-> _]| ->]; auto.
Qed.

Lemma not_early_release t pre s now k s1 x it e ops s2 out :
  history t pre s → named s k x it → idelay it ≠ 0 →
  step s (ORelease now k) = Some (s1, ROk, e) →
  run s1 ops = Some (s2, out) →
  always clears_safely (q_new t) (pre ++ ORelease now k :: ops) →
  always (before_ready x (now + idelay it)) s1 ops →
  state_of s2 x = Some SDelay ∨ state_of s2 x = Some SRemoved.
Proof.
  intros [out0 Hh] [Hk Hx] Hd Hs Hr Ha Hb. apply always_app in Ha as [Ha1 Ha2].
  specialize (Ha2 _ _ Hh). destruct Ha2 as [Hc Ha2]. rewrite Hs in Ha2.
  assert (HO0 : Ok false s) by (eapply ok_hist; [by eexists|by apply good_run_false]).
  destruct (ok_step false s _ _ _ _ HO0 (good_false _ _ Hc) Hs) as [HO1 [[HI He]|(_ & _ & _ & _ & Hr1 & _)]]; [|done].
  assert (∃ it', objs s1 !! x = Some it' ∧ waiting (now + idelay it) it') as (it' & Hx' & Hw).
  { inversion He; subst; [done|]. simplify_eq. match goal with H : objs s1 = _ |- _ => rewrite H end.
    rewrite lookup_alter, Hx. eexists. split; [done|].
    destruct (Z.eqb_spec (idelay it) 0); [done|by left]. }
  destruct (waiting_run false s1 ops s2 out x it' (now + idelay it) HO1 (good_run_false _ _ Ha2) Hr Hx' Hw Hb)
    as (it2 & Hx2 & Hw2).
  unfold state_of. rewrite Hx2. simpl. destruct Hw2 as [[-> _]| ->]; auto.
Qed.

Lemma tick_delay_exact t ops s now s' r e :
  history t ops s → always clears_safely (q_new t) ops → closed s = false →
  step s (OTickDelay now) = Some (s', r, e) →
  ∀ x it, objs s !! x = Some it →
    if decide (ist it = SDelay ∧ readyAt it < now)
    then ∃ it', objs s' !! x = Some it' ∧ ist it' = SReady ∧ props it' = props it
    else objs s' !! x = Some it.
Proof.
  intros Hh Ha Hcl Hs x it Hx.
  destruct (hist_inv_false t ops s Hh Ha) as [HI|HD]; [|by rewrite (dd_closed _ HD) in Hcl].
  destruct (q_tick_delay_ok false now s HI) as (s1 & moved & Heq & HI1 & Hre & Hnd & Hdue & Ho).
  simpl in Hs. rewrite Heq in Hs. injection Hs as <- <- <-.
  rewrite (Ho x), Hx. pose proof (Hdue x) as Hin. unfold due in Hin.
  case_decide as Hd.
  - rewrite decide_True; [by eexists|]. apply Hin. exists it. destruct Hd as [? ?].
    by split_and!.
  - rewrite decide_False; [done|]. intros Hm. apply Hin in Hm as (it' & Hx' & Hst & Hrd). simplify_eq.
    apply Hd. by split.
Qed.

(** ** C09 *)
Definition timed (s : qstate) : Prop :=
  ∀ y it, objs s !! y = Some it → 0 ≤ ittr it ∧ (ist it = SRun → 0 < releaseAt it).

Lemma prop_change_timed now g prio delay ttr added it :
  0 < now → 0 ≤ ttr → (0 ≤ ittr it ∧ (ist it = SRun → 0 < releaseAt it)) →
  let it' := prop_change now g prio delay ttr added it in 0 ≤ ittr it' ∧ (ist it' = SRun → 0 < releaseAt it').
Proof.
  intros Hn Ht [H1 H2]. unfold prop_change. destruct (negb _); [by destruct (ist it) eqn:E; simpl; rewrite ?E|].
  destruct (_ || _); [done|]. destruct (negb _); [|done].
  destruct (ist it) eqn:E; simpl; rewrite ?E; split; try done; lia.
Qed.
Lemma timed_ichange s x it o r it' :
  ichange s x it o r it' → clocked o → (0 ≤ ittr it ∧ (ist it = SRun → 0 < releaseAt it)) →
  0 ≤ ittr it' ∧ (ist it' = SRun → 0 < releaseAt it').
Proof.
  intros Hc Hk Ht. destruct Hc; simpl in Hk; try done; try (by destruct Ht).
  - destruct Hk as [Hn Htt]. unfold updated. destruct (dep_part deps (it <| idata := d |>)) as [[it1 ad] fr] eqn:E.
    apply prop_change_timed; [done|done|]. unfold dep_part in E. destruct deps as [ds|]; [|by simplify_eq].
    destruct (dep_changed ds _); [|by simplify_eq]. simplify_eq. destruct Ht as [Ht1 Ht2].
    unfold dep_change. destruct ds; [by split|].
    change (ist (it <| idata := d |>)) with (ist it).
    destruct (ist it) eqn:E; split; simpl; rewrite ?E; done.
  - destruct (changed_key_props old new it) as (E1 & _ & E2 & E3 & _). by rewrite E1, E2, E3.
  - unfold set_delay. destruct (_ =? _); [done|]. destruct (ist it) eqn:E; simpl; rewrite ?E; done.
  - simpl. split; [apply Ht|]. intros _. lia.
  - simpl. split; [apply Ht|]. intros _. lia.
  - unfold released. destruct (_ =? _); simpl; by destruct Ht.
  - simpl. destruct (item_has_deps x s); simpl; by destruct Ht.
  - simpl. destruct H0 as [->| ->]; simpl; [by destruct Ht|]. rewrite resolve_cases. simpl. by destruct Ht.
  - rewrite resolve_cases. simpl. destruct (decide _); by destruct Ht.
  - destruct (cb j); simpl; destruct Ht; split; try done. intros _. lia.
Qed.
Lemma timed_new o r x it : inew o r x it → clocked o → 0 ≤ ittr it ∧ (ist it = SRun → 0 < releaseAt it).
Proof.
  assert (H : ∀ many now k g d prio size delay ttr start deps, 0 < now → 0 ≤ ttr →
    let it := added_item many now k g d prio size delay ttr start deps in
    0 ≤ ittr it ∧ (ist it = SRun → 0 < releaseAt it)).
  { intros. unfold it0, added_item. destruct deps; [|done]. destruct start.
    - by destruct (_ =? _).
    - simpl. split; [done|lia].
    - by destruct many. }
  intros Hn Hc. destruct Hn; simpl in Hc.
  - apply H; lia.
  - apply H; [lia|]. destruct Hc as [_ Hc]. rewrite Forall_forall in Hc. by apply Hc.
Qed.
Lemma timed_run b s ops s' out :
  Ok b s → good_run b s ops → run s ops = Some (s', out) → Forall clocked ops → timed s → timed s'.
Proof.
  revert s out. induction ops as [|o ops IH]; intros s out HO Hg Hr Hc Ht.
  { simpl in Hr. by injection Hr as <- <-. }
  apply run_cons in Hr as (s1 & r & e & out1 & Hs & Hr & ->).
  destruct (good_run_cons _ _ _ _ _ _ _ Hg Hs) as [Hg1 Hg2]. apply Forall_cons in Hc as [Hc1 Hc2].
  destruct (ok_step _ _ _ _ _ _ HO Hg1 Hs) as [HO1 _].
  eapply IH; try done. intros y it Hy.
  destruct (objs s !! y) as [it0|] eqn:Hy0.
  - destruct (ok_item _ _ _ _ _ _ _ _ HO Hg1 Hs Hy0) as (it1 & Hy1 & Hch). simplify_eq.
    eapply timed_ichange; [done|done|by eapply Ht].
  - eapply timed_new; [exact (ok_new b s o s1 r e y it HO Hg1 Hs Hy0 Hy)|done].
Qed.
Lemma timed_empty t : timed (q_new t).
Proof. intros y it H. simpl in H. by rewrite lookup_empty in H. Qed.

Lemma tick_ttr_exact t ops s now cb s' r e :
  history t ops s → always clears_safely (q_new t) ops → Forall clocked ops → 0 < now → closed s = false →
  step s (OTickTTR now cb) = Some (s', r, e) →
  ∃ ord, NoDup ord ∧
    (∀ x, x ∈ ord ↔ ∃ it, objs s !! x = Some it ∧ ist it = SRun ∧ releaseAt it < now) ∧
    (∀ j x, ord !! j = Some x → state_of s' x = Some (ttr_state (cb j))) ∧
    (∀ x, x ∉ ord → objs s' !! x = objs s !! x).
Proof.
  intros Hh Ha Hck Hn Hcl Hs.
  assert (HO : Ok false s) by (eapply ok_hist; [exact Hh|by apply good_run_false]).
  assert (Htm : timed s).
  { destruct Hh as [out Hr]. eapply timed_run; [left; apply (inv_new false t)|by apply good_run_false|done|done|apply timed_empty]. }
  destruct HO as [HI|HD]; [|by rewrite (dd_closed _ HD) in Hcl].
  destruct (q_tick_ttr_ok false now cb s HI) as (s1 & ord & Heq & HI1 & Hre & Hnd & H1 & H2 & H3 & H4).
  simpl in Hs. rewrite Heq in Hs. injection Hs as <- <- <-. exists ord. split_and!; try done.
  - intros x. split.
    + intros Hx. apply H1 in Hx as (it & Hx & Hst & Hrd).
      exists it. unfold releasable in Hrd. split_and!; try done. lia.
    + intros (it & Hx & Hst & Hrd).
      apply H2; [done| |].
      * intros y it' Hy Hst'. destruct (Htm _ _ Hy) as [_ Hpos]. unfold time_zero. specialize (Hpos Hst'). lia.
      * exists it. split_and!; try done. unfold releasable, time_zero.
        destruct (Htm _ _ Hx) as [_ Hpos]. specialize (Hpos Hst). lia.
  - intros j x Hj. unfold state_of.
    rewrite (H3 j x Hj).
    assert (x ∈ ord) as Hx by (by eapply elem_of_list_lookup_2).
    apply H1 in Hx as (it & Hx & Hst & Hrd).
    rewrite Hx. simpl. destruct (cb j); simpl; by rewrite ?Hst.
Qed.

Definition held (T : Z) (it : item) : Prop := ist it = SRun ∧ releaseAt it = T.
Lemma held_step b s x it o r it' T :
  Inv b s → objs s !! x = Some it → ichange s x it o r it' → held T it → before_timeout x T s o → held T it'.
Proof.
  intros HI Hx Hc [Hst Hre] Hb.
  assert (Hnm : items s !! ikey it = Some x) by (apply (i_items HI); exists it; split_and!; congruence).
  destruct Hc; try done; try (by congruence); simpl in Hb; try (by rewrite Hnm in Hb).
  - destruct (changed_key_props old new it) as (E1 & _ & E2 & _). split; congruence.
  - unfold held, set_delay. destruct (_ =? _); [done|]. by rewrite Hst; simpl.
  - unfold held. rewrite resolve_cases. simpl. rewrite decide_False; [done|]. intros [? _]. congruence.
  - lia.
Qed.
Lemma held_run b s ops s' out x it T :
  Ok b s → good_run b s ops → run s ops = Some (s', out) → objs s !! x = Some it → held T it →
  always (before_timeout x T) s ops → ∃ it', objs s' !! x = Some it' ∧ held T it'.
Proof.
  revert s out it. induction ops as [|o ops IH]; intros s out it HO Hg Hr Hx Hw Ha.
  { simpl in Hr. injection Hr as <- <-. eauto. }
  apply run_cons in Hr as (s1 & r & e & out1 & Hs & Hr & ->).
  destruct (good_run_cons _ _ _ _ _ _ _ Hg Hs) as [Hg1 Hg2].
  destruct Ha as [Ha1 Ha2]. rewrite Hs in Ha2.
  destruct (ok_step _ _ _ _ _ _ HO Hg1 Hs) as [HO1 [[HI He]|(_ & _ & Ho & _)]].
  - destruct (eff_item _ _ _ _ _ _ _ _ HI He Hx) as (it1 & Hx1 & Hc).
    eapply IH; try done. by eapply held_step.
  - eapply IH; try done. congruence.
Qed.

Lemma not_timed_out_early t pre s now g w s1 x e ops s2 out it :
  history t pre s → step s (OReserve now g w) = Some (s1, RItem x, e) → objs s !! x = Some it →
  run s1 ops = Some (s2, out) →
  always clears_safely (q_new t) (pre ++ OReserve now g w :: ops) →
  always (before_timeout x (now + ittr it)) s1 ops →
  state_of s2 x = Some SRun.
Proof.
  intros [out0 Hh] Hs Hx Hr Ha Hb. apply always_app in Ha as [Ha1 Ha2].
  specialize (Ha2 _ _ Hh). destruct Ha2 as [Hc Ha2]. rewrite Hs in Ha2.
  assert (HO0 : Ok false s) by (eapply ok_hist; [by eexists|by apply good_run_false]).
  destruct (ok_step false s (OReserve now g w) _ _ _ HO0 I Hs) as [HO1 _].
  destruct (reserve_runs _ _ _ _ _ _ _ _ HO0 Hs) as (it0 & Hx0 & _ & _ & Hx1). simplify_eq.
  destruct (held_run false s1 ops s2 out x _ (now + ittr it) HO1 (good_run_false _ _ Ha2) Hr Hx1 ltac:(done) Hb)
    as (it2 & Hx2 & Hst & _).
  unfold state_of. rewrite Hx2. simpl. congruence.
Qed.
Lemma not_timed_out_early_touch t pre s now k s1 x e ops s2 out it :
  history t pre s → named s k x it → step s (OTouch now k) = Some (s1, ROk, e) →
  run s1 ops = Some (s2, out) →
  always clears_safely (q_new t) (pre ++ OTouch now k :: ops) →
  always (before_timeout x (now + ittr it)) s1 ops →
  state_of s2 x = Some SRun.
Proof.
  intros [out0 Hh] [Hk Hx] Hs Hr Ha Hb. apply always_app in Ha as [Ha1 Ha2].
  specialize (Ha2 _ _ Hh). destruct Ha2 as [Hc Ha2]. rewrite Hs in Ha2.
  assert (HO0 : Ok false s) by (eapply ok_hist; [by eexists|by apply good_run_false]).
  destruct (ok_step false s (OTouch now k) _ _ _ HO0 I Hs) as [HO1 [[HI He]|(_ & _ & _ & _ & Hr1 & _)]]; [|done].
  assert (∃ it', objs s1 !! x = Some it' ∧ held (now + ittr it) it') as (it' & Hx' & Hw).
  { inversion He; subst; [done|]. simplify_eq. match goal with H : objs s1 = _ |- _ => rewrite H end.
    rewrite lookup_alter, Hx. eexists. split; [done|]. by split. }
  destruct (held_run false s1 ops s2 out x _ (now + ittr it) HO1 (good_run_false _ _ Ha2) Hr Hx' Hw Hb)
    as (it2 & Hx2 & Hst & _).
  unfold state_of. rewrite Hx2. simpl. congruence.
Qed.
