(** Proofs about the counters and the notifications. *)
From Coq Require Import ZArith Lia String.
From stdpp Require Import base option strings gmap list.
From RecordUpdate Require Import RecordSet.
From Verif Require Import GoHeap GoHeapProofs QueueModel QueueCore QueueInv QueueInvAdd
  QueueInvUpd QueueInvRem QueueInvTick QueueEff QueueItem QueueFrame QueueSpec QueueProofs QueueProofs2
  QueueProofs3.
Import RecordSetNotations.
Open Scope Z_scope.

(** ** C14 *)
Lemma kick_moves b s k s' x e :
  Ok b s → step s (OKick k) = Some (s', ROk, e) → items s !! k = Some x →
  ∃ it, objs s !! x = Some it ∧ ist it = SBury ∧
    objs s' !! x = Some ((if item_has_deps x s then switch_bury_dependent else switch_bury_ready) it).
Proof.
  intros HO Hs Hk. destruct (ok_step b s (OKick k) s' ROk e HO I Hs) as [_ [[HI He]|(HD & _ & _ & _ & Hr & _)]]; [|done].
  inversion He; subst; [done|]. simplify_eq. exists it. split_and!; try done.
  match goal with H : objs s' = _ |- _ => rewrite H end. rewrite lookup_alter.
  match goal with H : objs s !! x = _ |- _ => by rewrite H end.
Qed.

Lemma quad_eq (a b c d a' b' c' d' : N) :
  a = a' → b = b' → c = c' → d = d' → (a, b, c, d) = (a', b', c', d').
Proof. by intros -> -> -> ->. Qed.
Ltac quad := apply quad_eq; lia.

(** the counters that property C14 is about *)
Definition counters (it : item) : N * N * N * N :=
  (nreserves it, nkicks it, nburies it, nreleases it + ntimeouts it)%N.

Lemma prop_change_counters now g prio delay ttr added it :
  counters (prop_change now g prio delay ttr added it) = counters it.
Proof.
  unfold prop_change. destruct (negb _); [by destruct (ist it)|].
  destruct (_ || _); [done|]. destruct (negb _); [|done]. by destruct (ist it).
Qed.
Lemma updated_counters now g d prio delay ttr deps it :
  (deps = Some [] → iremain it ≠ ∅ → ist it = SDep) →
  counters (updated now g d prio delay ttr deps it) =
  (nreserves it, nkicks it, nburies it, nreleases it + ntimeouts it +
    if1 (bool_decide (ist it = SRun ∧ ist (updated now g d prio delay ttr deps it) = SDep)))%N.
Proof.
  intros Hg. rewrite updated_ist. unfold updated, dep_part. destruct deps as [[|d0 ds]|].
  - assert (Hn : bool_decide (ist it = SRun ∧ (if bool_decide (iremain it = ∅) then ist it else SReady) = SDep) = false).
    { apply bool_decide_false. intros [H1 H2]. rewrite H1 in H2. by destruct (bool_decide _). }
    rewrite Hn. simpl. destruct (dep_changed [] _); rewrite prop_change_counters; unfold counters; simpl; by rewrite N.add_0_r.
  - assert (dep_changed (d0 :: ds) (it <| idata := d |>) = dep_changed (d0 :: ds) it) as -> by done.
    destruct (dep_changed (d0 :: ds) it); rewrite prop_change_counters.
    + unfold dep_change. change (ist (it <| idata := d |>)) with (ist it).
      destruct (ist it) eqn:E; unfold counters; simpl; rewrite ?bool_decide_true by done;
        rewrite ?bool_decide_false by naive_solver; simpl; f_equal; lia.
    + rewrite bool_decide_false by naive_solver congruence. unfold counters; simpl. by rewrite N.add_0_r.
  - rewrite prop_change_counters, bool_decide_false by naive_solver congruence. unfold counters; simpl. by rewrite N.add_0_r.
Qed.

Definition deltas (x : nat) (s : qstate) (o : op) (r : qres) : N * N * N * N :=
  (reserves_of x s o r, kicks_of x s o r, moves_of x SRun SBury s o r, given_up x s o r).
Definition plus4 (a b : N * N * N * N) : N * N * N * N :=
  let '(a1, a2, a3, a4) := a in let '(b1, b2, b3, b4) := b in (a1 + b1, a2 + b2, a3 + b3, a4 + b4)%N.
Lemma plus4_0 a : plus4 a (0,0,0,0)%N = a.
Proof. destruct a as [[[??]?]?]. simpl. by rewrite !N.add_0_r. Qed.

Lemma moves_eq x from to s o r s' r' e it it' :
  step s o = Some (s', r', e) → objs s !! x = Some it → objs s' !! x = Some it' →
  moves_of x from to s o r = if1 (bool_decide (ist it = from ∧ ist it' = to)).
Proof.
  intros Hs Hx Hx'. unfold moves_of, state_of. rewrite Hs, Hx, Hx'. simpl. f_equal.
  apply bool_decide_ext. naive_solver.
Qed.


Lemma no_move it it' from to : ist it' = ist it → from ≠ to → if1 (bool_decide (ist it = from ∧ ist it' = to)) = 0%N.
Proof. intros H1 H2. rewrite bool_decide_false; [done|]. intros [??]. congruence. Qed.
Lemma not_from it it' from to : ist it ≠ from → if1 (bool_decide (ist it = from ∧ ist it' = to)) = 0%N.
Proof. intros H1. rewrite bool_decide_false; [done|]. intros [??]. congruence. Qed.
Lemma not_to it it' from to : ist it' ≠ to → if1 (bool_decide (ist it = from ∧ ist it' = to)) = 0%N.
Proof. intros H1. rewrite bool_decide_false; [done|]. intros [??]. congruence. Qed.

Lemma if1_false (P : Prop) `{Decision P} : ¬ P → if1 (bool_decide P) = 0%N.
Proof. intros H1. by rewrite bool_decide_false. Qed.
Ltac no_moves := rewrite ?if1_false by (intros [??]; congruence).

Lemma same_deltas o it it' :
  ist it' = ist it → counters it' = counters it →
  counters it' = plus4 (counters it) (0, 0, if1 (bool_decide (ist it = SRun ∧ ist it' = SBury)),
    if1 (bool_decide (ist it = SRun ∧ ist it' = SReady)) + if1 (bool_decide (ist it = SRun ∧ ist it' = SDelay)) +
    if1 (bool_decide (ist it = SRun ∧ ist it' = SDep)) +
    match o with OTickTTR _ _ => if1 (bool_decide (ist it = SRun ∧ ist it' = SBury)) | _ => 0 end)%N.
Proof.
  intros Hi Hc. rewrite !no_move by done.
  assert (match o with OTickTTR _ _ => 0%N | _ => 0%N end = 0%N) as -> by (by destruct o).
  by rewrite plus4_0.
Qed.
Lemma from_deltas o it it' c :
  ist it ≠ SRun →
  plus4 (counters it) (c, if1 (bool_decide (ist it = SRun ∧ ist it' = SBury)),
    if1 (bool_decide (ist it = SRun ∧ ist it' = SReady)) + if1 (bool_decide (ist it = SRun ∧ ist it' = SDelay)) +
    if1 (bool_decide (ist it = SRun ∧ ist it' = SDep)) +
    match o with OTickTTR _ _ => if1 (bool_decide (ist it = SRun ∧ ist it' = SBury)) | _ => 0 end)%N =
  plus4 (counters it) (c, 0, 0)%N.
Proof.
  intros Hi. rewrite !not_from by done.
  assert (match o with OTickTTR _ _ => 0%N | _ => 0%N end = 0%N) as -> by (by destruct o). done.
Qed.

Lemma counters_step b s o s' r e x it it' :
  Ok b s → good b s o → step s o = Some (s', r, e) → objs s !! x = Some it → objs s' !! x = Some it' →
  counters it' = plus4 (counters it) (deltas x s o r).
Proof.
  intros HO Hg Hs Hx Hx'.
  destruct (ok_item b s o s' r e x it HO Hg Hs Hx) as (it1 & Hx1 & Hc). simplify_eq.
  pose proof (λ f t, moves_eq x f t s o r s' r e it it' Hs Hx Hx') as Hm.
  unfold deltas, given_up. rewrite !Hm. clear Hm.
  assert (Hres : ∀ now g w, o = OReserve now g w → r = RItem x → ist it = SReady ∧ ist it' = SRun).
  { intros now g w -> ->. destruct (reserve_runs b s now g w s' x e HO Hs) as (it0 & H0 & H1 & _ & H2).
    simplify_eq. done. }
  assert (Hkick : ∀ k, o = OKick k → r = ROk → items s !! k = Some x → ist it = SBury ∧ ist it' ≠ SBury).
  { intros k -> -> Hk. destruct (kick_moves b s k s' x e HO Hs Hk) as (it0 & H0 & H1 & H2).
    simplify_eq. split; [done|]. by destruct (item_has_deps x s). }
  assert (Hsame : ist it' = ist it → counters it' = counters it →
    counters it' = plus4 (counters it) (reserves_of x s o r, kicks_of x s o r, if1 (bool_decide (ist it = SRun ∧ ist it' = SBury)),
    if1 (bool_decide (ist it = SRun ∧ ist it' = SReady)) + if1 (bool_decide (ist it = SRun ∧ ist it' = SDelay)) +
    if1 (bool_decide (ist it = SRun ∧ ist it' = SDep)) +
    match o with OTickTTR _ _ => if1 (bool_decide (ist it = SRun ∧ ist it' = SBury)) | _ => 0 end)%N).
  { intros Hi Hcn. assert (reserves_of x s o r = 0%N) as ->.
    { destruct o; simpl; try done. rewrite bool_decide_false; [done|]. intros ->.
      destruct (Hres now g retry eq_refl eq_refl) as [??]. congruence. }
    assert (kicks_of x s o r = 0%N) as ->.
    { destruct o; simpl; try done. rewrite bool_decide_false; [done|]. intros [-> Hk].
      destruct (Hkick k eq_refl eq_refl Hk) as [??]. congruence. }
    by apply same_deltas. }
  destruct (ok_step b s o s' r e HO Hg Hs) as [_ [[HI He]|(_ & _ & Ho & _)]];
    [|apply Hsame; congruence].
  assert (Hlive : ist it ≠ SRemoved → items s !! ikey it = Some x).
  { intros Hl. apply (i_items HI); by exists it. }
  clear Hg Hs He HO Hkick Hres. destruct Hc; simpl in Hsame |- *.
  - by apply Hsame.
  - rewrite updated_counters by done.
    set (it' := updated now g d prio delay ttr deps it) in *.
    assert (Hto : ist it = SRun → ist it' = SRun ∨ ist it' = SDep).
    { intros Hr. unfold it'. rewrite updated_ist, Hr. destruct deps as [[|d0 ds]|]; auto.
      - destruct (decide (iremain it = ∅)) as [Hn|Hn]; [rewrite bool_decide_true by done; by left|].
        rewrite H0 in Hr by done. done.
      - destruct (dep_changed _ _); auto. }
    destruct (decide (ist it = SRun)) as [Hr|Hr].
    + rewrite !(not_to it it' SRun SBury), !(not_to it it' SRun SReady), !(not_to it it' SRun SDelay)
        by (destruct (Hto Hr); congruence).
      unfold counters. simpl. quad.
    + rewrite !not_from by done. unfold counters. simpl. quad.
  - destruct (changed_key_props old new it) as (E1 & _ & _ & _ & E2 & E3 & E4 & E5 & E6).
    apply Hsame; [done|]. unfold counters. congruence.
  - apply Hsame; [apply set_delay_ist|]. unfold set_delay. destruct (_ =? _); [done|]. by destruct (ist it).
  - by apply Hsame.
  - rewrite bool_decide_true by done. no_moves. unfold counters. simpl.
    quad.
  - by apply Hsame.
  - unfold released. destruct (idelay it =? 0); rewrite !H; unfold counters; simpl; quad.
  - rewrite !H. unfold counters. simpl. quad.
  - rewrite bool_decide_true by (split; [done|]; apply Hlive; congruence).
    no_moves. unfold counters.
    destruct (item_has_deps x s); simpl; quad.
  - no_moves. destruct H0 as [->| ->]; rewrite ?resolve_cases; unfold counters; simpl; quad.
  - destruct (decide (ist it = SRun)) as [Hr|Hr].
    + apply Hsame; rewrite resolve_cases; simpl; [|done]. rewrite decide_False; [done|]. intros [? _]. congruence.
    + no_moves. rewrite resolve_cases. unfold counters; simpl; quad.
  - no_moves. unfold counters; simpl; quad.
  - destruct (cb j); simpl; rewrite !H; unfold counters; simpl;
      quad.
Qed.

Definition tallies (x : nat) (s : qstate) (ops : list op) : N * N * N * N :=
  (tally (reserves_of x) s ops, tally (kicks_of x) s ops, tally (moves_of x SRun SBury) s ops,
   tally (given_up x) s ops).
Lemma counters_run b s ops s' out x it it' :
  Ok b s → good_run b s ops → run s ops = Some (s', out) → objs s !! x = Some it → objs s' !! x = Some it' →
  counters it' = plus4 (counters it) (tallies x s ops).
Proof.
  revert s out it. induction ops as [|o ops IH]; intros s out it HO Hg Hr Hx Hx'.
  { simpl in Hr. injection Hr as <- <-. simplify_eq. unfold tallies, counters. simpl. quad. }
  apply run_cons in Hr as (s1 & r & e & out1 & Hs & Hr & ->).
  destruct (good_run_cons _ _ _ _ _ _ _ Hg Hs) as [Hg1 Hg2].
  destruct (ok_item b s o s1 r e x it HO Hg1 Hs Hx) as (it1 & Hx1 & _).
  destruct (ok_step b s o s1 r e HO Hg1 Hs) as [HO1 _].
  rewrite (IH s1 out1 it1 HO1 Hg2 Hr Hx1 Hx').
  rewrite (counters_step b s o s1 r e x it it1 HO Hg1 Hs Hx Hx1).
  unfold tallies, deltas. cbn [tally]. rewrite Hs. unfold counters. simpl.
  quad.
Qed.

Lemma counted t pre s o s1 r e ops s2 out x it0 it :
  history t pre s → step s o = Some (s1, r, e) → objs s1 !! x = Some it0 →
  run s1 ops = Some (s2, out) → objs s2 !! x = Some it →
  always clears_safely (q_new t) (pre ++ o :: ops) →
  (nreserves it = nreserves it0 + tally (reserves_of x) s1 ops)%N ∧
  (nkicks it = nkicks it0 + tally (kicks_of x) s1 ops)%N ∧
  (nburies it = nburies it0 + tally (moves_of x SRun SBury) s1 ops)%N ∧
  (nreleases it + ntimeouts it = nreleases it0 + ntimeouts it0 + tally (given_up x) s1 ops)%N.
Proof.
  intros [out0 Hh] Hs Hx Hr Hx' Ha. apply always_app in Ha as [Ha1 Ha2].
  specialize (Ha2 _ _ Hh). destruct Ha2 as [Hc Ha2]. rewrite Hs in Ha2.
  assert (HO0 : Ok false s) by (eapply ok_hist; [by eexists|by apply good_run_false]).
  destruct (ok_step false s o s1 r e HO0 (good_false _ _ Hc) Hs) as [HO1 _].
  pose proof (counters_run false s1 ops s2 out x it0 it HO1 (good_run_false _ _ Ha2) Hr Hx Hx') as H.
  unfold counters, tallies in H. simpl in H. injection H as H1 H2 H3 H4. done.
Qed.

Lemma counted_add s now k g d prio size delay ttr start deps s1 x e t pre :
  history t pre s → always clears_safely (q_new t) pre →
  step s (OAdd now k g d prio size delay ttr start deps) = Some (s1, RItem x, e) →
  ∃ it, objs s1 !! x = Some it ∧ nkicks it = 0%N ∧ nreleases it = 0%N ∧ ntimeouts it = 0%N ∧
    nreserves it = match start, deps with StartRun, [] => 1%N | _, _ => 0%N end ∧
    nburies it = match start, deps with StartBury, [] => 1%N | _, _ => 0%N end.
Proof.
  intros Hh Ha Hs. assert (HO : Ok false s) by (eapply ok_hist; [exact Hh|by apply good_run_false]).
  destruct (ok_step false s (OAdd now k g d prio size delay ttr start deps) _ _ _ HO I Hs)
    as [_ [[HI He]|(_ & _ & _ & _ & Hr1 & _)]]; [|done].
  inversion He; subst; [done|]. match goal with H : objs s1 = _ |- _ => rewrite H end.
  rewrite lookup_insert. eexists. split; [done|]. unfold added_item. destruct deps, start; simpl; try done.
  by destruct (_ =? _).
Qed.

(** ** C15 *)
Definition sumZ (f : nat → Z) (l : list nat) : Z := fold_right (λ x n, f x + n) 0 l.
Lemma sumZ_app f l1 l2 : sumZ f (l1 ++ l2) = sumZ f l1 + sumZ f l2.
Proof. induction l1; simpl; lia. Qed.
Lemma sumZ_perm f l1 l2 : l1 ≡ₚ l2 → sumZ f l1 = sumZ f l2.
Proof. induction 1; simpl; lia. Qed.
Lemma sumZ_ext f g l : (∀ x, x ∈ l → f x = g x) → sumZ f l = sumZ g l.
Proof.
  induction l as [|x l IH]; intros H; simpl; [done|]. rewrite (H x) by (by left).
  rewrite IH; [done|]. intros y Hy. apply H. by right.
Qed.
Lemma sumZ_zero f l : (∀ x, x ∈ l → f x = 0) → sumZ f l = 0.
Proof. intros H. rewrite (sumZ_ext f (λ _, 0)) by done. clear H. induction l; simpl; lia. Qed.
Lemma sumZ_add f g l : sumZ (λ x, f x + g x) l = sumZ f l + sumZ g l.
Proof. induction l; simpl; lia. Qed.
Lemma sumZ_sub f g l : sumZ (λ x, f x - g x) l = sumZ f l - sumZ g l.
Proof. induction l; simpl; lia. Qed.
Lemma sumZ_const f c l : (∀ x, x ∈ l → f x = c) → sumZ f l = Z.of_nat (length l) * c.
Proof. intros H. rewrite (sumZ_ext f (λ _, c)) by done. clear H. induction l; simpl; lia. Qed.
Lemma sumZ_support f n L :
  NoDup L → (∀ x, x ∈ L → (x < n)%nat) → (∀ x, (x < n)%nat → x ∉ L → f x = 0) → sumZ f (seq 0 n) = sumZ f L.
Proof.
  intros Hnd Hlt H0.
  assert (Hs : ∀ l, sumZ f l = sumZ f (filter (λ x, x ∈ L) l) + sumZ f (filter (λ x, x ∉ L) l)).
  { induction l as [|x l IH]; [done|]. rewrite !filter_cons. destruct (decide (x ∈ L)) as [Hx|Hx].
    - rewrite decide_False by naive_solver. simpl. lia.
    - rewrite decide_True by done. simpl. lia. }
  rewrite Hs, (sumZ_zero f (filter (λ x, x ∉ L) _)).
  - rewrite Z.add_0_r. apply sumZ_perm. apply NoDup_Permutation; [apply NoDup_filter, NoDup_seq|done|].
    intros x. rewrite elem_of_list_filter, elem_of_seq. split; [naive_solver|]. intros Hx. split; [done|].
    specialize (Hlt x Hx). lia.
  - intros x Hx. apply elem_of_list_filter in Hx as [Hx Hs']. apply elem_of_seq in Hs'. apply H0; [lia|done].
Qed.

Definition ind (q : istate) (st : option istate) : Z := if decide (st = Some q) then 1 else 0.
Definition cnt (q : istate) (s : qstate) (n : nat) : Z := sumZ (λ x, ind q (state_of s x)) (seq 0 n).

Lemma cnt_holding b s q :
  Inv b s → q ≠ SRemoved → Z.of_nat (length (holding s q)) = cnt q s (nextid s).
Proof.
  intros HI Hq. unfold cnt.
  rewrite (sumZ_support _ (nextid s) (holding s q)).
  - rewrite (sumZ_const _ 1); [lia|]. intros x Hx.
    apply (holding_in b s q x (i_core HI)) in Hx as (it & Hx & Hst & _).
    unfold ind, state_of. rewrite Hx. simpl. by rewrite decide_True by congruence.
  - eapply holding_nodup. apply (i_core HI).
  - intros x Hx. apply (holding_in b s q x (i_core HI)) in Hx as (it & Hx & Hst & _).
    apply (i_ids HI). by eexists.
  - intros x _ Hx. unfold ind. rewrite decide_False; [done|]. intros Hst. apply Hx.
    apply (holding_in b s q x (i_core HI)). unfold state_of in Hst.
    destruct (objs s !! x) as [it|]; [|done]. simpl in Hst. exists it. split_and!; congruence.
Qed.
Lemma cnt_more b s q n : Inv b s → (nextid s ≤ n)%nat → cnt q s n = cnt q s (nextid s).
Proof.
  intros HI Hn. unfold cnt. replace n with (nextid s + (n - nextid s))%nat by lia.
  rewrite seq_app, sumZ_app, (sumZ_zero _ (seq (0 + nextid s) _)); [lia|].
  intros x Hx. apply elem_of_seq in Hx. unfold ind, state_of.
  destruct (objs s !! x) as [it|] eqn:E; [|done]. assert (x < nextid s)%nat by (apply (i_ids HI); by eexists). lia.
Qed.

(** the change of the count, from the items that changed *)
Lemma cnt_diff b s s' q L :
  Inv b s → (nextid s ≤ nextid s')%nat → NoDup L → (∀ x, x ∈ L → (x < nextid s')%nat) →
  (∀ x, x ∉ L → ind q (state_of s' x) = ind q (state_of s x)) →
  cnt q s' (nextid s') - cnt q s (nextid s) = sumZ (λ x, ind q (state_of s' x) - ind q (state_of s x)) L.
Proof.
  intros HI Hn Hnd Hlt H0. rewrite <- (cnt_more b s q (nextid s')) by done. unfold cnt.
  rewrite <- sumZ_sub. apply sumZ_support; [done|done|]. intros x _ Hx. rewrite H0 by done. lia.
Qed.
Lemma cnt_one b s s' q x :
  Inv b s → (nextid s ≤ nextid s')%nat → (x < nextid s')%nat →
  (∀ y, y ≠ x → objs s' !! y = objs s !! y) →
  cnt q s' (nextid s') - cnt q s (nextid s) = ind q (state_of s' x) - ind q (state_of s x).
Proof.
  intros HI Hn Hx H0. rewrite (cnt_diff b s s' q [x]); [simpl; lia|done|done| | |].
  - apply NoDup_singleton.
  - intros y Hy%elem_of_list_singleton. by subst.
  - intros y Hy. rewrite elem_of_list_singleton in Hy. unfold state_of. by rewrite H0.
Qed.
Lemma cnt_same b s s' q :
  Inv b s → nextid s' = nextid s → (∀ y, state_of s' y = state_of s y) →
  cnt q s' (nextid s') - cnt q s (nextid s) = 0.
Proof.
  intros HI Hn H0. rewrite (cnt_diff b s s' q []); [done|done|lia|constructor| |].
  - intros y Hy. by apply elem_of_nil in Hy.
  - intros y _. by rewrite H0.
Qed.

Lemma hears_ev q s f t l : hears q (ev s f t l) =
  Z.of_nat (length l) * ((if decide (t = q) then 1 else 0) - (if decide (f = q) then 1 else 0)).
Proof. unfold hears, ev. rewrite fmap_length. destruct (decide (t = q)), (decide (f = q)); lia. Qed.
Lemma heard_app q a b : heard q (a ++ b) = heard q a + heard q b.
Proof. unfold heard. induction a as [|x a IH]; simpl; [done|]. lia. Qed.
Lemma heard_one q s f t l : heard q [ev s f t l] =
  Z.of_nat (length l) * ((if decide (t = q) then 1 else 0) - (if decide (f = q) then 1 else 0)).
Proof. change (heard q [ev s f t l]) with (hears q (ev s f t l) + 0). rewrite hears_ev. lia. Qed.
Lemma heard_match q s f t l : heard q (match l with [] => [] | _ => [ev s f t l] end) =
  Z.of_nat (length l) * ((if decide (t = q) then 1 else 0) - (if decide (f = q) then 1 else 0)).
Proof. destruct l; [done|]. by rewrite heard_one. Qed.
Local Arguments heard : simpl never.
(** a sub-queue's name says when a state counts *)
Lemma ind_name q st : q ≠ SRemoved → ind q (Some st) = if decide (sub_of st = name_of q) then 1 else 0.
Proof. intros Hq. unfold ind. by destruct st, q. Qed.
Lemma not_new q : QNew ≠ name_of q.
Proof. by destruct q. Qed.

Lemma dep_changed_data ds d it : dep_changed ds (it <| idata := d |>) = dep_changed ds it.
Proof. done. Qed.
Lemma dep_changed_nil it : dep_changed [] it = negb (bool_decide (iremain it = ∅)).
Proof. unfold dep_changed, deps_diff. simpl. by rewrite andb_true_r. Qed.

(** what listeners hear from an Update *)
Lemma heard_update q s' x now g d prio delay ttr deps it :
  q ≠ SRemoved → ist it ≠ SRemoved → (deps = Some [] → iremain it ≠ ∅ → ist it = SDep) →
  heard (name_of q) (upd_events s' x (dep_part deps (it <| idata := d |>))) =
  ind q (Some (ist (updated now g d prio delay ttr deps it))) - ind q (Some (ist it)).
Proof.
  intros Hq Hl Hg. rewrite !ind_name by done. rewrite updated_ist. unfold dep_part, upd_events.
  destruct deps as [[|d0 ds]|].
  - rewrite dep_changed_data, dep_changed_nil. destruct (decide (iremain it = ∅)) as [Hr|Hr].
    + rewrite bool_decide_true by done. simpl. change (heard (name_of q) []) with 0. lia.
    + rewrite bool_decide_false by done. cbn [negb fst snd dep_from app]. rewrite heard_one.
      rewrite (Hg eq_refl Hr). cbn [sub_of length]. lia.
  - rewrite dep_changed_data. destruct (dep_changed (d0 :: ds) it).
    + cbn [fst snd app]. unfold dep_from. change (ist (it <| idata := d |>)) with (ist it).
      destruct (ist it); rewrite ?heard_one; cbn [sub_of length]; change (heard (name_of q) []) with 0; lia.
    + simpl. change (heard (name_of q) []) with 0. lia.
  - simpl. change (heard (name_of q) []) with 0. lia.
Qed.

Lemma heard_newly b s s' q now ds :
  Inv b s → Inv b s' → abs_of s' = abs_adds now ds (abs_of s) → q ≠ SRemoved →
  heard (name_of q)
    (ev_if s' QReady (newly SReady s s') ++ ev_if s' QDelay (newly SDelay s s') ++
     ev_if s' QDep (newly SDep s s') ++ ev_if s' QRun (newly SRun s s') ++
     ev_if s' QBury (newly SBury s s')) =
  sumZ (λ x, ind q (state_of s' x)) (seq (nextid s) (nextid s' - nextid s)).
Proof.
  intros HI HI' Ha Hq.
  assert (Hone : ∀ st, st ≠ SRemoved → heard (name_of q) (ev_if s' (sub_of st) (newly st s s')) =
     if decide (st = q) then Z.of_nat (length (newly q s s')) else 0).
  { intros st Hst. unfold ev_if. rewrite heard_match, (decide_False (P:=QNew = name_of q)) by apply not_new.
    destruct (decide (st = q)) as [->|Hne].
    - rewrite decide_True by (by destruct q). lia.
    - rewrite decide_False by (by destruct st, q). lia. }
  pose proof (Hone SReady ltac:(done)) as E1. pose proof (Hone SDelay ltac:(done)) as E2.
  pose proof (Hone SDep ltac:(done)) as E3. pose proof (Hone SRun ltac:(done)) as E4.
  pose proof (Hone SBury ltac:(done)) as E5. cbn [sub_of] in E1, E2, E3, E4, E5.
  rewrite !heard_app, E1, E2, E3, E4, E5.
  assert (Hsum : sumZ (λ x, ind q (state_of s' x)) (seq (nextid s) (nextid s' - nextid s)) = Z.of_nat (length (newly q s s'))).
  { unfold newly. assert (Hex : ∀ x, x ∈ seq (nextid s) (nextid s' - nextid s) → is_Some (objs s' !! x)).
    { intros x Hx%elem_of_seq. apply (i_ids HI'). lia. }
    induction (seq (nextid s) (nextid s' - nextid s)) as [|x l IH]; [done|]. cbn [sumZ fold_right].
    rewrite filter_cons. fold (sumZ (λ x, ind q (state_of s' x)) l). rewrite IH by (intros y Hy; apply Hex; by right).
    destruct (Hex x) as [it Hx]; [by left|]. unfold ind, state_of, obj. rewrite Hx. simpl.
    destruct (decide (ist it = q)) as [->|Hne].
    - rewrite decide_True by done. simpl length. lia.
    - rewrite decide_False by congruence. lia. }
  rewrite Hsum. destruct q; simpl; try done; lia.
Qed.

Lemma picks_sum q cb g ord i :
  q ≠ SRemoved →
  (∀ j y, ord !! j = Some y → g y = ind q (Some (ttr_state (cb (i + j)%nat))) - ind q (Some SRun)) →
  sumZ g ord =
   Z.of_nat (length (picks ToDelay cb i ord)) * (ind q (Some SDelay) - ind q (Some SRun)) +
   Z.of_nat (length (picks ToBury cb i ord)) * (ind q (Some SBury) - ind q (Some SRun)) +
   Z.of_nat (length (picks ToReady cb i ord)) * (ind q (Some SReady) - ind q (Some SRun)).
Proof.
  intros Hq. revert i. induction ord as [|x ord IH]; intros i Hg; [done|].
  cbn [sumZ fold_right picks]. fold (sumZ g ord). rewrite (IH (S i)).
  - rewrite (Hg 0%nat x eq_refl). replace (i + 0)%nat with i by lia. rewrite !app_length.
    destruct (cb i); simpl; lia.
  - intros j y Hj. rewrite (Hg (S j) y Hj). by replace (i + S j)%nat with (S i + j)%nat by lia.
Qed.

Lemma heard_step b s o s' r e q :
  Inv b s → Inv b s' → eff b s o s' r e → q ≠ SRemoved → o ≠ ODestroy →
  heard (name_of q) e = cnt q s' (nextid s') - cnt q s (nextid s).
Proof.
  intros HI HI' He Hq Hnd.
  assert (Hlt : ∀ x it, objs s !! x = Some it → (x < nextid s)%nat).
  { intros x it Hx. apply (i_ids HI). by eexists. }
  assert (Halt : ∀ f x, objs s' = alter f x (objs s) → ∀ y, y ≠ x → objs s' !! y = objs s !! y).
  { intros f x Ho y Hy. rewrite Ho. by rewrite lookup_alter_ne. }
  assert (Hsame : objs s' = objs s → nextid s' = nextid s → 0 = cnt q s' (nextid s') - cnt q s (nextid s)).
  { intros Ho Hn. rewrite (cnt_same b s s' q HI Hn); [done|]. intros y. unfold state_of. congruence. }
  assert (Hkeep : ∀ f x it, objs s !! x = Some it → objs s' = alter f x (objs s) → nextid s' = nextid s →
     ist (f it) = ist it → 0 = cnt q s' (nextid s') - cnt q s (nextid s)).
  { intros f x it Hx Ho Hn Hf. rewrite (cnt_same b s s' q HI Hn); [done|]. intros y. unfold state_of. rewrite Ho.
    destruct (decide (y = x)) as [->|Hne]; [|by rewrite lookup_alter_ne].
    rewrite lookup_alter, Hx. simpl. congruence. }
  assert (Hmove : ∀ f x it t, objs s !! x = Some it → objs s' = alter f x (objs s) → nextid s' = nextid s →
     ist (f it) = t →
     cnt q s' (nextid s') - cnt q s (nextid s) = ind q (Some t) - ind q (Some (ist it))).
  { intros f x it t Hx Ho Hn Hf. rewrite (cnt_one b s s' q x); [|done|lia|rewrite Hn; by eapply Hlt|by eapply Halt].
    unfold state_of. rewrite Ho, lookup_alter, Hx. simpl. congruence. }
  destruct He.
  - destruct H0 as (_ & _ & Hn & _). by apply Hsame.
  - by apply Hsame.
  - by apply Hsame.
  - rewrite (cnt_one b s s' q (nextid s)); [|done|lia|lia|].
    + unfold state_of. rewrite H1, lookup_insert. simpl. rewrite heard_one.
      assert (objs s !! nextid s = None) as ->.
      { destruct (objs s !! nextid s) as [it0|] eqn:E; [|done]. apply Hlt in E. lia. }
      rewrite (decide_False (P:=QNew = name_of q)) by apply not_new. rewrite ind_name by done.
      simpl. change (ind q None) with 0. lia.
    + intros y Hy. rewrite H1. by rewrite lookup_insert_ne by done.
  - assert (Hn : (nextid s ≤ nextid s')%nat).
    { destruct (abs_adds_le now ds (abs_of s)) as [Hn _]. rewrite <- H in Hn. by simpl in Hn. }
    rewrite (heard_newly b s s' q now ds) by done.
    rewrite (cnt_diff b s s' q (seq (nextid s) (nextid s' - nextid s))).
    + apply sumZ_ext. intros x Hx%elem_of_seq. unfold state_of at 3.
      assert (objs s !! x = None) as ->.
      { destruct (objs s !! x) as [it0|] eqn:E; [|done]. apply Hlt in E. lia. }
      simpl. unfold ind at 3. simpl. lia.
    + done.
    + done.
    + apply NoDup_seq.
    + intros x Hx%elem_of_seq. lia.
    + intros x Hx. rewrite elem_of_seq in Hx. f_equal. unfold state_of. f_equal.
      destruct (decide (x < nextid s)%nat) as [Hlt'|Hge].
      * destruct (abs_adds_old now ds (abs_of s) x) as [Ho _]; [done|].
        rewrite <- H in Ho. done.
      * assert (objs s !! x = None) as ->.
        { destruct (objs s !! x) as [it0|] eqn:E; [|done]. apply Hlt in E. lia. }
        destruct (objs s' !! x) as [it0|] eqn:E; [|done].
        assert (x < nextid s')%nat by (apply (i_ids HI'); by eexists). lia.
  - rewrite (heard_update q s' x now g d prio delay ttr deps it) by done.
    rewrite (cnt_one b s s' q x); [|done|lia|rewrite H6; by eapply Hlt|].
    + unfold state_of. rewrite H4, lookup_insert, H0. done.
    + intros y Hy. rewrite H4. by rewrite lookup_insert_ne by done.
  - rewrite (cnt_same b s s' q HI); [done|done|]. intros y. unfold state_of. rewrite H1, lookup_fmap.
    destruct (objs s !! y) as [it|]; [|done]. simpl. unfold rekey. case_decide; [done|]. by rewrite changed_key_ist.
  - destruct H3 as (_ & _ & Hn & _). apply (Hkeep _ x it H0 H2 Hn). simpl. destruct (_ =? _); [done|]. by destruct (ist it) eqn:E; simpl; rewrite ?E.
  - destruct H3 as (_ & _ & Hn & _). by apply (Hkeep _ x it H0 H2 Hn).
  - destruct H4 as (_ & _ & Hn & _). rewrite (Hmove _ x it SRun H H3 Hn eq_refl), heard_one, !ind_name, H0 by done.
    simpl. lia.
  - destruct H3 as (_ & _ & Hn & _). by apply (Hkeep _ x it H0 H2 Hn).
  - destruct H3 as (_ & _ & Hn & _).
    rewrite (Hmove _ x it (if idelay it =? 0 then SReady else SDelay) H0 H2 Hn), heard_one, !ind_name, H1 by (try done; by destruct (_ =? _)).
    destruct (idelay it =? 0); simpl; lia.
  - destruct H3 as (_ & _ & Hn & _). rewrite (Hmove _ x it SBury H0 H2 Hn eq_refl), heard_one, !ind_name, H1 by done.
    simpl. lia.
  - destruct H3 as (_ & _ & Hn & _).
    rewrite (Hmove _ x it (if item_has_deps x s then SDep else SReady) H0 H2 Hn), heard_one, !ind_name, H1 by (try done; by destruct (item_has_deps x s)).
    destruct (item_has_deps x s); simpl; lia.
  - (* Remove *)
    set (mid := λ y, (λ i, if decide (y ∈ vals m) then ist (resolve k i) else ist i) <$> objs s !! y).
    assert (Hmid : ∀ y, y ≠ x → state_of s' y = mid y).
    { intros y Hy. unfold state_of, mid. rewrite H5, lookup_alter_ne, resolve_all_lookup by done.
      destruct (objs s !! y); simpl; by destruct (decide (y ∈ vals m)). }
    assert (Hmx : mid x = Some (ist it')).
    { unfold mid. rewrite H0. simpl. subst it'. by destruct (decide (x ∈ vals m)). }
    assert (Hsx : state_of s' x = Some SRemoved).
    { unfold state_of. rewrite H5, lookup_alter, resolve_all_lookup, H0. by destruct (decide (x ∈ vals m)). }
    assert (Hxl : (x < nextid s)%nat) by (by eapply Hlt).
    assert (H1' : sumZ (λ y, ind q (state_of s' y) - ind q (mid y)) (seq 0 (nextid s)) = heard (name_of q) [ev s' (sub_of (ist it')) QRemoved [x]]).
    { rewrite (sumZ_support _ _ [x]); [|apply NoDup_singleton| |].
      - simpl. rewrite Hsx, Hmx, !ind_name by done. rewrite heard_one. simpl. lia.
      - intros y Hy%elem_of_list_singleton. by subst.
      - intros y _ Hy. rewrite elem_of_list_singleton in Hy. rewrite Hmid by done. lia. }
    assert (H2' : sumZ (λ y, ind q (mid y) - ind q (state_of s y)) (seq 0 (nextid s)) =
              heard (name_of q) (match added with [] => [] | _ => [ev s' QDep QReady added] end)).
    { rewrite heard_match. rewrite (sumZ_support _ _ added).
      - apply sumZ_const. intros y Hy. apply H11 in Hy as (Hv & i & Hi & Hf).
        unfold mid, state_of. rewrite Hi. simpl. rewrite decide_True by done. rewrite resolve_ist, decide_True by done.
        destruct Hf as [Hf _]. rewrite Hf. rewrite !ind_name by done. done.
      - done.
      - intros y Hy. apply H11 in Hy as (Hv & i & Hi & Hf). by eapply Hlt.
      - intros y _ Hy. enough (mid y = state_of s y) as -> by lia.
        unfold mid, state_of. destruct (objs s !! y) as [i|] eqn:Hi; [|done]. simpl. f_equal.
        destruct (decide (y ∈ vals m)) as [Hv|]; [|done]. rewrite resolve_ist. rewrite decide_False; [done|].
        intros Hf. apply Hy, H11. eauto. }
    rewrite heard_app, <- H1', <- H2', <- sumZ_add. unfold cnt. rewrite H7, <- sumZ_sub.
    apply sumZ_ext. intros y _. lia.
  - done.
  - destruct H as (_ & _ & Hn & _). rewrite heard_match, (cnt_diff b s s' q moved).
    + symmetry. apply sumZ_const. intros y Hy. unfold state_of. rewrite H2, decide_True by done.
      apply H1 in Hy as (it & Hy & Hst & _). rewrite Hy. simpl. rewrite Hst, !ind_name by done. done.
    + done.
    + lia.
    + done.
    + intros y Hy. apply H1 in Hy as (it & Hy & _). rewrite Hn. by eapply Hlt.
    + intros y Hy. unfold state_of. by rewrite H2, decide_False by done.
  - destruct H as (_ & _ & Hn & _).
    rewrite (cnt_diff b s s' q ord).
    + rewrite (picks_sum q cb _ ord 0); [|done|].
      * unfold ev_some. rewrite !heard_app, !heard_match, !ind_name by done. simpl sub_of. lia.
      * intros j y Hj. simpl. unfold state_of. rewrite (H3 j y Hj).
        assert (y ∈ ord) as Hy by (by eapply elem_of_list_lookup_2). apply H1 in Hy as (it & Hy & Hst & _).
        rewrite Hy. simpl. rewrite Hst. repeat f_equal. destruct (cb j); simpl; by rewrite ?Hst.
    + done.
    + lia.
    + done.
    + intros y Hy. apply H1 in Hy as (it & Hy & _). rewrite Hn. by eapply Hlt.
    + intros y Hy. unfold state_of. by rewrite H4 by done.
Qed.

Lemma dead_run s ops s' out : Dead s → run s ops = Some (s', out) → Dead s'.
Proof.
  revert s out. induction ops as [|o ops IH]; intros s out HD Hr.
  { simpl in Hr. by injection Hr as <- <-. }
  apply run_cons in Hr as (s1 & r & e & out1 & Hs & Hr & ->).
  destruct (dead_step s o HD) as (s2 & Hs2 & HD2 & _). rewrite Hs in Hs2. injection Hs2 as <- _ _. by eapply IH.
Qed.
Lemma heard_run b s ops s' out q :
  Inv b s → good_run b s ops → run s ops = Some (s', out) → closed s' = false → q ≠ SRemoved →
  Z.of_nat (length (holding s' q)) = Z.of_nat (length (holding s q)) + heard (name_of q) (concat (snd <$> out)).
Proof.
  revert s out. induction ops as [|o ops IH]; intros s out HI Hg Hr Hcl Hq.
  { simpl in Hr. injection Hr as <- <-. simpl. change (heard (name_of q) []) with 0. lia. }
  apply run_cons in Hr as (s1 & r & e & out1 & Hs & Hr & ->).
  destruct (good_run_cons _ _ _ _ _ _ _ Hg Hs) as [Hg1 Hg2].
  destruct (step_eff b s o s1 r e HI Hg1 Hs) as [He Hst].
  assert (¬ Dead s1) as Hnd.
  { intros HD. apply (dead_run _ _ _ _ HD) in Hr. by rewrite (dd_closed _ Hr) in Hcl. }
  destruct Hst as [HI1|[_ HD]]; [|done].
  rewrite (IH s1 out1 HI1 Hg2 Hr Hcl Hq). rewrite fmap_cons. cbn [concat snd]. rewrite heard_app.
  assert (o ≠ ODestroy) as Hno.
  { intros ->. destruct (destroy_empties s s1 r e (i_open HI) Hs) as (_ & _ & HE).
    pose proof (em_closed _ HE) as H. by rewrite (i_open HI1) in H. }
  rewrite (heard_step b s o s1 r e q) by done.
  rewrite !(cnt_holding b) by done. lia.
Qed.

Lemma heard_all t ops s out :
  run (q_new t) ops = Some (s, out) → always clears_safely (q_new t) ops → closed s = false →
  ∀ q, q ≠ SRemoved → heard (name_of q) (concat (snd <$> out)) = Z.of_nat (length (holding s q)).
Proof.
  intros Hr Ha Hcl q Hq.
  rewrite (heard_run false (q_new t) ops s out q (inv_new _ _) (good_run_false _ _ Ha) Hr Hcl Hq).
  assert (holding (q_new t) q = []) as -> by (by destruct q). simpl. lia.
Qed.
