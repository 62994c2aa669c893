(** Proofs of C30 *)
From Coq Require Import ZArith Lia String.
From stdpp Require Import base option strings gmap list.
From RecordUpdate Require Import RecordSet.
From Verif Require Import LimiterSpec LimiterProofs2 GoHeap QueueModel QueueEff ServerModel ServerCore ServerTick ServerEff ServerEff2 ServerEff4 ServerPrep ServerEff5 ServerEff6 ServerQ ServerSpec ServerLimSpec ServerKey ServerProofs ServerProofs2 ServerProofs3.
Import RecordSetNotations.
Open Scope Z_scope.

(** ** sums *)
Lemma sumZ_app l1 l2 : sumZ (l1 ++ l2) = sumZ l1 + sumZ l2.
Proof. unfold sumZ. induction l1; cbn in *; lia. Qed.
Lemma sumZ_perm l1 l2 : l1 ≡ₚ l2 → sumZ l1 = sumZ l2.
Proof. unfold sumZ. induction 1; cbn in *; lia. Qed.
Lemma sumZ_zero {A} (f : A → Z) l : (∀ x, x ∈ l → f x = 0) → sumZ (f <$> l) = 0.
Proof.
  induction l as [|a l IH]; intros H; [done|]. cbn. rewrite H by left. unfold sumZ in IH. rewrite IH; [done|].
  intros x Hx. apply H. by right.
Qed.
Lemma sumZ_ext {A} (f g : A → Z) l : (∀ x, x ∈ l → f x = g x) → sumZ (f <$> l) = sumZ (g <$> l).
Proof.
  induction l as [|a l IH]; intros H; [done|]. cbn. rewrite H by left. unfold sumZ in IH. rewrite IH; [done|].
  intros x Hx. apply H. by right.
Qed.
Lemma sumZ_minus {A} (f g : A → Z) l : sumZ ((λ x, f x - g x) <$> l) = sumZ (f <$> l) - sumZ (g <$> l).
Proof. unfold sumZ. induction l as [|a l IH]; cbn in *; lia. Qed.
(** only finitely many keys count *)
Definition support (f : key → Z) (X : gset key) : Prop := ∀ k, k ∉ X → f k = 0.
Definition total (f : key → Z) (X : gset key) : Z := sumZ (f <$> elements X).
Lemma total_union f X Y : X ## Y → total f (X ∪ Y) = total f X + total f Y.
Proof.
  intros H. unfold total. rewrite <- sumZ_app, <- fmap_app. apply sumZ_perm, fmap_Permutation. by apply elements_disj_union.
Qed.
Lemma total_grow f X Y : support f X → X ⊆ Y → total f Y = total f X.
Proof.
  intros Hs Hsub. rewrite (union_difference_L X Y) by done. rewrite total_union by set_solver.
  assert (total f (Y ∖ X) = 0) as ->; [|lia]. apply sumZ_zero. intros k Hk. apply Hs.
  apply elem_of_elements, elem_of_difference in Hk. tauto.
Qed.
Lemma total_change f f' X X' ks : support f X → support f' X' → NoDup ks → (∀ k, k ∉ ks → f' k = f k) →
  total f' X' = total f X + sumZ ((λ k, f' k - f k) <$> ks).
Proof.
  intros H H' Hd Hk. set (Z := X ∪ X' ∪ list_to_set ks).
  rewrite <- (total_grow f X Z) by (done || set_solver). rewrite <- (total_grow f' X' Z) by (done || set_solver).
  assert (total f' Z - total f Z = sumZ ((λ k, f' k - f k) <$> ks)); [|lia].
  unfold total at 1 2. rewrite <- sumZ_minus.
  change (total (λ k, f' k - f k) Z = sumZ ((λ k, f' k - f k) <$> ks)).
  rewrite (total_grow (λ k, f' k - f k) (list_to_set ks) Z).
  - apply sumZ_perm, fmap_Permutation. by apply elements_list_to_set.
  - intros k Hn. rewrite Hk; [lia|]. by rewrite elem_of_list_to_set in Hn.
  - set_solver.
Qed.

(** ** weights *)
Definition wt (g : string) (v : option (istate * job)) : Z := match v with Some (_, j) => occ g (jincr j) | None => 0 end.
Definition weight (g : string) (s : sstate) : Z := total (λ k, wt g (seen s k)) (dom (items (sq s))).
Lemma seen_dom s k v : seen s k = Some v → k ∈ dom (items (sq s)).
Proof. intros H. apply elem_of_dom. unfold seen in H. destruct (items (sq s) !! k); [by eexists|done]. Qed.
Lemma wt_support g s : support (λ k, wt g (seen s k)) (dom (items (sq s))).
Proof. intros k Hk. destruct (seen s k) as [v|] eqn:E; [|done]. by apply seen_dom in E. Qed.
Lemma weight_change g s s' ks : NoDup ks → (∀ k, k ∉ ks → wt g (seen s' k) = wt g (seen s k)) →
  weight g s' = weight g s + sumZ ((λ k, wt g (seen s' k) - wt g (seen s k)) <$> ks).
Proof. intros Hd Hk. apply total_change; [apply wt_support|apply wt_support|done|done]. Qed.
Lemma weight_one g s s' k : (∀ k', k' ≠ k → wt g (seen s' k') = wt g (seen s k')) →
  weight g s' = weight g s + (wt g (seen s' k) - wt g (seen s k)).
Proof.
  intros H. rewrite (weight_change g s s' [k]); [cbn; lia|apply NoDup_singleton|].
  intros k' Hk'. apply H. intros ->. apply Hk'. left.
Qed.
Lemma weight_same g s s' : (∀ k, wt g (seen s' k) = wt g (seen s k)) → weight g s' = weight g s.
Proof. intros H. rewrite (weight_change g s s' []); [cbn; lia|constructor|done]. Qed.

(** ** what is counted *)
Definition LV (v : option (istate * job)) : Prop :=
  match v with Some (st, j) => (st ≠ SRun → jincr j = []) ∧ (jexited j = true → jincr j = []) | None => True end.
Definition LInv (s : sstate) : Prop := ∀ k, LV (seen s k).

Lemma uae_incr jes j : (jexited j = true → jincr j = []) → jincr (update_after_exit jes j).1 = [].
Proof.
  intros H. unfold update_after_exit, decrement_limits. destruct (jexited j) eqn:E; [by apply H|].
  destruct (jincr j) eqn:Ei; destruct jes as [e|]; try destruct (e_exited e); cbn; done.
Qed.
Lemma rel_incr jes force j : (jexited j = true → jincr j = []) → jincr (after_rel jes force j).1 = [].
Proof.
  intros H. pose proof (uae_incr jes j H) as E. unfold after_rel. destruct (update_after_exit jes j) as [j1 l]. cbn [fst] in *.
  destruct force; [done|]. by destruct (jstart j1 =? 0).
Qed.
Lemma occ_nil g : occ g [] = 0.
Proof. done. Qed.
Lemma uae_net g jes j : (jexited j = true → jincr j = []) → net g (update_after_exit jes j).2 = - occ g (jincr j).
Proof.
  intros H. unfold update_after_exit, decrement_limits. destruct (jexited j) eqn:E; [by rewrite H|].
  destruct (jincr j) eqn:Ei; destruct jes as [e|]; try destruct (e_exited e); cbn; rewrite ?occ_nil; lia.
Qed.
Lemma rel_calls jes force j : (after_rel jes force j).2 = (update_after_exit jes j).2.
Proof. unfold after_rel. by destruct (update_after_exit jes j). Qed.
Lemma net_app g l1 l2 : net g (l1 ++ l2) = net g l1 + net g l2.
Proof. induction l1 as [|[gs|gs] l1 IH]; cbn; lia. Qed.
Lemma net_inc g0 g : net g (inc_of g0) = occ g (sched_limits g0).
Proof. unfold inc_of. destruct (sched_limits g0); [done|]. cbn [net]. lia. Qed.
Lemma callback_net g now j : (jexited j = true → jincr j = []) →
  net g (ttr_callback now j).2 = occ g (jincr (ttr_callback now j).1.1) - occ g (jincr j) ∧
  ((ttr_callback now j).1.2 ≠ ToRun → jincr (ttr_callback now j).1.1 = []) ∧
  (jexited (ttr_callback now j).1.1 = true → jincr (ttr_callback now j).1.1 = []).
Proof.
  intros H. unfold ttr_callback, decrement_limits.
  destruct (negb (jstart j =? 0) && negb (jexited j)) eqn:E.
  { cbn. apply andb_true_iff in E as [_ E]. destruct (jexited j); [done|]. split_and!; try done; lia. }
  destruct (jincr j) eqn:Ei; cbn; rewrite ?Ei, ?occ_nil; split_and!; try done; lia.
Qed.

Lemma linv_step s o s' r l : Good s → LInv s → spares_busy s o → clean_restart s o → sstep s o = Some (s', r, l) → LInv s'.
Proof.
  intros HG HL Hsp Hcl Hs k. destruct (good_step _ _ _ _ _ HG Hsp Hs) as [He HG'].
  pose proof (seff_kch _ _ _ _ _ k HG Hsp He) as Hk. specialize (HL k).
  destruct (is_crash_dec o) as [Hc|Hc].
  { destruct o; try done. destruct (seen s' k) as [[st j]|] eqn:E; [|done]. cbn.
    destruct (decide (jst j = JRunning)) as [Hr|Hr].
    - destruct (Hcl s' r l k st j Hs E Hr) as [-> Hx]. split; [done|]. congruence.
    - assert (jincr j = []) as ->; [|done]. inversion Hk; subst; try (simpl in *; tauto).
      destruct (live (sdb s') !! k) as [j0|] eqn:Hl; [|done]. simplify_eq/=. destruct (di_live (g_d _ HG') k j0 Hl) as (_ & Hp & _).
      unfold recover_limits in *. destruct (jst j0) eqn:Hj; try done. destruct (jlimits j0); [done|]. destruct (granted (jkey j0)); done. }
  clear Hcl Hs He. destruct Hk; cbn [LV] in *; try done; try (match type of HL with _ ∧ _ => destruct HL as [HL1 HL2] end).
  - destruct (H j) as (_ & _ & _ & _ & _ & E1 & _ & _ & E2 & _). rewrite E1, E2. done.
  - split; [done|]. intros _. by apply uae_incr.
  - split; [|done]. intros _. by apply HL1.
  - destruct (H0 j) as (_ & _ & _ & _ & _ & E1 & _ & _ & E2 & _). rewrite rel_incr; [done|]. by rewrite E1, E2.
  - split; [intros _; by apply HL1|done].
  - split; [|done]. intros _. by apply HL1.
  - destruct (callback_net "" now j HL2) as (_ & E1 & E2). split; [|done].
    intros Hn. apply E1. intros E. by rewrite E in Hn.
  - assert (jincr j = []) as ->; [|done]. destruct H0 as [(i & _ & -> & _)|[_ Hc']]; [done|].
    by destruct (di_comp (g_d _ HG) k j Hc') as (_ & ? & _).
  - destruct (di_live (g_d _ HG) k j' H0) as (_ & -> & _). done.
Qed.

Lemma stays_net g o r l : stays o r l → net g l = 0.
Proof.
  intros [_ H]. destruct o; try (by subst l). destruct H as [-> | ->]; [done|]. cbn. lia.
Qed.
Lemma rel_weight g s s1 s' k jes force l : LInv s1 → rel_eff s1 k jes force s' l → (∀ k', wt g (seen s1 k') = wt g (seen s k')) →
  weight g s' = weight g s + net g l.
Proof.
  intros HL (st & j & st' & Hl & Hr) Hw. rewrite <- (weight_same g s s1 Hw).
  assert (HL2 : jexited j = true → jincr j = []) by (specialize (HL k); rewrite seen_look, Hl in HL; apply HL).
  pose proof (rel_incr jes force j HL2) as Hi. pose proof (rel_calls jes force j) as Hc. pose proof (uae_net g jes j HL2) as Hn.
  destruct (after_rel jes force j) as [j' l']. cbn [fst snd] in *. destruct Hr as (Hl' & -> & Ho & _ & _).
  rewrite (weight_one g s1 s' k).
  - rewrite !seen_look, Hl, Hl'. cbn. rewrite Hi, Hc, Hn, occ_nil. lia.
  - intros k' Hk'. rewrite !seen_look. by rewrite (others_look _ _ _ Ho _ Hk').
Qed.
Lemma tweaks_wt g f st st' j : tweaks f → wt g (Some (st', f j)) = wt g (Some (st, j)).
Proof. intros H. destruct (H j) as (_ & _ & _ & _ & _ & _ & _ & _ & E & _). cbn. by rewrite E. Qed.

Lemma weight_step s o s' r l g : Good s → LInv s → spares_busy s o → ¬ is_crash o → sstep s o = Some (s', r, l) →
  weight g s' = weight g s + net g l.
Proof.
  intros HG HL Hsp Hnc Hs. destruct (good_step _ _ _ _ _ HG Hsp Hs) as [He HG'].
  assert (Hk : ∀ k, kch s s' k o r (seen s k) (seen s' k)) by (intros k; by apply (seff_kch _ _ _ _ l)).
  assert (HV : ∀ k st j, look s k = Some (st, j) → (st ≠ SRun → jincr j = []) ∧ (jexited j = true → jincr j = [])).
  { intros k st j E. specialize (HL k). by rewrite seen_look, E in HL. }
  destruct He.
  - rewrite (weight_same g s s'); [rewrite (stays_net g _ _ _ H1); lia|]. intros k. by rewrite !seen_look, H.
  - rewrite (weight_one g s s' k); [|intros k' Hk'; by rewrite !seen_look, H2]. rewrite !seen_look, H, H1, net_inc. cbn.
    destruct (HV k SReady j H) as [E _]. rewrite E by done. unfold reserved_job, reserve_for.
    destruct (sched_limits g0) eqn:Hs0; cbn; rewrite ?E, ?occ_nil by done; lia.
  - rewrite (weight_one g s s' k); [|intros k' Hk'; by rewrite !seen_look, H2]. rewrite !seen_look, H, H1. cbn. lia.
  - rewrite (weight_one g s s' k); [|intros k' Hk'; by rewrite !seen_look, H3]. rewrite !seen_look, H, H1.
    rewrite (tweaks_wt g f SRun) by done. cbn. lia.
  - rewrite (weight_one g s s' k); [|intros k' Hk'; by rewrite !seen_look, H2]. rewrite !seen_look, H, H0.
    rewrite (tweaks_wt g f st) by done. cbn. lia.
  - rewrite (weight_one g s s' k); [|intros k' Hk'; by rewrite !seen_look, H3]. rewrite !seen_look, H, H2.
    destruct (HV k SRun j H) as [_ E]. cbn [wt]. rewrite uae_net, uae_incr by done. rewrite occ_nil. lia.
  - rewrite (weight_one g s s' k).
    + rewrite !seen_look, H, H2. destruct (HV k SRun j H) as [_ E]. cbn [wt]. rewrite uae_net by done. lia.
    + intros k' Hk'. rewrite !seen_look. destruct (H3 k' Hk') as [-> |(j' & -> & ->)]; done.
  - by eapply rel_weight.
  - by eapply rel_weight.
  - assert (Hw : ∀ k', wt g (seen s1 k') = wt g (seen s k')).
    { intros k'. rewrite !seen_look. destruct (decide (k' = k)) as [->|Hne]; [by rewrite H, H1|].
      by rewrite (others_look _ _ _ H2 _ Hne). }
    eapply rel_weight; [|done|done]. intros k'. specialize (HL k'). rewrite seen_look in *.
    destruct (decide (k' = k)) as [->|Hne]; [|by rewrite (others_look _ _ _ H2 _ Hne)]. rewrite H1. by rewrite H in HL.
  - by eapply rel_weight.
  - rewrite (weight_same g s s'); [cbn; lia|]. intros k. rewrite !seen_look. destruct (decide (k ∈ kicked)) as [Hi|Hi]; [|by rewrite H2].
    destruct (H1 k Hi) as (st & j & -> & -> & _). done.
  - rewrite (weight_same g s s'); [cbn; lia|]. intros k. rewrite !seen_look. destruct (decide (k ∈ del)) as [Hi|Hi].
    + destruct (H1 k Hi) as (st & j & E & Hst & ->). destruct (HV _ _ _ E) as [Ei _]. rewrite E. cbn. by rewrite Ei.
    + destruct (H2 k Hi) as [-> |(j' & -> & ->)]; done.
  - rewrite (weight_same g s s'); [cbn; lia|]. intros k. rewrite !seen_look. destruct (H k) as [-> |(j & -> & ->)]; done.
  - rewrite (weight_change g s s' ks); [|done|intros k Hi; by rewrite !seen_look, H1]. f_equal.
    clear H Hk H1 Hs. induction ks as [|k ks IH]; [done|].
    cbn [fmap list_fmap mbind list_bind]. rewrite net_app.
    change (sumZ (?a :: ?b)) with (a + sumZ b).
    rewrite <- IH; [|intros k' Hi; apply H2; by right]. f_equal.
    destruct (H2 k) as (j & E & E'); [left|]. rewrite !seen_look, E, E'. unfold ttr_calls. rewrite E. cbn [wt].
    destruct (HV _ _ _ E) as [_ Hx]. by destruct (callback_net g now j Hx) as (-> & _).
  - rewrite (weight_same g s s'); [cbn; lia|]. intros k. by rewrite !seen_look, H.
  - rewrite (weight_same g s s'); [cbn; lia|]. intros k. specialize (Hk k). specialize (HL k).
    remember (AAdd now js ignore) as o eqn:Ho. destruct Hk; simplify_eq; try done.
    + destruct H5 as [(i & _ & -> & _)|[_ Hc']]; [done|]. destruct (di_comp (g_d _ HG) k j Hc') as (_ & E & _). cbn. by rewrite E.
    + destruct (di_live (g_d _ HG) k j' H5) as (_ & E & _). cbn. destruct HL as [E0 _]. rewrite E, E0; done.
  - by destruct Hnc.
Qed.

Lemma weight_crash s c now gr s' r l g : Good s → sstep s (ACrash c now gr) = Some (s', r, l) → weight g s' = net g l.
Proof.
  intros HG Hs. destruct (good_step2 _ _ _ _ _ HG Hs I) as [He HG']. inversion He; subst.
  { by match goal with H : stays _ _ _ |- _ => destruct H as [[] _] end. }
  { done. }
  match goal with H : ∀ k, look s' k = _ |- _ => rename H into Hl end.
  unfold weight. assert (dom (items (sq s')) = dom (live (sdb s'))) as ->.
  { apply sets.set_eq. intros k. rewrite !elem_of_dom. specialize (Hl k). rewrite <- not_eq_None_Some, <- not_eq_None_Some.
    rewrite <- (look_None s' k (g_s _ HG')), Hl. by destruct (live (sdb s') !! k). }
  unfold total. rewrite (sumZ_perm _ ((λ k, wt g (seen s' k)) <$> (map_to_list (live (sdb s'))).*1)).
  2: { apply fmap_Permutation, NoDup_Permutation; [apply NoDup_elements|apply NoDup_fst_map_to_list|]. intros k.
    rewrite elem_of_elements, elem_of_dom, elem_of_list_fmap. split.
    - intros [j Hj]. exists (k, j). by rewrite elem_of_map_to_list.
    - intros ([k' j] & -> & Hj%elem_of_map_to_list). by eexists. }
  assert (Hall : ∀ k j, (k, j) ∈ map_to_list (live (sdb s')) → live (sdb s') !! k = Some j) by (intros k j; by rewrite elem_of_map_to_list).
  clear Hs He. revert Hall. generalize (map_to_list (live (sdb s'))) as m. induction m as [|[k j] m IH]; intros Hall; [done|].
  cbn [fmap list_fmap concat]. rewrite net_app. change (sumZ (?a :: ?b)) with (a + sumZ b). f_equal.
  2: { apply IH. intros k' j' H. apply Hall. by right. }
  cbn [fst snd]. rewrite seen_look, Hl. assert (Hlk : live (sdb s') !! k = Some j) by (apply Hall; left).
  rewrite Hlk. cbn [fmap option_fmap option_map wt]. destruct (di_live (g_d _ HG') k j Hlk) as (_ & E & _). unfold recover_limits.
  destruct (jst j); cbn [fst snd net]; rewrite ?E, ?occ_nil; try done.
  destruct (jlimits j); cbn [fst snd net]; rewrite ?E, ?occ_nil; try done.
  destruct (gr (jkey j)); cbn [fst snd net]; rewrite ?E, ?occ_nil; try done. cbn. lia.
Qed.

Lemma running_weight g s : LInv s → running_in g s = weight g s.
Proof.
  intros HL. unfold running_in, weight, total. apply sumZ_ext. intros k _. specialize (HL k).
  destruct (seen s k) as [[st j]|]; [|done]. destruct HL as [E _]. cbn. destruct st; try done; by rewrite E.
Qed.
Lemma linv_new t : LInv (s_new t).
Proof. intros k. unfold seen. cbn. by rewrite lookup_empty. Qed.
Lemma weight_new t g : weight g (s_new t) = 0.
Proof. unfold weight, total. cbn. by rewrite dom_empty_L, elements_empty. Qed.

Lemma counted es s : reachable counting es s → LInv s ∧ ∀ g, weight g s = net g (calls es).
Proof.
  intros (t & H). induction H as [|es s o s' r l Hh [HL IH] [Hsp Hcl] Hs].
  { split; [apply linv_new|]. intros g. apply weight_new. }
  assert (HG : Good s) by (apply (hist_good counting (s_new t) es); [by intros ? ? [? _]|apply good_new|done]).
  split; [by eapply linv_step|]. intros g.
  assert (Hn : ¬ is_crash o → weight g s' = net g (calls (Entry s o r l s' :: es))).
  { intros Hc. rewrite (weight_step s o s' r l g) by done. rewrite IH. destruct o; cbn [calls]; rewrite ?net_app; done. }
  destruct o; try (apply Hn; by intros []). by eapply weight_crash.
Qed.

(** ** the order of the calls *)
Definition incs (l : list lcall) : Prop := ∀ c, c ∈ l → ∃ gs, c = CInc gs.
Definition decs (l : list lcall) : Prop := ∀ c, c ∈ l → ∃ gs, c = CDec gs.
Lemma occ_ge g l : 0 ≤ occ g l.
Proof. unfold occ. lia. Qed.
Lemma incs_net g l : incs l → 0 ≤ net g l.
Proof.
  induction l as [|c l IH]; intros H; [done|]. destruct (H c) as [gs ->]; [left|]. cbn. pose proof (occ_ge g gs).
  assert (0 ≤ net g l); [|lia]. apply IH. intros c Hc. apply H. by right.
Qed.
Lemma decs_net g l : decs l → net g l ≤ 0.
Proof.
  induction l as [|c l IH]; intros H; [done|]. destruct (H c) as [gs ->]; [left|]. cbn. pose proof (occ_ge g gs).
  assert (net g l ≤ 0); [|lia]. apply IH. intros c Hc. apply H. by right.
Qed.
Lemma uae_decs jes j : decs (update_after_exit jes j).2.
Proof.
  unfold update_after_exit, decrement_limits. destruct (jexited j); [by intros c ?%elem_of_nil|].
  destruct (jincr j) as [|i is]; destruct jes as [e|]; try destruct (e_exited e); cbn; intros c Hc;
    try (by apply elem_of_nil in Hc); apply elem_of_list_singleton in Hc; by eexists.
Qed.
Lemma callback_decs now j : decs (ttr_callback now j).2.
Proof.
  unfold ttr_callback, decrement_limits. destruct (negb _ && negb _); [by intros c ?%elem_of_nil|].
  destruct (jincr j); cbn; intros c Hc; [by apply elem_of_nil in Hc|]. apply elem_of_list_singleton in Hc. by eexists.
Qed.
Lemma step_calls s o s' r l : Good s → spares_busy s o → sstep s o = Some (s', r, l) →
  ∃ l1 l2, l = l1 ++ l2 ∧ incs l1 ∧ decs l2.
Proof.
  intros HG Hsp Hs. destruct (good_step _ _ _ _ _ HG Hsp Hs) as [He _].
  assert (Hnil : ∃ l1 l2, [] = l1 ++ l2 ∧ incs l1 ∧ decs l2) by (exists [], []; split_and!; [done|by intros c ?%elem_of_nil|by intros c ?%elem_of_nil]).
  assert (Hd : ∀ l, decs l → ∃ l1 l2, l = l1 ++ l2 ∧ incs l1 ∧ decs l2) by (intros l' ?; exists [], l'; split_and!; [done|by intros c ?%elem_of_nil|done]).
  assert (Hi : ∀ l, incs l → ∃ l1 l2, l = l1 ++ l2 ∧ incs l1 ∧ decs l2) by (intros l' ?; exists l', []; split_and!; [by rewrite app_nil_r|done|by intros c ?%elem_of_nil]).
  assert (Hr : ∀ s1 k jes force l, rel_eff s1 k jes force s' l → decs l).
  { intros s1 k jes force l0 (st & j & st' & _ & Hr). pose proof (rel_calls jes force j) as E. destruct (after_rel jes force j) as [j' l'].
    destruct Hr as (_ & -> & _). cbn [snd] in E. rewrite E. apply uae_decs. }
  destruct He; try done; try (by apply Hd; eapply Hr); try (by apply Hd, uae_decs).
  - destruct H1 as [_ H1]. destruct o; try (by subst l). destruct H1 as [-> | ->]; [done|].
    exists [CInc (sched_limits g)], [CDec (sched_limits g)]. split; [done|].
    split; intros c' Hc%elem_of_list_singleton; by eexists.
  - apply Hi. unfold inc_of. destruct (sched_limits g); intros c' Hc; [by apply elem_of_nil in Hc|].
    apply elem_of_list_singleton in Hc. by eexists.
  - apply Hd. intros c (k & Hc & _)%elem_of_list_bind. unfold ttr_calls in Hc. destruct (look s k) as [[st j]|]; [|by apply elem_of_nil in Hc].
    by eapply callback_decs.
  - apply Hi. intros c' Hc. apply elem_of_list_In, in_concat in Hc as (x & Hx & Hc). apply elem_of_list_In in Hx, Hc.
    apply elem_of_list_fmap in Hx as ([k j] & -> & _). unfold recover_limits in Hc. cbn [snd] in Hc.
    destruct (jst j); try (by apply elem_of_nil in Hc). destruct (jlimits j); [by apply elem_of_nil in Hc|].
    destruct (granted (jkey j)); [|by apply elem_of_nil in Hc]. apply elem_of_list_singleton in Hc. by eexists.
Qed.

Lemma prefix_incs l p : incs l → p `prefix_of` l → incs p.
Proof. intros H [q ->] c Hc. apply H, elem_of_app. by left. Qed.
Lemma step_prefix g l1 l2 p x : incs l1 → decs l2 → 0 ≤ x → 0 ≤ x + net g (l1 ++ l2) → p `prefix_of` l1 ++ l2 → 0 ≤ x + net g p.
Proof.
  intros H1 H2 Hx Hn [q Hp]. rewrite net_app in Hn. symmetry in Hp. destruct (app_eq_inv _ _ _ _ Hp) as [(m & -> & ->)|(m & -> & ->)].
  - rewrite net_app in *. assert (decs q) as Hq by (intros c Hc; apply H2, elem_of_app; by right).
    pose proof (decs_net g _ Hq). lia.
  - assert (incs p) as Hq by (intros c Hc; apply H1, elem_of_app; by left). pose proof (incs_net g _ Hq). lia.
Qed.
Lemma weight_nonneg g s : 0 ≤ weight g s.
Proof.
  unfold weight, total. generalize (elements (dom (items (sq s)))) as ks. induction ks as [|k ks IH]; [done|].
  cbn [fmap list_fmap]. change (sumZ (?a :: ?b)) with (a + sumZ b). unfold wt at 1. destruct (seen s k) as [[st j]|]; [|lia].
  pose proof (occ_ge g (jincr j)). lia.
Qed.
Lemma calls_prefix es s g p : reachable counting es s → p `prefix_of` calls es → 0 ≤ net g p.
Proof.
  intros (t & H). revert p. induction H as [|es s o s' r l Hh IH [Hsp Hcl] Hs]; intros p Hp.
  { by apply prefix_nil_inv in Hp as ->. }
  assert (HG : Good s) by (apply (hist_good counting (s_new t) es); [by intros ? ? [? _]|apply good_new|done]).
  destruct (step_calls s o s' r l HG Hsp Hs) as (l1 & l2 & -> & H1 & H2).
  assert (Hr' : reachable counting (Entry s o r (l1 ++ l2) s' :: es) s') by (exists t; by constructor).
  destruct (counted _ _ Hr') as [_ Hw']. destruct (counted es s) as [_ Hw]; [by exists t|].
  specialize (Hw g). specialize (Hw' g). pose proof (weight_nonneg g s). pose proof (weight_nonneg g s').
  assert (Hn : calls (Entry s o r (l1 ++ l2) s' :: es) = calls es ++ (l1 ++ l2) → 0 ≤ net g p).
  { intros E. rewrite E in *. rewrite net_app in Hw'. destruct Hp as [q Hp].
    destruct (app_eq_inv _ _ _ _ Hp) as [(m & E1 & E2)|(m & E1 & E2)]; [apply IH; by exists m|].
    subst p. rewrite net_app. rewrite <- Hw. apply (step_prefix g l1 l2); try done; [lia|]. by exists q. }
  destruct o; try (by apply Hn). cbn [calls] in *.
  assert (0 ≤ 0 + net g p); [|lia]. apply (step_prefix g l1 l2); try done. lia.
Qed.

(** ** with the limiter *)
Definition granted_by (ls : LimiterModel.lstate) (o : LimiterModel.lop) : list lcall :=
  match tries ls o, (LimiterModel.lstep ls o).2 with
  | Some (_, _, names), LimiterModel.RBool true => [CInc names]
  | _, _ => match o with LimiterModel.LDecrement names => [CDec names] | _ => [] end
  end.
Lemma granted_step ls o h g : outstanding_step ls o h g = h g + net g (granted_by ls o).
Proof.
  unfold outstanding_step, granted_by.
  destruct (tries ls o) as [[[cb clk] names]|]; [destruct (LimiterModel.lstep ls o).2 as [|[]| | | | |]|]; destruct o; cbn; lia.
Qed.
Lemma outstanding_grants h ls ops g : outstanding_from h ls ops g = h g + net g (grants ls ops).
Proof.
  revert h ls. induction ops as [|o ops IH]; intros h ls; cbn [outstanding_from grants]; [cbn; lia|].
  fold (granted_by ls o). rewrite IH, net_app, granted_step. lia.
Qed.
Lemma paired_grants h ls ops : (∀ g p, p `prefix_of` grants ls ops → 0 ≤ h g + net g p) → paired_from h ls ops.
Proof.
  revert h ls. induction ops as [|o ops IH]; intros h ls H; cbn [paired_from]; [done|]. cbn [grants] in H. fold (granted_by ls o) in H. split.
  - destruct o; try done. intros name. specialize (H name [CDec names]).
    assert (0 ≤ h name + net name [CDec names]) as Hn; [|cbn in Hn; lia]. apply H. cbn. by eexists.
  - apply IH. intros g p Hp. specialize (H g (granted_by ls o ++ p)). rewrite granted_step. rewrite net_app in H.
    enough (0 ≤ h g + (net g (granted_by ls o) + net g p)) by lia. apply H. by apply prefix_app.
Qed.
Lemma counted_in_limiter es s ops L : reachable counting es s → grants LimiterModel.l_new ops = calls es →
  Forall (constant_groups L) ops → ∀ g, L g = true → count (LimiterModel.lrun LimiterModel.l_new ops).1 g = running_in g s.
Proof.
  intros Hr Hg Hc g HL. destruct (counted es s Hr) as [Hl Hw]. rewrite (running_weight g s Hl), Hw.
  destruct (LimiterModel.lrun LimiterModel.l_new ops) as [ls rs] eqn:E. cbn [fst].
  rewrite (LimiterProofs2.counts_outstanding L ops ls rs E Hc); [|apply paired_grants|done].
  - unfold outstanding. rewrite outstanding_grants, Hg. lia.
  - rewrite Hg. intros g' p Hp. rewrite Z.add_0_l. by eapply calls_prefix.
Qed.
