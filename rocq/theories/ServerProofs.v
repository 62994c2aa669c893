(** Proofs of C27 and C28 *)
From Coq Require Import ZArith Lia String.
From stdpp Require Import base option strings gmap list.
From RecordUpdate Require Import RecordSet.
From Verif Require Import GoHeap QueueModel QueueEff ServerModel ServerCore ServerTick ServerEff ServerEff2 ServerEff4 ServerPrep ServerEff5 ServerEff6 ServerQ ServerSpec ServerKey.
Import RecordSetNotations.
Open Scope Z_scope.

Lemma hist_weaken (ok ok' : sstate → sop → Prop) s0 es s : (∀ s o, ok s o → ok' s o) → hist ok s0 es s → hist ok' s0 es s.
Proof. intros H Hh. induction Hh; [constructor|]. econstructor; eauto. Qed.
Lemma hist_app ok s0 es s1 es' s : hist ok s0 es s1 → hist ok s1 es' s → hist ok s0 (es' ++ es) s.
Proof. intros H1 H2. induction H2; [done|]. cbn. econstructor; eauto. Qed.

Ltac hist_induct :=
  match goal with |- ∀ es s, hist ?ok ?s0 es s → @?P es s => apply (hist_ind_good ok s0 P) end; cbv beta.

(** ** C28 *)
Lemma holder_hit k c0 s o r l s' es : ¬ hit k o r → holder k c0 (Entry s o r l s' :: es) = holder k c0 es.
Proof. intros Hh. cbn. destruct o; try done. destruct r; try done. by rewrite decide_False. Qed.
Lemma started_hit k b0 s o r l s' es : ¬ hit k o r → started k b0 (Entry s o r l s' :: es) = started k b0 es.
Proof. intros Hh. cbn. destruct o; try done; destruct r; try done; by rewrite decide_False. Qed.

Lemma tweak_reserved f j : tweaks f → jreserved (f j) = jreserved j.
Proof. intros H. by destruct (H j) as (? & ? & ? & ? & ?). Qed.
Lemma uae_facts jes j :
  let j' := (update_after_exit jes j).1 in
  jreserved j' = jreserved j ∧ jstart j' = jstart j ∧ juntil j' = juntil j ∧ jretries j' = jretries j ∧
  jst j' = jst j ∧ jkey j' = jkey j ∧
  (jexited j = true → jexited j' = true ∧ jexit j' = jexit j) ∧
  (jexited j = false → match exit_of jes with
                       | Some x => jexited j' = true ∧ jexit j' = x
                       | None => jexited j' = false end).
Proof.
  unfold update_after_exit, decrement_limits, exit_of.
  destruct (jexited j) eqn:E; [by split_and!|]. destruct (jincr j); destruct jes as [e|]; cbn;
    try (destruct (e_exited e)); cbn; by rewrite ?E.
Qed.
Lemma rel_facts jes force j :
  let j' := (after_rel jes force j).1 in
  jreserved j' = jreserved j ∧ jstart j' = jstart j ∧ jretries j' = jretries j ∧
  juntil j' = (if force then 0 else if (jstart j =? 0)%Z then juntil j else (juntil j + 255) mod 256)%N ∧
  jst j' = (if (juntil j' =? 0)%N then JBuried else JDelayed) ∧ jkey j' = jkey j.
Proof.
  destruct (uae_facts jes j) as (H1 & H2 & H3 & H4 & H5 & H6 & _). unfold after_rel.
  destruct (update_after_exit jes j) as [j1 l1]. cbn [fst] in *. rewrite H2.
  destruct force; [cbn; by rewrite ?H1, ?H2, ?H3, ?H4, ?H6|].
  destruct (jstart j =? 0) eqn:E; cbn; rewrite ?H1, ?H2, ?H3, ?H4, ?H6; by split_and!.
Qed.
Lemma callback_facts now j :
  let j' := (ttr_callback now j).1.1 in
  jreserved j' = jreserved j ∧ jstart j' = jstart j ∧ jretries j' = jretries j ∧ juntil j' = juntil j ∧
  jst j' = jst j ∧ jexited j' = jexited j ∧ jexit j' = jexit j ∧
  ((ttr_callback now j).1.2 = ToDelay → jstart j = 0 ∨ jexited j = true).
Proof.
  unfold ttr_callback, decrement_limits. destruct (jstart j =? 0) eqn:E; cbn.
  - destruct (jincr j); cbn; split_and!; try done; left; lia.
  - destruct (jexited j) eqn:E2; cbn; [|by rewrite E2]. destruct (jincr j); cbn; rewrite ?E2; split_and!; try done; by right.
Qed.
Lemma callback_dest' now j : match (ttr_callback now j).1.2 with ToRun => SRun | _ => SDelay end = SBury → False.
Proof. by destruct (ttr_callback now j).1.2. Qed.

Lemma holds s0 k es s : Good s0 → hist serving s0 es s →
  ∀ st j, seen s k = Some (st, j) → st = SRun ∨ st = SBury → jreserved j = holder k (reserver s0 k) es.
Proof.
  intros H0. revert es s. hist_induct; [by intros ? ? [? _]|done| |].
  { intros st j Hs _. unfold reserver. by rewrite Hs. }
  intros es' s1 o s2 r l HG IH (Hsp & Hnc & _) _ He _ st j Hs Hst.
  pose proof (seff_kch _ _ _ _ _ k HG Hsp He) as Hk. rewrite Hs in Hk.
  remember (seen s1 k) as v eqn:Hv. remember (Some (st, j)) as v' eqn:Hv'. symmetry in Hv. revert Hnc.
  destruct Hk; intros Hnc; simplify_eq; try (by destruct Hst); try (exfalso; intuition congruence).
  - rewrite holder_hit by done. by eapply IH.
  - cbn. rewrite decide_True by done. unfold reserved_job. by destruct (sched_limits g).
  - cbn. by eapply IH.
  - rewrite tweak_reserved by done. rewrite holder_hit by done. by eapply IH.
  - cbn. destruct (uae_facts jes j0) as (-> & _). by eapply IH.
  - destruct (rel_facts jes force (f j0)) as (-> & _). rewrite tweak_reserved by done. rewrite holder_hit by done.
    eapply IH; [done|].
    match goal with H : (_ = SRun ∧ _) ∨ _ |- _ => destruct H as [[? _]|[<- _]] end; auto.
  - destruct (callback_facts now j0) as (-> & _). cbn. eapply IH; [done|by left].
Qed.

Lemma foreign_refused s k st j c o : seen s k = Some (st, j) → asks c k o → c ≠ jreserved j → (needs_running o → st = SRun) →
  sstep s o = Some (s, SErr EMustReserve, []).
Proof.
  intros Hs Ha Hc Hn. assert (∃ it p, find_job k s = Some (it, p, j) ∧ ist it = st) as (it & p & Hf & Hi).
  { rewrite seen_look in Hs. unfold look in Hs. destruct (find_job k s) as [[[it p] j']|]; [|done]. cbn in Hs. simplify_eq. eauto. }
  assert (Hg : ∀ b, (b = true → st = SRun) → getij c k b s = inl EMustReserve).
  { intros b Hb. unfold getij. rewrite Hf. replace (c =? jreserved j)%N with false by (symmetry; by apply N.eqb_neq).
    destruct b; [|done]. rewrite bool_decide_eq_false_2; [done|]. rewrite Hi. intros H. by apply H, Hb. }
  destruct o; try done; destruct Ha as [-> ->]; cbn [sstep]; unfold s_start, s_touch, s_archive, s_release; cbn in Hn;
    (rewrite Hg; [done|]; intros ?; by try apply Hn).
Qed.
Lemma not_running_refused s k c o : asks c k o → needs_running o → (∀ j, seen s k ≠ Some (SRun, j)) → SInv s →
  sstep s o = Some (s, SErr EBadJob, []).
Proof.
  intros Ha Hn Hr HS.
  assert (Hg : getij c k true s = inl EBadJob).
  { unfold getij. destruct (find_job k s) as [[[it p] j]|] eqn:Hf; [|done].
    rewrite bool_decide_eq_true_2; [done|]. intros Hi. apply (Hr j). rewrite seen_look. unfold look. rewrite Hf. cbn. by rewrite Hi. }
  destruct o; try done; destruct Ha as [-> ->]; cbn [sstep]; unfold s_start, s_touch, s_archive; by rewrite Hg.
Qed.
Lemma idle_not_moved s k c o s' r l : Good s → asks c k o → (∀ j, seen s k ≠ Some (SRun, j)) →
  sstep s o = Some (s', r, l) → fst <$> seen s' k = fst <$> seen s k.
Proof.
  intros HG Ha Hr Hs. assert (Hsp : spares_busy s o) by (by destruct o).
  destruct (good_step s o s' r l HG Hsp Hs) as [He _].
  pose proof (seff_kch _ _ _ _ _ k HG Hsp He) as Hk.
  remember (seen s k) as v eqn:Hv. remember (seen s' k) as v' eqn:Hv'. symmetry in Hv, Hv'.
  destruct Hk; try done; try (by destruct (Hr j)).
  - exfalso. by destruct o; try done; destruct Ha as [_ ->].
  - cbn. destruct H2 as [[-> _]|[-> _]]; [by destruct (Hr j)|done].
Qed.

(** ** C27 *)
Lemma was_running s0 k es s : Good s0 → hist serving s0 es s →
  ∀ j, seen s k = Some (SRun, j) →
    negb (jstart j =? 0) = started k (was_started s0 k) es ∧
    (if jexited j then Some (jexit j) else None) = reported k (had_exited s0 k) es.
Proof.
  intros H0. revert es s. hist_induct; [by intros ? ? [? _]|done| |].
  { intros j Hs. unfold was_started, had_exited. by rewrite Hs. }
  intros es' s1 o s2 r l HG IH (Hsp & Hnc & Hck) Hstep He _ j Hs.
  assert (Hrep : ∀ j0, seen s1 k = Some (SRun, j0) → (hit k o r → match o with AStart _ _ _ _ => True | _ => False end) →
     (match o, r with AArchive _ k' _ _, SErr EBadRequest => k' ≠ k | _, _ => True end) →
     reported k (had_exited s0 k) (Entry s1 o r l s2 :: es') = (if jexited j0 then Some (jexit j0) else None)).
  { intros j0 Hj0 Hh Hb. destruct (IH _ Hj0) as [_ ->]. cbn. destruct o; try done; destruct r as [|e| | | | |]; try done.
    - rewrite decide_False; [done|]. intros ->. by destruct Hh.
    - destruct e; try done. rewrite decide_False by done. by destruct (reported _ _ _). }
  assert (Href : ∀ c jes ord, o = AArchive c k jes ord → r = SErr EBadRequest →
     ∃ j0, seen s1 k = Some (SRun, j0) ∧ j = (update_after_exit jes j0).1).
  { intros c jes ord -> ->. cbn [sstep] in Hstep. unfold s_archive in Hstep.
    destruct (getij c k true s1) as [e|[[it p] j0]] eqn:Hg.
    { injection Hstep as _ He' _. unfold getij in Hg. destruct (find_job k s1) as [[[? ?] ?]|]; [|simplify_eq].
      destruct (true && _); [simplify_eq|]. destruct (_ =? _)%N; simplify_eq. }
    unfold getij in Hg. destruct (find_job k s1) as [[[it' p'] j']|] eqn:Hf; [|done].
    destruct (bool_decide_reflect (ist it' ≠ SRun)) as [|Hi]; [done|]. cbn in Hg.
    destruct (_ =? _)%N; [|done]. injection Hg as -> -> ->.
    assert (ist it = SRun) by (by destruct (ist it); try (exfalso; by apply Hi)).
    exists j0. rewrite seen_look. unfold look. rewrite Hf. cbn. split; [congruence|].
    destruct (update_after_exit jes j0) as [j1 l1] eqn:Hu.
    destruct (_ || _).
    - injection Hstep as <- <-. rewrite seen_look in Hs.
      destruct (find_found _ _ _ _ _ (g_s _ HG) Hf) as (-> & x & HF).
      assert (HF' : Found (set_job (idata it) (λ _, j1) s1) k x it j1).
      { apply (set_const_facts _ _ _ _ j0 j1 (g_s _ HG) HF). pose proof (update_after_exit_key jes j0) as Hkk.
        rewrite Hu in Hkk. cbn in Hkk. rewrite Hkk. apply HF. }
      rewrite (found_look _ _ _ _ _ HF') in Hs. by simplify_eq.
    - destruct (qdo _ _) as [[s3 r3]|]; [|done]. cbn in Hstep. destruct r3; simplify_eq. }
  pose proof (seff_kch _ _ _ _ _ k HG Hsp He) as Hk. rewrite Hs in Hk.
  assert (Decision (match o, r with AArchive _ k' _ _, SErr EBadRequest => k' = k | _, _ => False end)) as Hdec.
  { destruct o; try apply _. destruct r as [|e| | | | |]; try apply _. destruct e; apply _. }
  destruct Hdec as [Hd|Hd].
  { destruct o; try done. destruct r as [|e| | | | |]; try done. destruct e; try done. subst k0.
    destruct (Href _ _ _ eq_refl eq_refl) as (j0 & Hj0 & ->).
    destruct (IH _ Hj0) as [IH1 IH2]. destruct (uae_facts jes j0) as (_ & -> & _ & _ & _ & _ & Hx & Hx').
    split; [exact IH1|]. cbn. rewrite <- IH2. rewrite decide_True by done. destruct (jexited j0).
    - destruct Hx as [-> ->]; done.
    - specialize (Hx' eq_refl). destruct (exit_of jes); [by destruct Hx' as [-> ->]|by rewrite Hx']. }
  assert (Hd' : match o, r with AArchive _ k' _ _, SErr EBadRequest => k' ≠ k | _, _ => True end).
  { destruct o; try done. destruct r as [|e| | | | |]; try done. by destruct e. }
  clear Hd Href Hstep He. remember (seen s1 k) as v eqn:Hv. remember (Some (SRun, j)) as v' eqn:Hv'. symmetry in Hv. revert Hnc Hck Hrep Hd'.
  destruct Hk; intros Hnc Hck Hrep Hd'; simplify_eq; try done.
  - rewrite (Hrep j) by done. rewrite started_hit by done. split; [|done]. by apply IH.
  - cbn. rewrite !decide_True by done. unfold reserved_job. by destruct (sched_limits g).
  - rewrite (Hrep j0) by (try done; cbn; tauto). cbn. rewrite decide_True by done. split; [|done].
    cbn in Hck. unfold started_job. cbn. by apply Z.eqb_neq in Hck as ->.
  - rewrite (Hrep j0) by done. rewrite started_hit by done. destruct (H j0) as (_ & _ & _ & _ & -> & -> & -> & _).
    split; [|done]. by apply IH.
  - exfalso. destruct (will_bury force j0); intuition congruence.
  - exfalso. intuition congruence.
  - destruct (ttr_callback now j0).1.2 eqn:Hd; simplify_eq.
    destruct (callback_facts now j0) as (_ & -> & _ & _ & _ & -> & -> & _).
    rewrite (Hrep j0) by done. rewrite started_hit by (by cbn). split; [|done]. by apply IH.
  - exfalso. intuition congruence.
  - exfalso. intuition congruence.
Qed.

(** which steps change the complete bucket *)
Lemma s_land_complete i s : complete (sdb (s_land i s)) = complete (sdb s).
Proof. unfold s_land. by destruct (pend (sdb s) !! i) as [[]|]. Qed.
