(** What each server step does, key by key: the requests of a job's runner *)
From Coq Require Import ZArith Lia String.
From stdpp Require Import base option strings gmap list.
From RecordUpdate Require Import RecordSet.
From Verif Require Import GoHeap QueueModel QueueCore QueueInv QueueInvAdd QueueInvUpd QueueInvRem
  QueueInvTick QueueEff ServerModel ServerCore ServerTick ServerEff.
Import RecordSetNotations.
Open Scope Z_scope.

Lemma found_same s k x it j x' it' j' : Found s k x it j → Found s k x' it' j' → x' = x ∧ it' = it ∧ j' = j.
Proof.
  intros HF HF'. pose proof (found_find _ _ _ _ _ HF) as H1. rewrite (found_find _ _ _ _ _ HF') in H1.
  pose proof (f_item HF). pose proof (f_item HF'). simplify_eq. done.
Qed.
Ltac same_found HF HF' :=
  let E := fresh "E" in destruct (found_same _ _ _ _ _ _ _ _ HF HF') as (E & ? & ?); subst.

Lemma getij_inr c k b s it p j : SInv s → getij c k b s = inr (it, p, j) →
  p = idata it ∧ c = jreserved j ∧ (b = true → ist it = SRun) ∧ ∃ x, Found s k x it j.
Proof.
  intros HS. unfold getij. destruct (find_job k s) as [[[it0 p0] j0]|] eqn:Hf; [|done].
  destruct (b && bool_decide (ist it0 ≠ SRun)) eqn:Hb; [done|].
  destruct (N.eqb_spec c (jreserved j0)) as [Hc|Hc]; [|done]. intros [= <- <- <-].
  destruct (find_found _ _ _ _ _ HS Hf) as [-> HF]. split_and!; try done.
  intros ->. cbn in Hb. apply bool_decide_eq_false in Hb. by apply dec_stable in Hb.
Qed.

Lemma start_ok now c k b s s' r l : SInv s → DInv s →
  s_start now c k b s = Some (s', r, l) → ok s (AStart now c k b) s' r l.
Proof.
  intros HS HD. unfold s_start. destruct (getij c k true s) as [e|[[it p] j]] eqn:Hg.
  { intros [= <- <- <-]. split; [|done]. by constructor. }
  destruct (getij_inr _ _ _ _ _ _ _ HS Hg) as (-> & -> & Hst & x & HF). specialize (Hst eq_refl).
  destruct b; [|intros [= <- <- <-]; split; [by constructor|done]].
  intros [= <- <- <-]. cbn [negb]. fold (started_job now j).
  set (s1 := set_job (idata it) (λ _, started_job now j) s).
  assert (HF1 : Found s1 k x it (started_job now j)).
  { split; try apply HF. cbn. by rewrite lookup_alter, (f_job HF). }
  assert (HS1 : SInv s1).
  { split.
    - apply (si_q HS).
    - intros y ity Hy Hr. destruct (si_ptr HS _ _ Hy Hr) as (jy & Hjy & Hky). cbn.
      destruct (decide (idata ity = idata it)) as [He|He].
      + exists (started_job now j). rewrite He, lookup_alter, (f_job HF). split; [done|]. cbn.
        rewrite He, (f_job HF) in Hjy. congruence.
      + exists jy. by rewrite lookup_alter_ne.
    - apply (si_inj HS).
    - intros q [jq Hq]. apply (si_next HS). cbn in Hq. destruct (decide (q = idata it)) as [->|Hne].
      + eexists. apply HF.
      + rewrite lookup_alter_ne in Hq by done. by eexists. }
  assert (Ho1 : others s s1 k) by (intros k' Hne; by eapply set_job_other).
  split; [|split].
  - eapply SeStart with j; try done.
    + by rewrite (found_look _ _ _ _ _ HF), Hst.
    + change (look s1 k = Some (SRun, started_job now j)). by rewrite (found_look _ _ _ _ _ HF1), Hst.
    + by apply others_look.
  - by apply write_behind_inv.
  - eapply (pend_dinv s _ k (started_job now j)); try done.
    + change (is_Some (find_job k s1)). by eapply found_is_some.
    + apply HF.
Qed.

(** replacing a job by one with the same key *)
Lemma set_const_facts s k x it j j' : SInv s → Found s k x it j → jkey j' = k →
  let s1 := set_job (idata it) (λ _, j') s in
  SInv s1 ∧ Found s1 k x it j' ∧ others s s1 k ∧ sdb s1 = sdb s.
Proof.
  intros HS HF Hk s1.
  assert (HF1 : Found s1 k x it j').
  { split; try apply HF; [|done]. cbn. by rewrite lookup_alter, (f_job HF). }
  split; [|split; [done|split; [|done]]].
  - split.
    + apply (si_q HS).
    + intros y ity Hy Hr. destruct (si_ptr HS _ _ Hy Hr) as (jy & Hjy & Hky). cbn.
      destruct (decide (idata ity = idata it)) as [He|He].
      * exists j'. rewrite He, lookup_alter, (f_job HF). split; [done|].
        rewrite He, (f_job HF) in Hjy. pose proof (f_jkey HF). congruence.
      * exists jy. by rewrite lookup_alter_ne.
    + apply (si_inj HS).
    + intros q [jq Hq]. apply (si_next HS). cbn in Hq. destruct (decide (q = idata it)) as [->|Hne].
      * eexists. apply HF.
      * rewrite lookup_alter_ne in Hq by done. by eexists.
  - intros k' Hne. by eapply set_job_other.
Qed.

Lemma touch_ok now c k s s' r l : SInv s → DInv s →
  s_touch now c k s = Some (s', r, l) → ok s (ATouch now c k) s' r l.
Proof.
  intros HS HD. unfold s_touch. destruct (getij c k true s) as [e|[[it p] j]] eqn:Hg.
  { intros [= <- <- <-]. split; [|done]. by constructor. }
  destruct (getij_inr _ _ _ _ _ _ _ HS Hg) as (-> & -> & Hst & x & HF). specialize (Hst eq_refl).
  destruct (jkilled j).
  { intros [= <- <- <-]. split; [|done]. by constructor. }
  destruct (qdo (OTouch now (ikey it)) s) as [[s1 r1]|] eqn:Hq; [|done].
  cbn beta iota zeta delta [mbind option_bind]. rewrite (f_key HF) in Hq.
  destruct (qdo_touch s HS _ _ _ _ Hq) as [(-> & Hone & _)|(He & HS1 & Hl1 & Hdb1 & _)].
  - destruct Hone as (x' & it' & j' & HF' & HS1 & HF1 & Ho1 & Hdb1 & _). same_found HF HF'.
    intros [= <- <- <-].
    set (f := λ j : job, if jlost j then j <| jlost := false |> <| jend := 0 |> else j).
    assert (Htw : tweaks f) by (intros j0; unfold f; by destruct (jlost j0)).
    set (s2 := if jlost j then _ else s1).
    assert (H2 : SInv s2 ∧ Found s2 k x (touch now it) (f j) ∧ others s1 s2 k ∧ sdb s2 = sdb s1).
    { unfold s2, f. destruct (jlost j) eqn:El; [|done].
      split; [by apply set_job_inv|]. change (idata it) with (idata (touch now it)).
      split; [by apply (set_job_found s1 k x (touch now it) j (λ j, j <| jlost := false |> <| jend := 0 |>))|].
      split; [|done]. intros k' Hne. by eapply set_job_other. }
    destruct H2 as (HS2 & HF2 & Ho2 & Hdb2).
    assert (Hoth : others s s2 k) by (by eapply others_trans).
    split; [|split; [done|]].
    + eapply SeTouch with f j; try done.
      * by rewrite (found_look _ _ _ _ _ HF), Hst.
      * by rewrite (found_look _ _ _ _ _ HF2), <- Hst.
      * by apply others_look.
      * congruence.
    + eapply others_dinv; try done; [by eapply found_is_some|congruence].
  - intros Hout. assert (s' = s1 ∧ l = [] ∧ r = SErr EInternal) as (-> & -> & ->).
    { destruct r1; try done; injection Hout as <- <- <-; done. }
    split; [|split; [done|by apply same_dinv with s]]. constructor; [|done|done].
    intros k'. by apply find_look_eq.
Qed.

Lemma archive_test j : negb (jexited j) || negb (jexit j =? 0) || (jstart j =? 0) || (jend j =? 0) = false ↔ archivable j.
Proof.
  unfold archivable. rewrite !orb_false_iff, !negb_false_iff, !Z.eqb_eq, !Z.eqb_neq. tauto.
Qed.

(** a removal, seen by key *)
Lemma dropped_freed s k s' : dropped s k s' → ∀ k', k' ≠ k → same_or_freed s s' k'.
Proof.
  intros (_ & _ & _ & _ & _ & H) k' Hne. destruct (H _ Hne) as [He|(it & p & j & H1 & H2)].
  - left. by apply find_look_eq.
  - unfold same_or_freed, look. rewrite H1, H2. cbn. rewrite resolve_cases. cbn.
    destruct (decide (freed k it)) as [[Hs _]|]; [|by left]. right. exists j. by rewrite Hs.
Qed.

Lemma archive_ok c k jes ord s s' r l : SInv s → DInv s →
  s_archive c k jes ord s = Some (s', r, l) → ok s (AArchive c k jes ord) s' r l.
Proof.
  intros HS HD. unfold s_archive. destruct (getij c k true s) as [e|[[it p] j]] eqn:Hg.
  { intros [= <- <- <-]. split; [|done]. by constructor. }
  destruct (getij_inr _ _ _ _ _ _ _ HS Hg) as (-> & -> & Hst & x & HF). specialize (Hst eq_refl).
  assert (Hlk : look s k = Some (SRun, j)) by (by rewrite (found_look _ _ _ _ _ HF), Hst).
  pose proof (update_after_exit_key jes j) as Hkey. rewrite (f_jkey HF) in Hkey.
  destruct (update_after_exit jes j) as [j1 l1] eqn:Hu. cbn [fst] in Hkey.
  destruct (set_const_facts s k x it j j1 HS HF Hkey) as (HS1 & HF1 & Ho1 & Hdb1).
  set (s1 := set_job (idata it) (λ _, j1) s) in *.
  destruct (negb (jexited j1) || _ || _ || _) eqn:Ht.
  - intros [= <- <- <-]. split; [|split; [done|]].
    + change l1 with (j1, l1).2. rewrite <- Hu. eapply SeRefused; try done; rewrite ?Hu; cbn [fst].
      * intros Ha%archive_test. congruence.
      * by rewrite (found_look _ _ _ _ _ HF1), Hst.
      * by apply others_look.
    + eapply others_dinv; try done. by eapply found_is_some.
  - apply archive_test in Ht. set (j2 := j1 <| jst := JComplete |>).
    destruct (set_const_facts s1 k x it j1 j2 HS1 HF1) as (HS2 & HF2 & Ho2 & Hdb2); [done|].
    set (s2 := set_job (idata it) (λ _, j2) s1) in *.
    set (s3 := s2 <| sdb ::= db_archive (jkey j2) j2 |>).
    assert (HS3 : SInv s3) by (by apply sdb_inv).
    assert (HF3 : Found s3 k x it j2) by (split; apply HF2).
    assert (Hk2 : jkey j2 = k) by done.
    destruct (qdo (ORemove (jkey j2) ord) s3) as [[s4 r4]|] eqn:Hq; [|done].
    cbn beta iota zeta delta [mbind option_bind]. rewrite Hk2 in Hq.
    destruct (qdo_remove s3 HS3 _ _ _ _ Hq) as [(-> & x' & it' & j' & HF' & Hdrop)|(He & Hn & Hf)].
    2: { rewrite (found_find _ _ _ _ _ HF3) in Hf. done. }
    intros [= <- <- <-]. pose proof Hdrop as (HS4 & Hnone & Hdb4 & _ & _ & Hrest).
    assert (Hdb : sdb s4 = db_archive k j2 (sdb s)).
    { rewrite Hdb4. unfold s3. cbn. by rewrite Hkey. }
    split; [|split; [done|]].
    + change l1 with (j1, l1).2. rewrite <- Hu. eapply SeArchive; try done; rewrite ?Hu; cbn [fst]; try done.
      * unfold look. by rewrite Hnone.
      * intros k' Hne. pose proof (dropped_freed _ _ _ Hdrop k' Hne) as Hs.
        assert (He : look s3 k' = look s k').
        { apply find_look_eq. change (find_job k' s3) with (find_job k' s2). by rewrite Ho2, Ho1. }
        unfold same_or_freed in *. by rewrite <- He.
    + split; rewrite Hdb; cbn.
      * intros k9 j9 [_ H]%lookup_delete_Some. by apply (di_live HD).
      * intros k9 j9 [[<- <-]|[_ H]]%lookup_insert_Some; [|by apply (di_comp HD)].
        rewrite <- Hk2. apply plain_encode.
      * apply (di_pend HD).
      * intros k9 [j9 [Hne H]%lookup_delete_Some].
        assert (Hf : is_Some (find_job k9 s3)).
        { change (find_job k9 s3) with (find_job k9 s2). rewrite Ho2, Ho1 by done. apply (di_in HD). by eexists. }
        destruct (Hrest k9) as [->|(it0 & p0 & j0 & _ & ->)]; [done|done|by eexists].
Qed.

Lemma release_job_facts now k x it j jes force s s' r l : SInv s → DInv s → Found s k x it j →
  release_job now (idata it) jes force s = Some (s', r, l) →
  SInv s' ∧ DInv s' ∧
  ((r = SOk ∧ rel_eff s k jes force s' l) ∨
   ((∀ k, find_job k s' = find_job k s) ∧ sdb s' = sdb s ∧ l = [] ∧ (r = SOk ∨ r = SErr EInternal))).
Proof.
  intros HS HD HF. unfold release_job. rewrite (f_job HF). cbn beta iota zeta delta [mbind option_bind].
  rewrite (f_jkey HF), (f_item HF), (f_obj HF). cbn beta iota zeta delta [mbind option_bind].
  fold (will_bury force j).
  (* the tail, from the state after the queue call *)
  assert (Htail : ∀ s1 it1, SInv s1 → Found s1 k x it1 j → others s s1 k → sdb s1 = sdb s → idata it1 = idata it →
    ((ist it = SRun ∧ (if will_bury force j then ist it1 = SBury else ist it1 = SReady ∨ ist it1 = SDelay)) ∨
     (ist it1 = ist it ∧ (if will_bury force j then ist it = SBury ∧ jst j ≠ JBuried else ist it = SDelay ∧ jst j ≠ JDelayed))) →
    after_release (idata it) jes force s1 = Some (s', r, l) →
    SInv s' ∧ DInv s' ∧ r = SOk ∧ rel_eff s k jes force s' l).
  { intros s1 it1 HS1 HF1 Ho1 Hdb1 Hd1 Hcase. rewrite <- Hd1, (after_release_eq _ _ _ _ _ (f_job HF1)).
    pose proof (after_rel_key jes force j) as Hk. rewrite (f_jkey HF) in Hk.
    destruct (after_rel jes force j) as [j2 l2] eqn:Ha. cbn [fst] in Hk. rewrite (f_jkey HF). intros [= <- <- <-].
    destruct (set_const_facts s1 k x it1 j j2 HS1 HF1 Hk) as (HS2 & HF2 & Ho2 & Hdb2).
    set (s2 := set_job (idata it1) (λ _, j2) s1) in *.
    assert (Hoth : others s (write_behind k j2 s2) k) by (by eapply others_trans).
    assert (Hdb : sdb (write_behind k j2 s2) = put_pend k j2 (sdb s)) by (cbn; by rewrite Hdb1).
    split; [by apply write_behind_inv|]. split; [|split; [done|]].
    - eapply (pend_dinv s _ k j2); try done. change (is_Some (find_job k s2)). by eapply found_is_some.
    - exists (ist it), j, (ist it1). split; [by eapply found_look|]. rewrite Ha. split_and!; try done.
      change (look s2 k = Some (ist it1, j2)). by eapply found_look. }
  destruct (will_bury force j) eqn:Hwb.
  - destruct (decide (ist it = SBury)) as [Hb|Hb].
    + destruct (decide (jst j = JBuried)) as [Hj|Hj].
      * intros [= <- <- <-]. split; [done|]. split; [done|]. right. split_and!; try done. by left.
      * intros H. destruct (Htail s it HS HF) as (? & ? & ? & ?); try done; [by right|tauto].
    + destruct (qdo (OBury k) s) as [[s1 r1]|] eqn:Hq; [|done]. cbn beta iota zeta delta [mbind option_bind].
      destruct (qdo_bury s HS _ _ _ Hq) as [(-> & Hone & j0 & Hl0)|(He & HS1 & Hl1 & Hdb1 & _)].
      * destruct Hone as (x' & it' & j' & HF' & HS1 & HF1 & Ho1 & Hdb1 & _). same_found HF HF'.
        intros H. destruct (Htail s1 _ HS1 HF1 Ho1 Hdb1) as (? & ? & ? & ?); try done; [|tauto].
        left. split; [|done]. rewrite (found_look _ _ _ _ _ HF) in Hl0. congruence.
      * intros Hout. assert (s' = s1 ∧ l = [] ∧ r = SErr EInternal) as (-> & -> & ->).
        { destruct r1; try done; injection Hout as <- <- <-; done. }
        split; [done|]. split; [by apply same_dinv with s|]. right. split_and!; try done. by right.
  - destruct (decide (ist it = SDelay)) as [Hb|Hb].
    + destruct (decide (jst j = JDelayed)) as [Hj|Hj].
      * intros [= <- <- <-]. split; [done|]. split; [done|]. right. split_and!; try done. by left.
      * intros H. destruct (Htail s it HS HF) as (? & ? & ? & ?); try done; [by right|tauto].
    + destruct (qdo (ORelease now k) s) as [[s1 r1]|] eqn:Hq; [|done]. cbn beta iota zeta delta [mbind option_bind].
      destruct (qdo_release s HS _ _ _ _ Hq) as [(-> & Hone & j0 & Hl0)|(He & HS1 & Hl1 & Hdb1 & _)].
      * destruct Hone as (x' & it' & j' & HF' & HS1 & HF1 & Ho1 & Hdb1 & _). same_found HF HF'. cbn beta in HF1.
        intros H. destruct (Htail s1 _ HS1 HF1 Ho1 Hdb1) as (? & ? & ? & ?); try done.
        -- by destruct (idelay it =? 0).
        -- left. split; [rewrite (found_look _ _ _ _ _ HF) in Hl0; congruence|].
           destruct (idelay it =? 0); [by left|by right].
        -- tauto.
      * intros Hout. assert (s' = s1 ∧ l = [] ∧ r = SErr EInternal) as (-> & -> & ->).
        { destruct r1; try done; injection Hout as <- <- <-; done. }
        split; [done|]. split; [by apply same_dinv with s|]. right. split_and!; try done. by right.
Qed.

Lemma release_ok now c k jes force s s' r l : SInv s → DInv s →
  s_release now c k jes force s = Some (s', r, l) →
  ok s (if force then ABury now c k jes else ARelease now c k jes) s' r l.
Proof.
  intros HS HD. unfold s_release. destruct (getij c k false s) as [e|[[it p] j]] eqn:Hg.
  { intros [= <- <- <-]. split; [|done]. constructor; [done|done|by destruct force]. }
  destruct (getij_inr _ _ _ _ _ _ _ HS Hg) as (-> & -> & _ & x & HF).
  intros H. destruct (release_job_facts _ _ _ _ _ _ _ _ _ _ _ HS HD HF H) as (HS' & HD' & [[-> Hr]|(Hl & Hdb & -> & Hr)]).
  - split; [|done]. pose proof (found_look _ _ _ _ _ HF).
    destruct force; [by eapply SeBury|by eapply SeRelease].
  - split; [|done]. constructor; [intros k'; by apply find_look_eq|done|]. by destruct force.
Qed.

Lemma kill_ok now k s s' r l : SInv s → DInv s →
  s_kill now k s = Some (s', r, l) → ok s (AKill now k) s' r l.
Proof.
  intros HS HD. unfold s_kill. destruct (find_job k s) as [[[it p] j]|] eqn:Hf.
  2: { intros [= <- <- <-]. split; [|done]. by constructor. }
  destruct (find_found _ _ _ _ _ HS Hf) as [-> [x HF]].
  destruct (decide (ist it = SRun)) as [Hst|Hst].
  2: { intros [= <- <- <-]. split; [|done]. by constructor. }
  set (f := λ j : job, j <| jkilled := true |>).
  assert (Htw : tweaks f) by done.
  set (s1 := set_job (idata it) f s).
  assert (HS1 : SInv s1) by (by apply set_job_inv).
  assert (HF1 : Found s1 k x it (f j)) by (by apply set_job_found).
  assert (Ho1 : others s s1 k) by (intros k' Hne; by eapply set_job_other).
  assert (HD1 : DInv s1) by (eapply others_dinv; try done; by eapply found_is_some).
  assert (Hl0 : look s k = Some (SRun, j)) by (by rewrite (found_look _ _ _ _ _ HF), Hst).
  assert (Hl1 : look s1 k = Some (SRun, f j)) by (by rewrite (found_look _ _ _ _ _ HF1), Hst).
  destruct (jlost j) eqn:Hlost.
  - destruct (release_job now (idata it) (Some lost_end) false s1) as [[[s2 r2] l2]|] eqn:Hr; [|done].
    cbn beta iota zeta delta [mbind option_bind].
    destruct (release_job_facts _ _ _ _ _ _ _ _ _ _ _ HS1 HD1 HF1 Hr) as (HS' & HD' & [[-> Hre]|(Hl & Hdb & -> & Hre)]).
    + intros [= <- <- <-]. split; [|done]. by eapply SeKill with j s1.
    + intros Hout. assert (s' = s2 ∧ l = []) as (-> & ->).
      { destruct Hre as [-> | ->]; injection Hout as <- <- <-; done. }
      split; [|done]. apply SeTweak with k f SRun j; try done.
      * rewrite <- Hl1. by apply find_look_eq.
      * intros k' Hne. apply find_look_eq. by rewrite Hl, Ho1.
  - intros [= <- <- <-]. split; [|done]. apply SeTweak with k f SRun j; try done. by apply others_look.
Qed.

Lemma lost_ok now k s s' r l : SInv s → DInv s →
  s_lost_release now k s = Some (s', r, l) → ok s (ALostRelease now k) s' r l.
Proof.
  intros HS HD. unfold s_lost_release. destruct (find_job k s) as [[[it p] j]|] eqn:Hf.
  2: { intros [= <- <- <-]. split; [|done]. by constructor. }
  destruct (find_found _ _ _ _ _ HS Hf) as [-> [x HF]].
  destruct (jlost j && jkilled j) eqn:Hb.
  2: { intros [= <- <- <-]. split; [|done]. by constructor. }
  apply andb_true_iff in Hb as [Hlost Hkill].
  destruct (release_job now (idata it) (Some lost_end) false s) as [[[s2 r2] l2]|] eqn:Hr; [|done].
  cbn beta iota zeta delta [mbind option_bind]. intros [= <- <- <-].
  destruct (release_job_facts _ _ _ _ _ _ _ _ _ _ _ HS HD HF Hr) as (HS' & HD' & [[-> Hre]|(Hl & Hdb & -> & Hre)]).
  - split; [|done]. eapply SeLost; try done. by eapply found_look.
  - split; [|done]. constructor; [intros k'; by apply find_look_eq|done|done].
Qed.

Lemma regroup_ok k g s s' r l : SInv s → DInv s →
  s_regroup k g s = Some (s', r, l) → ok s (ARegroup k g) s' r l.
Proof.
  intros HS HD. unfold s_regroup. destruct (find_job k s) as [[[it p] j]|] eqn:Hf.
  2: { intros [= <- <- <-]. split; [|done]. by constructor. }
  destruct (find_found _ _ _ _ _ HS Hf) as [-> [x HF]].
  set (f := λ j : job, j <| jsched := g |>).
  assert (Htw : tweaks f) by done.
  set (s1 := set_job (idata it) f s).
  assert (HS1 : SInv s1) by (by apply set_job_inv).
  assert (HF1 : Found s1 k x it (f j)) by (by apply set_job_found).
  assert (Ho1 : others s s1 k) by (intros k' Hne; by eapply set_job_other).
  destruct (qdo (OSetGroup k g) s1) as [[s2 r2]|] eqn:Hq; [|done].
  cbn beta iota zeta delta [mbind option_bind]. intros [= <- <- <-].
  destruct (qdo_setgroup s1 HS1 _ _ _ _ Hq) as [(-> & Hone)|(He & HS2 & Hl2 & Hdb2 & _)].
  - destruct Hone as (x' & it' & j' & HF' & HS2 & HF2 & Ho2 & Hdb2 & _). same_found HF1 HF'.
    assert (Hoth : others s s2 k) by (by eapply others_trans).
    split; [|split; [done|]].
    + apply SeTweak with k f (ist it) j; try done.
      * by eapply found_look.
      * by rewrite (found_look _ _ _ _ _ HF2).
      * by apply others_look.
    + eapply others_dinv; try done. by eapply found_is_some.
  - split; [|split; [done|]].
    + apply SeTweak with k f (ist it) j; try done.
      * by eapply found_look.
      * rewrite (find_look_eq s1 s2); [|done]. by apply found_look with x.
      * intros k' Hne. apply find_look_eq. by rewrite Hl2, Ho1.
    + eapply others_dinv; try done.
      * intros k' Hne. by rewrite Hl2, Ho1.
      * rewrite Hl2. by eapply found_is_some.
Qed.

Lemma tick_delay_ok now s s' r l : SInv s → DInv s →
  sstep s (ATickDelay now) = Some (s', r, l) → ok s (ATickDelay now) s' r l.
Proof.
  intros HS HD. cbn [sstep]. destruct (qdo (OTickDelay now) s) as [[s1 r1]|] eqn:Hq; [|done].
  cbn beta iota zeta delta [mbind option_bind]. intros [= <- <- <-].
  destruct (qdo_tickdelay s HS _ _ _ Hq) as (HS1 & Hdb & _ & _ & Hf). split; [|split; [done|]].
  - constructor; [|done]. intros k. destruct (Hf k) as [He|(it & p & j & H1 & H2 & H3)].
    + left. by apply find_look_eq.
    + right. exists j. unfold look. rewrite H1, H3. cbn. by rewrite H2.
  - split; rewrite ?Hdb; [apply (di_live HD)|apply (di_comp HD)|apply (di_pend HD)|].
    intros k Hk. destruct (Hf k) as [->|(it & p & j & H1 & H2 & ->)]; [by apply (di_in HD)|by eexists].
Qed.

Lemma tick_ttr_ok now s s' r l : SInv s → DInv s →
  s_tick_ttr now s = Some (s', r, l) → ok s (ATickTTR now) s' r l.
Proof.
  intros HS HD Ht. destruct (s_tick_ttr_facts _ _ _ _ _ HS Ht) as (-> & HS' & Hdb & _ & ks & Hnd & Hin & Hout & ->).
  assert (Hin' : ∀ k, k ∈ ks → ∃ j, look s k = Some (SRun, j) ∧
       look s' k = Some (match (ttr_callback now j).1.2 with ToRun => SRun | _ => SDelay end, (ttr_callback now j).1.1)).
  { intros k Hk. destruct (Hin k Hk) as (it & p & j & H1 & H2 & _ & H3). exists j. unfold look. rewrite H1. cbn.
    split; [by rewrite H2|]. pose proof (callback_dest now j) as Hd.
    destruct (ttr_callback now j) as [[j' dest] c]. rewrite H3. cbn in *. destruct Hd as [-> | ->]; cbn; by rewrite ?H2. }
  split; [|split; [done|]].
  - apply SeTickTTR; try done. intros k Hk. by apply find_look_eq, Hout.
  - split; rewrite ?Hdb; [apply (di_live HD)|apply (di_comp HD)|apply (di_pend HD)|].
    intros k Hk. destruct (decide (k ∈ ks)) as [Hi|Hi]; [|rewrite Hout by done; by apply (di_in HD)].
    destruct (Hin' _ Hi) as (j & _ & Hl). unfold look in Hl. destruct (find_job k s'); [by eexists|done].
Qed.

Lemma land_ok i s : SInv s → DInv s → ok s (ALand i) (s_land i s) SOk [].
Proof.
  intros HS HD. assert (Hf : ∀ k, find_job k (s_land i s) = find_job k s).
  { intros k. unfold s_land. destruct (pend (sdb s) !! i) as [[k' j']|]; done. }
  split; [|split].
  - apply SeLand; [|done]. intros k. by apply find_look_eq.
  - unfold s_land. destruct (pend (sdb s) !! i) as [[k' j']|]; [by apply sdb_inv|done].
  - unfold s_land in *. destruct (pend (sdb s) !! i) as [[k' j']|] eqn:Hp; [|done].
    assert (Hpl : plain k' j') by (apply (di_pend HD); by eapply elem_of_list_lookup_2).
    split; cbn.
    + intros k j. destruct (decide (is_Some (live (sdb s) !! k'))) as [Hs|Hs]; [|apply (di_live HD)].
      intros [[<- <-]|[_ H]]%lookup_insert_Some; [done|by apply (di_live HD)].
    + apply (di_comp HD).
    + intros k j H. apply (di_pend HD). by eapply elem_of_submseteq, submseteq_delete.
    + intros k H. change (is_Some (find_job k s)). apply (di_in HD).
      destruct (decide (is_Some (live (sdb s) !! k'))) as [Hs|Hs]; [|done].
      destruct (decide (k = k')) as [->|Hne]; [done|]. by rewrite lookup_insert_ne in H.
Qed.
