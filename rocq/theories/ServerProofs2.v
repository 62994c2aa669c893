(** Proofs of C27 (the database) and C29 *)
From Coq Require Import ZArith Lia String.
From stdpp Require Import base option strings gmap list.
From RecordUpdate Require Import RecordSet.
From Verif Require Import GoHeap QueueModel QueueEff ServerModel ServerCore ServerTick ServerEff ServerEff2 ServerEff4 ServerPrep ServerEff5 ServerEff6 ServerQ ServerSpec ServerKey ServerProofs.
Import RecordSetNotations.
Open Scope Z_scope.

Global Instance dependency_eq_dec : EqDecision dependency.
Proof. solve_decision. Defined.
Global Instance job_eq_dec : EqDecision job.
Proof. solve_decision. Defined.

Lemma good_step2 s o s' r l : Good s → sstep s o = Some (s', r, l) → spares_busy s o → seff s o s' r l ∧ Good s'.
Proof. intros. by apply good_step. Qed.

Lemma pick_elem {A} (f : nat → bool) (l : list A) x : x ∈ pick f l → x ∈ l.
Proof.
  unfold pick. intros (p & -> & Hp)%elem_of_list_fmap. apply elem_of_list_filter in Hp as [_ Hp].
  apply elem_of_lookup_imap in Hp as (i & y & -> & Hy). by eapply elem_of_list_lookup_2.
Qed.

(** what [prepare] stores *)
Lemma stored_spec s js ignore stored toq upd already : DInv s →
  prepare (init_job <$> js) ignore (sdb s) = (stored, toq, upd, already) →
  ∀ j, j ∈ stored ↔ (∃ i, i ∈ really_added (sdb s) js ignore ∧ j = init_job i) ∨
    (touched (sdb s) (really_added (sdb s) js ignore) (jkey j) ∧ live (sdb s) !! jkey j = None ∧
     jkey j ∉ jkey <$> really_added (sdb s) js ignore ∧ complete (sdb s) !! jkey j = Some j).
Proof.
  intros HD H j. pose proof (prepare_facts _ _ _ _ _ _ _ (dinv_keys _ HD) H) as Hpf. cbv zeta in Hpf.
  destruct Hpf as (res & -> & _ & _ & _ & _ & _ & Hres). rewrite kept_init in *.
  rewrite elem_of_app, Hres. rewrite elem_of_list_fmap. rewrite touched_affected, elem_of_list_to_set, keys_init.
  split; (intros [(i & ? & ?)|(? & ? & ? & ?)]; [left|right]; [eauto|done]).
Qed.
Lemma stored_adds s js ignore stored toq upd already j : DInv s →
  prepare (init_job <$> js) ignore (sdb s) = (stored, toq, upd, already) → j ∈ stored →
  jkey j ∈ jkey <$> js ∨ touched (sdb s) (really_added (sdb s) js ignore) (jkey j).
Proof.
  intros HD H Hj. apply (stored_spec _ _ _ _ _ _ _ HD H) in Hj as [(i & Hi & ->)|(? & _)]; [|by right]. left.
  change (jkey (init_job i)) with (jkey i). apply elem_of_list_fmap_1. unfold really_added in Hi. destruct ignore; [|done].
  by apply elem_of_list_filter in Hi as [_ ?].
Qed.

(** ** the complete bucket *)
Lemma complete_step s o s' r l k : Good s → ¬ is_crash o → seff s o s' r l →
  complete (sdb s') !! k ≠ complete (sdb s) !! k →
  ∃ c jes ord j, o = AArchive c k jes ord ∧ r = SOk ∧ look s k = Some (SRun, j) ∧ c = jreserved j ∧
    archivable (update_after_exit jes j).1 ∧ live (sdb s') !! k = None ∧ look s' k = None.
Proof.
  intros HG Hc He Hne.
  assert (Hrel : ∀ s1 k0 jes force l, rel_eff s1 k0 jes force s' l → complete (sdb s') = complete (sdb s1)).
  { intros s1 k0 jes force l0 (st & j & st' & _ & Hr). destruct (after_rel jes force j) as [j' l'].
    destruct Hr as (_ & _ & _ & -> & _). done. }
  destruct He; try (by match goal with H : sdb s' = _ |- _ => rewrite H in Hne end);
    try (by rewrite (Hrel _ _ _ _ _ ltac:(eassumption)) in Hne).
  - match goal with H : sdb s' = _ |- _ => rewrite H in * end. cbn in Hne.
    destruct (decide (k0 = k)) as [->|Hk]; [|by rewrite lookup_insert_ne in Hne].
    exists c, jes, ord, j. split_and!; try done. cbn. by rewrite lookup_delete.
  - rewrite (Hrel _ _ _ _ _ ltac:(eassumption)) in Hne. match goal with H : sdb s1 = _ |- _ => by rewrite H in Hne end.
  - match goal with H : sdb s' = _ |- _ => rewrite H in Hne end. by rewrite s_land_complete in Hne.
Qed.
Lemma crash_sdb s c now gr s' r l : Good s → sstep s (ACrash c now gr) = Some (s', r, l) →
  sdb s' = cut_db s c <| pend := [] |> ∧ ∀ k, fst <$> look s' k = recovered_state (sdb s') <$> live (sdb s') !! k.
Proof.
  intros HG Hs. destruct (good_step2 _ _ _ _ _ HG Hs I) as [He _]. inversion He; subst; try done.
  - by destruct H1 as [[] _].
  - split; [done|]. intros k. match goal with H : ∀ k, look s' k = _ |- _ => rewrite H end.
    by destruct (live (sdb s') !! k).
Qed.
Lemma complete_crash s c now gr s' r l k : Good s → sstep s (ACrash c now gr) = Some (s', r, l) →
  complete (sdb s') !! k ≠ complete (sdb s) !! k →
  ∃ cl jes s1 l1, c = CutArchive cl k jes ∧ sstep s (AArchive cl k jes []) = Some (s1, SOk, l1) ∧
    complete (sdb s1) !! k ≠ complete (sdb s) !! k ∧ live (sdb s') !! k = None ∧ look s' k = None.
Proof.
  intros HG Hs Hne. destruct (crash_sdb _ _ _ _ _ _ _ HG Hs) as [Hdb Hlk]. rewrite Hdb in Hne. cbn in Hne.
  destruct c as [|js ignore kj km kr|c k0 jes|ks ord n]; cbn [cut_db] in *.
  - done.
  - by destruct (prepare (init_job <$> js) ignore (sdb s)) as [[[stored toq] upd] already].
  - destruct (s_archive c k0 jes [] s) as [[[s1 r1] l1]|] eqn:Ha; [|done].
    destruct r1; try done.
    change (sstep s (AArchive c k0 jes []) = Some (s1, SOk, l1)) in Ha.
    destruct (good_step2 _ _ _ _ _ HG Ha I) as [He _].
    destruct (complete_step s (AArchive c k0 jes []) s1 SOk l1 k HG) as (c' & jes' & ord & j & Ho & _ & _ & _ & _ & Hl & _);
      [by intros []|done|done|]. simplify_eq. exists c', jes', s1, l1. split; [done|]. split; [done|]. split; [done|].
    assert (live (sdb s') !! k = None) as Hl' by (by rewrite Hdb). split; [done|].
    specialize (Hlk k). rewrite Hl' in Hlk. by destruct (look s' k).
  - fold (deletable s ks) in *. destruct (delete_rounds n ord (deletable s ks) s) as [[s1 dels]|] eqn:Hd; [|done].
    destruct (delete_rounds_facts _ _ _ _ _ _ (g_s _ HG) Hd) as (_ & _ & _ & _ & _ & Hdb'). by rewrite Hdb' in Hne.
Qed.

(** ** the live bucket *)
Definition finishes (k : key) (o : sop) (r : sres) (s' : sstate) : Prop :=
  match o with
  | AArchive _ k' _ _ => k' = k ∧ r = SOk
  | ADelete ks _ => k ∈ ks ∧ look s' k = None
  | ACrash (CutArchive _ k' _) _ _ => k' = k
  | ACrash (CutDelete ks _ _) _ _ => k ∈ ks
  | _ => False
  end.
Lemma store_live stored ms rs d k : is_Some (live (db_store stored ms rs d) !! k) ↔ k ∈ jkey <$> stored ∨ is_Some (live d !! k).
Proof. apply stores_some. Qed.

Lemma live_step s o s' r l k : Good s → sstep s o = Some (s', r, l) → seff s o s' r l →
  (is_Some (live (sdb s') !! k) ↔ is_Some (live (sdb s) !! k)) ∨
  (is_Some (live (sdb s') !! k) ∧ adds k s o) ∨
  (live (sdb s') !! k = None ∧ finishes k o r s').
Proof.
  intros HG Hs He.
  assert (Hrel : ∀ s1 k0 jes force l, rel_eff s1 k0 jes force s' l → live (sdb s') = live (sdb s1)).
  { intros s1 k0 jes force l0 (st & j & st' & _ & Hr). destruct (after_rel jes force j) as [j' l'].
    destruct Hr as (_ & _ & _ & -> & _). done. }
  destruct He; try (by left; match goal with H : sdb s' = _ |- _ => rewrite H end);
    try (by left; rewrite (Hrel _ _ _ _ _ ltac:(eassumption))).
  - match goal with H : sdb s' = _ |- _ => rewrite H in * end. cbn.
    destruct (decide (k0 = k)) as [->|Hk]; [|left; by rewrite lookup_delete_ne]. right. right. by rewrite lookup_delete.
  - left. rewrite (Hrel _ _ _ _ _ ltac:(eassumption)). match goal with H : sdb s1 = _ |- _ => by rewrite H end.
  - match goal with H : sdb s' = _ |- _ => rewrite H in * end. cbn. rewrite foldr_delete_at.
    destruct (decide (k ∈ del)) as [Hk|Hk]; [|by left]. right. right. split; [done|].
    split; [by apply H0|]. by destruct (H1 k Hk) as (? & ? & _ & _ & ?).
  - left. match goal with H : sdb s' = _ |- _ => rewrite H end. unfold s_land.
    destruct (pend (sdb s) !! i) as [[k0 j]|]; [|done]. cbn. destruct (decide _) as [Hl|Hl]; [|done].
    destruct (decide (k0 = k)) as [->|Hk]; [|by rewrite lookup_insert_ne]. rewrite lookup_insert. split; [done|].
    intros _. by eexists.
  - match goal with H : sdb s' = _ |- _ => rewrite H end. rewrite store_live.
    destruct (decide (k ∈ jkey <$> stored)) as [Hk|Hk]; [|left; tauto]. right. left. split; [by left|].
    apply elem_of_list_fmap in Hk as (j & -> & Hj). cbn. by eapply stored_adds; [apply HG| |].
  - destruct (crash_sdb _ _ _ _ _ _ _ HG Hs) as [Hdb _]. rewrite Hdb. cbn [live set].
    destruct c as [|js ignore kj km kr|c k0 jes|ks ord n]; cbn [cut_db adds finishes].
    + by left.
    + destruct (prepare (init_job <$> js) ignore (sdb s)) as [[[stored toq] upd] already] eqn:Hp.
      change (live (_ <| pend := [] |>)) with (live (db_store (pick kj stored) (pick km (new_dtk (kept_of (init_job <$> js) ignore (sdb s))))
        (pick kr (new_rdtk (kept_of (init_job <$> js) ignore (sdb s)))) (sdb s))). rewrite store_live.
      destruct (decide (k ∈ jkey <$> pick kj stored)) as [Hk|Hk]; [|left; tauto]. right. left. split; [by left|].
      apply elem_of_list_fmap in Hk as (j & -> & Hj%pick_elem). by eapply stored_adds; [apply HG| |].
    + destruct (s_archive c k0 jes [] s) as [[[s1 r1] l1]|] eqn:Ha; [|by left]. destruct r1; try by left.
      change (sstep s (AArchive c k0 jes []) = Some (s1, SOk, l1)) in Ha.
      destruct (good_step2 _ _ _ _ _ HG Ha I) as [He _]. inversion He; subst; try done.
      * by destruct H3 as [[] _].
      * match goal with H : sdb s1 = _ |- _ => rewrite H end. cbn.
        destruct (decide (k0 = k)) as [->|Hk]; [|left; by rewrite lookup_delete_ne]. right. right. by rewrite lookup_delete.
    + fold (deletable s ks) in *. destruct (delete_rounds n ord (deletable s ks) s) as [[s1 dels]|] eqn:Hd; [|by left].
      destruct (delete_rounds_facts _ _ _ _ _ _ (g_s _ HG) Hd) as (_ & _ & Hsub & _ & _ & Hdb'). rewrite Hdb'. cbn.
      rewrite foldr_delete_at. destruct (decide (k ∈ concat dels)) as [Hk|Hk]; [|by left]. right. right. split; [done|].
      apply Hsub, (deletable_spec s ks k (g_s _ HG)) in Hk. tauto.
Qed.
Lemma add_live s now js ignore s' r l k : Good s → seff s (AAdd now js ignore) s' r l →
  k ∈ jkey <$> really_added (sdb s) js ignore → is_Some (live (sdb s') !! k).
Proof.
  intros HG He Hk. inversion He; subst; try done.
  { by destruct H1 as [[] _]. }
  match goal with H : sdb s' = _ |- _ => rewrite H end. apply store_live. left.
  apply elem_of_list_fmap in Hk as (i & -> & Hi). apply elem_of_list_fmap. exists (init_job i). split; [done|].
  eapply stored_spec; [apply HG|eassumption|]. left. by exists i.
Qed.

(** a job that is gone stays away until it is added again *)
Lemma stays_away s o s' r l k : Good s → spares_busy s o → sstep s o = Some (s', r, l) → ¬ adds k s o →
  seen s k = None → seen s' k = None ∧ live (sdb s') !! k = None ∧ complete (sdb s') !! k = complete (sdb s) !! k.
Proof.
  intros HG Hsp Hs Hna Hn. destruct (good_step _ _ _ _ _ HG Hsp Hs) as [He HG'].
  assert (Hl : live (sdb s) !! k = None).
  { destruct (live (sdb s) !! k) eqn:E; [|done]. destruct (di_in (g_d _ HG) k) as [[[it p] j'] Hf]; [by eexists|].
    rewrite seen_look in Hn. unfold look in Hn. by rewrite Hf in Hn. }
  assert (Hl' : live (sdb s') !! k = None).
  { destruct (live_step s o s' r l k HG Hs He) as [H|[[_ H]|[H _]]]; [|done|done].
    destruct (live (sdb s') !! k); [|done]. destruct H as [H _]. rewrite Hl in H. by destruct H. }
  pose proof (seff_kch _ _ _ _ _ k HG Hsp He) as Hk. rewrite Hn in Hk.
  assert (Hs' : seen s' k = None).
  { inversion Hk; subst; try done.
    - exfalso. apply Hna. match goal with H : (∃ i, _) ∨ _ |- _ => destruct H as [(i & Hi & _ & <-)|[? _]] end; [|by right].
      left. by apply elem_of_list_fmap_1.
    - by rewrite Hl'. }
  split; [done|]. split; [done|].
  destruct (decide (complete (sdb s') !! k = complete (sdb s) !! k)) as [|Hne]; [done|exfalso].
  rewrite seen_look in Hn. destruct (decide (is_crash o)) as [Hc|Hc].
  - destruct o; try done. destruct (complete_crash _ _ _ _ _ _ _ _ HG Hs Hne) as (cl & jes & s1 & l1 & _ & Ha & Hne1 & _).
    destruct (good_step2 _ _ _ _ _ HG Ha I) as [He1 _].
    destruct (complete_step s (AArchive cl k jes []) _ _ _ k HG ltac:(intros []) He1 Hne1) as (? & ? & ? & ? & _ & _ & ? & _). congruence.
  - destruct (complete_step _ _ _ _ _ k HG Hc He Hne) as (? & ? & ? & ? & _ & _ & ? & _). congruence.
Qed.

(** C27: how a job gets into the complete bucket *)
Lemma completes s0 es s o s' r l k : Good s0 → hist serving s0 es s → spares_busy s o → ¬ is_crash o →
  sstep s o = Some (s', r, l) → complete (sdb s') !! k ≠ complete (sdb s) !! k →
  ∃ c jes ord, o = AArchive c k jes ord ∧ r = SOk ∧ (∃ j, seen s k = Some (SRun, j)) ∧
    c = holder k (reserver s0 k) es ∧ started k (was_started s0 k) es = true ∧
    match reported k (had_exited s0 k) es with Some x => Some x | None => exit_of jes end = Some 0 ∧
    live (sdb s') !! k = None ∧ seen s' k = None.
Proof.
  intros H0 Hh Hsp Hc Hs Hne.
  assert (HG : Good s) by (apply (hist_good serving s0 es); [by intros ? ? [? _]|done|done]).
  destruct (good_step _ _ _ _ _ HG Hsp Hs) as [He HG'].
  destruct (complete_step _ _ _ _ _ k HG Hc He Hne) as (c & jes & ord & j & -> & -> & Hl & Hcl & (Hx & Hx0 & Hst & Hend) & Hlv & Hl').
  rewrite <- seen_look in Hl, Hl'. exists c, jes, ord. split; [done|]. split; [done|]. split; [by eexists|].
  destruct (was_running s0 k es s H0 Hh j Hl) as [W1 W2].
  destruct (uae_facts jes j) as (_ & U2 & _ & _ & _ & _ & U7 & U8). rewrite U2 in Hst.
  split; [rewrite Hcl; by apply (holds s0 k es s H0 Hh SRun j Hl); left|].
  split; [rewrite <- W1; by apply Z.eqb_neq in Hst as ->|].
  split; [|done]. rewrite <- W2. destruct (jexited j).
  - destruct U7 as [_ U7]; [done|]. congruence.
  - specialize (U8 eq_refl). destruct (exit_of jes); [|congruence]. destruct U8 as [_ U8]. congruence.
Qed.

(** ** C29 *)
Lemma owed_live es s k : reachable spares_busy es s → owed k es → is_Some (live (sdb s) !! k).
Proof.
  intros (t & Hh). revert es s Hh. hist_induct; [done|apply good_new|done|].
  intros es s o s' r l HG IH Hsp Hs He HG' Ho.
  destruct (live_step s o s' r l k HG Hs He) as [H|[[H _]|[H Hf]]]; [|done|].
  - destruct o; cbn in Ho; try (apply H, IH; tauto).
    + destruct Ho as [Ho|Ho]; [by apply (add_live s now js ignore s' r l k HG He Ho)|]. by apply H, IH.
    + destruct c; apply H, IH; tauto.
  - exfalso. destruct o; cbn in Hf; try done.
    + destruct Ho as [_ Ho], Hf as [Hf ->]. by destruct (Ho Hf).
    + destruct Ho as [_ Ho], Hf as [Hf Hn]. apply (Ho Hf). by rewrite seen_look.
    + destruct c; cbn in Ho; tauto.
Qed.
Lemma live_in_queue s k : Good s → is_Some (live (sdb s) !! k) → ∃ st j, seen s k = Some (st, j).
Proof.
  intros HG Hl. destruct (di_in (g_d _ HG) k Hl) as [[[it p] j] Hf]. exists (ist it), j. rewrite seen_look. by apply (find_look _ _ _ p).
Qed.
Lemma complete_kept s o s' r l k : Good s → spares_busy s o → sstep s o = Some (s', r, l) →
  is_Some (complete (sdb s) !! k) → is_Some (complete (sdb s') !! k).
Proof.
  intros HG Hsp Hs Hc. destruct (good_step _ _ _ _ _ HG Hsp Hs) as [He _].
  assert (Harch : ∀ c k0 jes ord s1 r1 l1, seff s (AArchive c k0 jes ord) s1 r1 l1 → is_Some (complete (sdb s1) !! k)).
  { intros c k0 jes ord s1 r1 l1 Ha. inversion Ha; subst; match goal with H : sdb s1 = _ |- _ => rewrite H end; try done.
    cbn. apply lookup_insert_is_Some'. by right. }
  destruct (decide (complete (sdb s') !! k = complete (sdb s) !! k)) as [->|Hne]; [done|].
  destruct (decide (is_crash o)) as [Hcr|Hcr].
  - destruct o; try done. destruct (crash_sdb _ _ _ _ _ _ _ HG Hs) as [Hdb _].
    destruct (complete_crash _ _ _ _ _ _ _ _ HG Hs Hne) as (cl & jes & s1 & l1 & -> & Ha & Hne1 & _).
    rewrite Hdb. cbn [cut_db]. cbn [sstep] in Ha. rewrite Ha.
    change (sstep s (AArchive cl k jes []) = Some (s1, SOk, l1)) in Ha.
    destruct (good_step2 _ _ _ _ _ HG Ha I) as [He1 _]. exact (Harch _ _ _ _ _ _ _ He1).
  - destruct (complete_step _ _ _ _ _ k HG Hcr He Hne) as (? & ? & ? & ? & -> & _). by eapply Harch.
Qed.
Lemma never_lost es s k : reachable spares_busy es s → kept k es → is_Some (live (sdb s) !! k) ∨ is_Some (complete (sdb s) !! k).
Proof.
  intros (t & Hh). revert es s Hh. hist_induct; [done|apply good_new|done|].
  intros es s o s' r l HG IH Hsp Hs He HG' Ho.
  assert (Hold : (is_Some (live (sdb s) !! k) ∨ is_Some (complete (sdb s) !! k)) →
    (match o with ADelete ks _ | ACrash (CutDelete ks _ _) _ _ => k ∉ ks | _ => True end) →
    is_Some (live (sdb s') !! k) ∨ is_Some (complete (sdb s') !! k)).
  { intros [Hl|Hc] Hd; [|right; by apply (complete_kept s o s' r l k HG Hsp Hs)].
    destruct (live_step s o s' r l k HG Hs He) as [H|[[H _]|[H Hf]]]; [left; by apply H|by left|].
    right. destruct o; cbn in Hf; try done.
    - destruct Hf as [-> ->]. inversion He; subst; try done; try (match goal with H : stays _ _ _ |- _ => by destruct H as [[] _] end).
      match goal with H : sdb s' = _ |- _ => rewrite H end. cbn. apply lookup_insert_is_Some'. by left.
    - by destruct Hf.
    - destruct c; try done. subst k0. destruct (crash_sdb _ _ _ _ _ _ _ HG Hs) as [Hdb _]. rewrite Hdb in H |- *. cbn [cut_db] in *.
      destruct (s_archive c k jes [] s) as [[[s1 r1] l1]|] eqn:Ha; [|cbn in H; rewrite H in Hl; by destruct Hl].
      change (sstep s (AArchive c k jes []) = Some (s1, r1, l1)) in Ha.
      destruct r1; try (cbn in H; rewrite H in Hl; by destruct Hl).
      destruct (good_step2 _ _ _ _ _ HG Ha I) as [He1 _]. inversion He1; subst; try done; try (match goal with H : stays _ _ _ |- _ => by destruct H as [[] _] end).
      match goal with H : sdb s1 = _ |- _ => rewrite H end. cbn. apply lookup_insert_is_Some'. by left. }
  destruct o; cbn in Ho; try (apply Hold; [apply IH|]; tauto).
  - destruct Ho as [Ho|Ho]; [left; by apply (add_live s now js ignore s' r l k HG He Ho)|]. apply Hold; [by apply IH|done].
  - destruct c; try (apply Hold; [apply IH|]; tauto).
Qed.
