(** What each server step does, key by key: restart, and all together *)
From Coq Require Import ZArith Lia String.
From stdpp Require Import base option strings gmap list.
From RecordUpdate Require Import RecordSet.
From Verif Require Import GoHeap QueueModel QueueCore QueueInv QueueInvAdd QueueInvUpd QueueInvRem
  QueueInvTick QueueEff ServerModel ServerCore ServerTick ServerEff ServerEff2 ServerEff3 ServerEff4 ServerPrep ServerEff5.
Import RecordSetNotations.
Open Scope Z_scope.

Record db_plain (d : db) : Prop := {
  dbp_live k j : live d !! k = Some j → plain k j;
  dbp_comp k j : complete d !! k = Some j → plain k j;
}.
Lemma dinv_plain s : DInv s → db_plain (sdb s).
Proof. intros HD. split; [apply (di_live HD)|apply (di_comp HD)]. Qed.

Lemma cut_plain s c : SInv s → DInv s → db_plain (cut_db s c).
Proof.
  intros HS HD. destruct c as [|js ignore kj km kr|c k jes|ks ord n]; cbn [cut_db].
  - by apply dinv_plain.
  - destruct (prepare (init_job <$> js) ignore (sdb s)) as [[[stored toq] upd] already]. split; cbn.
    + apply stores_plain, (di_live HD).
    + apply (di_comp HD).
  - destruct (s_archive c k jes [] s) as [[[s' r] l]|] eqn:Ha; [|by apply dinv_plain].
    destruct (archive_ok _ _ _ _ _ _ _ _ HS HD Ha) as (_ & _ & HD'). destruct r; by apply dinv_plain.
  - fold (deletable s ks). destruct (delete_rounds n ord (deletable s ks) s) as [[s' dels]|] eqn:Hd; [|by apply dinv_plain].
    destruct (delete_rounds_facts _ _ _ _ _ _ HS Hd) as (_ & _ & _ & _ & Hrest & Hdb).
    by eapply dinv_plain, delete_dinv.
Qed.

Lemma new_inv now d : SInv (SState (q_new now) ∅ 1%N d).
Proof.
  split; cbn.
  - apply inv_new.
  - intros x it. by rewrite lookup_empty.
  - intros x y itx ity. by rewrite lookup_empty.
  - intros p. rewrite lookup_empty. by intros [? ?].
Qed.

Lemma recover_limits_facts granted j :
  let j' := (recover_limits granted j).1 in
  jkey j' = jkey j ∧ jst j' = jst j ∧ jdeps j' = jdeps j.
Proof. unfold recover_limits. repeat case_match; done. Qed.
Lemma incomplete_keys_ext d j j' : jdeps j = jdeps j' → incomplete_keys d j = incomplete_keys d j'.
Proof. unfold incomplete_keys. by intros ->. Qed.

Lemma head_filter_map (m : gmap key job) (f : job → job) k :
  (∀ k j, m !! k = Some j → jkey (f j) = k) →
  head (filter (λ j, jkey j = k) ((λ kj : key * job, f kj.2) <$> map_to_list m)) = f <$> m !! k.
Proof.
  intros Hk. set (l := (λ kj : key * job, f kj.2) <$> map_to_list m).
  assert (Hin : ∀ j, j ∈ l ↔ ∃ k j0, m !! k = Some j0 ∧ j = f j0).
  { intros j. unfold l. rewrite elem_of_list_fmap. split.
    - intros ([k0 j0] & -> & H%elem_of_map_to_list). eauto.
    - intros (k0 & j0 & H & ->). exists (k0, j0). split; [done|]. by apply elem_of_map_to_list. }
  destruct (head (filter (λ j, jkey j = k) l)) as [j|] eqn:Hh.
  - apply head_Some_elem_of in Hh. apply elem_of_list_filter in Hh as [Hj Hl].
    apply Hin in Hl as (k0 & j0 & Hm & ->). rewrite (Hk _ _ Hm) in Hj. subst k0. by rewrite Hm.
  - destruct (m !! k) as [j|] eqn:Hm; [|done]. exfalso.
    assert (f j ∈ filter (λ j, jkey j = k) l) as Hf.
    { apply elem_of_list_filter. split; [by apply Hk|]. apply Hin. eauto. }
    destruct (filter (λ j, jkey j = k) l); [by apply elem_of_nil in Hf|done].
Qed.

Lemma crash_ok c now granted s s' r l : SInv s → DInv s →
  s_recover now granted (cut_db s c) = Some (s', r, l) → ok s (ACrash c now granted) s' r l.
Proof.
  intros HS HD. pose proof (cut_plain s c HS HD) as HP. set (d := cut_db s c) in *. unfold s_recover.
  set (s0 := SState (q_new now) ∅ 1%N (d <| pend := [] |>)).
  assert (HS0 : SInv s0) by apply new_inv.
  set (jl := (λ kj : key * job, recover_limits granted kj.2) <$> map_to_list (live d)).
  destruct (itemdefs recover_start (fst <$> jl) s0) as [defs s1] eqn:Hdefs.
  destruct (itemdefs_facts _ _ _ _ _ Hdefs HS0) as (HS1 & Hdb1 & Hq1 & Hn1 & Hf1 & Hj1 & HF1 & Hnd1).
  destruct (qdo (OAddMany now defs) s1) as [[s2 r2]|] eqn:Hq; [|done]. cbn beta iota zeta delta [mbind option_bind].
  intros [= <- <- <-].
  destruct (qdo_addmany now defs s1 s2 r2 HS1) as (HS2 & Hdb2 & _ & _ & _ & _ & Hnew); [| | |exact Hq|].
  { intros df Hd. apply elem_of_list_lookup in Hd as [i Hi].
    destruct (Forall2_lookup_r _ _ _ _ _ HF1 Hi) as (j & _ & Hk & _ & _ & _ & _ & _ & Hj & Hb). by exists j. }
  { done. }
  { intros x it Hx. rewrite Hq1 in Hx. cbn in Hx. done. }
  assert (Hdb : sdb s2 = d <| pend := [] |>) by (rewrite Hdb2, Hdb1; done).
  assert (Hlive : live (sdb s2) = live d) by (by rewrite Hdb).
  assert (Hfst : fst <$> jl = (λ kj : key * job, (recover_limits granted kj.2).1) <$> map_to_list (live d)).
  { unfold jl. rewrite <- list_fmap_compose. done. }
  assert (Hlook : ∀ k, look s2 k = (λ j, (recovered_state (sdb s2) j, (recover_limits granted j).1)) <$> live (sdb s2) !! k).
  { intros k. assert (Hk : find_job k s1 = None).
    { rewrite Hf1. done. }
    specialize (Hnew k Hk).
    pose proof (first_def_head k _ defs _ HF1 ltac:(intros j d0 H0; apply H0)) as Hfd.
    rewrite Hfst in Hfd. rewrite (head_filter_map (live d) (λ j, (recover_limits granted j).1) k) in Hfd.
    2: { intros k0 j0 H0. destruct (recover_limits_facts granted j0) as (-> & _). by apply (dbp_live _ HP) in H0 as []. }
    rewrite Hlive. destruct (first_def k defs) as [df|].
    - destruct Hfd as (j & Hj & Hk1 & Hg1 & Hs1 & Hp1 & Hdl & Hdp & Hjb & Hbd).
      destruct Hnew as (j' & Hj' & Hfj). rewrite Hjb in Hj'. injection Hj' as <-.
      destruct (live d !! k) as [j0|] eqn:Hj0; [|done]. cbn in Hj. injection Hj as <-. cbn [fmap option_fmap option_map].
      destruct (recover_limits_facts granted j0) as (E1 & E2 & E3).
      unfold look. rewrite Hfj. cbn. f_equal. f_equal.
      destruct (added_def_facts now df) as (_ & _ & _ & _ & ->). rewrite Hdp, Hs1, Hdl.
      unfold recover_start. rewrite E2. rewrite (incomplete_keys_ext _ _ j0 E3).
      unfold recovered_state. rewrite Hdb. cbn [sdb s0].
      destruct (incomplete_keys (d <| pend := [] |>) j0); [|done]. cbn. by destruct (jst j0).
    - destruct (live d !! k); [done|]. cbn. unfold look. by rewrite Hnew. }
  split; [|split; [done|]].
  - assert (Hcalls : concat (snd <$> jl) = concat ((λ kj, (recover_limits granted kj.2).2) <$> map_to_list (live (sdb s2)))).
    { rewrite Hlive. unfold jl. rewrite <- list_fmap_compose. done. }
    rewrite Hcalls. by constructor.
  - split; rewrite ?Hdb; cbn.
    + apply (dbp_live _ HP).
    + apply (dbp_comp _ HP).
    + by intros k j ?%elem_of_nil.
    + intros k Hk. apply look_find_some. rewrite Hlook, Hlive. by rewrite fmap_is_Some.
Qed.

Definition calm (s : sstate) (o : sop) : Prop :=
  match o with AAdd _ js ignore => calm_add js ignore s | _ => True end.

Theorem sstep_ok s o s' r l : SInv s → DInv s → calm s o → sstep s o = Some (s', r, l) → ok s o s' r l.
Proof.
  intros HS HD Hc. destruct o; cbn [sstep calm] in *.
  - by apply add_ok.
  - by apply reserve_ok.
  - by apply start_ok.
  - by apply touch_ok.
  - by apply archive_ok.
  - apply (release_ok _ _ _ _ false); done.
  - apply (release_ok _ _ _ _ true); done.
  - by apply kick_ok.
  - by apply delete_ok.
  - by apply kill_ok.
  - by apply lost_ok.
  - by apply tick_delay_ok.
  - by apply tick_ttr_ok.
  - by apply regroup_ok.
  - intros [= <- <- <-]. by apply land_ok.
  - by apply crash_ok.
Qed.

Lemma s_new_inv now : SInv (s_new now) ∧ DInv (s_new now).
Proof.
  split; [apply new_inv|]. split; cbn.
  - intros k j. by rewrite lookup_empty.
  - intros k j. by rewrite lookup_empty.
  - by intros k j ?%elem_of_nil.
  - intros k. rewrite lookup_empty. by intros [? ?].
Qed.
