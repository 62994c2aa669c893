(** Every record of a job is that of a request (C29; used for C26 and C46) *)
From Coq Require Import ZArith Lia String.
From stdpp Require Import base option strings gmap list.
From RecordUpdate Require Import RecordSet.
From Verif Require Import GoHeap QueueModel QueueEff ServerModel ServerCore ServerTick ServerEff ServerEff2 ServerEff4 ServerPrep ServerEff5 ServerEff6 ServerQ ServerSpec ServerKey ServerProofs ServerProofs2.
Import RecordSetNotations.
Open Scope Z_scope.

(** where the server keeps jobs *)
Inductive recorded (s : sstate) (j : job) : Prop :=
| r_live k : live (sdb s) !! k = Some j → recorded s j
| r_comp k : complete (sdb s) !! k = Some j → recorded s j
| r_pend k : (k, j) ∈ pend (sdb s) → recorded s j
| r_seen k st : seen s k = Some (st, j) → recorded s j.
Notation "j ≡d j'" := (definition_of j = definition_of j') (at level 70).
Definition known (s : sstate) (o : sop) (j : job) : Prop := ∃ j0, j ≡d j0 ∧ (recorded s j0 ∨ j0 ∈ requested o).

Lemma def_uae jes j : (update_after_exit jes j).1 ≡d j.
Proof. unfold update_after_exit, decrement_limits. repeat case_match; simplify_eq; done. Qed.
Lemma def_rel jes force j : (after_rel jes force j).1 ≡d j.
Proof.
  unfold after_rel. pose proof (def_uae jes j). destruct (update_after_exit jes j) as [j1 l]. cbn [fst] in *.
  destruct force; [done|]. by destruct (jstart j1 =? 0).
Qed.
Lemma def_tweaks f j : tweaks f → f j ≡d j.
Proof. intros H. destruct (H j) as (E1 & E2 & _ & _ & _ & _ & _ & _ & _ & E3 & E4 & E5). unfold definition_of. congruence. Qed.
Lemma def_callback now j : (ttr_callback now j).1.1 ≡d j.
Proof. unfold ttr_callback, decrement_limits. repeat case_match; simplify_eq; done. Qed.
Lemma def_recover gr j : (recover_limits gr j).1 ≡d j.
Proof. unfold recover_limits. repeat case_match; done. Qed.

Section step.
Context (s : sstate) (HG : Good s).

Lemma known_stored o js ignore stored toq upd already j : requested o = js →
  prepare (init_job <$> js) ignore (sdb s) = (stored, toq, upd, already) → j ∈ stored → known s o j.
Proof.
  intros Ho Hp Hj. apply (stored_spec _ _ _ _ _ _ _ (g_d _ HG) Hp) in Hj as [(i & Hi & ->)|(_ & _ & _ & Hj)].
  - exists i. split; [done|right]. rewrite Ho. unfold really_added in Hi. destruct ignore; [|done].
    by apply elem_of_list_filter in Hi as [_ ?].
  - exists j. split; [done|left]. by eapply r_comp.
Qed.
Lemma known_store o stored ms rs k j : (∀ j, j ∈ stored → known s o j) →
  live (db_store stored ms rs (sdb s)) !! k = Some j → known s o j.
Proof.
  intros Hs H. cbn in H. rewrite stores_lookup in H.
  destruct (last (filter _ stored)) as [j0|] eqn:Hl.
  - injection H as <-. apply last_Some_elem_of, elem_of_list_filter in Hl as [_ Hl].
    destruct (Hs _ Hl) as (j1 & E & ?). by exists j1.
  - exists j. split; [done|left]. by eapply r_live.
Qed.
Lemma known_old o j : recorded s j → known s o j.
Proof. intros H. exists j. split; [done|by left]. Qed.
Lemma known_def o j j' : j' ≡d j → known s o j → known s o j'.
Proof. intros E (j0 & E0 & H). exists j0. split; [congruence|done]. Qed.
Lemma known_seen o k st j j' : seen s k = Some (st, j) → j' ≡d j → known s o j'.
Proof. intros H E. eapply known_def; [done|]. by eapply known_old, r_seen. Qed.

(** the buckets *)
Definition db_known (o : sop) (d : db) : Prop := ∀ k j,
  (live d !! k = Some j → known s o j) ∧ (complete d !! k = Some j → known s o j) ∧ ((k, j) ∈ pend d → known s o j).
Lemma db_known_same o : db_known o (sdb s).
Proof.
  intros k j. split_and!; intros H; apply known_old; [by eapply r_live|by eapply r_comp|by eapply r_pend].
Qed.
Lemma db_known_put o k j : known s o j → db_known o (put_pend k j (sdb s)).
Proof.
  intros Hj k' j'. destruct (db_known_same o k' j') as (? & ? & ?). split_and!; [done|done|]. cbn.
  intros [?|H']%elem_of_app; [tauto|]. apply elem_of_list_singleton in H' as [= -> ->].
  by eapply known_def.
Qed.
Lemma db_known_archive o k j : known s o j → db_known o (db_archive k j (sdb s)).
Proof.
  intros Hj k' j'. destruct (db_known_same o k' j') as (? & ? & ?). split_and!; [| |done]; cbn.
  - intros [_ ?]%lookup_delete_Some. tauto.
  - intros [[_ <-]|[_ ?]]%lookup_insert_Some; [by eapply known_def|tauto].
Qed.
Lemma db_known_delete o del : db_known o (sdb s <| live ::= λ m, foldr delete m del |>).
Proof.
  intros k' j'. destruct (db_known_same o k' j') as (? & ? & ?). split_and!; [|done|done]; cbn.
  rewrite foldr_delete_at. destruct (decide _); [done|tauto].
Qed.
Lemma db_known_store o stored ms rs : (∀ j, j ∈ stored → known s o j) → db_known o (db_store stored ms rs (sdb s)).
Proof.
  intros Hs k' j'. destruct (db_known_same o k' j') as (? & ? & ?). split_and!; [|done|done].
  by apply known_store.
Qed.
Lemma db_known_pend o d : db_known o d → db_known o (d <| pend := [] |>).
Proof. intros Hd k j. destruct (Hd k j) as (? & ? & _). split_and!; [done|done|]. by intros ?%elem_of_nil. Qed.
Lemma db_known_rel o s1 s' k jes force l : rel_eff s1 k jes force s' l → sdb s1 = sdb s →
  (∀ st j, look s1 k = Some (st, j) → known s o j) → db_known o (sdb s').
Proof.
  intros (st & j & st' & Hl & Hr) Hdb Hk. pose proof (def_rel jes force j) as E.
  destruct (after_rel jes force j) as [j' l']. destruct Hr as (_ & _ & _ & -> & _). rewrite Hdb. apply db_known_put.
  eapply known_def; [done|]. by eapply Hk.
Qed.

Lemma known_cut c now gr : db_known (ACrash c now gr) (cut_db s c).
Proof.
  destruct c as [|js ignore kj km kr|c k0 jes|ks ord n]; cbn [cut_db].
  - apply db_known_same.
  - destruct (prepare (init_job <$> js) ignore (sdb s)) as [[[stored toq] upd] already] eqn:Hp.
    apply db_known_store. intros j Hj%pick_elem. by eapply known_stored.
  - destruct (s_archive c k0 jes [] s) as [[[s1 r1] l1]|] eqn:Ha; [|apply db_known_same].
    destruct r1; try apply db_known_same.
    change (sstep s (AArchive c k0 jes []) = Some (s1, SOk, l1)) in Ha.
    destruct (good_step2 _ _ _ _ _ HG Ha I) as [He _]. inversion He; subst; try done.
    + by match goal with H : stays _ _ _ |- _ => destruct H as [[] _] end.
    + match goal with H : sdb s1 = _ |- _ => rewrite H end. apply db_known_archive.
      eapply known_seen; [by rewrite seen_look|]. pose proof (def_uae jes j) as E. by rewrite <- E.
  - fold (deletable s ks) in *. destruct (delete_rounds n ord (deletable s ks) s) as [[s1 dels]|] eqn:Hd; [|apply db_known_same].
    destruct (delete_rounds_facts _ _ _ _ _ _ (g_s _ HG) Hd) as (_ & _ & _ & _ & _ & Hdb'). rewrite Hdb'. apply db_known_delete.
Qed.

Lemma known_db o s' r l : sstep s o = Some (s', r, l) → seff s o s' r l → db_known o (sdb s').
Proof.
  intros Hs He. destruct He; try (match goal with H : sdb s' = sdb s |- _ => rewrite H; apply db_known_same end);
    try (match goal with H : rel_eff s _ _ _ _ _ |- _ => eapply db_known_rel; [exact H|done|] end;
      intros ? ? ?; eapply known_seen; [by rewrite seen_look|done]).
  - rewrite H3. apply db_known_put. eapply known_seen; [by rewrite seen_look|done].
  - match goal with H : sdb s' = _ |- _ => rewrite H end. apply db_known_archive.
    eapply known_seen; [by rewrite seen_look|]. pose proof (def_uae jes j) as E. by rewrite <- E.
  - eapply db_known_rel; [eassumption|done|]. intros st' j' Hl. rewrite H1 in Hl. simplify_eq.
    eapply known_seen; [by rewrite seen_look|done].
  - match goal with H : sdb s' = _ |- _ => rewrite H end. intros k j. destruct (db_known_same (AKick ks) k j) as (? & ? & ?).
    split_and!; [done|done|]. cbn. intros [?|Hj]%elem_of_app; [tauto|]. apply elem_of_list_bind in Hj as (k1 & Hj & Hk1).
    destruct (H1 k1 Hk1) as (st & j1 & Hl & Hl' & _). rewrite Hl' in Hj. apply elem_of_list_singleton in Hj as [= -> ->].
    eapply known_seen; [by rewrite seen_look|done].
  - match goal with H : sdb s' = _ |- _ => rewrite H end. apply db_known_delete.
  - match goal with H : sdb s' = _ |- _ => rewrite H end. unfold s_land.
    destruct (pend (sdb s) !! i) as [[k0 j0]|] eqn:Hp; [|apply db_known_same].
    intros k j. destruct (db_known_same (ALand i) k j) as (? & ? & ?). cbn. split_and!; [|done|].
    + destruct (decide _); [|done]. intros [[<- <-]|[_ ?]]%lookup_insert_Some; [|tauto].
      apply known_old. eapply r_pend. by eapply elem_of_list_lookup_2.
    + intros Hd. enough ((k, j) ∈ pend (sdb s)) by tauto. by apply list_delete_subseteq in Hd.
  - match goal with H : sdb s' = _ |- _ => rewrite H end. apply db_known_store. intros j Hj. by eapply known_stored.
  - match goal with H : sdb s' = _ |- _ => rewrite H end. apply db_known_pend, known_cut.
Qed.

Lemma known_step o s' r l j : spares_busy s o → sstep s o = Some (s', r, l) → recorded s' j → known s o j.
Proof.
  intros Hsp Hs Hr. destruct (good_step _ _ _ _ _ HG Hsp Hs) as [He _]. pose proof (known_db o s' r l Hs He) as Hd.
  destruct Hr as [k Hr|k Hr|k Hr|k st Hr]; try (by destruct (Hd k j) as (? & ? & ?); tauto).
  pose proof (seff_kch _ _ _ _ _ k HG Hsp He) as Hk. rewrite Hr in Hk. clear Hs He.
  remember (Some (st, j)) as v' eqn:Hv'. remember (seen s k) as v eqn:Hv. symmetry in Hv. revert Hd.
  destruct Hk; intros Hd; simplify_eq; try (by eapply known_seen).
  - eapply known_seen; [done|]. unfold reserved_job. by destruct (sched_limits g).
  - eapply known_seen; [done|]. by apply def_tweaks.
  - eapply known_seen; [done|]. apply def_uae.
  - eapply known_seen; [done|]. rewrite def_rel. by apply def_tweaks.
  - eapply known_seen; [done|]. apply def_callback.
  - destruct H0 as [(i & Hi & -> & _)|[_ H0]]; [|by eapply known_old, r_comp]. exists i. split; [done|by right].
  - by eapply known_old, r_live.
  - destruct (live (sdb s') !! k) as [j1|] eqn:Hl; [|done]. simplify_eq/=.
    eapply known_def; [apply def_recover|]. by destruct (Hd k j1) as (? & _); tauto.
Qed.
End step.

Lemma defined (ok : sstate → sop → Prop) es s j : (∀ s o, ok s o → spares_busy s o) → reachable ok es s → recorded s j →
  ∃ e i, e ∈ es ∧ i ∈ requested (e_op e) ∧ definition_of j = definition_of i.
Proof.
  intros Hok (t & H). revert j. induction H as [|es s o s' r l Hh IH Ho Hs]; intros j Hj.
  - destruct Hj as [k Hj|k Hj|k Hj|k st Hj]; cbn in Hj; try (by rewrite lookup_empty in Hj); [by apply elem_of_nil in Hj|].
    unfold seen in Hj. cbn in Hj. by rewrite lookup_empty in Hj.
  - assert (HG : Good s) by (apply (hist_good ok (s_new t) es); [done|apply good_new|done]).
    destruct (known_step s HG o s' r l j (Hok _ _ Ho) Hs Hj) as (j0 & E & [Hr|Hr]).
    + destruct (IH j0 Hr) as (e & i & ? & ? & ?). exists e, i. split_and!; [by right|done|congruence].
    + eexists _, j0. split; [left|]. split; [done|done].
Qed.
