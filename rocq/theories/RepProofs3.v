(** Proofs on lookups by rep group: the server's lookup, and histories without surprises. *)
From Coq Require Import ZArith Lia String Ascii.
From stdpp Require Import base option strings gmap list sorting.
From RecordUpdate Require Import RecordSet.
From Verif Require Import UtilModel LearnModel LearnProofs RepModel RepSpec RepProofs RepProofs2.
Import RecordSetNotations.
Open Scope Z_scope.

Definition queued_of (i : bool) (st : rstate) (jobs : list (string * rjob)) (deps : list string) : list (string * rjob) :=
  match again st (kept i st jobs) deps with [] => kept i st jobs | _ => again st (kept i st jobs) deps ++ jobs end.
Lemma queued_new i st jobs deps kj : kj ∈ kept i st jobs ++ again st (kept i st jobs) deps → kj ∈ queued_of i st jobs deps.
Proof.
  unfold queued_of. destruct (again _ _ _) as [|a l] eqn:E; [by rewrite app_nil_r|]. rewrite <- E, !elem_of_app. intros [?%kept_sub|?]; auto.
Qed.
Lemma queued_both i st jobs deps : not_both st (RAdd i jobs deps) → queued_of i st jobs deps = again st (kept i st jobs) deps ++ kept i st jobs.
Proof.
  intros H. unfold queued_of. destruct (again _ _ _) as [|a l] eqn:E; [done|]. destruct i; [|done]. exfalso.
  cbn in H. destruct a as [k j]. assert ((k, j) ∈ again st (kept true st jobs) deps) as Hin by (rewrite E; left).
  apply again_in in Hin as (Hl & Hc & _ & Hd). destruct (H k Hd) as [?|[? ?]]; congruence.
Qed.
(** * An add that succeeds *)
Lemma ordinary_storable g : ordinary g → storable g = true.
Proof. intros [? ?]. apply storable_iff. unfold lim. split; [done|]. etrans; [|done]. lia. Qed.
Lemma add_ok i jobs deps st : (∀ k, is_Some (live st !! k) → is_Some (items st !! k)) → ordinary_req st (RAdd i jobs deps) → kept i st jobs ≠ [] →
  ∃ st2, only_items (stored_st st (kept i st jobs) (again st (kept i st jobs) deps)) st2 ∧ rpl st2 = rpl st ∧
    (∀ k j, items st2 !! k = Some j → items st !! k = Some j ∨ (live st !! k = Some j ∧ is_Some (items st !! k))) ∧ (∀ k, is_Some (items st2 !! k) ↔ is_Some (items st !! k)) ∧
    add_jobs i jobs deps st = (enqueue st2 (queued_of i st jobs deps), true) ∧
    put_lookups (rgs st) (gkeys (kept i st jobs)) = Some (rgs st2).
Proof.
  intros Hli [Hk Ho] Hn. rewrite add_unfold. cbv zeta. rewrite bool_decide_false by done.
  set (st1 := stored_st st (kept i st jobs) (again st (kept i st jobs) deps)).
  assert (items st1 = items st) as Ei by (by destruct st). assert (rpl st1 = rpl st) as Ep by (by destruct st).
  assert (rgs st1 = default (rgs st) (put_lookups (rgs st) (gkeys (kept i st jobs)))) as Eg by (by destruct st).
  destruct (put_lookups (rtk st) _) eqn:Et.
  2:{ apply put_lookups_none in Et as (s & Hs & Hb). apply elem_of_list_fmap in Hs as ([k j] & -> & Hin%kept_sub). cbn in Hb.
      rewrite storable_lookup in Hb by (by apply key_length; apply (Hk (k, j))). apply bool_decide_eq_false in Hb. destruct Hb. apply (Ho (k, j) Hin). }
  destruct (put_lookups (rgs st) _) as [g'|] eqn:Er.
  2:{ apply put_lookups_none in Er as (s & Hs & Hb). apply elem_of_list_fmap in Hs as ([k j] & -> & Hin%kept_sub). cbn in Hb.
      rewrite ordinary_storable in Hb; [done|]. apply (Ho (k, j) Hin). }
  assert (rgs st1 = g') as Eg2 by (rewrite Eg; reflexivity). pose proof (update_items_only (to_update st deps) st1) as [H1 H2]. pose proof (update_items_in (to_update st deps) st1) as H3.
  pose proof (update_items_some (to_update st deps) st1) as H4. pose proof (update_items_ok (to_update st deps) st1) as H5.
  destruct (update_items (to_update st deps) st1) as [st2 ok]. cbn [fst snd] in *.
  rewrite H5. 2:{ intros k ([k' j] & -> & Hin%to_update_in)%elem_of_list_fmap. rewrite Ei. apply Hli. by eexists. }
  exists st2. split; [done|]. split; [by rewrite H2|]. split; [|split; [|split; [done|]]].
  - intros k j Hkj. assert (is_Some (items st !! k)) as Hs by (rewrite <- Ei; apply H4; by eexists).
    destruct (H3 k j Hkj) as [?|?%to_update_in]; [rewrite <- Ei; by left|by right].
  - intros k. by rewrite H4, Ei.
  - destruct H1 as (_ & _ & _ & -> & _). by rewrite Eg2.
Qed.
(** * Every queued job is found under its rep group *)
Record oinv (st : rstate) : Prop := {
  o_li : ∀ k, is_Some (live st !! k) → is_Some (items st !! k);
  o_oi : ∀ k j, items st !! k = Some j → ordinary (j_rg j);
  o_ol : ∀ k j, live st !! k = Some j → ordinary (j_rg j);
  o_oc : ∀ k j, comp st !! k = Some j → ordinary (j_rg j);
  o_ri : ∀ k j, items st !! k = Some j → k ∈ rpl_values (rpl st) (j_rg j);
  o_rl : ∀ k j, live st !! k = Some j → k ∈ rpl_values (rpl st) (j_rg j);
  o_nd : ∀ g, NoDup (rpl_values (rpl st) g) }.
Lemma oinv_empty : oinv rempty.
Proof. split; cbn; try (intros k j; by rewrite lookup_empty). intros g. unfold rpl_values. rewrite lookup_empty. constructor. Qed.
Lemma oinv_add i jobs deps st : oinv st → ordinary_req st (RAdd i jobs deps) → oinv (add_jobs i jobs deps st).1.
Proof.
  intros H Ho. destruct (decide (kept i st jobs = [])) as [En|Hn]; [by rewrite add_nil|].
  destruct (add_ok i jobs deps st (o_li _ H) Ho Hn) as (st2 & H1 & H2 & H3 & H4 & -> & _). cbn [fst]. destruct Ho as [Hk Ho].
  destruct (enqueue_only st2 (queued_of i st jobs deps)) as (El & Ec & _). destruct H1 as (El1 & Ec1 & _).
  assert (live st2 = put_jobs (live st) (kept i st jobs ++ again st (kept i st jobs) deps)) as El2 by (rewrite El1; by destruct st).
  assert (comp st2 = comp st) as Ec2 by (rewrite Ec1; by destruct st). rewrite El2 in El. rewrite Ec2 in Ec. clear El1 Ec1 El2 Ec2.
  assert (∀ k j, (k, j) ∈ queued_of i st jobs deps → ordinary (j_rg j)) as Hq.
  { intros k j [?|[_ ?]]%queued_in; [by apply (Ho (k, j))|by apply (o_oc _ H k j)]. }
  assert (∀ g x, x ∈ rpl_values (rpl st) g → x ∈ rpl_values (rpl (enqueue st2 (queued_of i st jobs deps))) g) as Hmono.
  { intros g x Hx. rewrite enqueue_rpl, rpl_adds_in, H2. by left. }
  assert (∀ k j, (k, j) ∈ queued_of i st jobs deps → k ∈ rpl_values (rpl (enqueue st2 (queued_of i st jobs deps))) (j_rg j)) as Hqr.
  { intros k j Hx. rewrite enqueue_rpl, rpl_adds_in. right. eauto. }
  split.
  - intros k. rewrite El, enqueue_items. intros [j [Hin|[_ Hin]]%put_jobs_lookup].
    + apply add_items_some. apply elem_of_list_fmap. exists (k, j). split; [done|]. by apply queued_new.
    + destruct (o_li _ H k ltac:(by eexists)) as [j' Hj']. destruct (proj2 (H4 k) ltac:(by eexists)) as [j2 Hj2]. exists j2. by apply add_items_keep.
  - intros k j. rewrite enqueue_items. intros [Hin|[_ Hin]]%add_items_in; [|by apply (Hq k)].
    destruct (H3 k j Hin) as [?|[? _]]; [by apply (o_oi _ H k)|by apply (o_ol _ H k)].
  - intros k j. rewrite El. intros [Hin|[_ Hin]]%put_jobs_lookup; [apply (Hq k); by apply queued_new|by apply (o_ol _ H k)].
  - rewrite Ec. apply (o_oc _ H).
  - intros k j. rewrite enqueue_items. intros [Hin|[_ Hin]]%add_items_in; [|by apply Hqr].
    apply Hmono. destruct (H3 k j Hin) as [?|[? _]]; [by apply (o_ri _ H k)|by apply (o_rl _ H k)].
  - intros k j. rewrite El. intros [Hin|[_ Hin]]%put_jobs_lookup; [apply Hqr; by apply queued_new|apply Hmono; by apply (o_rl _ H k)].
  - intros g. rewrite enqueue_rpl. apply rpl_nodup_adds. rewrite H2. apply (o_nd _ H).
Qed.
Lemma oinv_remove st k j c : oinv st → items st !! k = Some j → (∀ k' j', c !! k' = Some j' → ordinary (j_rg j')) → ∀ e,
  oinv (RState (delete k (live st)) c (rtk st) (rgs st) e (delete k (items st)) (rpl_delete (rpl st) (j_rg j) k)).
Proof.
  intros H E Hc e. split; cbn.
  - intros k' [j' [Hne Hl]%lookup_delete_Some]. rewrite lookup_delete_ne by done. apply (o_li _ H). by eexists.
  - intros k' j' [_ ?]%lookup_delete_Some. by apply (o_oi _ H k').
  - intros k' j' [_ ?]%lookup_delete_Some. by apply (o_ol _ H k').
  - done.
  - intros k' j' [Hne ?]%lookup_delete_Some. apply rpl_delete_in. split; [by apply (o_ri _ H)|]. intros [_ ?]. done.
  - intros k' j' [Hne ?]%lookup_delete_Some. apply rpl_delete_in. split; [by apply (o_rl _ H)|]. intros [_ ?]. done.
  - intros g. apply rpl_nodup_delete. apply (o_nd _ H).
Qed.
Lemma oinv_delete ks : ∀ st, oinv st → oinv (delete_jobs ks st).
Proof.
  unfold delete_jobs. induction ks as [|k ks IH]; intros st H; [done|]. cbn [fold_left]. apply IH. unfold delete_one. destruct (items st !! k) as [j|] eqn:E; [|done].
  pose proof (oinv_remove st k j (comp st) H E (o_oc _ H) (ends st)) as H'. by destruct st.
Qed.
(** a modification of an ordinary job *)
Lemma modify_ok o n st j : items st !! o = Some j → ordinary (j_rg j) → String.length n = 32%nat → (o = n ∨ items st !! n = None) →
  modify o n st = RState (<[n := j]> (delete o (live st))) (comp st)
    (<[lookup_key (j_rg j) n := 0]> (filter (λ kv, has_suffix (delimiter +:+ o) kv.1 = false) (rtk st))) (<[j_rg j := 0]> (rgs st)) (ends st)
    (if bool_decide (o = n) then items st else <[n := j]> (delete o (items st)))
    (if bool_decide (o = n) then rpl st else rpl_add (rpl_delete (rpl st) (j_rg j) o) (j_rg j) n).
Proof.
  intros E Ho Hn Hc. unfold modify. rewrite E.
  replace (bool_decide (o ≠ n) && match items st !! n with Some _ => true | None => false end) with false.
  2:{ symmetry. apply andb_false_iff. destruct Hc as [->|Hc]; [left; apply bool_decide_eq_false; intros Hx; by apply Hx|right; by rewrite Hc]. }
  unfold put_lookups. cbn [forallb]. rewrite storable_lookup by done. rewrite bool_decide_true by (apply Ho). rewrite ordinary_storable by done. cbn [andb fold_left].
  destruct (bool_decide (o = n)); by destruct st.
Qed.
Lemma modify_not o n st : (items st !! o = None ∨ (o ≠ n ∧ is_Some (items st !! n))) → modify o n st = st.
Proof.
  intros [E|[Hne [j' E]]]; unfold modify; [by rewrite E|]. destruct (items st !! o); [|done]. rewrite bool_decide_true by done. by rewrite E.
Qed.
Lemma modify_cases o n st (Q : rstate → Prop) : keyed (RModify o n) → oinv st → Q st →
  (∀ j, items st !! o = Some j → ordinary (j_rg j) → (o = n ∨ items st !! n = None) → Q (RState (<[n := j]> (delete o (live st))) (comp st)
    (<[lookup_key (j_rg j) n := 0]> (filter (λ kv, has_suffix (delimiter +:+ o) kv.1 = false) (rtk st))) (<[j_rg j := 0]> (rgs st)) (ends st)
    (if bool_decide (o = n) then items st else <[n := j]> (delete o (items st)))
    (if bool_decide (o = n) then rpl st else rpl_add (rpl_delete (rpl st) (j_rg j) o) (j_rg j) n))) → Q (modify o n st).
Proof.
  intros Hk H H0 H1. cbn in Hk. apply key_length in Hk. destruct (items st !! o) as [j|] eqn:E.
  2:{ rewrite modify_not by auto. done. }
  destruct (decide (o = n ∨ items st !! n = None)) as [Hc|Hc].
  - pose proof (o_oi _ H o j E) as Hj. rewrite (modify_ok o n st j E Hj Hk Hc). apply H1; [done|by apply (o_oi _ H o)|done].
  - rewrite modify_not; [done|]. right. split; [intros ->; apply Hc; by left|]. destruct (items st !! n) eqn:En; [by eexists|]. destruct Hc. by right.
Qed.
Lemma oinv_modify o n st : oinv st → keyed (RModify o n) → oinv (modify o n st).
Proof.
  intros H Hk. apply modify_cases; [done|done|done|]. intros j E Ho Hc. split; cbn.
  - intros k. destruct (decide (k = n)) as [->|Hne].
    + intros _. destruct (decide (o = n)) as [->|Hon]; [rewrite bool_decide_true by done; by eexists|]. rewrite bool_decide_false by done. rewrite lookup_insert. by eexists.
    + rewrite lookup_insert_ne by done. intros [j' [Hko Hl]%lookup_delete_Some]. destruct (bool_decide _); [|rewrite lookup_insert_ne, lookup_delete_ne by done]; apply (o_li _ H); by eexists.
  - intros k j'. destruct (bool_decide _); [apply (o_oi _ H)|]. intros [[_ <-]|[_ [_ ?]%lookup_delete_Some]]%lookup_insert_Some; [done|by apply (o_oi _ H k)].
  - intros k j' [[_ <-]|[_ [_ ?]%lookup_delete_Some]]%lookup_insert_Some; [done|by apply (o_ol _ H k)].
  - apply (o_oc _ H).
  - intros k j'. case_bool_decide as Hon; [apply (o_ri _ H)|]. intros [[<- <-]|[Hne [Hko Hi]%lookup_delete_Some]]%lookup_insert_Some; apply rpl_add_in; [by right|left].
    apply rpl_delete_in. split; [by apply (o_ri _ H)|]. intros [_ ?]. done.
  - intros k j' [[<- <-]|[Hne [Hko Hi]%lookup_delete_Some]]%lookup_insert_Some.
    + case_bool_decide as Hon; [subst; by apply (o_ri _ H)|]. apply rpl_add_in. by right.
    + case_bool_decide as Hon; [by apply (o_rl _ H)|]. apply rpl_add_in. left. apply rpl_delete_in. split; [by apply (o_rl _ H)|]. intros [_ ?]. done.
  - intros g. case_bool_decide; [apply (o_nd _ H)|]. apply rpl_nodup_add. intros g'. apply rpl_nodup_delete. apply (o_nd _ H).
Qed.
Lemma archive_ok k s e st j : items st !! k = Some j → ordinary (j_rg j) →
  archive k s e st = (RState (delete k (live st)) (<[k := RJob (j_rg j) s e]> (comp st)) (rtk st) (rgs st) (put_end (ends st) (j_rg j) e)
    (delete k (items st)) (rpl_delete (rpl st) (j_rg j) k), true).
Proof. intros E Ho. unfold archive. rewrite E, ordinary_storable by done. by destruct st. Qed.
Lemma archive_cases k s e st (Q : rstate → Prop) : oinv st → Q st →
  (∀ j, items st !! k = Some j → ordinary (j_rg j) → Q (RState (delete k (live st)) (<[k := RJob (j_rg j) s e]> (comp st)) (rtk st) (rgs st) (put_end (ends st) (j_rg j) e)
    (delete k (items st)) (rpl_delete (rpl st) (j_rg j) k))) → Q (archive k s e st).1.
Proof.
  intros H H0 H1. destruct (items st !! k) as [j|] eqn:E; [|unfold archive; by rewrite E].
  rewrite (archive_ok k s e st j E) by (by apply (o_oi _ H k)). apply H1; [done|by apply (o_oi _ H k)].
Qed.
Lemma restart_eq st : restart st = RState (live st) (comp st) (rtk st) (rgs st) (ends st) (live st) (rpl (restart st)).
Proof. pose proof (restart_items st) as H1. destruct (restart_only st) as (A & B & C & D & E). destruct (restart st). cbn in *. by subst. Qed.
Lemma oinv_step st r : oinv st → ordinary_req st r → oinv (rstep st r).
Proof.
  intros H Ho. destruct r as [i jobs deps|k s e|ks|o n|]; cbn [rstep].
  - by apply oinv_add.
  - apply archive_cases; [done|done|]. intros j E Hj. apply oinv_remove; [done|done|]. intros k' j' [[_ <-]|[_ ?]]%lookup_insert_Some; [done|by apply (o_oc _ H k')].
  - by apply oinv_delete.
  - destruct Ho as [? _]. by apply oinv_modify.
  - pose proof (restart_rpl st) as Hr. assert (∀ g, NoDup (rpl_values (rpl (restart st)) g)) as Hn.
    { intros g. unfold restart. rewrite enqueue_rpl. apply rpl_nodup_adds. intros g'. destruct st. unfold rpl_values. cbn. rewrite lookup_empty. constructor. }
    rewrite restart_eq. split; cbn; [done|apply (o_ol _ H)|apply (o_ol _ H)|apply (o_oc _ H)|..|done]; intros k j Hj; apply Hr; eauto.
Qed.
Lemma oinv_run h : along ordinary_req h rempty → oinv (rrun h rempty).
Proof. intros Ha. apply (rrun_ind ordinary_req oinv oinv_step h rempty oinv_empty Ha). Qed.
Lemma queue_by_rg_in st g k j : (k, j) ∈ queue_by_rg st g ↔ k ∈ rpl_values (rpl st) g ∧ items st !! k = Some j.
Proof.
  unfold queue_by_rg. rewrite elem_of_list_omap. split.
  - intros (k' & Hin & Hx). destruct (items st !! k') eqn:E; [|done]. cbn in Hx. injection Hx as -> ->. done.
  - intros [Hin Hk]. exists k. rewrite Hk. done.
Qed.
Lemma queue_by_rg_nodup st g : NoDup (rpl_values (rpl st) g) → NoDup (queue_by_rg st g).*1.
Proof.
  unfold queue_by_rg. generalize (rpl_values (rpl st) g). intros l. induction l as [|k l IH]; [constructor|]. intros [Hn Hd]%NoDup_cons. cbn [omap list_omap].
  destruct (items st !! k) as [j|]; cbn; [|by apply IH]. apply NoDup_cons. split; [|by apply IH].
  intros ([k' j'] & -> & Hx)%elem_of_list_fmap. apply elem_of_list_omap in Hx as (k2 & Hin & Hx). destruct (items st !! k2); [|done]. cbn in Hx. injection Hx as -> ->. done.
Qed.
(** * Only those of the rep group are found *)
Record einv (st : rstate) : Prop := {
  e_o : oinv st;
  e_il : ∀ k, is_Some (items st !! k) → is_Some (live st !! k);
  e_r : ∀ k g, k ∈ rpl_values (rpl st) g → ∃ j, items st !! k = Some j ∧ j_rg j = g;
  e_l : ∀ k j, live st !! k = Some j → ∃ j', items st !! k = Some j' ∧ j_rg j' = j_rg j }.
Definition quiet_req (st : rstate) (r : rreq) : Prop := ordinary_req st r ∧ not_both st r ∧ same_groups st r.
Lemma einv_empty : einv rempty.
Proof.
  split; cbn; [apply oinv_empty|intros k; rewrite lookup_empty; by intros [? ?]| |intros k j; by rewrite lookup_empty].
  intros k g H. unfold rpl_values in H. rewrite lookup_empty in H. by apply elem_of_nil in H.
Qed.
Lemma einv_add i jobs deps st : einv st → quiet_req st (RAdd i jobs deps) → einv (add_jobs i jobs deps st).1.
Proof.
  intros H (Ho & Hb & Hs). pose proof (e_o _ H) as H0. pose proof (oinv_add i jobs deps st H0 Ho) as Hno.
  destruct (decide (kept i st jobs = [])) as [En|Hn]; [by rewrite add_nil|].
  destruct (add_ok i jobs deps st (o_li _ H0) Ho Hn) as (st2 & H1 & H2 & H3 & H4 & E & _). rewrite E in *. cbn [fst] in *.
  destruct (enqueue_only st2 (queued_of i st jobs deps)) as (El & _). destruct H1 as (El1 & _).
  assert (live st2 = put_jobs (live st) (kept i st jobs ++ again st (kept i st jobs) deps)) as El2 by (rewrite El1; by destruct st). rewrite El2 in El. clear El1 El2.
  rewrite (queued_both _ _ _ _ Hb) in *. set (new := kept i st jobs) in *. set (old := again st new deps) in *. cbn in Hs.
  assert (∀ k j, items st !! k = Some j → ∃ j', items (enqueue st2 (old ++ new)) !! k = Some j' ∧ j_rg j' = j_rg j) as Hkeep.
  { intros k j Hi. destruct (proj2 (H4 k) ltac:(by eexists)) as [j2 Hj2]. exists j2. rewrite enqueue_items. split; [by apply add_items_keep|].
    destruct (H3 k j2 Hj2) as [?|[Hl _]]; [congruence|]. destruct (e_l _ H k j2 Hl) as (j' & Hj' & Hg). congruence. }
  assert (∀ k j, (k, j) ∈ old ++ new → ∃ j', items (enqueue st2 (old ++ new)) !! k = Some j' ∧ j_rg j' = j_rg j) as Hq.
  { intros k j Hin. assert (is_Some (items (enqueue st2 (old ++ new)) !! k)) as [j' Hj'] by (rewrite enqueue_items; apply add_items_some; by apply (elem_of_list_fmap_1 fst) in Hin).
    exists j'. split; [done|]. rewrite enqueue_items in Hj'.
    assert (∀ j0, items st !! k = Some j0 → j_rg j0 = j_rg j) as Hold.
    { intros j0 Hi. apply elem_of_app in Hin as [Hin|Hin].
      - apply again_in in Hin as (Hl & _). destruct (e_il _ H k ltac:(by eexists)) as [? ?]. congruence.
      - apply kept_sub in Hin. exact (proj1 (Hs k j Hin) j0 Hi). }
    apply add_items_in in Hj' as [Hj'|[_ Hj']].
    - destruct (proj1 (H4 k) ltac:(by eexists)) as [j0 Hi]. destruct (Hkeep k j0 Hi) as (j3 & Hj3 & Hg3). rewrite enqueue_items in Hj3.
      rewrite (add_items_keep _ _ _ _ Hj') in Hj3. injection Hj3 as <-. rewrite Hg3. by apply Hold.
    - apply elem_of_app in Hin as [Hin|Hin], Hj' as [Hj'|Hj'].
      + apply again_in in Hin as (_ & ? & _), Hj' as (_ & ? & _). congruence.
      + apply again_in in Hin as (_ & _ & Hni & _). destruct Hni. by apply (elem_of_list_fmap_1 fst) in Hj'.
      + apply again_in in Hj' as (_ & _ & Hni & _). destruct Hni. by apply (elem_of_list_fmap_1 fst) in Hin.
      + apply kept_sub in Hin, Hj'. exact (proj2 (Hs k j Hin) j' Hj'). }
  split; [done|..].
  - intros k [j Hj]. rewrite enqueue_items in Hj. rewrite El. apply add_items_in in Hj as [Hj|[_ Hj]].
    + apply put_jobs_old. apply (e_il _ H). apply H4. by eexists.
    + apply put_jobs_in. apply (elem_of_list_fmap_1 fst) in Hj. cbn in Hj. rewrite fmap_app, elem_of_app in *. destruct Hj; auto.
  - intros k g. rewrite enqueue_rpl, rpl_adds_in, H2. intros [Hr|(j & Hin & <-)]; [|by apply Hq].
    destruct (e_r _ H k g Hr) as (j & Hj & <-). by apply Hkeep.
  - intros k j. rewrite El. intros [Hin|[_ Hin]]%put_jobs_lookup.
    + apply Hq. rewrite elem_of_app in *. destruct Hin; auto.
    + destruct (e_l _ H k j Hin) as (j' & Hj' & <-). by apply Hkeep.
Qed.
Lemma einv_remove st k j c e : einv st → items st !! k = Some j → oinv (RState (delete k (live st)) c (rtk st) (rgs st) e (delete k (items st)) (rpl_delete (rpl st) (j_rg j) k)) →
  einv (RState (delete k (live st)) c (rtk st) (rgs st) e (delete k (items st)) (rpl_delete (rpl st) (j_rg j) k)).
Proof.
  intros H E Ho. split; [done|cbn..].
  - intros k' [j' [Hne Hi]%lookup_delete_Some]. rewrite lookup_delete_ne by done. apply (e_il _ H). by eexists.
  - intros k' g [Hr Hn]%rpl_delete_in. destruct (e_r _ H k' g Hr) as (j' & Hj' & <-). exists j'. split; [|done]. rewrite lookup_delete_ne; [done|].
    intros <-. apply Hn. split; [congruence|done].
  - intros k' j' [Hne Hl]%lookup_delete_Some. rewrite lookup_delete_ne by done. by apply (e_l _ H).
Qed.
Lemma einv_delete ks : ∀ st, einv st → einv (delete_jobs ks st).
Proof.
  unfold delete_jobs. induction ks as [|k ks IH]; intros st H; [done|]. cbn [fold_left]. apply IH. unfold delete_one. destruct (items st !! k) as [j|] eqn:E; [|done].
  pose proof (oinv_remove st k j (comp st) (e_o _ H) E (o_oc _ (e_o _ H)) (ends st)) as H'.
  pose proof (einv_remove st k j (comp st) (ends st) H E H') as H2. by destruct st.
Qed.
Lemma einv_step st r : einv st → quiet_req st r → einv (rstep st r).
Proof.
  intros H Hq. pose proof (e_o _ H) as H0. pose proof (oinv_step st r H0 (proj1 Hq)) as Hno. destruct r as [i jobs deps|k s e|ks|o n|]; cbn [rstep] in *.
  - by apply einv_add.
  - destruct (items st !! k) as [j|] eqn:E; [|unfold archive; by rewrite E]. pose proof (o_oi _ H0 k j E) as Hj.
    rewrite (archive_ok k s e st j E Hj) in *. cbn [fst] in *. by apply einv_remove.
  - by apply einv_delete.
  - revert Hno. destruct Hq as ([Hk _] & _). apply modify_cases; [done|done|done|]. intros j E Ho Hc Hno. split; [done|cbn..].
    + intros k. case_bool_decide as Hon.
      * subst o. intros Hi. destruct (decide (k = n)) as [->|Hne]; [rewrite lookup_insert; by eexists|]. rewrite lookup_insert_ne, lookup_delete_ne by done. by apply (e_il _ H).
      * destruct (decide (k = n)) as [->|Hne]; [rewrite lookup_insert; intros _; rewrite lookup_insert; by eexists|]. rewrite !lookup_insert_ne by done.
        intros [j' [Hko Hi]%lookup_delete_Some]. rewrite lookup_delete_ne by done. apply (e_il _ H). by eexists.
    + intros k g. case_bool_decide as Hon; [apply (e_r _ H)|]. intros [[Hr Hnn]%rpl_delete_in|[-> ->]]%rpl_add_in; [|exists j; by rewrite lookup_insert].
      destruct (e_r _ H k g Hr) as (j' & Hj' & <-). exists j'. split; [|done]. rewrite lookup_insert_ne, lookup_delete_ne; [done|..].
      * intros <-. apply Hnn. split; [congruence|done].
      * intros <-. destruct Hc as [?|?]; congruence.
    + intros k j'. intros [[<- <-]|[Hne [Hko Hl]%lookup_delete_Some]]%lookup_insert_Some.
      * exists j. split; [|done]. case_bool_decide as Hon; [by subst|apply lookup_insert].
      * case_bool_decide as Hon; [by apply (e_l _ H)|]. rewrite lookup_insert_ne, lookup_delete_ne by done. by apply (e_l _ H).
  - pose proof (restart_rpl st) as Hr. rewrite restart_eq in *. split; [done|cbn..]; [done| |eauto]. intros k g (j & Hj & Hg)%Hr. eauto.
Qed.
Lemma einv_run h : along quiet_req h rempty → einv (rrun h rempty).
Proof. intros Ha. apply (rrun_ind quiet_req einv einv_step h rempty einv_empty Ha). Qed.
