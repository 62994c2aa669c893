(** Proofs on lookups by rep group: jobs are found again, completion times, and patterns. *)
From Coq Require Import ZArith Lia String Ascii.
From stdpp Require Import base option strings gmap list sorting.
From RecordUpdate Require Import RecordSet.
From Verif Require Import UtilModel LearnModel LearnProofs RepModel RepSpec RepProofs RepProofs2 RepProofs3.
Import RecordSetNotations.
Open Scope Z_scope.

(** * What is known of the rep groups of all jobs *)
Record known (R : string → string → Prop) (st : rstate) : Prop := {
  k_i : ∀ k j, items st !! k = Some j → R (j_rg j) k;
  k_l : ∀ k j, live st !! k = Some j → R (j_rg j) k;
  k_c : ∀ k j, comp st !! k = Some j → R (j_rg j) k }.
Lemma known_step (R R' : string → string → Prop) st r : oinv st → ordinary_req st r → not_both st r → known R st →
  (∀ g k, R g k → (∀ o n j, r = RModify o n → items st !! o = Some j → (o = n ∨ items st !! n = None) → k = o → is_Some (comp st !! o)) → R' g k) →
  (∀ i jobs deps k j, r = RAdd i jobs deps → (k, j) ∈ kept i st jobs → R' (j_rg j) k) →
  (∀ o n j, r = RModify o n → items st !! o = Some j → (o = n ∨ items st !! n = None) → R' (j_rg j) n) → known R' (rstep st r).
Proof.
  intros H Ho Hb Hn Hm Ha Hd. destruct r as [i jobs deps|k s e|ks|o n|]; cbn [rstep].
  - assert (∀ g k, R g k → R' g k) as Hm' by (intros g k HR; apply Hm; [done|]; intros; done).
    destruct (decide (kept i st jobs = [])) as [En|Hne]; [rewrite add_nil by done; split; intros k j Hk; apply Hm'; [by apply (k_i _ _ Hn)|by apply (k_l _ _ Hn)|by apply (k_c _ _ Hn)]|].
    destruct (add_ok i jobs deps st (o_li _ H) Ho Hne) as (st2 & H1 & H2 & H3 & H4 & -> & _). cbn [fst].
    destruct (enqueue_only st2 (queued_of i st jobs deps)) as (El & Ec & _). destruct H1 as (El1 & Ec1 & _).
    assert (live st2 = put_jobs (live st) (kept i st jobs ++ again st (kept i st jobs) deps)) as El2 by (rewrite El1; by destruct st).
    assert (comp st2 = comp st) as Ec2 by (rewrite Ec1; by destruct st). rewrite El2 in El. rewrite Ec2 in Ec. clear El1 Ec1 El2 Ec2.
    assert (∀ k j, (k, j) ∈ again st (kept i st jobs) deps → R' (j_rg j) k) as Hold.
    { intros k j (_ & Hc & _)%again_in. apply Hm'. by apply (k_c _ _ Hn). }
    rewrite (queued_both _ _ _ _ Hb) in *. split.
    + intros k j. rewrite enqueue_items. intros [Hi|[_ [Hi|Hi]%elem_of_app]]%add_items_in; [|by apply Hold|by apply (Ha i jobs deps)].
      apply Hm'. destruct (H3 k j Hi) as [?|[? _]]; [by apply (k_i _ _ Hn)|by apply (k_l _ _ Hn)].
    + intros k j. rewrite El. intros [[Hi|Hi]%elem_of_app|[_ Hi]]%put_jobs_lookup; [by apply (Ha i jobs deps)|by apply Hold|]. apply Hm'. by apply (k_l _ _ Hn).
    + intros k j. rewrite Ec. intros Hc. apply Hm'. by apply (k_c _ _ Hn).
  - assert (∀ g k, R g k → R' g k) as Hm' by (intros g k' HR; apply Hm; [done|]; intros; done).
    apply archive_cases; [done|split; intros k' j Hk; apply Hm'; [by apply (k_i _ _ Hn)|by apply (k_l _ _ Hn)|by apply (k_c _ _ Hn)]|].
    intros j E Hj. split; cbn.
    + intros k' j' [_ ?]%lookup_delete_Some. apply Hm'. by apply (k_i _ _ Hn).
    + intros k' j' [_ ?]%lookup_delete_Some. apply Hm'. by apply (k_l _ _ Hn).
    + intros k' j' [[<- <-]|[_ ?]]%lookup_insert_Some; apply Hm'; [by apply (k_i _ _ Hn k j)|by apply (k_c _ _ Hn)].
  - assert (∀ g k, R g k → R' g k) as Hm' by (intros g k' HR; apply Hm; [done|]; intros; done).
    destruct (delete_jobs_fields ks st) as (A & _ & _ & _ & D & E). split.
    + intros k j. rewrite D. destruct (decide _); [done|]. intros ?. apply Hm'. by apply (k_i _ _ Hn).
    + intros k j. rewrite E. destruct (decide _); [done|]. intros ?. apply Hm'. by apply (k_l _ _ Hn).
    + intros k j. rewrite A. intros ?. apply Hm'. by apply (k_c _ _ Hn).
  - destruct (items st !! o) as [j|] eqn:E.
    2:{ rewrite modify_not by auto. split; intros k j Hk; (apply Hm; [|by intros o' n' j' [= -> ->]; rewrite E]); [by apply (k_i _ _ Hn)|by apply (k_l _ _ Hn)|by apply (k_c _ _ Hn)]. }
    destruct (decide (o = n ∨ items st !! n = None)) as [Hc|Hc].
    2:{ rewrite modify_not. 2:{ right. split; [intros ->; apply Hc; by left|]. destruct (items st !! n) eqn:En; [by eexists|]. destruct Hc. by right. }
        split; intros k j' Hk; (apply Hm; [|by intros o' n' j'' [= -> ->]]); [by apply (k_i _ _ Hn)|by apply (k_l _ _ Hn)|by apply (k_c _ _ Hn)]. }
    pose proof (key_length n (proj1 Ho)) as Hk. rewrite (modify_ok o n st j E (o_oi _ H o j E) Hk Hc). split; cbn.
    + intros k j'. case_bool_decide as Hon.
      * subst o. intros Hi. destruct (decide (k = n)) as [->|Hne]; [rewrite Hi in E; injection E as ->; by apply (Hd n n j)|].
        apply Hm; [by apply (k_i _ _ Hn)|]. intros o' n' j'' [= -> ->]. done.
      * intros [[<- <-]|[Hne [Hko Hi]%lookup_delete_Some]]%lookup_insert_Some; [by apply (Hd o n j)|].
        apply Hm; [by apply (k_i _ _ Hn)|]. intros o' n' j'' [= -> ->] _ _ ->. done.
    + intros k j' [[<- <-]|[Hne [Hko Hi]%lookup_delete_Some]]%lookup_insert_Some; [by apply (Hd o n j)|].
      apply Hm; [by apply (k_l _ _ Hn)|]. intros o' n' j'' [= -> ->] _ _ ->. done.
    + intros k j' Hi. apply Hm; [by apply (k_c _ _ Hn)|]. intros o' n' j'' [= -> ->] _ _ ->. by eexists.
  - assert (∀ g k, R g k → R' g k) as Hm' by (intros g k' HR; apply Hm; [done|]; intros; done).
    rewrite restart_eq. split; cbn; intros k j Hk; apply Hm'; [by apply (k_l _ _ Hn)|by apply (k_l _ _ Hn)|by apply (k_c _ _ Hn)].
Qed.
Lemma known_empty R : known R rempty.
Proof. split; cbn; intros k j; by rewrite lookup_empty. Qed.
(** ** in the notes *)
Definition plain_req (st : rstate) (r : rreq) : Prop := ordinary_req st r ∧ not_both st r.
Lemma found_step st P r : oinv st → plain_req st r → fresh_mods st r → known (λ g k, (g, k) ∈ P) st → known (λ g k, (g, k) ∈ notes st P r) (rstep st r).
Proof.
  intros H [Ho Hb] Hf Hn. apply (known_step (λ g k, (g, k) ∈ P)); [done|done|done|done|..].
  - intros g k HP Hc. destruct r as [i jobs deps|k' s e|ks|o n|]; try done; cbn [notes].
    + destruct (forallb _ _); [|done]. apply elem_of_union. by left.
    + destruct (items st !! o) as [j|] eqn:E; [|done]. destruct (decide (o = n ∨ items st !! n = None)) as [E1|E1]; [rewrite (bool_decide_true (o = n ∨ items st !! n = None)) by done|by rewrite (bool_decide_false (o = n ∨ items st !! n = None)) by done].
      cbn [andb]. destruct (bool_decide _); [|done]. apply elem_of_union. right. apply elem_of_filter. split; [|done]. cbn. intros ->.
      destruct (Hc o n j eq_refl E E1 eq_refl) as [? ?]. cbn in Hf. congruence.
  - intros i jobs deps k j -> Hin. cbn [notes]. rewrite <- kept_eq. destruct Ho as [Hk Ho].
    replace (forallb _ _) with true.
    2:{ symmetry. apply forallb_forall. intros [k' j'] Hin'%elem_of_list_In%kept_sub. apply bool_decide_eq_true. apply (Ho (k', j') Hin'). }
    apply elem_of_union. right. apply elem_of_list_to_set. apply elem_of_list_fmap. by exists (k, j).
  - intros o n j -> E Hc. cbn [notes]. rewrite E. rewrite bool_decide_true by done. cbn [andb]. rewrite bool_decide_true by (apply (o_oi _ H o j E)).
    apply elem_of_union. left. by apply elem_of_singleton.
Qed.
Lemma found_run h : ∀ st P, oinv st → known (λ g k, (g, k) ∈ P) st → along plain_req h st → along fresh_mods h st →
  known (λ g k, (g, k) ∈ noted h st P) (rrun h st).
Proof.
  induction h as [|r h IH]; intros st P H Hn Ha Hb; [done|]. destruct Ha as [Hp Ha], Hb as [Hf Hb]. unfold rrun. cbn [fold_left noted].
  apply IH; [by apply oinv_step; [|apply Hp]|by apply found_step|done|done].
Qed.
(** ** in the bucket of rep groups *)
Lemma rgs_mono st r g : is_Some (rgs st !! g) → is_Some (rgs (rstep st r) !! g).
Proof.
  intros [v Hg]. destruct r as [i jobs deps|k s e|ks|o n|]; cbn [rstep].
  - destruct (decide (kept i st jobs = [])) as [En|Hn]; [rewrite add_nil by done; by eexists|].
    destruct (add_fields i jobs deps st Hn) as (_ & _ & _ & -> & _).
    replace (rgs (stored_st st _ _)) with (default (rgs st) (put_lookups (rgs st) (gkeys (kept i st jobs)))) by (by destruct st).
    destruct (put_lookups (rgs st) _) eqn:E; [|by eexists]. apply put_lookups_some in E as [_ ->]. cbn [from_option id].
    destruct (decide (g ∈ gkeys (kept i st jobs))); [exists 0|exists v]; apply put_fold; auto.
  - unfold archive. destruct (items st !! k) as [j|]; [|by eexists]. destruct (storable _); cbn [fst]; exists v; by destruct st.
  - destruct (delete_jobs_fields ks st) as (_ & _ & -> & _). by eexists.
  - unfold modify. destruct (items st !! o) as [j|]; [|by eexists]. destruct (bool_decide _ && _); [by eexists|].
    set (st1 := if bool_decide (o = n) then st else _).
    assert (rgs st1 = rgs st) as E1 by (unfold st1; destruct (bool_decide _); [done|]; by destruct st).
    destruct (put_lookups (filter _ _) _); [|rewrite E1; by eexists]. destruct (put_lookups (rgs st) _) eqn:E; [|rewrite E1; by eexists].
    apply put_lookups_some in E as [_ ->].
    match goal with |- is_Some (rgs (set live ?f (set rgs ?h (set rtk ?g' ?s))) !! _) => replace (rgs (set live f (set rgs h (set rtk g' s)))) with (h (rgs s)) by (by destruct s) end.
    cbn [fold_left]. destruct (decide (g = j_rg j)) as [->|Hne]; [rewrite lookup_insert; by eexists|]. rewrite lookup_insert_ne by done. by eexists.
  - destruct (restart_only st) as (_ & _ & _ & -> & _). by eexists.
Qed.
Definition in_rgs (st : rstate) (g k : string) : Prop := is_Some (rgs st !! g).
Lemma groups_step st r : oinv st → plain_req st r → known (in_rgs st) st → known (in_rgs (rstep st r)) (rstep st r).
Proof.
  intros H [Ho Hb] Hn. apply (known_step (in_rgs st)); [done|done|done|done|..].
  - intros g k Hg _. by apply rgs_mono.
  - intros i jobs deps k j -> Hin. unfold in_rgs. cbn [rstep].
    assert (kept i st jobs ≠ []) as Hne. { intros E. rewrite E in Hin. by apply elem_of_nil in Hin. }
    destruct (add_ok i jobs deps st (o_li _ H) Ho Hne) as (st2 & _ & _ & _ & _ & -> & E). cbn [fst].
    destruct (enqueue_only st2 (queued_of i st jobs deps)) as (_ & _ & _ & -> & _). apply put_lookups_some in E as [_ ->].
    exists 0. apply put_fold. left. split; [|done]. apply elem_of_list_fmap. by exists (k, j).
  - intros o n j -> E Hc. unfold in_rgs. cbn [rstep]. pose proof (key_length n (proj1 Ho)) as Hk. rewrite (modify_ok o n st j E (o_oi _ H o j E) Hk Hc). cbn.
    rewrite lookup_insert. by eexists.
Qed.
Record rginv (st : rstate) : Prop := {
  rg_o : oinv st; rg_k : known (in_rgs st) st; rg_e : ∀ g t, ends st !! g = Some t → is_Some (rgs st !! g) }.
Lemma ends_step st r : ends (rstep st r) = match r with
  | RArchive k _ e => match items st !! k with Some j => if storable (j_rg j) then put_end (ends st) (j_rg j) e else ends st | None => ends st end
  | _ => ends st end.
Proof.
  destruct r as [i jobs deps|k s e|ks|o n|]; cbn [rstep].
  - destruct (decide (kept i st jobs = [])) as [En|Hn]; [by rewrite add_nil|]. destruct (add_fields i jobs deps st Hn) as (_ & _ & _ & _ & ->). by destruct st.
  - unfold archive. destruct (items st !! k) as [j|]; [|done]. destruct (storable _); by destruct st.
  - by destruct (delete_jobs_fields ks st) as (_ & _ & _ & -> & _).
  - unfold modify. destruct (items st !! o) as [j|]; [|done]. destruct (bool_decide _ && _); [done|].
    set (st1 := if bool_decide (o = n) then st else _).
    assert (ends st1 = ends st) as E1 by (unfold st1; destruct (bool_decide _); [done|]; by destruct st).
    destruct (put_lookups (filter _ _) _); [|done]. destruct (put_lookups (rgs st) _); [|done]. rewrite <- E1. by destruct st1.
  - by destruct (restart_only st) as (_ & _ & _ & _ & ->).
Qed.
Lemma put_end_some m g t g' t' : put_end m g t !! g' = Some t' → g' = g ∨ m !! g' = Some t'.
Proof.
  unfold put_end. destruct (m !! g) as [t0|]; [destruct (bool_decide _); [auto|]|]; intros [[<- _]|[_ ?]]%lookup_insert_Some; auto.
Qed.
Lemma rginv_step st r : rginv st → plain_req st r → rginv (rstep st r).
Proof.
  intros [H Hk He] Hp. pose proof Hp as [Ho Hb]. split; [by apply oinv_step|by apply groups_step|].
  intros g t. rewrite ends_step. intros Hg. apply rgs_mono. destruct r as [i jobs deps|k s e|ks|o n|]; try (by apply (He g t)).
  destruct (items st !! k) as [j|] eqn:E; [|by apply (He g t)]. destruct (storable _); [|by apply (He g t)].
  apply put_end_some in Hg as [->|?]; [by apply (k_i _ _ Hk k j)|by apply (He g t)].
Qed.
Lemma rginv_run h : along plain_req h rempty → rginv (rrun h rempty).
Proof.
  intros Ha. apply (rrun_ind plain_req rginv rginv_step h rempty); [|done]. split; [apply oinv_empty|apply known_empty|]. intros g t. cbn. by rewrite lookup_empty.
Qed.
(** * Completion times *)
Definition einvt (m : gmap string Z) (L : list (string * Z)) : Prop :=
  ∀ g, match m !! g with None => ∀ t, (g, t) ∉ L | Some t => (g, t) ∈ L ∧ ∀ t', (g, t') ∈ L → t' ≤ t end.
Lemma put_end_inv m L g t : einvt m L → einvt (put_end m g t) ((g, t) :: L).
Proof.
  intros H g'. pose proof (H g') as Hg'. unfold put_end. destruct (decide (g' = g)) as [->|Hne].
  - destruct (m !! g) as [t0|] eqn:E.
    + case_bool_decide as Hle.
      * rewrite E. destruct Hg' as [H1 H2]. split; [by right|]. intros t' [[= ->]|?]%elem_of_cons; [done|by apply H2].
      * rewrite lookup_insert. split; [left|]. destruct Hg' as [H1 H2]. intros t' [[= ->]|Hin]%elem_of_cons; [done|]. specialize (H2 t' Hin). lia.
    + rewrite lookup_insert. split; [left|]. intros t' [[= ->]|Hin]%elem_of_cons; [done|]. by apply Hg' in Hin.
  - assert ((match m !! g with Some t0 => if bool_decide (t ≤ t0) then m else <[g:=t]> m | None => <[g:=t]> m end) !! g' = m !! g') as ->.
    { destruct (m !! g); [destruct (bool_decide _); [done|]|]; by rewrite lookup_insert_ne. }
    destruct (m !! g') as [t0|].
    + destruct Hg' as [H1 H2]. split; [by right|]. intros t' [[= -> _]|?]%elem_of_cons; [done|by apply H2].
    + intros t' [[= -> _]|Hin]%elem_of_cons; [done|]. by apply Hg' in Hin.
Qed.
Lemma ends_run h : ∀ st L, einvt (ends st) L → einvt (ends (rrun h st)) (completed h st L).
Proof.
  induction h as [|r h IH]; intros st L H; [done|]. unfold rrun. cbn [fold_left completed]. apply IH. rewrite ends_step.
  destruct r as [i jobs deps|k s e|ks|o n|]; try exact H. cbn [completions]. destruct (items st !! k) as [j|]; [|done].
  change (bool_decide (0 < String.length (j_rg j) ≤ 2 ^ 15)%nat) with (storable (j_rg j)). destruct (storable (j_rg j)); [|done]. by apply put_end_inv.
Qed.
Lemma einvt_iff m L : einvt m L → ∀ g t, m !! g = Some t ↔ (g, t) ∈ L ∧ ∀ t', (g, t') ∈ L → t' ≤ t.
Proof.
  intros H g t. specialize (H g). destruct (m !! g) as [t0|].
  - destruct H as [H1 H2]. split; [intros [= <-]; done|]. intros [H3 H4]. f_equal. pose proof (H2 t H3). pose proof (H4 t0 H1). lia.
  - split; [done|]. intros [H1 _]. by apply H in H1.
Qed.
(** * Patterns *)
Lemma rg_list_in st rg m g : g ∈ rg_list st rg m ↔ matching g rg m ∧ (m = MExact ∨ is_Some (rgs st !! g)).
Proof.
  unfold rg_list.
  assert (∀ m', g ∈ List.filter (λ g, rg_matches g rg m') (entries (rgs st)).*1 ↔ matching g rg m' ∧ is_Some (rgs st !! g)) as Hf.
  { intros m'. rewrite elem_of_list_In, filter_In, <- elem_of_list_In, matches_spec, elem_of_list_fmap. split.
    - intros [(e & -> & He%entries_in) ?]. split; [done|]. by eexists.
    - intros [? [v Hv]]. split; [|done]. exists (g, v). split; [done|]. by apply entries_in. }
  destruct m; [rewrite elem_of_list_singleton; cbn; tauto|..]; rewrite Hf; split; intros [? ?]; auto; (split; [done|]); by destruct H0.
Qed.
Lemma rg_list_nodup st rg m : NoDup (rg_list st rg m).
Proof.
  unfold rg_list. pose proof (entries_nodup (rgs st)) as H.
  assert (∀ m', NoDup (List.filter (λ g, rg_matches g rg m') (entries (rgs st)).*1)) as Hf.
  { intros m'. apply NoDup_ListNoDup. apply List.NoDup_filter. by apply NoDup_ListNoDup. }
  destruct m; [apply NoDup_singleton|apply Hf..].
Qed.
Lemma by_rg_in st rg m c kj : kj ∈ by_rg st rg m c ↔ ∃ g, g ∈ rg_list st rg m ∧ (kj ∈ queue_by_rg st g ∨ (c = true ∧ kj ∈ complete_by_rg st g)).
Proof.
  unfold by_rg. rewrite elem_of_list_bind. split.
  - intros (g & Hin & Hg). exists g. split; [done|]. apply elem_of_app in Hin as [?|Hin]; [by left|]. destruct c; [by right|by apply elem_of_nil in Hin].
  - intros (g & Hg & Hin). exists g. split; [|done]. apply elem_of_app. destruct Hin as [?|[-> ?]]; auto.
Qed.
Lemma by_rg_nodup st rg m : einv st → NoDup (by_rg st rg m false).*1.
Proof.
  intros H. unfold by_rg. pose proof (rg_list_nodup st rg m) as Hn. induction (rg_list st rg m) as [|g l IH]; [constructor|].
  apply NoDup_cons in Hn as [Hn1 Hn]. cbn. rewrite fmap_app, app_nil_r. apply NoDup_app. split_and!; [apply queue_by_rg_nodup; apply (o_nd _ (e_o _ H))| |by apply IH].
  intros k ([k1 j1] & -> & H1)%elem_of_list_fmap ([k2 j2] & E & H2)%elem_of_list_fmap. cbn in E. subst k2. apply queue_by_rg_in in H1 as [H1 _].
  apply elem_of_list_bind in H2 as (g' & H2 & Hg'). rewrite app_nil_r in H2. apply queue_by_rg_in in H2 as [H2 _].
  destruct (e_r _ H _ _ H1) as (j & Hj & <-). destruct (e_r _ H _ _ H2) as (j' & Hj' & <-). rewrite Hj in Hj'. injection Hj' as <-. done.
Qed.
Lemma current_in st rg m k j : rg ≠ EmptyString → oinv st → (m = MExact → ∀ k g, k ∈ rpl_values (rpl st) g → ∃ j, items st !! k = Some j ∧ j_rg j = g) →
  (k, j) ∈ current st rg m ↔ items st !! k = Some j ∧ matching (j_rg j) rg m.
Proof.
  intros Hrg H He. unfold current. rewrite bool_decide_false by done.
  assert (∀ m', (k, j) ∈ List.filter (λ kj : string * rjob, rg_matches (j_rg kj.2) rg m') (map_to_list (items st)) ↔ items st !! k = Some j ∧ matching (j_rg j) rg m') as Hf.
  { intros m'. rewrite elem_of_list_In, filter_In, <- elem_of_list_In, matches_spec, elem_of_map_to_list. done. }
  destruct m; [|apply Hf..]. rewrite queue_by_rg_in. cbn. split.
  - intros [Hr Hi]. split; [done|]. destruct (He eq_refl k rg Hr) as (j' & Hj' & <-). congruence.
  - intros [Hi <-]. split; [|done]. by apply (o_ri _ H).
Qed.
