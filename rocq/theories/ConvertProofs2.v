(** Proofs about requests that post jobs. *)
From Coq Require Import ZArith Lia String Ascii.
From stdpp Require Import base option strings gmap list pretty.
From Verif Require Import GoHeap QueueModel ServerModel ServerSpec ServerKey ServerDep ServerWait UtilModel BehaveModel BehaveSpec BehaveProofs ConvertModel ConvertSpec ConvertProofs.
Local Open Scope Z_scope.

Section post.
Variable to_mb : string → option Z.
Variable to_duration : string → option Z.
Variable content : string → option string.
Variable atoi : string → option Z.
Variable parse_float : string → option Z.
Variable json_behaviours : string → option (list bvj).
Variable json_mounts : string → option (list string).
Variable as_job : cjob → job.
Notation convert := (convert to_mb to_duration content).
Notation convert_jobs := (convert_jobs to_mb to_duration content).
Notation form_defaults := (form_defaults to_mb to_duration atoi parse_float json_behaviours json_mounts).
Notation rest_add := (rest_add to_mb to_duration content atoi parse_float json_behaviours json_mounts as_job).
Notation usable := (usable to_mb to_duration content).
Notation checks := (param_checks to_mb to_duration json_behaviours json_mounts).

Lemma checked_none {A} (g : string → option A) n v : checked g n v = None ↔ v ≠ ""%string ∧ g v = None.
Proof. unfold checked. destruct (String.eqb_spec v ""); naive_solver. Qed.
Lemma form_refused (f : gmap string string) :
  form_defaults f = None ↔ ∃ k ok v, (k, ok) ∈ checks ∧ f !! k = Some v ∧ v ≠ ""%string ∧ ¬ ok v.
Proof.
  assert (Hc : ∀ A (g : string → option A) n k, checked g n (get f k) = None ↔ ∃ v, f !! k = Some v ∧ v ≠ ""%string ∧ ¬ is_Some (g v)).
  { intros A g n k. rewrite checked_none. unfold get. destruct (f !! k) as [v|]; cbn; split.
    - intros [H1 H2]. exists v. rewrite H2. split_and!; [done|done|by intros [? ?]].
    - intros (v' & [= <-] & H1 & H2). split; [done|]. by apply eq_None_not_Some.
    - by intros [? _].
    - by intros (? & ? & _). }
  split.
  - unfold ConvertModel.form_defaults. intros H.
    destruct (checked to_mb 0 (get f "memory")) eqn:E1; [|apply Hc in E1 as (v & H1 & H2 & H3); exists "memory"%string, (λ v, is_Some (to_mb v)), v; split_and!; try done; unfold param_checks; set_solver].
    destruct (checked to_duration 0 (get f "time")) eqn:E2; [|apply Hc in E2 as (v & H1 & H2 & H3); exists "time"%string, (λ v, is_Some (to_duration v)), v; split_and!; try done; unfold param_checks; set_solver].
    destruct (checked to_duration 0 (get f "no_retry_over_walltime")) eqn:E3; [|apply Hc in E3 as (v & H1 & H2 & H3); exists "no_retry_over_walltime"%string, (λ v, is_Some (to_duration v)), v; split_and!; try done; unfold param_checks; set_solver].
    destruct (checked json_behaviours [] (get f "on_failure")) eqn:E4; [|apply Hc in E4 as (v & H1 & H2 & H3); exists "on_failure"%string, (λ v, is_Some (json_behaviours v)), v; split_and!; try done; unfold param_checks; set_solver].
    destruct (checked json_behaviours [] (get f "on_success")) eqn:E5; [|apply Hc in E5 as (v & H1 & H2 & H3); exists "on_success"%string, (λ v, is_Some (json_behaviours v)), v; split_and!; try done; unfold param_checks; set_solver].
    destruct (checked json_behaviours [] (get f "on_exit")) eqn:E6; [|apply Hc in E6 as (v & H1 & H2 & H3); exists "on_exit"%string, (λ v, is_Some (json_behaviours v)), v; split_and!; try done; unfold param_checks; set_solver].
    destruct (checked json_mounts [] (get f "mounts")) eqn:E7; [done|apply Hc in E7 as (v & H1 & H2 & H3); exists "mounts"%string, (λ v, is_Some (json_mounts v)), v; split_and!; try done; unfold param_checks; set_solver].
  - intros (k & ok & v & Hin & Hv & Hne & Hok).
    assert (Hn : ∀ A (g : string → option A) n, ok = (λ v, is_Some (g v)) → checked g n (get f k) = None).
    { intros A g n ->. apply Hc. by exists v. }
    destruct (form_defaults f) as [d|] eqn:Hd; [exfalso|done]. unfold ConvertModel.form_defaults in Hd.
    repeat match type of Hd with context [checked ?g ?n (get f ?k)] => destruct (checked g n (get f k)) eqn:?; [|done]; cbn [mbind option_bind] in Hd end.
    unfold param_checks in Hin. rewrite !elem_of_cons, elem_of_nil in Hin.
    destruct Hin as [Hin|[Hin|[Hin|[Hin|[Hin|[Hin|[Hin|[]]]]]]]]; injection Hin as -> ->;
      first [rewrite (Hn _ _ 0 eq_refl) in *; discriminate|rewrite (Hn _ _ [] eq_refl) in *; discriminate].
Qed.

Lemma jobs_ok d (js : list jvj) : Forall (λ j, usable j d) js → ∃ cs, convert_jobs d (Some <$> js) = Some (inr cs) ∧ Forall2 (λ j c, convert d j = inr c) js cs.
Proof.
  induction 1 as [|j js Hj _ (cs & IH & HF)]; cbn [fmap list_fmap ConvertModel.convert_jobs]; [by exists []|].
  apply conv_usable in Hj as [c Hc]. rewrite Hc, IH. exists (c :: cs). by split; [|constructor].
Qed.
Lemma jobs_bad d (js : list jvj) j : j ∈ js → ¬ usable j d → ∃ e, convert_jobs d (Some <$> js) = Some (inl e).
Proof.
  intros Hin Hn. induction js as [|j0 js IH]; [by apply elem_of_nil in Hin|]. cbn [fmap list_fmap ConvertModel.convert_jobs].
  destruct (convert d j0) as [e|c] eqn:E; [by eexists|]. apply elem_of_cons in Hin as [->|Hin].
  - exfalso. apply Hn, conv_usable. by exists c.
  - destruct (IH Hin) as [e ->]. by eexists.
Qed.
Lemma post_bad now f (body : option (list jvj)) s :
  (∃ k ok v, (k, ok) ∈ checks ∧ f !! k = Some v ∧ v ≠ ""%string ∧ ¬ ok v) ∨ body = None ∨
  (∃ js d j, body = Some js ∧ form_defaults f = Some d ∧ j ∈ js ∧ ¬ usable j d) →
  rest_add now f (match body with Some js => Some (Some <$> js) | None => None end) s = Some (s, ABad).
Proof.
  unfold ConvertModel.rest_add. intros [H%form_refused|[->|(js & d & j & -> & Hd & Hj & Hn)]].
  - by rewrite H.
  - by destruct (form_defaults f).
  - rewrite Hd. destruct (jobs_bad d js j Hj Hn) as [e He]. by rewrite He.
Qed.
Lemma post_good now f d (js : list jvj) s : form_defaults f = Some d → Forall (λ j, usable j d) js →
  ∃ cs, Forall2 (λ j c, convert d j = inr c) js cs ∧
    rest_add now f (Some (Some <$> js)) s =
      '(s', a, _) ← s_add now (as_job <$> cs) (negb (String.eqb (get f "rerun") "true")) s;
      match a with SErr _ => Some (s', AFailed) | _ => Some (s', ACreated (in_queue s' (jkey <$> (as_job <$> cs)))) end.
Proof.
  intros Hd Hu. destruct (jobs_ok d js Hu) as (cs & Hc & HF). exists cs. split; [done|]. unfold ConvertModel.rest_add. by rewrite Hd, Hc.
Qed.
Lemma post_taken now f d (js : list jvj) s : form_defaults f = Some d → Forall (λ j, usable j d) js →
  ∃ cs, Forall2 (λ j c, convert d j = inr c) js cs ∧
    ∀ s' r l, s_add now (as_job <$> cs) (negb (bool_decide (f !! "rerun"%string = Some "true"%string))) s = Some (s', r, l) →
      ∃ a, rest_add now f (Some (Some <$> js)) s = Some (s', a) ∧ a ≠ ABad ∧ (a = AFailed ↔ ∃ e, r = SErr e).
Proof.
  intros Hd Hu. destruct (post_good now f d js s Hd Hu) as (cs & HF & E). exists cs. split; [done|].
  intros s' r l Ha. rewrite E.
  assert (Eb : bool_decide (f !! "rerun"%string = Some "true"%string) = String.eqb (get f "rerun") "true").
  { unfold get. case_bool_decide as H; [by rewrite H|]. symmetry. apply String.eqb_neq. intros H'.
    destruct (f !! "rerun"%string) as [v|]; cbn in H'; [by subst|done]. }
  rewrite <-Eb, Ha. cbn [mbind option_bind]. destruct r; eexists; (split; [reflexivity|]); (split; [done|]); split; try done; try (by intros [? ?]). by eexists.
Qed.
Lemma form_params (f : gmap string string) d : form_defaults f = Some d →
  Forall (λ '(name, got), got = default ""%string (f !! name)) (param_texts d) ∧
  chosen (text (default ""%string (f !! "rep_grp"%string))) None "manually_added"%string (d_repgrp d) ∧
  Forall (λ '(name, got), ∀ v n, f !! name = Some v → v ≠ ""%string → atoi v = Some n → got = n) (param_numbers d) ∧
  (∀ v n, f !! "cpus"%string = Some v → v ≠ ""%string → parse_float v = Some n → d_cpus d = n) ∧
  (∀ v n, f !! "memory"%string = Some v → v ≠ ""%string → to_mb v = Some n → d_memory d = n) ∧
  (∀ v n, f !! "time"%string = Some v → v ≠ ""%string → to_duration v = Some n → d_time d = n) ∧
  (∀ v n, f !! "no_retry_over_walltime"%string = Some v → v ≠ ""%string → to_duration v = Some n → d_noretry d = n) ∧
  Forall (λ '(name, got), got = true ↔ f !! name = Some "true"%string) (param_flags d) ∧
  (d_diskset d = true ↔ is_Some (f !! "disk"%string)) ∧
  (∀ v, f !! "limit_grps"%string = Some v → v ≠ ""%string → d_limits d = split "," v) ∧
  (∀ v, f !! "dep_grps"%string = Some v → v ≠ ""%string → d_depgrps d = split "," v) ∧
  (∀ v, f !! "deps"%string = Some v → v ≠ ""%string → d_deps d = DGroup <$> split "," v) ∧
  (∀ v ms, f !! "mounts"%string = Some v → v ≠ ""%string → json_mounts v = Some ms → d_mounts d = ms) ∧
  (f !! "limit_grps"%string = None → d_limits d = []) ∧ (f !! "dep_grps"%string = None → d_depgrps d = []) ∧
  (f !! "deps"%string = None → d_deps d = []) ∧ (f !! "mounts"%string = None → d_mounts d = []) ∧ (f !! "cpus"%string = None → d_cpus d = 0) ∧
  (f !! "memory"%string = None → d_memory d = 0) ∧ (f !! "time"%string = None → d_time d = 0) ∧ (f !! "no_retry_over_walltime"%string = None → d_noretry d = 0) ∧
  Forall (λ '(name, got), f !! name = None → got = 0) (param_numbers d).
Proof.
  unfold ConvertModel.form_defaults. intros H.
  destruct (checked to_mb 0 (get f "memory")) as [mb|] eqn:E1; [|done].
  destruct (checked to_duration 0 (get f "time")) as [du|] eqn:E2; [|done].
  destruct (checked to_duration 0 (get f "no_retry_over_walltime")) as [nr|] eqn:E3; [|done].
  destruct (checked json_behaviours [] (get f "on_failure")) as [b1|]; [|done].
  destruct (checked json_behaviours [] (get f "on_success")) as [b2|]; [|done].
  destruct (checked json_behaviours [] (get f "on_exit")) as [b3|]; [|done].
  destruct (checked json_mounts [] (get f "mounts")) as [ms|] eqn:E7; [|done].
  cbn [mbind option_bind] in H. injection H as <-.
  assert (Hgot : ∀ k v, f !! k = Some v → get f k = v) by (intros k v H; unfold get; by rewrite H).
  assert (Hnone : ∀ k, f !! k = None → get f k = ""%string) by (intros k H; unfold get; by rewrite H).
  assert (Hint : ∀ k v n, f !! k = Some v → v ≠ ""%string → atoi v = Some n → url_int atoi (get f k) = n).
  { intros k v n H1 H2 H3. rewrite (Hgot k v H1). unfold url_int. apply String.eqb_neq in H2. by rewrite H2, H3. }
  assert (Hint0 : ∀ k, f !! k = None → url_int atoi (get f k) = 0) by (intros k H; by rewrite (Hnone k H)).
  assert (Hsl : ∀ k v, f !! k = Some v → v ≠ ""%string → url_slice (get f k) = split "," v).
  { intros k v H1 H2. rewrite (Hgot k v H1). unfold url_slice. apply String.eqb_neq in H2. by rewrite H2. }
  assert (Hfl : ∀ k, String.eqb (get f k) "true" = true ↔ f !! k = Some "true"%string).
  { intros k. rewrite String.eqb_eq. unfold get. destruct (f !! k); cbn; split; congruence. }
  assert (Hch : ∀ A (g : string → option A) n0 x k v n, checked g n0 (get f k) = Some x → f !! k = Some v → v ≠ ""%string → g v = Some n → x = n).
  { intros A g n0 x k v n H1 H2 H3 H4. rewrite (Hgot k v H2) in H1. unfold checked in H1. apply String.eqb_neq in H3. rewrite H3 in H1. congruence. }
  cbn [d_repgrp d_cpus d_memory d_time d_noretry d_diskset d_limits d_depgrps d_deps d_mounts].
  split_and!.
  - unfold param_texts. cbn. repeat (apply Forall_cons; split; [done|]). constructor.
  - pose proof (str_or_empty (get f "rep_grp") "manually_added") as [A B]. split; [exact A|]. intros E. split; [done|]. intros _. by apply B.
  - unfold param_numbers. cbn. repeat (apply Forall_cons; split; [intros; by eapply Hint|]). constructor.
  - intros v n H1 H2 H3. rewrite (Hgot _ v H1). unfold url_float. apply String.eqb_neq in H2. by rewrite H2, H3.
  - intros; by eapply Hch.
  - intros; by eapply Hch.
  - intros; by eapply Hch.
  - unfold param_flags. cbn. repeat (apply Forall_cons; split; [apply Hfl|]). constructor.
  - apply bool_decide_eq_true.
  - intros; by apply Hsl.
  - intros; by apply Hsl.
  - intros; f_equal; by apply Hsl.
  - intros; by eapply Hch.
  - intros H. by rewrite (Hnone _ H).
  - intros H. by rewrite (Hnone _ H).
  - intros H. by rewrite (Hnone _ H).
  - intros H. rewrite (Hnone _ H) in E7. cbn in E7. congruence.
  - intros H. by rewrite (Hnone _ H).
  - intros H. rewrite (Hnone _ H) in E1. cbn in E1. congruence.
  - intros H. rewrite (Hnone _ H) in E2. cbn in E2. congruence.
  - intros H. rewrite (Hnone _ H) in E3. cbn in E3. congruence.
  - unfold param_numbers. cbn. repeat (apply Forall_cons; split; [intros; by apply Hint0|]). constructor.
Qed.
Lemma form_behaviours (f : gmap string string) d : form_defaults f = Some d →
  ∃ df ds de, d_failure d = of_bvjs OnFailure df ∧ d_success d = of_bvjs OnSuccess ds ∧ d_exit d = of_bvjs OnExit de ∧
    decoded json_behaviours f "on_failure" df ∧ decoded json_behaviours f "on_success" ds ∧ decoded json_behaviours f "on_exit" de.
Proof.
  unfold ConvertModel.form_defaults. intros H.
  destruct (checked to_mb 0 (get f "memory")) as [mb|] eqn:E1; [|done].
  destruct (checked to_duration 0 (get f "time")) as [du|] eqn:E2; [|done].
  destruct (checked to_duration 0 (get f "no_retry_over_walltime")) as [nr|] eqn:E3; [|done].
  destruct (checked json_behaviours [] (get f "on_failure")) as [b1|] eqn:F1; [|done].
  destruct (checked json_behaviours [] (get f "on_success")) as [b2|] eqn:F2; [|done].
  destruct (checked json_behaviours [] (get f "on_exit")) as [b3|] eqn:F3; [|done].
  destruct (checked json_mounts [] (get f "mounts")) as [ms|] eqn:E7; [|done].
  cbn [mbind option_bind] in H. injection H as <-. exists b1, b2, b3. cbn [d_failure d_success d_exit].
  assert (Hch : ∀ k bs, checked json_behaviours [] (get f k) = Some bs → decoded json_behaviours f k bs).
  { intros k bs. unfold checked, decoded, get. destruct (f !! k) as [v|]; cbn [default mbind option_bind id from_option]; unfold id; [|intros [=]; by subst].
    unfold text. destruct (String.eqb_spec v "") as [->|Hv]; [intros [=]; by subst|].
    by destruct (decide (v = ""%string)). }
  split_and!; try done; by apply Hch.
Qed.
Lemma own_or_same {A} (own dflt : list A) : (if decide (own = []) then dflt else own) = match own with [] => dflt | _ => own end.
Proof. by destruct own. Qed.
Lemma post_behaviours (f : gmap string string) d j c : form_defaults f = Some d → convert d j = inr c →
  ∃ df ds de, decoded json_behaviours f "on_failure" df ∧ decoded json_behaviours f "on_success" ds ∧ decoded json_behaviours f "on_exit" de ∧
    ∀ fl su ex, ask_all (if decide (v_failure j = []) then df else v_failure j) fl →
      ask_all (if decide (v_success j = []) then ds else v_success j) su → ask_all (if decide (v_exit j = []) then de else v_exit j) ex →
      performs true (c_behaviours c) = su ++ ex ∧ performs false (c_behaviours c) = fl ++ ex.
Proof.
  intros (df & ds & de & E1 & E2 & E3 & D1 & D2 & D3)%form_behaviours.
  intros (mb & dur & nr & ot & _ & _ & _ & _ & _ & _ & _ & _ & ->)%convert_inv. cbn [c_behaviours].
  exists df, ds, de. split; [done|]. split; [done|]. split; [done|]. intros fl su ex. rewrite !own_or_same, E1, E2, E3. apply given_asked.
Qed.

(** *** The answer *)
Lemma filter_part {A} (P : A → Prop) `{∀ x, Decision (P x)} (l : list A) : sublist (filter P l) l.
Proof. induction l as [|x l IH]; [done|]. rewrite filter_cons. destruct (decide (P x)); by constructor. Qed.
Lemma post_answer gr dp s now f d js cs s' a (ignore := negb (String.eqb (get f "rerun") "true")) (posted := jkey <$> (as_job <$> cs)) :
  Good s → WI gr dp s → form_defaults f = Some d → Forall2 (λ j c, convert d j = inr c) js cs →
  depending gr dp s (AAdd now (as_job <$> cs) ignore) →
  rest_add now f (Some (Some <$> js)) s = Some (s', a) →
  ∃ ks, a = ACreated ks ∧ sublist ks posted ∧ (∀ k, k ∈ ks ↔ k ∈ posted ∧ is_Some (seen s' k)) ∧
    (∀ k, k ∈ posted → k ∈ ks ∨ f !! "rerun"%string ≠ Some "true"%string ∧ seen s k = None ∧ is_Some (complete (sdb s) !! k)) ∧
    (∀ k, is_Some (seen s k) → is_Some (seen s' k)).
Proof.
  intros HG HW Hd HF Hdep H.
  assert (Hu : Forall (λ j, usable j d) js).
  { apply Forall_forall. intros j Hj. apply conv_usable. apply elem_of_list_lookup in Hj as [i Hi].
    destruct (Forall2_lookup_l _ _ _ _ _ HF Hi) as (c & _ & Hc). by exists c. }
  destruct (post_good now f d js s Hd Hu) as (cs' & HF' & E). rewrite E in H. clear E.
  assert (cs' = cs) as ->.
  { clear -HF HF'. revert cs HF. induction HF' as [|j c js cs' Hc _ IH]; intros cs HF; inversion HF as [|? c2 ? cs2 Hc2 HF2]; subst; [done|].
    f_equal; [congruence|by apply IH]. }
  fold ignore in H. destruct (s_add now (as_job <$> cs) ignore s) as [[[s1 r] l]|] eqn:Ha; [|done]. cbn [mbind option_bind] in H.
  assert (Hs : sstep s (AAdd now (as_job <$> cs) ignore) = Some (s1, r, l)) by done.
  destruct (add_cases _ _ _ _ _ _ _ _ _ HG HW Hdep Hs) as ((a1 & d1 & n1 & ->) & _ & Hlv & Hin & _).
  injection H as <- <-. fold posted. exists (in_queue s1 posted).
  assert (HG' : Good s1) by (eapply good_step; [exact HG|apply Hdep|exact Hs]).
  pose proof (wi_step _ _ _ _ _ _ _ HG HW Hdep Hs) as HW'.
  split; [done|]. split; [apply filter_part|]. split.
  { intros k. unfold in_queue. rewrite elem_of_list_filter. rewrite (seen_some s1 k) by apply HG'. tauto. }
  assert (Hk : ∀ k, is_Some (seen s1 k) ↔ is_Some (live (sdb s1) !! k)) by (intros k; by apply (seen_live gr dp)).
  split.
  - intros k Hp. unfold in_queue. rewrite elem_of_list_filter, Hin, Hlv.
    destruct (decide (is_Some (live (sdb s) !! k))) as [?|Hnl]; [left; tauto|].
    assert (Hns : seen s k = None). { apply eq_None_not_Some. by rewrite (seen_live gr dp s k HG HW). }
    unfold really_added. destruct ignore eqn:Ei.
    + destruct (complete (sdb s) !! k) as [c|] eqn:Ec.
      * right. split_and!; [|done|done]. subst ignore. unfold get in Ei. intros Hr. rewrite Hr in Ei. done.
      * left. split; [|done]. right. left. apply elem_of_list_fmap in Hp as (j & -> & Hj). apply elem_of_list_fmap. exists j. split; [done|].
        apply elem_of_list_filter. split; [|done]. split; [by apply eq_None_not_Some|done].
    + left. split; [|done]. right. by left.
  - intros k. rewrite Hk, Hlv, (seen_live gr dp s k HG HW). tauto.
Qed.
End post.
