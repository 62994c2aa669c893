(** C38, C39, C40, C43, C44, C45: the helpers. *)
From Coq Require Import ZArith Lia String Ascii.
From stdpp Require Import base option strings gmap list sorting.
From Verif Require Import UtilModel UtilSpec UtilProofs UtilProofs2 UtilProofs3.
Open Scope Z_scope.

(** ** C38 What is asked of the scheduler covers what the job asked for. Times are
    in nanoseconds and leave out the last half hour before the ends of an int64. *)
Theorem C38_request_covered r (half_hour := 30 * 60 * 1000000000) :
  - 2 ^ 63 + half_hour ≤ rtime r ≤ 2 ^ 63 - 1 - half_hour →
  let s := req_for_scheduler r in
  ram r ≤ ram s ≤ ram r + 100 ∧
  rtime r ≤ rtime s < rtime r + half_hour ∧ (half_hour | rtime s) ∧
  cores s = cores r ∧ disk s = disk r ∧ other s = other r.
Proof.
  subst half_hour. intros H. destruct (round_up (rtime r) time_round) as [H1 H2]; [done|done|unfold min64, max64, time_round in *; lia|].
  unfold req_for_scheduler. cbv zeta. cbn [ram rtime cores disk other]. split_and!; try done; try lia.
  - clear. unfold extra_ram. case_bool_decide; lia.
  - clear. unfold extra_ram. case_bool_decide; lia.
  - apply H1.
Qed.
Print Assumptions C38_request_covered.
Example C38_case : req_for_scheduler (Reqs 923 (31 * 60 * 1000000000) 2 5 []) = Reqs 1023 (60 * 60 * 1000000000) 2 5 [] ∧
  req_for_scheduler (Reqs 924 (60 * 60 * 1000000000) 2 5 []) = Reqs 924 (60 * 60 * 1000000000) 2 5 [].
Proof. by vm_compute. Qed.
(** In the last half hour of an int64 the sum wraps around: a long time becomes
    negative. *)
Theorem request_overflow_refuted : ∃ r, int64 (rtime r) ∧ 0 < rtime r ∧ rtime (req_for_scheduler r) < 0.
Proof. exists (Reqs 1 (2 ^ 63 - 1 - 200 * 1000000000) 1 1 []). split; [by vm_compute|]. split; by vm_compute. Qed.
Print Assumptions request_overflow_refuted.
(** A job asking for more memory can be given less. *)
Theorem request_more_memory_refuted : ∃ r s, ram r < ram s ∧ ram (req_for_scheduler s) < ram (req_for_scheduler r).
Proof. exists (Reqs 923 0 1 1 []), (Reqs 924 0 1 1 []). by vm_compute. Qed.
Print Assumptions request_more_memory_refuted.

(** ** C39 *)
(** SortMapKeysByIntValue: [imap] is the map in any order. Every key once, ordered by
    value (or backwards), and keys with the same value backwards. *)
Theorem C39_keys_by_value imap (reverse : bool) : NoDup imap.*1 →
  let r := sort_by_int imap reverse in
  r ≡ₚ imap.*1 ∧
  StronglySorted (λ a b, ∀ va vb, (a, va) ∈ imap → (b, vb) ∈ imap →
    (if reverse then vb < va else va < vb) ∨ va = vb ∧ String.leb b a = true) r.
Proof.
  intros Hn. split; [apply sort_by_int_perm|].
  apply (by_value_sorted (merge_sort (flip str_le)) (flip str_le) imap reverse).
  - intros l. apply merge_sort_Permutation.
  - intros l. apply (StronglySorted_merge_sort (flip str_le)).
  - done.
Qed.
Print Assumptions C39_keys_by_value.
Example C39_keys_case : sort_by_int [("b", 2); ("c", 1); ("a", 2); ("d", 5)]%string false = ["c"; "b"; "a"; "d"]%string.
Proof. by vm_compute. Qed.
(** SortMapKeysByMapIntValue: the same by the value found in each key's own map, a
    missing one counting as 0; keys with the same value in any order. *)
Theorem C39_keys_by_inner_value (imap : list (string * gmap string Z)) criterion (reverse : bool) : NoDup imap.*1 →
  let r := sort_by_map_int imap criterion reverse in
  r ≡ₚ imap.*1 ∧
  StronglySorted (λ a b, ∀ ma mb, (a, ma) ∈ imap → (b, mb) ∈ imap →
    let va := default 0 (ma !! criterion) in let vb := default 0 (mb !! criterion) in
    if reverse then vb ≤ va else va ≤ vb) r.
Proof.
  intros Hn. split; [apply sort_by_map_int_perm|]. unfold sort_by_map_int.
  set (im := (λ kv : string * gmap string Z, (fst kv, default 0 (snd kv !! criterion))) <$> imap).
  assert (Hk : im.*1 = imap.*1). { unfold im. rewrite <- list_fmap_compose. by apply list_fmap_ext. }
  assert (Hs := by_value_sorted (λ l, l) (λ _ _, True) im reverse ltac:(done)). cbv beta in Hs.
  assert (HT : ∀ l : list string, StronglySorted (λ _ _, True) l).
  { intros l. induction l; constructor; [done|]. by apply Forall_true. }
  specialize (Hs HT ltac:(by rewrite Hk)).
  assert (Him : ∀ k m, (k, m) ∈ imap → (k, default 0 (m !! criterion)) ∈ im).
  { intros k m H. unfold im. apply elem_of_list_fmap. by exists (k, m). }
  revert Hs. generalize (concat ((λ v : Z, default [] (group_by_value im !! v)) <$> sorted_values (group_by_value im) reverse)).
  intros r Hs. induction Hs as [|a l Hs IH Ha]; constructor; [done|]. eapply Forall_impl; [exact Ha|].
  intros b H ma mb Hma Hmb. cbv zeta. specialize (H _ _ (Him _ _ Hma) (Him _ _ Hmb)). destruct reverse; lia.
Qed.
Print Assumptions C39_keys_by_inner_value.
Example C39_inner_case : sort_by_map_int [("a", {[ "x" := 2 ]}); ("b", {[ "x" := 5 ]}); ("c", ∅)]%string "x" true = ["b"; "a"; "c"]%string.
Proof. by vm_compute. Qed.
(** DedupSortStrings: the distinct strings given, strictly increasing *)
Theorem C39_dedup_sort s : let r := fst (dedup_sort s) in
  StronglySorted (λ a b, String.compare a b = Lt) r ∧ ∀ x, x ∈ r ↔ x ∈ s.
Proof.
  destruct (dedup_sort_spec s) as (H1 & H2 & H3). split; [|exact H3]. by apply strict_sorted.
Qed.
Print Assumptions C39_dedup_sort.
Example C39_dedup_case : fst (dedup_sort ["lg"; "a"; "lg"; "b"; "a"]%string) = ["a"; "b"; "lg"]%string.
Proof. by vm_compute. Qed.
(** It is said to return a new slice, yet it changes the one it is given. *)
Theorem dedup_input_kept_refuted : ∃ s, snd (dedup_sort s) ≠ s ∧ ¬ snd (dedup_sort s) ≡ₚ s.
Proof.
  exists ["b"; "b"; "a"]%string. assert (E : snd (dedup_sort ["b"; "b"; "a"]%string) = ["a"; "b"; "a"]%string) by (by vm_compute).
  rewrite E. split; [done|]. intros H.
  assert (Hc : length (filter (λ x, x = "b"%string) ["a"; "b"; "a"]%string) = length (filter (λ x, x = "b"%string) ["b"; "b"; "a"]%string)) by (by rewrite H).
  by vm_compute in Hc.
Qed.
Print Assumptions dedup_input_kept_refuted.

(** ** C40 The delay before a job is tried again, for any draw of the random part *)
Theorem C40_delay_bounded n draw : 0 ≤ draw ≤ 30 * 1000000000 →
  let d := item_delay release_backoff n draw in
  30 * 1000000000 ≤ d ≤ (1800 + 30) * 1000000000.
Proof.
  intros H. cbv zeta. rewrite item_delay_eq by (split; cbn; lia).
  pose proof (for_attempt_bounds release_backoff n ltac:(by cbn)). cbn [bmin bmax release_backoff] in *. lia.
Qed.
Print Assumptions C40_delay_bounded.
(** It doubles with each attempt until it reaches the maximum, apart from the random
    part of at most the minimum, and it never shrinks. *)
Theorem C40_delay_grows n draw : 0 ≤ draw ≤ 30 * 1000000000 →
  let random_part := 30 * 1000000000 - draw in
  let base n := item_delay release_backoff n draw - random_part in
  base 0 = 30 * 1000000000 ∧ base n ≤ base (n + 1) ∧
  (0 ≤ n → base (n + 1) = Z.min (1800 * 1000000000) (2 * base n)).
Proof.
  intros H. cbv zeta beta.
  assert (E : ∀ m, item_delay release_backoff m draw - (30 * 1000000000 - draw) = for_attempt release_backoff m).
  { intros m. rewrite item_delay_eq by (split; cbn; lia). cbn [bmin release_backoff]. lia. }
  rewrite !E. split_and!.
  - by apply for_attempt_0.
  - apply for_attempt_mono; [split; by cbn|by cbn|lia].
  - intros Hn. rewrite for_attempt_step; [done|split; by cbn|by cbn|done].
Qed.
Print Assumptions C40_delay_grows.
Example C40_case : (λ n, item_delay release_backoff n 0 / 1000000000) <$> [0; 1; 2; 5; 6; 100] = [60; 90; 150; 990; 1830; 1830].
Proof. by vm_compute. Qed.

(** ** C43 Overriding an environment *)
Theorem C43_overridden_once_partial order orig over : some_order order → uniquely_named orig →
  let r := env_override order orig over in
  uniquely_named r ∧
  (∀ n e, named n e → e ∈ r ↔ e ∈ orig ∧ (∀ x, x ∈ over → ¬ named n x) ∨ last_for n e over).
Proof.
  intros Ho Hu. apply uniquely_named_iff in Hu. destruct (env_override_spec order orig over Ho Hu) as (H1 & H2 & _).
  split; [by apply uniquely_named_iff|]. intros n e Hn. rewrite H2, (last_for_iff n e over Hn), <- not_named_iff.
  by rewrite (proj2 (env_name_named n e) Hn).
Qed.
Print Assumptions C43_overridden_once_partial.
Definition by_key (m : gmap string string) : list string := (map_to_list m).*2.
Lemma by_key_order : some_order by_key.
Proof. by intros m. Qed.
Example C43_case : env_override by_key ["PATH=/bin"; "HOME=/h"]%string ["HOME=/a"; "X=1"; "HOME=/b"]%string =
  ["PATH=/bin"; "HOME=/b"; "X=1"]%string.
Proof. by vm_compute. Qed.
(** If the environment has a variable twice only the first entry is replaced; the
    later one, which is the one a program started with it sees, stays. *)
Theorem C43_duplicate_name_refuted : ∃ orig over n e, some_order by_key ∧ last_for n e over ∧
  ¬ last_for n e (env_override by_key orig over).
Proof.
  exists ["A=1"; "A=2"]%string, ["A=3"]%string, "A"%string, "A=3"%string. split; [apply by_key_order|].
  assert (HA : named "A" "A=3"). { split; [apply (bool_decide_unpack _); by vm_compute|]. right. by exists "3"%string. }
  split; [by apply last_for_iff|]. intros H. apply (last_for_iff _ _ _ HA) in H. by vm_compute in H.
Qed.
Print Assumptions C43_duplicate_name_refuted.
(** Overrides added one call after the other: Env then has the latest for each
    variable and otherwise what the job's stored environment (or the process' own)
    has. A job that never was given its stored environment has none to show. *)
Theorem C43_added_overrides_partial order os j calls : some_order order → overrides j = [] →
  uniquely_named (base_env os j) → (envc j = None → retrieved j = true) →
  let r := job_env order os (fold_left (λ j over, add_override order over j) calls j) in
  uniquely_named r ∧
  (∀ n e, named n e → e ∈ r ↔ e ∈ base_env os j ∧ (∀ x, x ∈ concat calls → ¬ named n x) ∨ last_for n e (concat calls)).
Proof.
  intros Ho Hj Hu Hr. cbv zeta. set (j' := fold_left _ calls j).
  assert (Hl : latest (concat calls) (overrides j')). { apply (latest_all order calls Ho [] j). rewrite Hj. apply latest_nil. }
  destruct (added_keeps order calls j) as [He1 He2].
  assert (Hb : base_env os j' = base_env os j) by (unfold base_env, j'; by rewrite He1, He2).
  apply uniquely_named_iff in Hu. destruct (job_env_spec order os j' (concat calls) Ho Hl) as [H1 H2].
  - by rewrite Hb.
  - unfold j'. by rewrite He1, He2.
  - split; [by apply uniquely_named_iff|]. intros n e Hn. rewrite H2, (last_for_iff n e _ Hn), <- not_named_iff, Hb.
    by rewrite (proj2 (env_name_named n e) Hn).
Qed.
Print Assumptions C43_added_overrides_partial.
Example C43_added_case : job_env by_key ["A=0"]%string
  (fold_left (λ j over, add_override by_key over j) [["A=1"; "B=1"]; ["B=2"; "C=2"]; ["A=3"]]%string (JobEnv (Some ["C=0"; "D=0"]%string) true [])) =
  ["C=2"; "D=0"; "B=2"; "A=3"]%string.
Proof. by vm_compute. Qed.
(** Getenv gives the value of a variable, if that has no "=" in it, and nothing for a
    variable that is not there. *)
Theorem C43_getenv_partial env n v : uniquely_named env → "="%char ∉ chars n →
  ("="%char ∉ chars v → (n ++ "=" ++ v)%string ∈ env → getenv env n = Some v) ∧
  ((∀ x, x ∈ env → ¬ named n x) → getenv env n = Some ""%string).
Proof.
  intros Hu Hn. apply uniquely_named_iff in Hu. split.
  - intros Hv Hin. by apply getenv_found.
  - intros H. apply getenv_absent. by apply not_named_iff.
Qed.
Print Assumptions C43_getenv_partial.
Example C43_getenv_case : getenv ["A=1"; "B=2"]%string "B" = Some "2"%string ∧ getenv ["A=1"; "B=2"]%string "C" = Some ""%string.
Proof. by vm_compute. Qed.
(** A value with an "=" in it is cut short, and an entry without one is a panic. *)
Theorem C43_getenv_refuted :
  (∃ env n v, uniquely_named env ∧ named n (n ++ "=" ++ v) ∧ (n ++ "=" ++ v)%string ∈ env ∧ getenv env n ≠ Some v) ∧
  (∃ env n, getenv env n = None).
Proof.
  split.
  - exists ["OPTS=--a=1"]%string, "OPTS"%string, "--a=1"%string. split_and!.
    + apply uniquely_named_iff. cbn. apply NoDup_singleton.
    + split; [apply (bool_decide_unpack _); by vm_compute|]. right. by exists "--a=1"%string.
    + left.
    + by vm_compute.
  - by exists ["X"]%string, "X"%string.
Qed.
Print Assumptions C43_getenv_refuted.

(** ** C44 Storing in batches: unless there is an error everything is stored, once and
    in order; if there is one, it is reported, and what was stored before it is a
    beginning of the data. *)
Theorem C44_all_stored {A} (fails : list A → bool) data :
  let '(calls, err) := store_batched fails data in
  if err then ∃ stored c rest, calls = stored ++ [c] ∧ fails c = true ∧ Forall (λ c, fails c = false) stored ∧
                               data = concat stored ++ c ++ rest
  else concat calls = data ∧ Forall (λ c, fails c = false) calls.
Proof.
  rewrite store_batched_calls. pose proof (store_all_spec fails (batch_calls data)) as H.
  pose proof (batch_calls_concat data) as Hc. destruct (store_all fails (batch_calls data)) as [made e]. destruct e.
  - destruct H as (pre & c & post & -> & Hcalls & H1 & H2). exists pre, c, (concat post). split_and!; try done.
    by rewrite <- Hc, Hcalls, concat_app.
  - destruct H as [-> H]. by rewrite Hc.
Qed.
Print Assumptions C44_all_stored.
Example C44_case : let '(calls, err) := store_batched (λ _, false) (seq 0 2500) in length <$> calls = [1000; 1000; 500]%nat ∧ err = false.
Proof. by vm_compute. Qed.

(** ** C45 Job keys *)
(** Two jobs with the same command, relevant working directory, mounts and container
    settings have the same key. The order of mounts does not matter. *)
Theorem C45_same_settings_same_key hash j k :
  kcmd j = kcmd k → cwd_of j = cwd_of k → kmounts j ≡ₚ kmounts k → NoDup (mnt <$> kmounts j) →
  image_of j = image_of k → cmounts_of j = cmounts_of k → job_key hash j = job_key hash k.
Proof.
  intros Hc Hw Hm Hn Hi Hcm. unfold job_key. f_equal. apply key_text_same; try done. by apply mounts_key_perm.
Qed.
Print Assumptions C45_same_settings_same_key.
Definition mA : mount := Mount "/a" [Target "" "bucket"].
Definition mB : mount := Mount "/b" [Target "p" "bucket/x"].
Example C45_same_case : ∃ j k, j ≠ k ∧ kcmd j = kcmd k ∧ cwd_of j = cwd_of k ∧ kmounts j ≡ₚ kmounts k ∧ NoDup (mnt <$> kmounts j) ∧
  image_of j = image_of k ∧ cmounts_of j = cmounts_of k ∧ kmounts j ≠ kmounts k.
Proof.
  exists (JobKey "run" "/x" false [mA; mB] "" "img" "m"), (JobKey "run" "/y" false [mB; mA] "" "img" "m").
  split_and!; try done; [apply Permutation_swap|]. apply (bool_decide_unpack _). by vm_compute.
Qed.

(** If the hash has no collisions, jobs that differ in one setting only have different
    keys: one of the command, the working directory, the mounts (as MountConfigs.Key
    describes them), the image, or the container's mounts. *)
Theorem C45_one_difference_partial hash j k : injective hash → job_key hash j = job_key hash k →
  let mounts_same := mounts_key (kmounts j) = mounts_key (kmounts k) in
  (cwd_of j = cwd_of k → mounts_same → image_of j = image_of k → cmounts_of j = cmounts_of k → kcmd j = kcmd k) ∧
  (kcmd j = kcmd k → mounts_same → image_of j = image_of k → cmounts_of j = cmounts_of k → cwd_of j = cwd_of k) ∧
  (cwd_of j = cwd_of k → kcmd j = kcmd k → image_of j = image_of k → cmounts_of j = cmounts_of k → mounts_same) ∧
  (cwd_of j = cwd_of k → kcmd j = kcmd k → mounts_same → kcmounts j = kcmounts k → image_of j = image_of k) ∧
  (cwd_of j = cwd_of k → kcmd j = kcmd k → mounts_same → image_of j = image_of k → cmounts_of j = cmounts_of k).
Proof. intros Hi H. apply Hi in H. by apply key_one_part. Qed.
Print Assumptions C45_one_difference_partial.
(** If none of the settings has a dot in it, the key tells all of them. *)
Theorem C45_key_tells_settings_partial hash j k : injective hash →
  (∀ x, x = j ∨ x = k → (kcwdmatters x = true → nodot (kcwd x)) ∧ nodot (kcmd x) ∧ nodot (mounts_key (kmounts x)) ∧
    (∀ b i, image_of x = Some (b, i) → nodot i) ∧ nodot (kcmounts x)) →
  job_key hash j = job_key hash k ↔
  cwd_of j = cwd_of k ∧ kcmd j = kcmd k ∧ mounts_key (kmounts j) = mounts_key (kmounts k) ∧
  image_of j = image_of k ∧ cmounts_of j = cmounts_of k.
Proof.
  intros Hi Hd. split.
  - intros H. apply Hi in H. by apply key_nodots.
  - intros (H1 & H2 & H3 & H4 & H5). unfold job_key. f_equal. by apply key_text_same.
Qed.
Print Assumptions C45_key_tells_settings_partial.
Example C45_nodot_case : let j := JobKey "run x" "/w" true [mA] "img" "" "/c" in
  (kcwdmatters j = true → nodot (kcwd j)) ∧ nodot (kcmd j) ∧ nodot (mounts_key (kmounts j)) ∧
  (∀ b i, image_of j = Some (b, i) → nodot i) ∧ nodot (kcmounts j) ∧ injective id ∧
  job_key id j = "/w.run x./a:default-bucket;.docker:img./c"%string.
Proof.
  cbv zeta. split_and!; try (apply (bool_decide_unpack _); by vm_compute).
  - intros b i H. vm_compute in H. injection H as <- <-. apply (bool_decide_unpack _); by vm_compute.
  - by intros a b.
Qed.
(** The text made of the mounts tells them, in whatever order they were given and whether
    defaults were written out, if no colons and semicolons are in them and no dashes in
    profiles. *)
Theorem C45_mounts_tell_partial ms ns : Forall plain_mount ms → Forall plain_mount ns →
  mounts_key ms = mounts_key ns → same_mounts ms ns.
Proof. exact (mounts_tell ms ns). Qed.
Print Assumptions C45_mounts_tell_partial.
(** So jobs have the same key exactly if they are the same. Missing: dots
    (C45_dots_refuted), and mounts without a mount point or with the characters above
    (C45_mounts_refuted). *)
Theorem C45_same_key_same_job_partial hash j k : injective hash →
  (∀ x, x = j ∨ x = k → (kcwdmatters x = true → nodot (kcwd x)) ∧ nodot (kcmd x) ∧ nodot (mounts_key (kmounts x)) ∧
    (∀ b i, image_of x = Some (b, i) → nodot i) ∧ nodot (kcmounts x) ∧
    Forall plain_mount (kmounts x) ∧ Forall (λ m, mnt m ≠ ""%string) (kmounts x) ∧ NoDup (mnt <$> kmounts x)) →
  job_key hash j = job_key hash k ↔
  cwd_of j = cwd_of k ∧ kcmd j = kcmd k ∧ same_mounts (kmounts j) (kmounts k) ∧
  image_of j = image_of k ∧ cmounts_of j = cmounts_of k.
Proof.
  intros Hi Hd. rewrite (C45_key_tells_settings_partial hash j k Hi).
  - destruct (Hd j (or_introl eq_refl)) as (_&_&_&_&_&J1&J2&J3). destruct (Hd k (or_intror eq_refl)) as (_&_&_&_&_&K1&K2&K3).
    split; intros (A & B & C & D & E); split_and!; try done; [by apply mounts_tell|by apply mounts_told].
  - intros x Hx. destruct (Hd x Hx) as (?&?&?&?&?&_). done.
Qed.
Print Assumptions C45_same_key_same_job_partial.
Example C45_same_job_case :
  let j := JobKey "run x" "/w" true [mB; mA] "img" "" "/c" in
  let k := JobKey "run x" "/w" true [Mount "/a" [Target "default" "bucket"]; mB] "img" "ignored" "/c" in
  let l := JobKey "run x" "/w" true [Mount "/a" [Target "" "buckets"]; mB] "img" "ignored" "/c" in
  (∀ x, x = j ∨ x = k ∨ x = l → Forall plain_mount (kmounts x) ∧ Forall (λ m, mnt m ≠ ""%string) (kmounts x) ∧ NoDup (mnt <$> kmounts x)) ∧
  job_key id j = job_key id k ∧ job_key id k ≠ job_key id l.
Proof.
  cbv zeta. split; [|by vm_compute].
  assert (Hl : ∀ bad s, bool_decide (Forall (λ c, c ∉ chars s) bad) = true → lacks bad s).
  { intros bad s H%bool_decide_eq_true c Hc. rewrite Forall_forall in H. by apply H. }
  intros x [->|[->| ->]]; split_and!; try (apply (bool_decide_unpack _); by vm_compute);
    cbn [kmounts]; repeat (constructor; cbn [mnt targets mA mB profile tpath]); try (apply Hl; by vm_compute).
Qed.
(** With dots different jobs can have the same key, whatever the hash. *)
Theorem C45_dots_refuted : ∃ j k, cwd_of j ≠ cwd_of k ∧ kcmd j ≠ kcmd k ∧ ∀ hash, job_key hash j = job_key hash k.
Proof.
  exists (JobKey "b.c" "/a" true [] "" "" ""), (JobKey "c" "/a.b" true [] "" "" "").
  split; [done|]. split; [done|]. intros hash. unfold job_key. f_equal.
Qed.
Print Assumptions C45_dots_refuted.
(** So can jobs with different mounts; and mounts that mean the same can give
    different keys, as the mount point is sorted on before its default is put in. *)
Theorem C45_mounts_refuted :
  (∃ a b, targets a ≠ targets b ∧ mnt a = mnt b ∧ mounts_key [a] = mounts_key [b]) ∧
  (∃ ts us, mounts_key [Mount "" ts; Mount "a" us] ≠ mounts_key [Mount "mnt" ts; Mount "a" us]).
Proof.
  split.
  - exists (Mount "/m" [Target "p-q" "r"]), (Mount "/m" [Target "p" "q-r"]). split; [done|]. split; [done|by vm_compute].
  - exists [], []. by vm_compute.
Qed.
Print Assumptions C45_mounts_refuted.
(** A JobEssence made as documented has the key of its job, unless the job runs in a
    container. *)
Theorem C45_essence_key_partial hash j e : image_of j = None → (kcwdmatters j = true → kcwd j ≠ ""%string) →
  ekey e = ""%string → ecmd e = kcmd j → ecwd e = (if kcwdmatters j then kcwd j else "")%string → emounts e = kmounts j →
  essence_key hash e = job_key hash j.
Proof.
  intros Hi Hw He Hc Hd Hm. unfold essence_key, job_key. rewrite He, Hd, Hc, Hm, key_text_front. unfold front.
  rewrite decide_True by done. rewrite app_nil_r_str. rewrite (bool_decide_eq_false_2 (""%string ≠ "")) by (intros H; by apply H).
  destruct (kcwdmatters j).
  - rewrite bool_decide_eq_true_2 by auto. by rewrite app_assoc_str.
  - by rewrite bool_decide_eq_false_2 by (intros H; by apply H).
Qed.
Print Assumptions C45_essence_key_partial.
Example C45_essence_case : let j := JobKey "run" "/w" true [mB; mA] "" "" "" in
  image_of j = None ∧ essence_key id (Essence "" "run" "/w" [mB; mA]) = job_key id j.
Proof. by vm_compute. Qed.
Theorem C45_essence_container_refuted : ∃ j, ∀ hash e, injective hash → ekey e = ""%string → ecmd e = kcmd j → ecwd e = ""%string →
  kcwdmatters j = false → emounts e = kmounts j → essence_key hash e ≠ job_key hash j.
Proof.
  exists (JobKey "run" "" false [] "img" "" ""). intros hash e Hi He Hc Hw _ Hm H. unfold essence_key, job_key in H. rewrite He, Hc, Hw, Hm in H.
  rewrite !(bool_decide_eq_false_2 (""%string ≠ "")) in H by (intros H'; by apply H'). apply Hi in H. by vm_compute in H.
Qed.
Print Assumptions C45_essence_container_refuted.
