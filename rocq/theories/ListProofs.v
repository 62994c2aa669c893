(** Lemmas for C33. *)
From Coq Require Import ZArith Lia String Ascii.
From stdpp Require Import base option strings gmap list pretty.
From RecordUpdate Require Import RecordSet.
From Verif Require Import UtilModel UtilSpec UtilProofs UtilProofs2 ListModel ListSpec.
Import RecordSetNotations.
Open Scope Z_scope.

(** *** names of groups *)
Lemma nodot_app a b : nodot a → nodot b → nodot (a ++ b).
Proof.
  unfold nodot. intros Ha Hb. induction a as [|x a IH]; [done|]. cbn in Ha. apply not_elem_of_cons in Ha as [H1 H2].
  change (String.list_ascii_of_string (String x a ++ b)) with (x :: String.list_ascii_of_string (a ++ b)). apply not_elem_of_cons. auto.
Qed.
Lemma pretty_char_nodot x : pretty_N_char x ≠ "."%char.
Proof. unfold pretty_N_char. by repeat case_match. Qed.
Lemma pretty_N_go_nodot x : ∀ s, nodot s → nodot (pretty_N_go x s).
Proof.
  induction (N.lt_wf_0 x) as [x _ IH]. intros s Hs. destruct (decide (x = 0)%N) as [->|Hx]; [by rewrite pretty_N_go_0|].
  rewrite pretty_N_go_step by lia. apply IH; [apply N.div_lt; lia|].
  unfold nodot. cbn. apply not_elem_of_cons. split; [|done]. intros H. by eapply pretty_char_nodot.
Qed.
Lemma pretty_Z_nodot (x : Z) : nodot (pretty x).
Proof.
  assert (HN : ∀ n : N, nodot (pretty n)).
  { intros n. unfold pretty, pretty_N. case_decide; [apply (bool_decide_unpack _); by vm_compute|].
    apply pretty_N_go_nodot. apply not_elem_of_nil. }
  unfold pretty, pretty_Z. destruct x as [|p|p].
  - apply (bool_decide_unpack _). by vm_compute.
  - apply HN.
  - apply nodot_app; [apply (bool_decide_unpack _); by vm_compute|apply HN].
Qed.
Lemma shown_state_eq j : normalize_state (lstate j) (llost j) = shown_state j.
Proof. unfold normalize_state, shown_state. case_decide; [by rewrite bool_decide_eq_true_2|by rewrite bool_decide_eq_false_2]. Qed.
Lemma states_nodot s : s ∈ job_states → nodot s.
Proof.
  intros H. assert (HF : Forall nodot job_states) by (apply (bool_decide_unpack _); by vm_compute).
  rewrite Forall_forall in HF. by apply HF.
Qed.
Lemma shown_nodot j : lstate j ∈ job_states → nodot (shown_state j).
Proof.
  intros H. unfold shown_state. case_decide; [|by apply states_nodot]. destruct (llost j); apply (bool_decide_unpack _); by vm_compute.
Qed.
Lemma str_split_eq a b c d : nodot a → nodot c → (a ++ "." ++ b = c ++ "." ++ d)%string → a = c ∧ b = d.
Proof.
  revert c. induction a as [|x a IH]; intros [|y c] Ha Hc H.
  - split; [done|]. by injection H.
  - exfalso. injection H as E _. unfold nodot in Hc. cbn in Hc. apply not_elem_of_cons in Hc as [Hc _]. by apply Hc.
  - exfalso. injection H as E _. unfold nodot in Ha. cbn in Ha. apply not_elem_of_cons in Ha as [Ha _]. by apply Ha.
  - change (String x (a ++ "." ++ b) = String y (c ++ "." ++ d))%string in H. injection H as -> H.
    unfold nodot in *. cbn in Ha, Hc. apply not_elem_of_cons in Ha as [_ Ha]. apply not_elem_of_cons in Hc as [_ Hc].
    destruct (IH c Ha Hc H) as [-> ->]. done.
Qed.
Lemma group_name_kind j k : lstate j ∈ job_states → lstate k ∈ job_states → group_name j = group_name k ↔ kind j = kind k.
Proof.
  intros Hj Hk. unfold group_name, kind. rewrite !shown_state_eq. split.
  - intros H. apply str_split_eq in H as [H1 H2]; [|by apply shown_nodot..].
    apply str_split_eq in H2 as [H2 H3]; [|apply pretty_Z_nodot..]. apply (inj pretty) in H2. congruence.
  - by intros [= -> -> ->].
Qed.

(** *** what is kept of a group *)
Definition trunc (M : nat) (L : list ljob) : list ljob :=
  match L !! (M - 1)%nat with
  | None => L
  | Some x => take (M - 1) L ++ [x <| similar := (similar x + (length L - M))%nat |>]
  end.
Lemma trunc_length M L : (0 < M)%nat → length (trunc M L) = Nat.min (length L) M.
Proof.
  intros HM. unfold trunc. destruct (L !! (M - 1)%nat) as [x|] eqn:E.
  - apply lookup_lt_Some in E. rewrite app_length, take_length. cbn. lia.
  - apply lookup_ge_None in E. lia.
Qed.
Lemma set_similar_same (x : ljob) n : n = similar x → x <| similar := n |> = x.
Proof. intros ->. by destruct x. Qed.
Lemma trunc_small M L : (length L ≤ M)%nat → (0 < M)%nat → trunc M L = L.
Proof.
  intros H HM. unfold trunc. destruct (L !! (M - 1)%nat) as [x|] eqn:E; [|done].
  pose proof (lookup_lt_Some _ _ _ E). rewrite set_similar_same by lia. rewrite <- (take_S_r L (M - 1) x E). apply take_ge. lia.
Qed.
Lemma trunc_add_full M L j x : (0 < M)%nat → (M ≤ length L)%nat → trunc M L !! (length (trunc M L) - 1)%nat = Some x →
  <[(length (trunc M L) - 1)%nat := x <| similar ::= S |>]> (trunc M L) = trunc M (L ++ [j]).
Proof.
  intros HM Hl. rewrite trunc_length by done. replace (length L `min` M - 1)%nat with (M - 1)%nat by lia.
  unfold trunc. destruct (L !! (M - 1)%nat) as [y|] eqn:E; [|apply lookup_ge_None in E; lia].
  pose proof (lookup_lt_Some _ _ _ E) as Hlt.
  assert (Htl : length (take (M - 1) L) = (M - 1)%nat) by (rewrite take_length; lia).
  rewrite lookup_app_r by lia. rewrite Htl, Nat.sub_diag. cbn. intros [= <-].
  rewrite insert_app_r_alt by lia. rewrite Htl, Nat.sub_diag. cbn [insert list_insert].
  rewrite lookup_app_l by done. rewrite E. rewrite take_app_le by lia. f_equal. cbn.
  f_equal. unfold set. cbn. f_equal. rewrite app_length. cbn. lia.
Qed.
(** the groups after the jobs of a list have been put in them *)
Definition groups_ok (o : lopts) (M : nat) (jobs : list ljob) (groups : gmap string (list ljob)) : Prop :=
  ∀ g, groups !! g = match filter (λ j, job_matches o j = true ∧ group_name j = g) jobs with [] => None | L => Some (trunc M L) end.
Lemma groups_ok_add o M jobs groups j : (0 < M)%nat → Z.of_nat M = ooffset o + olimit o → groups_ok o M jobs groups → job_matches o j = true →
  ∃ groups', add_to_group o j groups = Some groups' ∧ groups_ok o M (jobs ++ [j]) groups'.
Proof.
  intros HM HMo Hg Hj. unfold add_to_group. set (g := group_name j). set (L := filter (λ k, job_matches o k = true ∧ group_name k = g) jobs).
  assert (HL' : filter (λ k, job_matches o k = true ∧ group_name k = g) (jobs ++ [j]) = L ++ [j]).
  { rewrite filter_app, filter_cons, decide_True by done. done. }
  assert (Hother : ∀ g', g' ≠ g → filter (λ k, job_matches o k = true ∧ group_name k = g') (jobs ++ [j]) = filter (λ k, job_matches o k = true ∧ group_name k = g') jobs).
  { intros g' Hne. rewrite filter_app, filter_cons, decide_False by (intros [_ Hx]; apply Hne; by rewrite <- Hx). by rewrite filter_nil, app_nil_r. }
  assert (Hnew : ∀ X, X = trunc M (L ++ [j]) → groups_ok o M (jobs ++ [j]) (<[g := X]> groups)).
  { intros X ->. intros g'. destruct (decide (g' = g)) as [->|Hne].
    - rewrite lookup_insert, HL'. by destruct L.
    - rewrite lookup_insert_ne by done. rewrite Hother by done. apply Hg. }
  specialize (Hg g). fold L in Hg. destruct L as [|l L'] eqn:EL.
  - rewrite Hg. eexists. split; [done|]. apply Hnew. symmetry. apply trunc_small; [cbn; lia|done].
  - rewrite Hg. rewrite <- EL in *. clear L' EL l. pose proof (trunc_length M L HM) as Hlen. case_bool_decide as Hfull.
    + destruct (trunc M L !! (length (trunc M L) - 1)%nat) as [x|] eqn:Ex; [|apply lookup_ge_None in Ex; lia].
      eexists. split; [done|]. apply Hnew. apply trunc_add_full; [done|lia|done].
    + eexists. split; [done|]. apply Hnew. rewrite !trunc_small; [done|rewrite app_length; cbn; lia|done|lia|done].
Qed.
Lemma group_jobs_ok o M jobs : (0 < M)%nat → Z.of_nat M = ooffset o + olimit o → ∀ before groups, groups_ok o M before groups →
  ∃ groups', group_jobs o jobs groups = Some groups' ∧ groups_ok o M (before ++ jobs) groups'.
Proof.
  intros HM HMo. induction jobs as [|j jobs IH]; intros before groups Hg; cbn [group_jobs].
  - exists groups. by rewrite app_nil_r.
  - destruct (job_matches o j) eqn:Ej.
    + destruct (groups_ok_add o M before groups j HM HMo Hg Ej) as (groups' & -> & Hg'). cbn.
      destruct (IH (before ++ [j]) groups' Hg') as (groups'' & H1 & H2). exists groups''. by rewrite <- (assoc_L (++)) in H2.
    + replace (before ++ j :: jobs) with ((before ++ [j]) ++ jobs) by (by rewrite <- (assoc_L (++))). apply IH.
      intros g. rewrite Hg. rewrite (filter_app _ before [j]), filter_cons, decide_False by (intros [? _]; congruence).
      by rewrite filter_nil, app_nil_r.
Qed.

(** *** the groups one after the other *)
Lemma concat_group (m : gmap string (list ljob)) ls g : ls ≡ₚ (map_to_list m).*2 →
  (∀ name l, m !! name = Some l → Forall (λ j, group_name j = name) l) →
  filter (λ j, group_name j = g) (concat ls) = default [] (m !! g).
Proof.
  intros Hp Hm. apply Permutation_map_inv in Hp as (kls & -> & Hp).
  assert (Hnd : NoDup kls.*1). { rewrite <- Hp. apply NoDup_fst_map_to_list. }
  assert (Hl : list_to_map kls = m). { rewrite <- (list_to_map_to_list m). symmetry. apply list_to_map_proper; [by apply NoDup_fst_map_to_list|done]. }
  assert (HF : ∀ name l, (name, l) ∈ kls → Forall (λ j, group_name j = name) l).
  { intros name l Hin. apply Hm. rewrite <- Hl. by apply elem_of_list_to_map. }
  rewrite <- Hl. clear Hm Hp Hl m. induction kls as [|[name l] kls IH]; [done|].
  change (filter (λ j, group_name j = g) (l ++ concat (map snd kls)) = default [] ((list_to_map ((name, l) :: kls) : gmap string (list ljob)) !! g)).
  apply NoDup_cons in Hnd as [Hni Hnd]. rewrite filter_app. rewrite (IH Hnd) by (intros n' l' Hin; apply HF; by right). cbn [list_to_map foldr curry].
  assert (Hl : Forall (λ j, group_name j = name) l) by (apply HF; left). cbn.
  destruct (decide (name = g)) as [->|Hne].
  - rewrite lookup_insert. cbn. rewrite (not_elem_of_list_to_map_1 kls g) by done. cbn. rewrite app_nil_r.
    clear -Hl. induction Hl as [|j l Hj _ IH]; [done|]. by rewrite filter_cons, decide_True, IH.
  - rewrite lookup_insert_ne by done.
    assert (Hf : filter (λ j, group_name j = g) l = []); [|by rewrite Hf].
    clear -Hl Hne. induction Hl as [|j l Hj _ IH]; [done|]. rewrite filter_cons, decide_False, IH; [done|congruence].
Qed.
Lemma group_name_similar j n : group_name (j <| similar := n |>) = group_name j.
Proof. done. Qed.
Lemma trunc_names M L g : Forall (λ j, group_name j = g) L → Forall (λ j, group_name j = g) (trunc M L).
Proof.
  intros H. unfold trunc. destruct (L !! (M - 1)%nat) as [x|] eqn:E; [|done]. apply Forall_app. split; [by apply Forall_take|].
  constructor; [|done]. rewrite group_name_similar. by apply (Forall_lookup_1 _ _ _ _ H E).
Qed.
Lemma trunc_plain M L : (0 < M)%nat → plain <$> trunc M L = plain <$> take M L.
Proof.
  intros HM. unfold trunc. destruct (L !! (M - 1)%nat) as [x|] eqn:E.
  - rewrite fmap_app. cbn. assert (Ht : take M L = take (S (M - 1)) L) by (f_equal; lia). rewrite Ht, (take_S_r L (M - 1) x E), fmap_app. done.
  - apply lookup_ge_None in E. rewrite take_ge by lia. done.
Qed.
Lemma sum_similar_zero (L : list ljob) : Forall (λ j, similar j = 0%nat) L → sum_list (similar <$> L) = 0%nat.
Proof. induction 1 as [|j L Hj _ IH]; [done|]. cbn. by rewrite Hj, IH. Qed.
Lemma trunc_count M off L : (off < M)%nat → Forall (λ j, similar j = 0%nat) L →
  (length (drop off (trunc M L)) + sum_list (similar <$> drop off (trunc M L)) = length L - off)%nat.
Proof.
  intros Ho HL. destruct (decide (length L ≤ M)%nat) as [Hs|Hs].
  - rewrite trunc_small by lia. rewrite drop_length. rewrite sum_similar_zero by (by apply Forall_drop). lia.
  - unfold trunc. destruct (L !! (M - 1)%nat) as [x|] eqn:E; [|apply lookup_ge_None in E; lia].
    assert (Htl : length (take (M - 1) L) = (M - 1)%nat) by (rewrite take_length; lia).
    rewrite drop_app_le by lia. rewrite fmap_app.
    rewrite app_length, drop_length, Htl. cbn [fmap list_fmap length].
    assert (Hsum : ∀ a b : list nat, sum_list (a ++ b) = (sum_list a + sum_list b)%nat).
    { intros a b. induction a as [|y a IH]; [done|]. cbn. rewrite IH. lia. }
    rewrite Hsum. rewrite sum_similar_zero by (apply Forall_drop, Forall_take, HL). cbn.
    rewrite (Forall_lookup_1 _ _ _ _ HL E). lia.
Qed.

(** *** filters *)
Lemma listed_iff o j : lstate j ∈ job_states → ostate o ≠ "running" → job_matches o j = true ↔ listed o j.
Proof.
  intros Hj Ho. unfold job_matches, listed, matches_state, matches_failure. rewrite shown_state_eq, andb_true_iff.
  assert (Hnr : shown_state j ≠ "running"). { unfold shown_state. case_decide; [by destruct (llost j)|done]. }
  assert (H1 : (if bool_decide (ostate o = "") then true else
    if bool_decide (ostate o = "deletable") then bool_decide (shown_state j ≠ "running" ∧ shown_state j ≠ "complete") else
    bool_decide (shown_state j = ostate o)) = true ↔
    (ostate o = "" ∨ ostate o = "deletable" ∧ shown_state j ≠ "complete" ∨ shown_state j = ostate o ∨ ostate o = "running" ∧ shown_state j = "reserved")).
  { destruct (bool_decide_reflect (ostate o = "")) as [E|E]; [naive_solver|].
    destruct (bool_decide_reflect (ostate o = "deletable")) as [F|F].
    - rewrite bool_decide_eq_true. split; [intros [_ ?]; right; left; done|].
      intros [?|[[_ ?]|[?|[? _]]]]; try done. exfalso. rewrite F in H.
      assert (Hd : shown_state j ∈ job_states). { unfold shown_state in *. case_decide; [destruct (llost j); apply (bool_decide_unpack _); by vm_compute|done]. }
      rewrite H in Hd. revert Hd. apply (bool_decide_unpack _). by vm_compute.
    - rewrite bool_decide_eq_true. split; [tauto|]. intros [?|[[? _]|[?|[? _]]]]; done. }
  rewrite H1. clear H1.
  assert (H2 : (if bool_decide (oreason o = "") then true else bool_decide (lreason j = oreason o ∧ lexit j = oexit o)) = true ↔
    (oreason o = "" ∨ lreason j = oreason o ∧ lexit j = oexit o)).
  { destruct (bool_decide_reflect (oreason o = "")) as [E|E]; [tauto|]. rewrite bool_decide_eq_true. tauto. }
  by rewrite H2.
Qed.
Lemma normalize_spec o : let o' := normalize_options o in
  olimit o' = Z.max 0 (olimit o) ∧ ooffset o' = Z.max 0 (ooffset o) ∧ oreason o' = oreason o ∧ oexit o' = oexit o ∧
  ostate o' = if decide (ostate o = "running") then "reserved"%string else ostate o.
Proof.
  unfold normalize_options. cbv zeta. destruct o as [l f r e s x].
  destruct (decide (l < 0)) as [Hl|Hl]; [rewrite (bool_decide_eq_true_2 _ Hl)|rewrite (bool_decide_eq_false_2 _ Hl)];
  (destruct (decide (f < 0)) as [Hf|Hf]; [rewrite (bool_decide_eq_true_2 (f < 0)) by done|rewrite (bool_decide_eq_false_2 (f < 0)) by done]);
  (destruct (decide (s = "running")) as [Hs|Hs]; cbn; [rewrite (bool_decide_eq_true_2 _ Hs)|rewrite (bool_decide_eq_false_2 _ Hs)]);
  cbn; split_and!; try done; try lia; by case_decide.
Qed.
Lemma listed_normalized o j : listed (normalize_options o) j ↔ listed o j.
Proof.
  unfold listed. destruct (normalize_spec o) as (_ & _ & -> & -> & ->).
  assert (Hnr : shown_state j ≠ "running"). { unfold shown_state. case_decide; [by destruct (llost j)|done]. }
  case_decide as H; [|done]. rewrite H. naive_solver.
Qed.

(** *** the whole listing *)
Lemma kind_plain j : kind (plain j) = kind j.
Proof. done. Qed.
Lemma listed_plain o j : listed o (plain j) ↔ listed o j.
Proof. done. Qed.
Lemma filter_filter_kind (o : lopts) g (k : string * Z * string) (jobs : list ljob) :
  (∀ j, j ∈ jobs → (job_matches o j = true ∧ group_name j = g ↔ listed o j ∧ kind j = k)) →
  filter (λ j, job_matches o j = true ∧ group_name j = g) jobs = filter (λ j, listed o j ∧ kind j = k) jobs.
Proof.
  induction jobs as [|j jobs IH]; intros H; [done|]. rewrite !filter_cons.
  rewrite IH by (intros; apply H; by right). assert (Hj := H j ltac:(left)).
  destruct (decide (job_matches o j = true ∧ group_name j = g)), (decide (listed o j ∧ kind j = k)); tauto.
Qed.
Lemma filter_ext_in {A} (P Q : A → Prop) {dP : ∀ x, Decision (P x)} {dQ : ∀ x, Decision (Q x)} (l : list A) :
  (∀ x, x ∈ l → (P x ↔ Q x)) → filter P l = filter Q l.
Proof.
  induction l as [|x l IH]; intros H; [done|]. rewrite !filter_cons. rewrite IH by (intros; apply H; by right).
  assert (Hx := H x ltac:(left)). destruct (decide (P x)), (decide (Q x)); tauto.
Qed.
Lemma limited order o jobs : any_order order → 0 < olimit o →
  Forall (λ j, similar j = 0%nat ∧ lstate j ∈ job_states) jobs →
  ∃ r, limit_jobs order o jobs = Some r ∧ Forall (listed o) r ∧
    ∀ k, let all := filter (λ j, listed o j ∧ kind j = k) jobs in
         let shown := filter (λ j, kind j = k) r in
         plain <$> shown = take (Z.to_nat (olimit o)) (drop (Z.to_nat (ooffset o)) all) ∧
         (length shown + sum_list (similar <$> shown) = length all - Z.to_nat (ooffset o))%nat.
Proof.
  intros Hord Hlim Hjobs. unfold limit_jobs. rewrite (bool_decide_eq_true_2 _ Hlim). cbn [orb].
  destruct (normalize_spec o) as (Hl & Hf & _ & _ & Hs). set (o' := normalize_options o) in *.
  rewrite bool_decide_eq_false_2 by lia. unfold group_and_limit.
  set (M := (Z.to_nat (ooffset o) + Z.to_nat (olimit o))%nat). set (off := Z.to_nat (ooffset o)).
  assert (HM : (0 < M)%nat) by lia. assert (HMo : Z.of_nat M = ooffset o' + olimit o') by lia.
  destruct (group_jobs_ok o' M jobs HM HMo [] ∅) as (groups & -> & Hg).
  { intros g. by rewrite lookup_empty. }
  cbn [app mbind option_bind]. cbn [app] in Hg. eexists. split; [done|].
  set (m := apply_offset groups (ooffset o')).
  assert (Hm : ∀ g, default [] (m !! g) = drop off (default [] (groups !! g))).
  { intros g. unfold m, apply_offset. destruct (bool_decide_reflect (ooffset o' ≤ 0)) as [H0|H0].
    - assert (off = 0%nat) as -> by lia. by rewrite drop_0.
    - rewrite lookup_omap. destruct (groups !! g) as [l|]; cbn; [|by rewrite drop_nil].
      destruct (bool_decide_reflect (ooffset o' < Z.of_nat (length l))) as [H1|H1]; cbn.
      + f_equal. lia.
      + rewrite drop_ge; [done|lia]. }
  assert (Hgn : ∀ g, groups !! g = None ∧ filter (λ j, job_matches o' j = true ∧ group_name j = g) jobs = [] ∨
                     groups !! g = Some (trunc M (filter (λ j, job_matches o' j = true ∧ group_name j = g) jobs))).
  { intros g. rewrite (Hg g). destruct (filter _ jobs); [by left|by right]. }
  assert (Htr : ∀ g, default [] (groups !! g) = trunc M (filter (λ j, job_matches o' j = true ∧ group_name j = g) jobs)).
  { intros g. destruct (Hgn g) as [[-> ->]| ->]; [|done]. cbn. unfold trunc. by rewrite lookup_nil. }
  assert (Hnames : ∀ name l, m !! name = Some l → Forall (λ j, group_name j = name) l).
  { intros name l Hml. assert (l = drop off (default [] (groups !! name))) as -> by (rewrite <- Hm, Hml; done).
    apply Forall_drop. rewrite Htr. apply trunc_names. apply Forall_forall. intros j Hj.
    apply elem_of_list_filter in Hj. tauto. }
  assert (Hfil : ∀ g, filter (λ j, group_name j = g) (concat (order m)) = drop off (trunc M (filter (λ j, job_matches o' j = true ∧ group_name j = g) jobs))).
  { intros g. rewrite (concat_group m (order m) g (Hord m) Hnames), Hm. by rewrite Htr. }
  assert (Hfrom : ∀ j, j ∈ concat (order m) → ∃ j', j' ∈ jobs ∧ job_matches o' j' = true ∧ plain j' = plain j).
  { intros j Hj. assert (Hin : j ∈ filter (λ k, group_name k = group_name j) (concat (order m))) by (by apply elem_of_list_filter).
    rewrite Hfil in Hin. apply (elem_of_list_fmap_1 plain) in Hin. rewrite fmap_drop, trunc_plain in Hin by done.
    rewrite <- fmap_drop in Hin. apply elem_of_list_fmap in Hin as (j' & Hp & Hin).
    assert (Hin' : j' ∈ filter (λ k, job_matches o' k = true ∧ group_name k = group_name j) jobs).
    { apply elem_of_list_lookup in Hin as [i Hi]. rewrite lookup_drop in Hi.
      assert (Hlt : (off + i < M)%nat). { apply lookup_lt_Some in Hi. rewrite take_length in Hi. lia. }
      rewrite lookup_take in Hi by done. by eapply elem_of_list_lookup_2. }
    apply elem_of_list_filter in Hin' as [[Hma _] Hin']. eauto. }
  rewrite Forall_forall in Hjobs.
  assert (Hnr : ostate o' ≠ "running"). { rewrite Hs. by case_decide. }
  assert (Hmatch : ∀ j, j ∈ jobs → job_matches o' j = true ↔ listed o j).
  { intros j Hj. rewrite <- listed_normalized. apply listed_iff; [by apply Hjobs|done]. }
  split.
  - apply Forall_forall. intros j Hj. destruct (Hfrom j Hj) as (j' & Hj' & Hma & Hp).
    rewrite <- listed_plain, <- Hp, listed_plain. by apply Hmatch.
  - intros k. set (all := filter (λ j, listed o j ∧ kind j = k) jobs). set (shown := filter (λ j, kind j = k) (concat (order m))).
    assert (Hstates : ∀ j, j ∈ concat (order m) → lstate j ∈ job_states).
    { intros j Hj. destruct (Hfrom j Hj) as (j' & Hj' & _ & Hp). assert (lstate j = lstate j') as ->; [|by apply Hjobs].
      change (lstate (plain j) = lstate (plain j')). by rewrite Hp. }
    assert (Hsim : Forall (λ j, similar j = 0%nat) all).
    { apply Forall_forall. intros j Hj. apply elem_of_list_filter in Hj as [_ Hj]. by apply Hjobs. }
    assert (Hpl : plain <$> all = all).
    { clear -Hsim. induction Hsim as [|j l Hj _ IH]; [done|]. cbn. rewrite IH. f_equal. by apply set_similar_same. }
    assert (H0 : (∃ j0, lstate j0 ∈ job_states ∧ kind j0 = k) ∨ all = [] ∧ shown = []).
    { destruct all as [|a l] eqn:Ea.
      - destruct shown as [|a l] eqn:Es; [by right|left]. exists a.
        assert (Ha : a ∈ shown) by (rewrite Es; left). apply elem_of_list_filter in Ha as [? Ha]. split; [by apply Hstates|done].
      - left. exists a. assert (Ha : a ∈ all) by (rewrite Ea; left).
        apply elem_of_list_filter in Ha as [[_ ?] Ha]. split; [by apply Hjobs|done]. }
    destruct H0 as [(j0 & Hj0 & Hk)|[-> ->]]; [|split; [by rewrite drop_nil, take_nil|done]].
    assert (Eall : filter (λ j, job_matches o' j = true ∧ group_name j = group_name j0) jobs = all).
    { apply filter_ext_in. intros j Hj. rewrite Hmatch by done. rewrite group_name_kind, Hk; [done|by apply Hjobs|done]. }
    assert (Eshown : shown = drop off (trunc M all)).
    { rewrite <- Eall, <- Hfil. apply filter_ext_in. intros j Hj. rewrite group_name_kind, Hk; [done|by apply Hstates|done]. }
    rewrite Eshown. split.
    + rewrite fmap_drop, trunc_plain by done. rewrite <- fmap_drop. rewrite fmap_drop, fmap_take, Hpl.
      rewrite skipn_firstn_comm. f_equal. lia.
    + apply trunc_count; [lia|done].
Qed.
Lemma unlimited order o jobs : olimit o ≤ 0 → ostate o ≠ "" ∨ oextra o = true ∨ oreason o = "" →
  Forall (λ j, lstate j ∈ job_states) jobs → limit_jobs order o jobs = Some (filter (listed o) jobs).
Proof.
  intros Hl Ho Hjobs. rewrite Forall_forall in Hjobs. unfold limit_jobs. rewrite bool_decide_eq_false_2 by lia. cbn [orb].
  destruct (normalize_spec o) as (Hl' & _ & _ & _ & Hs).
  destruct (bool_decide_reflect (ostate o ≠ "")) as [H1|H1]; cbn [orb]; [|destruct (oextra o) eqn:Ex].
  1,2: rewrite bool_decide_eq_true_2 by lia; f_equal; apply filter_ext_in; intros j Hj;
    rewrite <- listed_normalized; apply listed_iff; [by apply Hjobs|rewrite Hs; by case_decide].
  f_equal. destruct Ho as [?|[?|Ho]]; [done|done|]. apply dec_stable in H1.
  symmetry. rewrite <- (filter_ext_in (λ _ : ljob, True)) || idtac.
  clear -H1 Ho. induction jobs as [|j jobs IH]; [done|]. rewrite filter_cons, decide_True, IH; [done|].
  unfold listed. rewrite H1, Ho. tauto.
Qed.
Lemma nodup_by_kind (r : list ljob) : (∀ k, NoDup (lid <$> filter (λ j, kind j = k) r)) →
  (∀ x y, x ∈ r → y ∈ r → lid x = lid y → kind x = kind y) → NoDup (lid <$> r).
Proof.
  induction r as [|x r IH]; intros H1 H2; [apply NoDup_nil_2|]. rewrite fmap_cons. apply NoDup_cons. split.
  - intros Hin. apply elem_of_list_fmap in Hin as (y & Hxy & Hy).
    specialize (H1 (kind x)). rewrite filter_cons, decide_True in H1 by done. rewrite fmap_cons in H1. apply NoDup_cons in H1 as [H1 _].
    apply H1. rewrite Hxy. apply elem_of_list_fmap_1. apply elem_of_list_filter. split; [|done].
    symmetry. apply H2; [left|by right|done].
  - apply IH.
    + intros k. specialize (H1 k). rewrite filter_cons in H1. case_decide; [|done]. rewrite fmap_cons in H1. by apply NoDup_cons in H1 as [_ ?].
    + intros a b Ha Hb. apply H2; by right.
Qed.
Lemma sublist_NoDup {A} (l l' : list A) : sublist l l' → NoDup l' → NoDup l.
Proof.
  intros Hs. induction Hs as [|x l l' Hs IH|x l l' Hs IH]; [done| |]; intros Hn; apply NoDup_cons in Hn as [Hx Hn].
  - apply NoDup_cons. split; [|by apply IH]. intros Hin. apply Hx. revert Hin. clear -Hs.
    induction Hs as [|y l l' Hs IH|y l l' Hs IH]; [done| |]; rewrite !elem_of_cons; tauto.
  - by apply IH.
Qed.
Lemma limited_nodup order o jobs r : any_order order → 0 < olimit o →
  Forall (λ j, similar j = 0%nat ∧ lstate j ∈ job_states) jobs → NoDup (lid <$> jobs) →
  limit_jobs order o jobs = Some r → NoDup (lid <$> r).
Proof.
  intros Hord Hlim Hjobs Hnd Hr. destruct (limited order o jobs Hord Hlim Hjobs) as (r' & Hr' & _ & Hk).
  rewrite Hr in Hr'. injection Hr' as <-. cbv zeta in Hk.
  assert (Hlid : ∀ l : list ljob, lid <$> l = lid <$> (plain <$> l)) by (intros l; rewrite <- list_fmap_compose; done).
  assert (Hsub : ∀ j, j ∈ r → ∃ j', j' ∈ jobs ∧ plain j = j').
  { intros j Hj. destruct (Hk (kind j)) as [He _]. exists (plain j). split; [|done].
    assert (Hin : plain j ∈ plain <$> filter (λ x, kind x = kind j) r) by (apply elem_of_list_fmap_1; by apply elem_of_list_filter).
    rewrite He in Hin. apply elem_of_take in Hin as (i & Hi & _). rewrite lookup_drop in Hi. apply elem_of_list_lookup_2 in Hi.
    apply elem_of_list_filter in Hi. tauto. }
  apply nodup_by_kind.
  - intros k. destruct (Hk k) as [He _]. rewrite Hlid, He. rewrite fmap_take, fmap_drop.
    eapply sublist_NoDup; [apply sublist_take|]. eapply sublist_NoDup; [apply sublist_drop|].
    eapply sublist_NoDup; [|exact Hnd]. clear. induction jobs as [|j jobs IH]; [done|]. rewrite filter_cons. case_decide; cbn; by constructor.
  - intros x y Hx Hy Hid. destruct (Hsub x Hx) as (x' & Hx' & Ex), (Hsub y Hy) as (y' & Hy' & Ey).
    assert (x' = y'). { apply elem_of_list_lookup in Hx' as [i Hi]. apply elem_of_list_lookup in Hy' as [i' Hi'].
      assert (i = i'); [|congruence]. eapply (NoDup_lookup (lid <$> jobs) i i' (lid x)); [done| |].
      - rewrite list_lookup_fmap, Hi. cbn. by rewrite <- Ex.
      - rewrite list_lookup_fmap, Hi'. cbn. by rewrite Hid, <- Ey. }
    change (kind (plain x) = kind (plain y)). congruence.
Qed.
