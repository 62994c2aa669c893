(** Lemmas for C38-C40 and C43-C45. *)
From Coq Require Import ZArith Lia String Ascii.
From stdpp Require Import base option strings gmap list sorting.
From Verif Require Import UtilModel UtilSpec.
Open Scope Z_scope.

(** *** int64 *)
Lemma wrap_id z : int64 z → wrap64 z = z.
Proof. intros [H1 H2]. unfold wrap64. rewrite Z.mod_small; lia. Qed.

(** *** C38 *)
Lemma round_up t m : 0 < m → m ≤ 2 ^ 62 → min64 + m ≤ t ≤ max64 - m →
  let d := dur_round t m in
  let d := if bool_decide (d < t) then wrap64 (d + m) else d in
  t ≤ d < t + m ∧ (m | d).
Proof.
  intros Hm Hm2 Ht. unfold min64, max64 in *. cbv zeta. unfold dur_round, less_than_half.
  rewrite (bool_decide_eq_false_2 (m ≤ 0)) by lia.
  pose proof (Z.quot_rem' t m) as Hq. pose proof (Z.rem_bound_abs t m ltac:(lia)) as Hr.
  set (q := t ÷ m) in *. set (r := Z.rem t m) in *.
  destruct (bool_decide_reflect (t < 0)) as [Hn|Hn].
  - assert (r ≤ 0) by (apply Z.rem_nonpos; lia).
    destruct (bool_decide_reflect (- r + - r < m)).
    + rewrite bool_decide_eq_false_2 by lia. split; [lia|]. exists q. lia.
    + rewrite (wrap_id (t - m + - r)) by (split; lia). rewrite (bool_decide_eq_true_2 (t - m + - r < t)) by lia.
      rewrite bool_decide_eq_true_2 by lia. rewrite wrap_id by (split; lia). split; [lia|]. exists q. lia.
  - assert (0 ≤ r) by (apply Z.rem_nonneg; lia).
    destruct (bool_decide_reflect (r + r < m)).
    + destruct (bool_decide_reflect (t - r < t)).
      * rewrite wrap_id by (split; lia). split; [lia|]. exists (q + 1). lia.
      * split; [lia|]. exists q. lia.
    + rewrite (wrap_id (t + m - r)) by (split; lia). rewrite (bool_decide_eq_true_2 (t < t + m - r)) by lia.
      rewrite bool_decide_eq_false_2 by lia. split; [lia|]. exists (q + 1). lia.
Qed.

(** *** C40 *)
Lemma for_attempt_bounds b n : bmin b ≤ bmax b → bmin b ≤ for_attempt b n ≤ bmax b.
Proof.
  intros H. unfold for_attempt. repeat case_bool_decide; lia.
Qed.
Lemma for_attempt_mono b n n' : 0 < bmin b ≤ bmax b → 1 ≤ bfactor b → n ≤ n' → for_attempt b n ≤ for_attempt b n'.
Proof.
  intros H Hf Hn. unfold for_attempt. case_bool_decide as H1; [lia|].
  destruct (bool_decide_reflect (n < 0)); [repeat case_bool_decide; lia|].
  rewrite (bool_decide_eq_false_2 (n' < 0)) by lia.
  assert (bfactor b ^ n ≤ bfactor b ^ n') by (apply Z.pow_le_mono_r; lia).
  assert (bmin b * bfactor b ^ n ≤ bmin b * bfactor b ^ n') by (apply Z.mul_le_mono_nonneg_l; lia).
  repeat case_bool_decide; lia.
Qed.
Lemma for_attempt_step b n : 0 < bmin b ≤ bmax b → 1 ≤ bfactor b → 0 ≤ n →
  for_attempt b (n + 1) = Z.min (bmax b) (bfactor b * for_attempt b n).
Proof.
  intros H Hf Hn. unfold for_attempt. case_bool_decide as H1.
  { rewrite Z.min_l; [done|]. nia. }
  rewrite (bool_decide_eq_false_2 (n < 0)), (bool_decide_eq_false_2 (n + 1 < 0)) by lia.
  rewrite (Z.pow_add_r _ n 1) by lia. rewrite Z.pow_1_r.
  assert (0 < bfactor b ^ n) by (apply Z.pow_pos_nonneg; lia).
  set (p := bfactor b ^ n) in *. assert (Hp : bmin b ≤ bmin b * p) by nia.
  assert (bmin b * (p * bfactor b) = bfactor b * (bmin b * p)) as -> by lia.
  rewrite (bool_decide_eq_false_2 (bmin b * p < bmin b)) by lia.
  rewrite bool_decide_eq_false_2 by nia. repeat case_bool_decide; nia.
Qed.
Lemma for_attempt_0 b : bmin b ≤ bmax b → for_attempt b 0 = bmin b.
Proof. intros H. unfold for_attempt. rewrite Z.pow_0_r, Z.mul_1_r. repeat case_bool_decide; lia. Qed.
Lemma item_delay_eq b n draw : 0 < bmin b ≤ bmax b → 0 ≤ draw ≤ bmin b → item_delay b n draw = for_attempt b n + (bmin b - draw).
Proof.
  intros H Hd. pose proof (for_attempt_bounds b n ltac:(lia)). unfold item_delay. rewrite bool_decide_eq_false_2 by lia. lia.
Qed.

(** *** strings are totally ordered *)
Lemma ascii_compare_trans a b c : Ascii.compare a b = Lt → Ascii.compare b c = Lt → Ascii.compare a c = Lt.
Proof. unfold Ascii.compare. rewrite !N.compare_lt_iff. lia. Qed.
Lemma ascii_compare_refl a : Ascii.compare a a = Eq.
Proof. unfold Ascii.compare. apply N.compare_refl. Qed.
Lemma str_compare_refl a : String.compare a a = Eq.
Proof. induction a as [|c a IH]; [done|]. cbn. by rewrite ascii_compare_refl. Qed.
Lemma str_compare_trans a b c : String.compare a b = Lt → String.compare b c = Lt → String.compare a c = Lt.
Proof.
  revert b c. induction a as [|x a IH]; intros [|y b] [|z c]; cbn; try done.
  intros H1 H2. destruct (Ascii.compare x y) eqn:E1; destruct (Ascii.compare y z) eqn:E2; try done.
  - apply Ascii.compare_eq_iff in E1 as ->. rewrite E2. by apply (IH b).
  - apply Ascii.compare_eq_iff in E1 as ->. by rewrite E2.
  - apply Ascii.compare_eq_iff in E2 as ->. by rewrite E1.
  - by rewrite (ascii_compare_trans x y z).
Qed.
Lemma str_le_iff a b : str_le a b ↔ a = b ∨ String.compare a b = Lt.
Proof.
  unfold str_le, String.leb. destruct (String.compare a b) eqn:E; split; try done; auto.
  - intros _. left. by apply String.compare_eq_iff.
  - intros [->|?]; [by rewrite str_compare_refl in E|done].
Qed.
Global Instance str_le_trans : Transitive str_le.
Proof.
  intros a b c. rewrite !str_le_iff. intros [->|H1] [->|H2]; auto. right. by apply (str_compare_trans a b).
Qed.
Global Instance str_le_refl : Reflexive str_le.
Proof. intros a. apply str_le_iff. by left. Qed.
Global Instance str_le_total : Total str_le.
Proof. intros a b. apply String.leb_total. Qed.
Global Instance str_le_antisym : AntiSymm (=) str_le.
Proof. intros a b. apply String.leb_antisym. Qed.
Global Instance flip_str_le_trans : Transitive (flip str_le).
Proof. intros a b c. unfold flip. intros H1 H2. by apply (str_le_trans c b a). Qed.
Global Instance flip_str_le_total : Total (flip str_le).
Proof. intros a b. unfold flip. apply str_le_total. Qed.

(** *** C39 sorting keys by value *)
Lemma group_spec imap : ∀ v, group_by_value imap !! v =
  match (filter (λ kv : string * Z, kv.2 = v) imap).*1 with [] => None | l => Some l end.
Proof.
  unfold group_by_value.
  assert (H : ∀ l m v, (fold_left (λ (m : gmap Z (list string)) kv, <[snd kv := default [] (m !! snd kv) ++ [fst kv]]> m) l m) !! v =
    match (filter (λ kv : string * Z, kv.2 = v) l).*1 with [] => m !! v | l => Some (default [] (m !! v) ++ l) end).
  { intros l. induction l as [|[k w] l IH]; intros m v; [done|]. cbn [fold_left fst snd]. rewrite IH.
    rewrite filter_cons. cbn [snd]. destruct (decide (w = v)) as [->|Hne].
    - rewrite lookup_insert. cbn [fmap list_fmap fst default]. destruct ((filter _ l).*1); [done|]. cbn. by rewrite <- (assoc_L (++)).
    - by rewrite lookup_insert_ne. }
  intros v. rewrite H. rewrite lookup_empty. done.
Qed.
Lemma group_get imap v : default [] (group_by_value imap !! v) = (filter (λ kv : string * Z, kv.2 = v) imap).*1.
Proof. rewrite group_spec. by destruct ((filter _ imap).*1). Qed.
Lemma sorted_values_perm m r : sorted_values m r ≡ₚ (map_to_list m).*1.
Proof. unfold sorted_values. destruct r; apply merge_sort_Permutation. Qed.
Lemma sorted_values_nodup m r : NoDup (sorted_values m r).
Proof. rewrite sorted_values_perm. apply NoDup_fst_map_to_list. Qed.
Lemma sorted_values_elem imap r v : v ∈ sorted_values (group_by_value imap) r ↔ ∃ k, (k, v) ∈ imap.
Proof.
  rewrite sorted_values_perm. rewrite elem_of_list_fmap. split.
  - intros ((v' & ks) & -> & H). apply elem_of_map_to_list in H. cbn. rewrite group_spec in H.
    destruct (filter (λ kv : string * Z, kv.2 = v') imap) as [|[k w] l] eqn:E; [done|].
    assert (Hin : (k, w) ∈ filter (λ kv : string * Z, kv.2 = v') imap) by (rewrite E; left).
    apply elem_of_list_filter in Hin as [Hw Hin]. cbn in Hw. subst w. by exists k.
  - intros [k H]. exists (v, default [] (group_by_value imap !! v)). split; [done|]. apply elem_of_map_to_list.
    rewrite group_get, group_spec.
    assert (Hin : (k, v) ∈ filter (λ kv : string * Z, kv.2 = v) imap) by (by apply elem_of_list_filter).
    destruct (filter _ imap); [by apply elem_of_nil in Hin|done].
Qed.
Lemma filter_split_perm {A} (P : A → Prop) `{∀ x, Decision (P x)} l : filter P l ++ filter (λ x, ¬ P x) l ≡ₚ l.
Proof.
  induction l as [|x l IH]; [done|]. rewrite !filter_cons. destruct (decide (P x)) as [Hp|Hp].
  - rewrite decide_False by (intros Hn; by apply Hn). cbn. by rewrite IH.
  - rewrite decide_True by done. rewrite <- Permutation_middle. by rewrite IH.
Qed.
Lemma by_value_perm (f : list string → list string) vs : (∀ l, f l ≡ₚ l) → NoDup vs → ∀ imap : list (string * Z),
  (∀ k v, (k, v) ∈ imap → v ∈ vs) →
  concat ((λ v, f (filter (λ kv : string * Z, kv.2 = v) imap).*1) <$> vs) ≡ₚ imap.*1.
Proof.
  intros Hf. induction vs as [|v vs IH]; intros Hnd imap Hc.
  - destruct imap as [|[k v] imap]; [done|]. exfalso. eapply not_elem_of_nil, (Hc k v). left.
  - apply NoDup_cons in Hnd as [Hv Hnd]. cbn [fmap list_fmap concat]. rewrite Hf.
    transitivity ((filter (λ kv : string * Z, kv.2 = v) imap).*1 ++ (filter (λ kv : string * Z, ¬ kv.2 = v) imap).*1).
    2: { rewrite <- fmap_app. by rewrite filter_split_perm. }
    apply Permutation_app_head.
    rewrite <- (IH Hnd (filter (λ kv : string * Z, ¬ kv.2 = v) imap)).
    + apply reflexive_eq. f_equal. apply list_fmap_ext. intros i w Hw. f_equal. f_equal.
      rewrite list_filter_filter. apply list_filter_iff. intros [k u]. cbn. split; [|by intros [? _]].
      intros ->. split; [done|]. intros ->. apply Hv. by eapply elem_of_list_lookup_2.
    + intros k w Hin. apply elem_of_list_filter in Hin as [Hne Hin]. cbn in Hne.
      apply Hc in Hin. by apply elem_of_cons in Hin as [->|?].
Qed.
Lemma StronglySorted_concat {A} (R : relation A) ls : Forall (StronglySorted R) ls →
  (∀ i j li lj x y, (i < j)%nat → ls !! i = Some li → ls !! j = Some lj → x ∈ li → y ∈ lj → R x y) → StronglySorted R (concat ls).
Proof.
  induction ls as [|l ls IH]; intros HF H; [constructor|]. apply Forall_cons in HF as [Hl HF]. cbn.
  assert (IH' : StronglySorted R (concat ls)).
  { apply IH; [done|]. intros i j li lj x y Hij Hi Hj. apply (H (S i) (S j)); [lia|done..]. }
  assert (Hx : ∀ x y, x ∈ l → y ∈ concat ls → R x y).
  { intros x y Hx Hy. apply elem_of_list_In, in_concat in Hy as (lj & Hlj & Hy). rewrite <- elem_of_list_In in Hlj.
    rewrite <- elem_of_list_In in Hy. apply elem_of_list_lookup in Hlj as [j Hj]. apply (H 0%nat (S j) l lj); [lia|done..]. }
  clear H IH. induction Hl as [|a l Hl IH Ha]; [done|]. cbn. constructor.
  - apply IH. intros x y Hxl. apply Hx. by right.
  - apply Forall_app. split; [done|]. apply Forall_forall. intros y Hy. apply Hx; [left|done].
Qed.
Lemma Sorted_lookup {A} (R : relation A) l i j x y : StronglySorted R l → (i < j)%nat → l !! i = Some x → l !! j = Some y → R x y.
Proof.
  intros Hs. revert i j. induction Hs as [|a l Hs IH Ha]; intros i j Hij Hi Hj; [done|].
  destruct j as [|j]; [lia|]. cbn in Hj. destruct i as [|i]; cbn in Hi.
  - injection Hi as <-. rewrite Forall_forall in Ha. apply Ha. by eapply elem_of_list_lookup_2.
  - apply (IH i j); [lia|done..].
Qed.
Global Instance Z_ge_trans : Transitive Z.ge.
Proof. intros a b c. lia. Qed.
Global Instance Z_ge_total : Total Z.ge.
Proof. intros a b. lia. Qed.
Lemma sorted_values_before m r i j v w : (i < j)%nat → sorted_values m r !! i = Some v → sorted_values m r !! j = Some w →
  if r then w < v else v < w.
Proof.
  intros Hij Hi Hj. assert (v ≠ w).
  { intros ->. assert (i = j); [|lia]. eapply (proj1 (NoDup_alt (sorted_values m r)) (sorted_values_nodup m r)); eassumption. }
  unfold sorted_values in *. destruct r.
  - pose proof (Sorted_lookup Z.ge _ i j v w (StronglySorted_merge_sort Z.ge _) Hij Hi Hj) as Hz. cbn in Hz. lia.
  - pose proof (Sorted_lookup Z.le _ i j v w (StronglySorted_merge_sort Z.le _) Hij Hi Hj) as Hz. cbn in Hz. lia.
Qed.
Lemma by_value_sorted (f : list string → list string) (T : relation string) imap r : (∀ l, f l ≡ₚ l) → (∀ l, StronglySorted T (f l)) →
  NoDup imap.*1 →
  StronglySorted (λ a b, ∀ va vb, (a, va) ∈ imap → (b, vb) ∈ imap → (if r : bool then vb < va else va < vb) ∨ va = vb ∧ T a b)
    (concat ((λ v, f (default [] (group_by_value imap !! v))) <$> sorted_values (group_by_value imap) r)).
Proof.
  intros Hf HT Hnd.
  assert (Huniq : ∀ k v w, (k, v) ∈ imap → (k, w) ∈ imap → v = w).
  { intros k v w Hv Hw. apply (elem_of_list_to_map_1 imap _ _ Hnd) in Hv. apply (elem_of_list_to_map_1 imap _ _ Hnd) in Hw.
    rewrite Hv in Hw. by injection Hw. }
  assert (Hval : ∀ k v, k ∈ f (default [] (group_by_value imap !! v)) → (k, v) ∈ imap).
  { intros k v. rewrite Hf, group_get. rewrite elem_of_list_fmap. intros ([k' v'] & -> & H).
    apply elem_of_list_filter in H as [Hv H]. cbn in Hv. subst v'. done. }
  apply StronglySorted_concat.
  - apply Forall_fmap, Forall_forall. intros v Hv. cbn.
    assert (Hall : ∀ k, k ∈ f (default [] (group_by_value imap !! v)) → (k, v) ∈ imap) by (intros k; apply Hval).
    specialize (HT (default [] (group_by_value imap !! v))). induction HT as [|a l HT IH Ha]; constructor.
    + apply IH. intros k Hk. apply Hall. by right.
    + rewrite Forall_forall in *. intros b Hb va vb Hva Hvb. right. specialize (Ha b Hb).
      rewrite (Huniq a va v Hva (Hall a ltac:(left))). rewrite (Huniq b vb v Hvb (Hall b ltac:(by right))). done.
  - intros i j li lj x y Hij Hi Hj Hx Hy va vb Hva Hvb. left.
    rewrite list_lookup_fmap in Hi, Hj.
    destruct (sorted_values _ r !! i) as [v|] eqn:Ei; [|done]. destruct (sorted_values _ r !! j) as [w|] eqn:Ej; [|done].
    cbn in Hi, Hj. injection Hi as <-. injection Hj as <-.
    rewrite (Huniq x va v Hva (Hval x v Hx)). rewrite (Huniq y vb w Hvb (Hval y w Hy)).
    exact (sorted_values_before _ r i j v w Hij Ei Ej).
Qed.
Lemma sort_by_int_perm imap r : sort_by_int imap r ≡ₚ imap.*1.
Proof.
  unfold sort_by_int. rewrite <- (by_value_perm (merge_sort (flip str_le)) (sorted_values (group_by_value imap) r)).
  - apply reflexive_eq. f_equal. apply list_fmap_ext. intros i v _. by rewrite group_get.
  - intros l. apply merge_sort_Permutation.
  - apply sorted_values_nodup.
  - intros k v H. apply sorted_values_elem. by exists k.
Qed.
Lemma sort_by_map_int_perm imap c r : sort_by_map_int imap c r ≡ₚ imap.*1.
Proof.
  unfold sort_by_map_int. set (im := (λ kv : string * gmap string Z, (fst kv, default 0 (snd kv !! c))) <$> imap).
  assert (Hk : im.*1 = imap.*1). { unfold im. rewrite <- list_fmap_compose. by apply list_fmap_ext. }
  rewrite <- Hk. rewrite <- (by_value_perm id (sorted_values (group_by_value im) r)).
  - apply reflexive_eq. f_equal. apply list_fmap_ext. intros i v _. by rewrite group_get.
  - done.
  - apply sorted_values_nodup.
  - intros k v H. apply sorted_values_elem. by exists k.
Qed.

(** *** C39 DedupSortStrings *)
Lemma dedup_loop_inv s j : (j ≤ length s)%nat →
  let '(s', seen, i) := fold_left dedup_step (seq 0 j) (s, ∅, 0%nat) in
  (i ≤ j)%nat ∧ length s' = length s ∧ drop j s' = drop j s ∧ NoDup (take i s') ∧
  (∀ x, x ∈ take i s' ↔ x ∈ take j s) ∧ (∀ x, x ∈ seen ↔ x ∈ take j s).
Proof.
  induction j as [|j IH]; intros Hj.
  { cbn. split_and!; try done; [constructor|]. intros x. split; [intros H; by apply elem_of_empty in H|intros H; by apply elem_of_nil in H]. }
  rewrite seq_S, fold_left_app. cbn [Nat.add fold_left]. specialize (IH ltac:(lia)).
  destruct (fold_left dedup_step (seq 0 j) (s, ∅, 0%nat)) as [[s' seen] i].
  destruct IH as (Hi & Hl & Hd & Hnd & Hel & Hseen). cbn [dedup_step].
  assert (Hsj : s' !! j = s !! j).
  { rewrite <- (Nat.add_0_r j), <- !lookup_drop. by rewrite Hd. }
  destruct (s !! j) as [v|] eqn:E; [|apply lookup_ge_None in E; lia]. rewrite Hsj.
  assert (Htk : take (S j) s = take j s ++ [v]) by (by apply take_S_r).
  assert (HdS : ∀ a, drop j a = drop j s → drop (S j) a = drop (S j) s).
  { intros a Ha. rewrite <- !(Nat.add_1_r j), <- !drop_drop. by rewrite Ha. }
  destruct (decide (v ∈ seen)) as [Hv|Hv].
  - split_and!; try done; [lia|by apply HdS|..]; intros x; rewrite ?Hel, ?Hseen, Htk, elem_of_app, elem_of_list_singleton.
    + split; [by left|]. intros [?| ->]; [done|]. by apply Hseen.
    + split; [by left|]. intros [?| ->]; [done|]. by apply Hseen.
  - assert (Hlt : (i < length s')%nat) by lia.
    assert (Ht : take (S i) (<[i:=v]> s') = take i s' ++ [v]).
    { rewrite (take_S_r (<[i:=v]> s') i v) by (by apply list_lookup_insert). by rewrite take_insert by lia. }
    rewrite Ht. split_and!.
    + lia.
    + by rewrite insert_length.
    + rewrite drop_insert_gt by lia. by apply HdS.
    + apply NoDup_app. split; [done|]. split; [|apply NoDup_singleton]. intros x Hx Hxv.
      apply elem_of_list_singleton in Hxv as ->. apply Hv, Hseen, Hel, Hx.
    + intros x. rewrite Htk, !elem_of_app, Hel. done.
    + intros x. rewrite Htk, elem_of_app, elem_of_union, elem_of_singleton, elem_of_list_singleton, Hseen. tauto.
Qed.
Lemma dedup_sort_spec s : let r := fst (dedup_sort s) in
  StronglySorted str_le r ∧ NoDup r ∧ (∀ x, x ∈ r ↔ x ∈ s).
Proof.
  unfold dedup_sort, dedup_loop. pose proof (dedup_loop_inv s (length s) ltac:(lia)) as H.
  destruct (fold_left dedup_step _ _) as [[s' seen] i]. destruct H as (Hi & Hl & Hd & Hnd & Hel & _). cbn [fst].
  unfold sort_strings. split_and!.
  - apply (StronglySorted_merge_sort str_le).
  - by rewrite merge_sort_Permutation.
  - intros x. rewrite merge_sort_Permutation, Hel. by rewrite firstn_all.
Qed.
Lemma strict_sorted l : StronglySorted str_le l → NoDup l → StronglySorted (λ a b, String.compare a b = Lt) l.
Proof.
  intros Hs. induction Hs as [|a l Hs IH Ha]; intros Hn; constructor; apply NoDup_cons in Hn as [Hn1 Hn].
  - by apply IH.
  - rewrite Forall_forall in *. intros b Hb. specialize (Ha b Hb). apply str_le_iff in Ha as [->|?]; done.
Qed.

(** *** C44 *)
Section batches.
  Context {A : Type}.
  Implicit Types (data : list A) (fails : list A → bool).
  Lemma batch_pos n : (0 < batch_size n)%nat.
  Proof. unfold batch_size. cbv zeta. repeat case_decide; lia. Qed.
  Lemma slices_concat data b k : concat ((λ i, slice data (i * b) ((i + 1) * b)) <$> seq 0 k) = take (k * b) data.
  Proof.
    induction k as [|k IH]; [done|]. rewrite seq_S, fmap_app, concat_app, IH. cbn. rewrite app_nil_r.
    unfold slice. replace ((k + 1) * b - k * b)%nat with b by lia.
    replace (b + k * b)%nat with (k * b + b)%nat by lia. by rewrite <- take_take_drop.
  Qed.
  Lemma store_all_spec fails calls : let '(made, e) := store_all fails calls in
    if e then ∃ pre c post, made = pre ++ [c] ∧ calls = pre ++ c :: post ∧ fails c = true ∧ Forall (λ c, fails c = false) pre
    else made = calls ∧ Forall (λ c, fails c = false) calls.
  Proof.
    induction calls as [|c cs IH]; cbn; [done|]. destruct (fails c) eqn:E.
    - exists [], c, cs. done.
    - destruct (store_all fails cs) as [made e]. destruct e.
      + destruct IH as (pre & d & post & -> & -> & H1 & H2). exists (c :: pre), d, post. split_and!; try done. by constructor.
      + destruct IH as [-> H]. split; [done|]. by constructor.
  Qed.
  Definition batch_calls data : list (list A) :=
    let num := length data in
    let b := batch_size num in
    if decide (num < b)%nat then [data] else
    ((λ i, slice data (i * b) ((i + 1) * b)) <$> seq 0 (num / b)) ++
      (if decide (num - num mod b = 0)%nat then [] else [drop (num - num mod b) data]).
  Lemma store_batched_calls fails data : store_batched fails data = store_all fails (batch_calls data).
  Proof. unfold store_batched, batch_calls. cbv zeta. by case_decide. Qed.
  Lemma batch_calls_concat data : concat (batch_calls data) = data.
  Proof.
    unfold batch_calls. cbv zeta. set (num := length data). set (b := batch_size num).
    assert (Hb : (0 < b)%nat) by apply batch_pos. case_decide as H; [cbn; by rewrite app_nil_r|].
    pose proof (Nat.div_mod num b ltac:(lia)) as Hdm. assert (1 ≤ num / b)%nat by (apply Nat.div_le_lower_bound; lia).
    assert (Hoff : (num - num mod b = num / b * b)%nat) by nia.
    rewrite decide_False by nia. rewrite concat_app, slices_concat, Hoff. cbn. rewrite app_nil_r. apply take_drop.
  Qed.
End batches.

(** *** splitting at a byte *)
Lemma split_lacks c s : c ∉ chars s → split c s = [s].
Proof.
  induction s as [|a s IH]; [done|]. cbn [chars]. rewrite not_elem_of_cons. intros [H1 H2]. cbn [split].
  destruct (Ascii.eqb_spec a c); [congruence|]. by rewrite (IH H2).
Qed.
Lemma split_at c a b : c ∉ chars a → split c (a ++ String c b) = a :: split c b.
Proof.
  induction a as [|x a IH]; cbn [chars].
  - intros _. change (split c (String c b) = EmptyString :: split c b). cbn [split]. by rewrite Ascii.eqb_refl.
  - rewrite not_elem_of_cons. intros [H1 H2]. change (String x a ++ String c b)%string with (String x (a ++ String c b)).
    cbn [split]. destruct (Ascii.eqb_spec x c); [congruence|]. by rewrite (IH H2).
Qed.
Lemma split_cases c s : c ∉ chars s ∨ ∃ a b, s = (a ++ String c b)%string ∧ c ∉ chars a.
Proof.
  induction s as [|x s IH]; [left; apply not_elem_of_nil|].
  destruct (decide (x = c)) as [->|Hne].
  { right. exists EmptyString, s. split; [done|]. apply not_elem_of_nil. }
  destruct IH as [H|(a & b & -> & H)].
  - left. cbn. by apply not_elem_of_cons.
  - right. exists (String x a), b. split; [done|]. cbn. by apply not_elem_of_cons.
Qed.

(** *** C43 *)
Lemma env_name_named n e : env_name e = n ↔ named n e.
Proof.
  unfold env_name, named. split.
  - destruct (split_cases "=" e) as [H|(a & b & -> & H)].
    + rewrite (split_lacks _ _ H). cbn. intros <-. split; [done|by left].
    + rewrite (split_at _ a b H). cbn. intros <-. split; [done|]. right. by exists b.
  - intros [H [->|[v ->]]].
    + by rewrite (split_lacks _ _ H).
    + change ("=" ++ v)%string with (String "=" v). by rewrite (split_at _ n v H).
Qed.
Lemma override_map_lookup over n : override_map over !! n = last (filter (λ e, env_name e = n) over).
Proof.
  unfold override_map. induction over as [|e over IH] using rev_ind; [done|].
  rewrite fold_left_app. cbn [fold_left]. rewrite filter_app. rewrite filter_cons, filter_nil.
  destruct (decide (env_name e = n)) as [->|H].
  - by rewrite lookup_insert, last_snoc.
  - rewrite lookup_insert_ne by done. by rewrite app_nil_r.
Qed.
Lemma override_map_name over n e : override_map over !! n = Some e → env_name e = n.
Proof.
  rewrite override_map_lookup. intros H. apply last_Some_elem_of in H. by apply elem_of_list_filter in H as [? _].
Qed.
Lemma env_replace_spec env m : NoDup (env_name <$> env) →
  fst (env_replace env m) = (λ e, default e (m !! env_name e)) <$> env ∧
  ∀ n, snd (env_replace env m) !! n = if decide (n ∈ env_name <$> env) then None else m !! n.
Proof.
  revert m. induction env as [|e env IH]; intros m Hn; [done|]. cbn [fmap list_fmap] in Hn. apply NoDup_cons in Hn as [Hne Hn].
  cbn [env_replace]. destruct (m !! env_name e) as [r|] eqn:E.
  - specialize (IH (delete (env_name e) m) Hn). destruct (env_replace env (delete (env_name e) m)) as [es m'].
    cbn [fst snd] in *. destruct IH as [-> IH2]. split.
    + cbn. rewrite E. cbn. f_equal. apply list_fmap_ext. intros i x Hx. cbn. rewrite lookup_delete_ne; [done|].
      intros Heq. apply Hne. rewrite Heq. apply elem_of_list_fmap. exists x. split; [done|]. by eapply elem_of_list_lookup_2.
    + intros n. rewrite IH2. cbn [fmap list_fmap]. destruct (decide (n = env_name e)) as [->|Hd].
      * rewrite (decide_True (P := env_name e ∈ env_name e :: _)) by left. case_decide; [done|]. by rewrite lookup_delete.
      * rewrite lookup_delete_ne by done. repeat case_decide; try done.
        -- exfalso. eauto using elem_of_list_further.
        -- apply elem_of_cons in H0 as [?|?]; done.
  - specialize (IH m Hn). destruct (env_replace env m) as [es m'].
    cbn [fst snd] in *. destruct IH as [-> IH2]. split.
    + cbn. by rewrite E.
    + intros n. rewrite IH2. cbn [fmap list_fmap]. repeat case_decide; try done.
      * exfalso. eauto using elem_of_list_further.
      * apply elem_of_cons in H0 as [->|?]; done.
Qed.
Lemma order_elem order m e : some_order order → e ∈ order m ↔ ∃ n, m !! n = Some e.
Proof.
  intros Ho. rewrite (Ho m), elem_of_list_fmap. split.
  - intros ([n e'] & -> & H). exists n. by apply elem_of_map_to_list in H.
  - intros [n H]. exists (n, e). split; [done|]. by apply elem_of_map_to_list.
Qed.
Lemma env_override_spec order orig over : some_order order → NoDup (env_name <$> orig) →
  let r := env_override order orig over in
  NoDup (env_name <$> r) ∧ (∀ e, e ∈ r ↔ e ∈ orig ∧ env_name e ∉ env_name <$> over ∨ last (filter (λ x, env_name x = env_name e) over) = Some e) ∧
  take (length orig) (env_name <$> r) = env_name <$> orig.
Proof.
  intros Ho Hn. unfold env_override. destruct (env_replace_spec orig (override_map over) Hn) as [H1 H2].
  destruct (env_replace orig (override_map over)) as [es m]. cbn [fst snd] in *. subst es. cbv zeta.
  set (es := (λ e, default e (override_map over !! env_name e)) <$> orig).
  assert (Hnames : env_name <$> es = env_name <$> orig).
  { unfold es. rewrite <- list_fmap_compose. apply list_fmap_ext. intros i e _. cbn.
    destruct (override_map over !! env_name e) as [r|] eqn:E; [|done]. cbn. by apply override_map_name in E. }
  assert (Hm : ∀ n e, m !! n = Some e → env_name e = n ∧ n ∉ env_name <$> orig ∧ override_map over !! n = Some e).
  { intros n e H. rewrite H2 in H. case_decide; [done|]. split_and!; try done. by apply override_map_name in H. }
  assert (Hnone : ∀ n, override_map over !! n = None ↔ n ∉ env_name <$> over).
  { intros n. rewrite override_map_lookup, last_None. split.
    - intros Hf Hin. apply elem_of_list_fmap in Hin as (e & -> & He).
      assert (e ∈ filter (λ x, env_name x = env_name e) over) as Hx by (by apply elem_of_list_filter). rewrite Hf in Hx. by apply elem_of_nil in Hx.
    - intros Hin. destruct (filter _ over) as [|e l] eqn:E; [done|]. exfalso. apply Hin.
      assert (e ∈ filter (λ x, env_name x = n) over) as Hx by (rewrite E; left). apply elem_of_list_filter in Hx as [<- Hx].
      by apply elem_of_list_fmap_1. }
  split_and!.
  - rewrite fmap_app, Hnames. apply NoDup_app. split; [done|]. split.
    + intros n Hin Hin2. apply elem_of_list_fmap in Hin2 as (e & -> & He). apply (order_elem order m e Ho) in He as [n He].
      apply Hm in He as (He & Hni & _). subst n. done.
    + rewrite (Ho m). rewrite <- list_fmap_compose.
      assert (Heq : (env_name ∘ snd) <$> map_to_list m = (map_to_list m).*1).
      { apply list_fmap_ext. intros i [n e] Hi. cbn. apply elem_of_list_lookup_2, elem_of_map_to_list in Hi. by apply Hm in Hi as [? _]. }
      rewrite Heq. apply NoDup_fst_map_to_list.
  - intros e. rewrite elem_of_app. rewrite (order_elem order m e Ho). unfold es. rewrite elem_of_list_fmap. split.
    + intros [(e0 & -> & H0)|[n H]].
      * destruct (override_map over !! env_name e0) as [r|] eqn:E; cbn.
        -- right. rewrite (override_map_name _ _ _ E). by rewrite <- override_map_lookup.
        -- left. split; [done|]. by apply Hnone.
      * right. apply Hm in H as (<- & _ & H). by rewrite <- override_map_lookup.
    + rewrite <- override_map_lookup. intros [[H0 H]|H].
      * left. exists e. split; [|done]. by rewrite (proj2 (Hnone _) H).
      * destruct (decide (env_name e ∈ env_name <$> orig)) as [Hin|Hin].
        -- left. apply elem_of_list_fmap in Hin as (e0 & Heq & H0). exists e0. split; [|done]. by rewrite <- Heq, H.
        -- right. exists (env_name e). rewrite H2. by rewrite decide_False.
  - rewrite fmap_app, Hnames. rewrite <- (fmap_length env_name orig). by rewrite take_app.
Qed.
Lemma last_filter_app (P : string → Prop) `{∀ x, Decision (P x)} l k :
  last (filter P (l ++ k)) = match last (filter P k) with Some e => Some e | None => last (filter P l) end.
Proof. rewrite filter_app. by rewrite last_app. Qed.
