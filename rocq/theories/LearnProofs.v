From Coq Require Import ZArith Lia String Ascii.
From stdpp Require Import base option strings gmap list sorting.
From RecordUpdate Require Import RecordSet.
From Verif Require Import UtilModel UtilProofs LearnModel LearnSpec.
Import RecordSetNotations.
Open Scope Z_scope.

(** * Strings and their order *)
Lemma ascii_compare_refl a : Ascii.compare a a = Eq.
Proof. apply N.compare_refl. Qed.
Lemma ascii_compare_lt a b : (N_of_ascii a < N_of_ascii b)%N → Ascii.compare a b = Lt.
Proof. intros H. by apply N.compare_lt_iff. Qed.
Lemma ascii_lt_inv a b : Ascii.compare a b = Lt → (N_of_ascii a < N_of_ascii b)%N.
Proof. intros H. by apply N.compare_lt_iff. Qed.
Lemma compare_cons a s b t : String.compare (String a s) (String b t) = match Ascii.compare a b with Eq => String.compare s t | c => c end.
Proof. done. Qed.
Lemma compare_app p s t : String.compare (p +:+ s) (p +:+ t) = String.compare s t.
Proof. induction p as [|a p IH]; [done|]. change (String.compare (String a (p +:+ s)) (String a (p +:+ t)) = String.compare s t). by rewrite compare_cons, ascii_compare_refl. Qed.
Lemma prefix_cons a p b s : String.prefix (String a p) (String b s) = if ascii_dec a b then String.prefix p s else false.
Proof. done. Qed.
Lemma prefix_spec p s : String.prefix p s = true ↔ ∃ t, s = p +:+ t.
Proof.
  revert s. induction p as [|a p IH]; intros s.
  - split; [by exists s|by destruct s].
  - destruct s as [|b s]; [split; [done|by intros [t ?]]|]. rewrite prefix_cons. destruct (ascii_dec a b) as [->|Hn].
    + rewrite IH. split; intros [t Ht]; exists t; [by rewrite Ht|by injection Ht as ->].
    + split; [done|]. intros [t Ht]. by injection Ht as -> _.
Qed.
Lemma prefix_le p s : String.prefix p s = true → str_le p s.
Proof.
  rewrite prefix_spec. intros [t ->]. induction p as [|a p IH]; unfold str_le, String.leb in *; [by destruct t|].
  change (String a p +:+ t) with (String a (p +:+ t)). by rewrite compare_cons, ascii_compare_refl.
Qed.
Lemma ascii_compare_eq a b : Ascii.compare a b = Eq → a = b.
Proof.
  unfold Ascii.compare. intros H%N.compare_eq_iff. rewrite <- (ascii_N_embedding a), <- (ascii_N_embedding b). by rewrite H.
Qed.
(** between the prefix and a string with the prefix every string has the prefix *)
Lemma prefix_between p a b : str_le p a → str_le a b → String.prefix p b = true → String.prefix p a = true.
Proof.
  revert a b. induction p as [|c p IH]; intros a b H1 H2 H3; [by destruct a|].
  destruct b as [|d b]; [done|]. rewrite prefix_cons in H3. destruct (ascii_dec c d) as [->|]; [|done].
  destruct a as [|e a]; [done|]. unfold str_le, String.leb in *. rewrite compare_cons in H1, H2.
  destruct (Ascii.compare d e) eqn:E1; [| |done].
  - apply ascii_compare_eq in E1 as <-. rewrite ascii_compare_refl in H2. rewrite prefix_cons. destruct (ascii_dec d d); [|done]. by apply (IH a b).
  - destruct (Ascii.compare e d) eqn:E2; [by apply ascii_compare_eq in E2 as ->; rewrite ascii_compare_refl in E1| |done].
    exfalso. pose proof (ascii_lt_inv _ _ E1). pose proof (ascii_lt_inv _ _ E2). lia.
Qed.

(** * Padded numbers *)
Lemma digit_ascii s d : 0 ≤ d < 10 → N_of_ascii (digit s d) = if s || bool_decide (0 < d) then Z.to_N (48 + d) else 32%N.
Proof. intros H. unfold digit. destruct (_ || _); [|done]. rewrite N_ascii_embedding; [done|lia]. Qed.
Lemma padded_lt s k v w : 0 ≤ v → v < w → w < 10 ^ Z.of_nat k → String.compare (padded s k v) (padded s k w) = Lt.
Proof.
  revert s v w. induction k as [|k IH]; intros s v w Hv Hvw Hw; [cbn in Hw; lia|].
  cbn [padded]. set (t := 10 ^ Z.of_nat k) in *.
  assert (0 < t) as Ht by (unfold t; lia).
  assert (10 ^ Z.of_nat (S k) = 10 * t) as Et by (unfold t; rewrite Nat2Z.inj_succ, Z.pow_succ_r by lia; lia).
  rewrite Et in Hw.
  assert (0 ≤ v / t < 10) as Hd1 by (split; [apply Z.div_pos; lia|apply Z.div_lt_upper_bound; lia]).
  assert (0 ≤ w / t < 10) as Hd2 by (split; [apply Z.div_pos; lia|apply Z.div_lt_upper_bound; lia]).
  assert (v / t ≤ w / t) as Hd by (apply Z.div_le_mono; lia).
  rewrite compare_cons. destruct (decide (v / t = w / t)) as [E|E].
  - rewrite E, ascii_compare_refl. pose proof (Z.div_mod v t ltac:(lia)). pose proof (Z.div_mod w t ltac:(lia)).
    pose proof (Z.mod_pos_bound v t Ht). pose proof (Z.mod_pos_bound w t Ht).
    apply IH; [lia| |lia]. rewrite E in *. lia.
  - rewrite ascii_compare_lt; [done|]. rewrite !digit_ascii by done.
    destruct (s || _); cbn [orb]; [lia|]. case_bool_decide; case_bool_decide; lia.
Qed.
Lemma padded_length s k v : String.length (padded s k v) = k.
Proof. revert s v. induction k as [|k IH]; intros s v; [done|]. cbn. by rewrite IH. Qed.
Definition in_range (v : Z) : Prop := 0 ≤ v < 10 ^ 20.
Lemma usual_range v : 0 ≤ v < 2 ^ 63 → in_range v.
Proof. unfold in_range. lia. Qed.
Lemma key_lt g v w : in_range v → in_range w → v < w → String.compare (stat_key g v) (stat_key g w) = Lt.
Proof. intros [? ?] [? ?] Hvw. unfold stat_key. rewrite !compare_app. by apply padded_lt. Qed.
Lemma compare_refl s : String.compare s s = Eq.
Proof. induction s as [|a s IH]; [done|]. by rewrite compare_cons, ascii_compare_refl. Qed.
Lemma key_inj_val g v w : in_range v → in_range w → stat_key g v = stat_key g w → v = w.
Proof.
  intros Hv Hw E. destruct (Z.lt_trichotomy v w) as [H|[H|H]]; [|done|].
  - pose proof (key_lt g v w Hv Hw H) as C. rewrite E, compare_refl in C. done.
  - pose proof (key_lt g w v Hw Hv H) as C. rewrite E, compare_refl in C. done.
Qed.
Lemma str_app_length s t : String.length (s +:+ t) = (String.length s + String.length t)%nat.
Proof. induction s as [|a s IH]; [done|]. change (S (String.length (s +:+ t)) = S (String.length s + String.length t)). by rewrite IH. Qed.
Lemma app_inj_same s s' t t' : String.length t = String.length t' → s +:+ t = s' +:+ t' → s = s' ∧ t = t'.
Proof.
  intros Hl. revert s'. induction s as [|a s IH]; intros s' E.
  - destruct s' as [|b s']; [done|]. change (t = String b (s' +:+ t')) in E. subst t. change (S (String.length (s' +:+ t')) = String.length t') in Hl. rewrite str_app_length in Hl. lia.
  - destruct s' as [|b s']; [change (String a (s +:+ t) = t') in E; subst t'; change (String.length t = S (String.length (s +:+ t))) in Hl; rewrite str_app_length in Hl; lia|].
    change (String a (s +:+ t) = String b (s' +:+ t')) in E. injection E as -> E. destruct (IH s' E) as [-> ->]. done.
Qed.
Lemma key_inj g v g' v' : in_range v → in_range v' → stat_key g v = stat_key g' v' → g = g' ∧ v = v'.
Proof.
  intros Hv Hv' E. assert (g = g') as <-.
  { unfold stat_key in E. apply app_inj_same in E as [? _]; [done|]. by rewrite !str_app_length, !padded_length. }
  split; [done|]. by apply (key_inj_val g).
Qed.

(** * What is stored *)
Lemma stored_lookup log k v : (∀ g v, (g, v) ∈ log → in_range v) →
  stored log !! k = Some v ↔ ∃ g, (g, v) ∈ log ∧ k = stat_key g v.
Proof.
  unfold stored. induction log as [|[g w] log IH] using rev_ind; intros Hr.
  - cbn. rewrite lookup_empty. split; [done|]. intros (g & H & _). by apply elem_of_nil in H.
  - rewrite fold_left_app. cbn. unfold put_stat at 1. cbn [fst snd].
    assert (∀ g v, (g, v) ∈ log → in_range v) as Hr' by (intros g0 v0 H0; apply (Hr g0); apply elem_of_app; by left).
    specialize (IH Hr'). destruct (decide (stat_key g w = k)) as [<-|Hn].
    + rewrite lookup_insert. split.
      * intros [= <-]. exists g. split; [|done]. apply elem_of_app. right. by apply elem_of_list_singleton.
      * intros (g' & H & E). apply key_inj in E as [_ ->]; [done| |].
        -- apply (Hr g). apply elem_of_app. right. by apply elem_of_list_singleton.
        -- by apply (Hr g').
    + rewrite lookup_insert_ne by done. rewrite IH. split.
      * intros (g' & H & ->). exists g'. split; [apply elem_of_app; by left|done].
      * intros (g' & [H|H%elem_of_list_singleton]%elem_of_app & ->); [by exists g'|]. by injection H as -> ->.
Qed.
Global Instance entry_le_trans : Transitive entry_le.
Proof. intros a b c. unfold entry_le. apply transitivity. Qed.
Global Instance entry_le_total : Total entry_le.
Proof. intros a b. unfold entry_le. apply str_le_total. Qed.
Lemma entries_sorted b : StronglySorted entry_le (entries b).
Proof. apply (StronglySorted_merge_sort _). Qed.
Lemma entries_in b e : e ∈ entries b ↔ b !! e.1 = Some e.2.
Proof. unfold entries. rewrite merge_sort_Permutation. destruct e as [k v]. apply elem_of_map_to_list. Qed.
Lemma entries_nodup b : NoDup (entries b).*1.
Proof. unfold entries. rewrite merge_sort_Permutation. apply NoDup_fst_map_to_list. Qed.

(** * What is met *)
Lemma seek_suffix p l : ∃ l0, l = l0 ++ seek p l ∧ ∀ e, e ∈ l0 → ¬ str_le p e.1.
Proof.
  induction l as [|e l (l0 & H1 & H2)]; [exists []; split; [done|]; by intros e ?%elem_of_nil|]. cbn. destruct (decide _) as [H|H].
  - exists []. split; [done|]. by intros ? ?%elem_of_nil.
  - exists (e :: l0). split; [by rewrite H1 at 1|]. intros e' [->|He']%elem_of_cons; [done|by apply H2].
Qed.
Lemma while_prefix_split p l : ∃ l1, l = while_prefix p l ++ l1 ∧ (∀ e, e ∈ while_prefix p l → String.prefix p e.1 = true) ∧
  match l1 with [] => True | e :: _ => String.prefix p e.1 = false end.
Proof.
  induction l as [|e l (l1 & H1 & H2 & H3)]; [exists []; split_and!; [done| |done]; by intros e ?%elem_of_nil|]. cbn.
  destruct (String.prefix p e.1) eqn:E.
  - exists l1. split_and!; [by rewrite H1 at 1| |done]. intros e' [->|?]%elem_of_cons; [done|by apply H2].
  - exists (e :: l). split_and!; [done| |done]. by intros e' ?%elem_of_nil.
Qed.
Lemma sorted_app {A} (R : relation A) l l' : StronglySorted R (l ++ l') → StronglySorted R l ∧ StronglySorted R l' ∧ ∀ x y, x ∈ l → y ∈ l' → R x y.
Proof.
  induction l as [|a l IH]; cbn; intros H; [split_and!; [constructor|done|]; by intros x y ?%elem_of_nil|].
  inversion H as [|? ? Hs Hf]; subst. destruct (IH Hs) as (H1 & H2 & H3). rewrite Forall_app in Hf. destruct Hf as [Hf1 Hf2].
  rewrite Forall_forall in Hf2. split_and!; [by constructor|done|]. intros x y [->|Hx]%elem_of_cons Hy; [by apply Hf2|by apply H3].
Qed.
Lemma met_entries b g : let l := while_prefix g (seek g (entries b)) in
  StronglySorted entry_le l ∧ NoDup l.*1 ∧ ∀ e, e ∈ l ↔ b !! e.1 = Some e.2 ∧ String.prefix g e.1 = true.
Proof.
  cbv zeta. pose proof (entries_sorted b) as Hs. pose proof (entries_nodup b) as Hn.
  destruct (seek_suffix g (entries b)) as (l0 & E & Hl0). rewrite E in Hs, Hn.
  apply sorted_app in Hs as (_ & Hs & _). rewrite fmap_app in Hn. apply NoDup_app in Hn as (_ & _ & Hn).
  destruct (while_prefix_split g (seek g (entries b))) as (l1 & E1 & Hp & Hl1). rewrite E1 in Hs, Hn.
  apply sorted_app in Hs as (Hs & Hs1 & Hs01). rewrite fmap_app in Hn. apply NoDup_app in Hn as (Hn & _ & _).
  split_and!; [done|done|]. intros e. rewrite <- entries_in. split.
  - intros He. split; [|by apply Hp]. rewrite E, E1. apply elem_of_app. right. apply elem_of_app. by left.
  - intros [He Hpe]. rewrite E, E1 in He. apply elem_of_app in He as [He|[He|He]%elem_of_app].
    + by destruct (Hl0 e He (prefix_le _ _ Hpe)).
    + done.
    + exfalso. destruct l1 as [|e1 l1]; [by apply elem_of_nil in He|].
      assert (str_le g e1.1) as Hg1.
      { (* e1 comes from the sought part *)
        assert (e1 ∈ seek g (entries b)) as Hin by (rewrite E1; apply elem_of_app; right; left).
        clear -Hin. pose proof (entries_sorted b) as Hs. revert Hs Hin. generalize (entries b) as l. induction l as [|e l IH]; [by intros _ ?%elem_of_nil|].
        cbn. intros Hs. inversion Hs as [|? ? Hs' Hf]; subst. destruct (decide (str_le g e.1)) as [H|H]; [|by apply IH].
        intros [->|Hin]%elem_of_cons; [done|]. rewrite Forall_forall in Hf. etrans; [done|]. apply (Hf e1 Hin). }
      assert (str_le e1.1 e.1) as H1e.
      { apply elem_of_cons in He as [->|He]; [reflexivity|]. inversion Hs1 as [|? ? _ Hf]; subst. rewrite Forall_forall in Hf. apply (Hf e He). }
      by rewrite (prefix_between g e1.1 e.1 Hg1 H1e Hpe) in Hl1.
Qed.
Lemma app_assoc_s a b c : (a +:+ b) +:+ c = a +:+ (b +:+ c).
Proof. induction a as [|x a IH]; [done|]. change (String x ((a +:+ b) +:+ c) = String x (a +:+ (b +:+ c))). by rewrite IH. Qed.

Lemma ascending_cons x l : ascending (x :: l) ↔ (∀ y, y ∈ l → x < y) ∧ ascending l.
Proof.
  split.
  - intros H. split.
    + intros y [i Hi]%elem_of_list_lookup. apply (H 0%nat (S i)); [lia|done|done].
    + intros i j a b Hij Hi Hj. apply (H (S i) (S j)); [lia|done|done].
  - intros [H1 H2] [|i] [|j] a b Hij Hi Hj; [lia| |lia|].
    + cbn in Hi, Hj. injection Hi as <-. apply H1. by apply elem_of_list_lookup_2 with j.
    + apply (H2 i j); [lia|done|done].
Qed.
Lemma ascending_eq l l' : ascending l → ascending l' → (∀ v, v ∈ l ↔ v ∈ l') → l = l'.
Proof.
  revert l'. induction l as [|x l IH]; intros [|y l'] H1 H2 He; [done| | |].
  - destruct (He y) as [_ H]. by apply elem_of_nil in H; [|left].
  - destruct (He x) as [H _]. by apply elem_of_nil in H; [|left].
  - apply ascending_cons in H1 as [H1 H1'], H2 as [H2 H2'].
    assert (x = y) as <-.
    {
      destruct (proj1 (elem_of_cons _ _ _) (proj1 (He x) (elem_of_list_here x l))) as [?|Hx]; [done|].
      destruct (proj1 (elem_of_cons _ _ _) (proj2 (He y) (elem_of_list_here y l'))) as [?|Hy]; [done|].
      specialize (H1 y Hy). specialize (H2 x Hx). lia. }
    f_equal. apply IH; [done|done|]. intros v. specialize (He v). rewrite !elem_of_cons in He. split; intros Hv.
    + destruct (proj1 He (or_intror Hv)) as [->|?]; [|done]. specialize (H1 x Hv). lia.
    + destruct (proj2 He (or_intror Hv)) as [->|?]; [|done]. specialize (H2 x Hv). lia.
Qed.

Lemma met_values log g vs : usual log → alone log g → values_of log g vs → met (stored log) g = vs.
Proof.
  intros Hu Ha [Hv1 Hv2].
  assert (∀ g v, (g, v) ∈ log → in_range v) as Hr by (intros g0 v0 H0; apply usual_range; by apply (Hu g0)).
  destruct (met_entries (stored log) g) as (Hs & Hn & Hin). unfold met. set (l := while_prefix g _) in *.
  assert (∀ e, e ∈ l ↔ (g, e.2) ∈ log ∧ e.1 = stat_key g e.2) as Hin'.
  { intros [k v]. rewrite Hin. cbn [fst snd]. rewrite stored_lookup by done. split.
    - intros ((g' & H & ->) & (t & Ht)%prefix_spec). assert (g' = g) as <-; [|done]. by apply (Ha g' v (padded false 20 v) t).
    - intros [H ->]. split; [by exists g|]. apply prefix_spec. by eexists. }
  apply ascending_eq; [|done|].
  - assert (∀ e, e ∈ l → in_range e.2 ∧ e.1 = stat_key g e.2) as Hk.
    { intros e He. apply Hin' in He as [H1 H2]. split; [by apply (Hr g)|done]. }
    clear -Hs Hn Hk. induction l as [|e l IH]; [by intros i j x y _ ?|]. cbn in *.
    inversion Hs as [|? ? Hs' Hf]; subst. apply NoDup_cons in Hn as [Hn1 Hn2]. apply ascending_cons. split.
    + intros y (e' & -> & He')%elem_of_list_fmap. rewrite Forall_forall in Hf. specialize (Hf e' He').
      destruct (Hk e ltac:(left)) as [Hr1 E1]. destruct (Hk e' ltac:(by right)) as [Hr2 E2].
      destruct (Z.lt_trichotomy e.2 e'.2) as [?|[E|Hlt]]; [done| |].
      * destruct Hn1. apply elem_of_list_fmap. exists e'. split; [|done]. by rewrite E1, E2, E.
      * pose proof (key_lt g e'.2 e.2 Hr2 Hr1 Hlt) as C. rewrite <- E1, <- E2 in C. unfold entry_le in Hf.
        assert (e.1 = e'.1) as E by (apply (anti_symm str_le); [done|]; apply str_le_iff; by right).
        rewrite E, compare_refl in C. done.
    + apply IH; [done|done|]. intros e' He'. apply Hk. by right.
  - intros v. rewrite Hv2, elem_of_list_fmap. split.
    + intros (e & -> & He). by apply Hin'.
    + intros H. exists (stat_key g v, v). split; [done|]. apply Hin'. by split.
Qed.

(** * float32 *)
Lemma half_even_near n d : 0 < d → 2 * n - d ≤ 2 * (half_even n d * d) ≤ 2 * n + d.
Proof.
  intros Hd. unfold half_even. pose proof (Z.div_mod n d ltac:(lia)) as E. pose proof (Z.mod_pos_bound n d Hd) as B.
  set (q := n / d) in *. set (r := n mod d) in *. case_bool_decide; [nia|]. case_bool_decide; [nia|]. destruct (Z.even q); nia.
Qed.
Lemma float32_near n d a b : 0 < d → d ≤ n → float32 (n, d) = (a, b) →
  0 < b ∧ (2 ^ 24 - 1) * (n * b) ≤ 2 ^ 24 * (a * d) ≤ (2 ^ 24 + 1) * (n * b).
Proof.
  intros Hd Hn. unfold float32. set (e := Z.log2 (n / d) - 23).
  assert (1 ≤ n / d) as H1 by (apply Z.div_le_lower_bound; lia).
  pose proof (Z.log2_spec (n / d) ltac:(lia)) as [H2 _]. pose proof (Z.log2_nonneg (n / d)) as H3.
  assert (d * 2 ^ (e + 23) ≤ n) as H4.
  { unfold e. replace (Z.log2 (n / d) - 23 + 23) with (Z.log2 (n / d)) by lia. pose proof (Z.mul_div_le n d Hd). nia. }
  case_bool_decide as He; intros E; apply pair_equal_spec in E as [<- <-].
  - assert (0 < 2 ^ (- e)) as Hp by (apply Z.pow_pos_nonneg; lia). split; [done|].
    pose proof (half_even_near (n * 2 ^ (- e)) d Hd) as Hh.
    assert (d * 2 ^ 23 ≤ n * 2 ^ (- e)) as H5.
    { replace (2 ^ 23) with (2 ^ (e + 23) * 2 ^ (- e)) by (rewrite <- Z.pow_add_r by lia; f_equal; lia). nia. }
    change (2 ^ 23) with 8388608 in H5. change (2 ^ 24) with 16777216. set (x := half_even _ d) in *. set (y := n * 2 ^ (- e)) in *. lia.
  - assert (0 < 2 ^ e) as Hp by (apply Z.pow_pos_nonneg; lia). split; [lia|].
    pose proof (half_even_near n (d * 2 ^ e) ltac:(nia)) as Hh.
    rewrite Z.pow_add_r in H4 by lia. change (2 ^ 23) with 8388608 in H4. change (2 ^ 24) with 16777216.
    set (x := half_even _ _) in *. replace (x * 2 ^ e * d) with (x * (d * 2 ^ e)) by lia. set (z := d * 2 ^ e) in *.
    replace (d * (2 ^ e * 8388608)) with (z * 8388608) in H4 by (unfold z; lia). set (y := x * z) in *. lia.
Qed.
Lemma window_near c n d : 100 < c → window c = (n, d) →
  0 < d ∧ (2 ^ 24 - 1) ^ 2 * (c * d) ≤ 20 * 2 ^ 48 * n ≤ (2 ^ 24 + 1) ^ 2 * (c * d).
Proof.
  intros Hc. unfold window. rewrite bool_decide_true by done. destruct (float32 (c, 100)) as [a b] eqn:E1. intros E2.
  destruct (float32_near c 100 a b ltac:(lia) ltac:(lia) E1) as [Hb [H1 H2]]. unfold window_percent in E2.
  assert (b ≤ a * 5) as Hab.
  { assert ((2 ^ 24 - 1) * (101 * b) ≤ 2 ^ 24 * (a * 100)) by (etrans; [|exact H1]; apply Z.mul_le_mono_nonneg_l; [lia|]; apply Z.mul_le_mono_nonneg_r; lia). lia. }
  destruct (float32_near (a * 5) b n d Hb Hab E2) as [Hd [H3 H4]]. split; [done|].
  change (2 ^ 24) with 16777216 in *. change (2 ^ 48) with (16777216 * 16777216).
  change ((16777216 - 1) ^ 2) with (16777215 * 16777215). change ((16777216 + 1) ^ 2) with (16777217 * 16777217).
  replace (16777216 - 1) with 16777215 in * by done. replace (16777216 + 1) with 16777217 in * by done.
  set (E := 16777216) in *.
  set (F := 16777215) in *. set (G := 16777217) in *.
  assert (0 < E ∧ 0 < F ∧ 0 < G) as (HE & HF & HG) by done. clearbody E F G.
  assert (0 < a) as Ha by lia.
  split.
  - apply (Zmult_le_reg_r _ _ b); [lia|].
    (* F*F*c*d*b <= 20 E E n b *)
    assert (F * d * (F * (c * b)) ≤ F * d * (E * (a * 100))) as X1 by (apply Z.mul_le_mono_nonneg_l; [nia|lia]).
    assert (20 * E * (F * (a * 5 * d)) ≤ 20 * E * (E * (n * b))) as X2 by (apply Z.mul_le_mono_nonneg_l; lia). nia.
  - apply (Zmult_le_reg_r _ _ b); [lia|].
    assert (G * d * (E * (a * 100)) ≤ G * d * (G * (c * b))) as X1 by (apply Z.mul_le_mono_nonneg_l; [nia|lia]).
    assert (20 * E * (E * (n * b)) ≤ 20 * E * (G * (a * 5 * d))) as X2 by (apply Z.mul_le_mono_nonneg_l; lia). nia.
Qed.
Lemma longer_near h c : (0 < h)%nat → 100 < c →
  if longer h (window c) then c - c / 2 ^ 20 ≤ 20 * Z.of_nat h else 20 * Z.of_nat h ≤ c + c / 2 ^ 20.
Proof.
  intros Hh Hc. destruct (window c) as [n2 d2] eqn:E2. destruct (window_near c n2 d2 Hc E2) as (Hd2 & A1 & A2).
  unfold longer. destruct (float32 (Z.of_nat h, 1)) as [n d] eqn:E.
  destruct (float32_near (Z.of_nat h) 1 n d ltac:(lia) ltac:(lia) E) as (Hd & B1 & B2).
  assert (0 < Z.of_nat h) as Hl by lia. set (l := Z.of_nat h) in *. clearbody l. cbn [fst snd].
  change (2 ^ 24) with 16777216 in *. change (2 ^ 48) with (16777216 * 16777216) in *.
  change ((16777216 - 1) ^ 2) with (16777215 * 16777215) in *. change ((16777216 + 1) ^ 2) with (16777217 * 16777217) in *.
  replace (16777216 - 1) with 16777215 in * by done. replace (16777216 + 1) with 16777217 in * by done.
  case_bool_decide as C.
  - assert (16777215 * 16777215 * c < 20 * 16777216 * 16777217 * l) as K.
    { apply (Zmult_lt_reg_r _ _ (d2 * d)); [nia|].
      assert (16777215 * 16777215 * (c * d2) * d ≤ 20 * (16777216 * 16777216) * n2 * d) as X1 by (apply Z.mul_le_mono_nonneg_r; lia).
      assert (16777216 * (n * 1) * d2 ≤ 16777217 * (l * d) * d2) as X2 by (apply Z.mul_le_mono_nonneg_r; lia). nia. }
    clear -K Hc Hl. change (2 ^ 20) with 1048576. pose proof (Z.div_mod c 1048576 ltac:(lia)). pose proof (Z.mod_pos_bound c 1048576 ltac:(lia)). pose proof (Z.div_pos c 1048576 ltac:(lia) ltac:(lia)).
    set (q := c / 1048576) in *. set (r := c mod 1048576) in *. clearbody q r. lia.
  - assert (16777216 * 16777215 * (20 * l) ≤ 16777217 * 16777217 * c) as K.
    { apply (Zmult_le_reg_r _ _ (d2 * d)); [nia|].
      assert (20 * (16777216 * 16777216) * n2 * d ≤ 16777217 * 16777217 * (c * d2) * d) as X1 by (apply Z.mul_le_mono_nonneg_r; lia).
      assert (16777215 * (l * d) * d2 ≤ 16777216 * (n * 1) * d2) as X2 by (apply Z.mul_le_mono_nonneg_r; lia). nia. }
    clear -K Hc Hl. change (2 ^ 20) with 1048576. pose proof (Z.div_mod c 1048576 ltac:(lia)). pose proof (Z.mod_pos_bound c 1048576 ltac:(lia)). pose proof (Z.div_pos c 1048576 ltac:(lia) ltac:(lia)).
    set (q := c / 1048576) in *. set (r := c mod 1048576) in *. clearbody q r. lia.
Qed.

(** * The scan *)
Lemma longer_small h : (h ≤ 6)%nat → longer h (5, 1) = bool_decide (5 < h)%nat.
Proof. intros Hh. do 7 (destruct h as [|h]; [by vm_compute|]). lia. Qed.
Definition scan_ok (vs : list Z) (s : scan) : Prop :=
  let n := Z.of_nat (length vs) in let h := Z.of_nat (length (sprev s)) in
  scount s = n ∧ smax s = default 0 (last vs) ∧
  ∃ done_, vs = done_ ++ sprev s ∧ srec s = default 0 (last done_) ∧
    (h ≤ 5 ∨ 20 * h ≤ n + n / 2 ^ 20) ∧
    (if decide (length vs ≤ 5)%nat then done_ = [] else done_ ≠ [] ∧ 5 ≤ h ∧ n - n / 2 ^ 20 ≤ 20 * (h + 1)).
Lemma scan_step vs s v : scan_ok vs s → scan_ok (vs ++ [v]) (scan_value s v).
Proof.
  intros (Hc & Hm & d & Hd & Hr & Hh & Hk). unfold scan_value. destruct s as [c p r m]. cbn in *. subst c m r.
  rewrite app_length. cbn [length].
  assert (∀ x, x = v → x = default 0 (last (vs ++ [v]))) as Hl by (intros x ->; by rewrite last_snoc).
  set (n := length vs) in *.
  assert (Z.of_nat n / 2 ^ 20 ≤ Z.of_nat (n + 1) / 2 ^ 20) as Hdiv by (apply Z.div_le_mono; lia).
  assert (Z.of_nat (n + 1) / 2 ^ 20 ≤ Z.of_nat n / 2 ^ 20 + 1) as Hdiv'.
  { rewrite Nat2Z.inj_add. transitivity ((Z.of_nat n + 1 * 2 ^ 20) / 2 ^ 20); [apply Z.div_le_mono; lia|]. rewrite Z.div_add by lia. lia. }
  destruct (decide (n + 1 ≤ 100)%nat) as [Hn|Hn].
  - assert (Z.of_nat n / 2 ^ 20 = 0) as E0 by (apply Z.div_small; lia).
    assert (Z.of_nat (n + 1) / 2 ^ 20 = 0) as E0' by (apply Z.div_small; lia).
    assert (length p ≤ 5)%nat as Hp by lia.
    unfold window. rewrite bool_decide_false by lia. unfold window_percent. rewrite longer_small by lia.
    case_bool_decide as Hb.
    + (* shift *)
      destruct p as [|x p]; [cbn in Hb; lia|]. cbn in *. unfold scan_ok. cbn. rewrite app_length. cbn [length].
      rewrite app_length. cbn [length]. fold n. split_and!; [lia|by apply Hl|].
      exists (d ++ [x]). split_and!.
      * rewrite Hd. by rewrite <- !app_assoc.
      * by rewrite last_snoc.
      * left. lia.
      * rewrite decide_False. 2: { unfold n. rewrite Hd, app_length. cbn. lia. } split_and!; [by destruct d|lia|lia].
    + unfold scan_ok. cbn. rewrite !app_length. cbn [length]. fold n. split_and!; [lia|by apply Hl|].
      exists d. split_and!; [rewrite Hd; by rewrite app_assoc|done|left; lia|].
      destruct (decide (n ≤ 5)%nat) as [H5|H5].
      * subst d. rewrite decide_True; [done|]. unfold n. rewrite Hd. cbn. lia.
      * exfalso. lia.
  - rewrite decide_False in Hk by lia. destruct Hk as (Hne & H5 & Hk).
    pose proof (longer_near (length p + 1) (Z.of_nat n + 1) ltac:(lia) ltac:(lia)) as Hw.
    replace (Z.of_nat n + 1) with (Z.of_nat (n + 1)) in * by lia.
    destruct (longer _ _) eqn:El.
    + destruct p as [|x p]; [cbn in H5; lia|]. cbn [app] in *. unfold scan_ok. cbn [sprev scount smax srec]. rewrite !app_length. cbn [length] in *. fold n. split_and!; [lia|by apply Hl|].
      exists (d ++ [x]). split_and!.
      * rewrite Hd. by rewrite <- !app_assoc.
      * by rewrite last_snoc.
      * lia.
      * rewrite decide_False by lia. split_and!; [by destruct d|lia|lia].
    + unfold scan_ok. cbn [sprev scount smax srec]. rewrite !app_length. cbn [length] in *. fold n. split_and!; [lia|by apply Hl|].
      exists d. split_and!; [rewrite Hd; by rewrite app_assoc|done|lia|].
      rewrite decide_False by lia. split_and!; [done|lia|lia].
Qed.
Lemma scanned_ok vs : scan_ok vs (scanned vs).
Proof.
  unfold scanned. induction vs as [|v vs IH] using rev_ind.
  - unfold scan_ok. cbn. split_and!; [done|done|]. exists []. split_and!; [done|done|lia|done].
  - rewrite fold_left_app. by apply scan_step.
Qed.

Lemma ceil_to_up by_ n : 0 < by_ → rounded_up by_ n (ceil_to by_ n).
Proof.
  intros Hb. unfold ceil_to. split; [by exists ((n + by_ - 1) / by_)|].
  pose proof (Z.div_mod (n + by_ - 1) by_ ltac:(lia)). pose proof (Z.mod_pos_bound (n + by_ - 1) by_ Hb). lia.
Qed.
Lemma rounded_up_self by_ n : 0 < by_ → ¬ 0 < n mod by_ → rounded_up by_ n n.
Proof.
  intros Hb Hn. pose proof (Z.mod_pos_bound n by_ Hb). split; [|lia]. apply Z.mod_divide; lia.
Qed.
(** what is recommended from the values met *)
Lemma rounded_spec round s : 0 < round → 0 ≤ srec s → 0 ≤ smax s → srec s ≤ smax s →
  (smax s = 0 → rounded round s = 0) ∧
  (0 < smax s → rounded_up round (if bool_decide (srec s = 0) || bool_decide (smax s - srec s < round) then smax s else srec s) (rounded round s)).
Proof.
  intros Hr H1 H2 H3. unfold rounded. split.
  - intros Hm. assert (srec s = 0) as Hz by lia. by rewrite (bool_decide_true _ Hz), (bool_decide_true _ Hm).
  - intros Hm. rewrite (bool_decide_false (smax s = 0)) by lia. rewrite andb_false_r.
    set (r := if bool_decide (srec s = 0) || bool_decide (smax s - srec s < round) then smax s else srec s).
    assert (0 < r) as Hp. { unfold r. case_bool_decide; cbn; [lia|]. case_bool_decide; lia. }
    replace (if bool_decide (smax s - (if bool_decide (srec s = 0) then smax s else srec s) < round) then smax s else
             if bool_decide (srec s = 0) then smax s else srec s) with r.
    2: { unfold r. destruct (bool_decide (srec s = 0)); cbn [orb]; [|done]. by destruct (bool_decide (smax s - smax s < round)). }
    clearbody r. destruct (decide (r < round)) as [Hlt|Hlt]; [rewrite (bool_decide_true _ Hlt)|rewrite (bool_decide_false _ Hlt)].
    + rewrite Z.mod_same by lia. rewrite bool_decide_false by lia. split; [exists 1; lia|lia].
    + case_bool_decide; [by apply ceil_to_up|by apply rounded_up_self].
Qed.
Lemma last_app_cons {A} (l : list A) x l' : last (l ++ x :: l') = last (x :: l').
Proof. rewrite last_app. destruct (last (x :: l')) eqn:E; [done|]. by apply last_None in E. Qed.
Lemma ascending_last vs m v : ascending vs → last vs = Some m → v ∈ vs → v ≤ m.
Proof.
  intros Ha Hm [i Hi]%elem_of_list_lookup. rewrite last_lookup in Hm. pose proof (lookup_lt_Some _ _ _ Hi).
  destruct (decide (i = pred (length vs))) as [->|Hn]; [rewrite Hi in Hm; injection Hm as ->; done|].
  enough (v < m) by lia. apply (Ha i (pred (length vs))); [lia|done|done].
Qed.
Lemma recommended_spec log g round vs : 0 < round → usual log → alone log g → values_of log g vs →
  let n := recommended (stored log) g round in
  (default 0 (last vs) = 0 → n = 0) ∧
  ∀ m, last vs = Some m → 0 < m →
    if decide (length vs ≤ 5)%nat then rounded_up round m n else
    ∃ lo p hi, vs = lo ++ p :: hi ∧ twentieth (Z.of_nat (length hi)) (Z.of_nat (length vs)) ∧
      rounded_up round (if decide (p = 0 ∨ m - p < round) then m else p) n.
Proof.
  intros Hr Hu Ha Hv. cbv zeta. unfold recommended. rewrite (met_values log g vs Hu Ha Hv).
  destruct (scanned_ok vs) as (_ & Hm & d & Hd & Hrec & Hh & Hk). destruct Hv as [Has Hin].
  set (s := scanned vs) in *.
  assert (∀ v, v ∈ vs → 0 ≤ v) as Hpos by (intros v Hv; apply Hin in Hv; by apply (Hu g)).
  assert (0 ≤ smax s) as H2. { rewrite Hm. destruct (last vs) as [m|] eqn:El; cbn; [|done]. apply Hpos. by apply last_Some_elem_of. }
  assert (0 ≤ srec s) as H1.
  { rewrite Hrec. destruct (last d) as [m|] eqn:El; cbn; [|done]. apply Hpos. rewrite Hd. apply elem_of_app. left. by apply last_Some_elem_of. }
  assert (srec s ≤ smax s) as H3.
  { rewrite Hrec. destruct (last d) as [p|] eqn:El; cbn; [|done]. rewrite Hm. destruct (last vs) as [m|] eqn:El'; cbn.
    - apply (ascending_last vs m p Has El'). rewrite Hd. apply elem_of_app. left. by apply last_Some_elem_of.
    - apply last_None in El'. rewrite El' in Hd. by destruct d. }
  destruct (rounded_spec round s Hr H1 H2 H3) as [R1 R2]. split.
  { intros E. apply R1. by rewrite Hm. }
  intros m El Hpm. rewrite El in Hm. cbn in Hm. rewrite Hm in R2. specialize (R2 Hpm).
  destruct (decide (length vs ≤ 5)%nat) as [H5|H5].
  - subst d. cbn in Hrec. by rewrite Hrec in R2.
  - destruct Hk as (Hne & H5' & Hk). destruct (last d) as [p|] eqn:El'; [|by apply last_None in El'].
    apply last_Some in El' as [lo ->]. cbn in Hrec. rewrite Hrec in R2. exists lo, p, (sprev s).
    split_and!; [rewrite Hd at 1; by rewrite <- app_assoc| |].
    + unfold twentieth. split_and!; [lia|lia|lia].
    + destruct (decide _) as [Hp|Hp].
      * destruct Hp as [Hp|Hp]; [by rewrite (bool_decide_true _ Hp) in R2|]. rewrite (bool_decide_true _ Hp), orb_true_r in R2. done.
      * rewrite !bool_decide_false in R2 by naive_solver. done.
Qed.

(** * Requirements *)
Lemma learn_run_app es es' j : learn_run (es ++ es') j = match learn_run es j with Some j => learn_run es' j | None => None end.
Proof. revert j. induction es as [|e es IH]; intros j; [done|]. cbn. destruct (levent_step e j); [apply IH|done]. Qed.
Definition orig (j : learner) : need := default (lneed j) (lorig j).
Lemma learn_fields rec j j' : learn rec j = Some j' → lover j' = lover j ∧ (lorig j ≠ None → lorig j' = lorig j) ∧ orig j' = orig j.
Proof.
  unfold learn, orig. destruct rec as [r|].
  - intros [= <-]. cbn. split_and!; [done| |done]. intros H. by destruct (lorig j).
  - destruct (lfail j); intros [= <-]. done.
Qed.
Lemma event_fields e j j' : levent_step e j = Some j' → lover j' = lover j ∧ orig j' = orig j.
Proof.
  destruct e as [rec|f m d t]; cbn; [|by intros [= <-]]. intros H. by destruct (learn_fields rec j j' H) as (? & _ & ?).
Qed.
Lemma run_fields es j j' : learn_run es j = Some j' → lover j' = lover j ∧ orig j' = orig j.
Proof.
  revert j. induction es as [|e es IH]; intros j; cbn; [by intros [= <-]|]. destruct (levent_step e j) as [j1|] eqn:E; [|done]. intros H.
  destruct (event_fields _ _ _ E) as [E1 E2]. destruct (IH j1 H) as [E3 E4]. split; congruence.
Qed.
(** what one pass does, field by field *)
Definition new_ram (r : need) (j : learner) : Z :=
  let c := choose (lover j) (nram r) (bool_decide (0 < nram (orig j))) (nram (lneed j)) in
  if bool_decide (lover j = 2) then c else match lfail j with FRam => raise (more_ram (lpeakram j)) c | _ => c end.
Definition new_disk (r : need) (j : learner) : Z :=
  let c := choose (lover j) (ndisk r) (bool_decide (0 < ndisk (orig j)) || ndiskset (orig j)) (ndisk (lneed j)) in
  if bool_decide (lover j = 2) then c else match lfail j with FDisk => raise (more_disk (lpeakdisk j)) c | _ => c end.
Definition new_time (r : need) (j : learner) : Z :=
  let c := choose (lover j) (ntime r) (bool_decide (0 < ntime (orig j))) (ntime (lneed j)) in
  if bool_decide (lover j = 2) then c else match lfail j with FTime => raise (more_time (lran j)) c | _ => c end.
Lemma learn_pass r j j' : learn (Some r) j = Some j' →
  nram (lneed j') = new_ram r j ∧ ndisk (lneed j') = new_disk r j ∧ ntime (lneed j') = new_time r j.
Proof.
  destruct j as [[m d ds t] o ov f pm pd ra]. unfold learn, new_ram, new_disk, new_time, after_failure, orig. cbn.
  intros [= <-]. cbn. destruct (bool_decide (ov = 2)); [done|]. by destruct f.
Qed.
Lemma choose_one over rec given now : choose over rec given now = rec ∨ choose over rec given now = now.
Proof. unfold choose. destruct (bool_decide (0 < rec)), given, (bool_decide (over = 0)), (bool_decide (over = 1)), (bool_decide (now < rec)); auto. Qed.
Lemma choose_kept over rec now : over = 2 → choose over rec true now = now.
Proof. intros ->. unfold choose. by destruct (bool_decide (0 < rec)). Qed.
Lemma always_kept es n j : learn_run es (fresh n 2) = Some j →
  (0 < nram n → nram (lneed j) = nram n) ∧ (0 < ndisk n ∨ ndiskset n = true → ndisk (lneed j) = ndisk n) ∧
  (0 < ntime n → ntime (lneed j) = ntime n).
Proof.
  revert j. induction es as [|e es IH] using rev_ind; intros j; [by intros [= <-]|].
  rewrite learn_run_app. destruct (learn_run es (fresh n 2)) as [j1|] eqn:E; [|done]. cbn.
  destruct (levent_step e j1) as [j2|] eqn:E2; [|done]. intros [= <-].
  destruct (IH j1 eq_refl) as (H1 & H2 & H3). destruct (run_fields _ _ _ E) as [Ho Hr]. cbn in Ho. change (orig (fresh n 2)) with n in Hr.
  destruct e as [[r|]|f m d t]; cbn in E2.
  - destruct (learn_pass r j1 j2 E2) as (-> & -> & ->). unfold new_ram, new_disk, new_time. rewrite Hr.
    rewrite (bool_decide_true (lover j1 = 2)) by done. split_and!.
    + intros H. rewrite bool_decide_true by done. rewrite choose_kept by done. by apply H1.
    + intros H. replace (bool_decide (0 < ndisk n) || ndiskset n) with true. { rewrite choose_kept by done. by apply H2. }
      destruct H as [H|H]; [by rewrite bool_decide_true|by rewrite H, orb_true_r].
    + intros H. rewrite bool_decide_true by done. rewrite choose_kept by done. by apply H3.
  - destruct (lfail j1); [done..|]. injection E2 as <-. done.
  - injection E2 as <-. done.
Qed.
Lemma raise_ge new now : now ≤ raise new now ∧ new ≤ raise new now ∧ (raise new now = new ∨ raise new now = now).
Proof. unfold raise. case_bool_decide; lia. Qed.
Lemma choose_higher_form rec given now : choose 1 rec given now = if bool_decide (0 < rec) then if given then Z.max rec now else rec else now.
Proof.
  unfold choose. rewrite (bool_decide_false (1 = 0)) by done. rewrite (bool_decide_true (1 = 1)) by done.
  destruct (bool_decide (0 < rec)), given; [|done..]. case_bool_decide; lia.
Qed.
Lemma choose_higher_user rec (u now : Z) : 0 ≤ u → u ≤ now → u ≤ choose 1 rec (bool_decide (0 < u)) now.
Proof. intros Hu Hn. rewrite choose_higher_form. case_bool_decide; [case_bool_decide; lia|lia]. Qed.
Lemma choose_higher_disk rec (u now : Z) b : 0 ≤ u → u ≤ now → u ≤ choose 1 rec (bool_decide (0 < u) || b) now.
Proof. intros Hu Hn. rewrite choose_higher_form. destruct b; [rewrite orb_true_r|rewrite orb_false_r]; repeat case_bool_decide; lia. Qed.
Lemma higher_kept es n j : learn_run es (fresh n 1) = Some j → 0 ≤ nram n → 0 ≤ ndisk n → 0 ≤ ntime n →
  nram n ≤ nram (lneed j) ∧ ndisk n ≤ ndisk (lneed j) ∧ ntime n ≤ ntime (lneed j).
Proof.
  intros Hrun Hm Hd Ht. revert j Hrun. induction es as [|e es IH] using rev_ind; intros j; [intros [= <-]; cbn; lia|].
  rewrite learn_run_app. destruct (learn_run es (fresh n 1)) as [j1|] eqn:E; [|done]. cbn.
  destruct (levent_step e j1) as [j2|] eqn:E2; [|done]. intros [= <-].
  destruct (IH j1 eq_refl) as (H1 & H2 & H3). destruct (run_fields _ _ _ E) as [Ho Hr]. cbn in Ho. change (orig (fresh n 1)) with n in Hr.
  destruct e as [[r|]|f m d t]; cbn in E2.
  - destruct (learn_pass r j1 j2 E2) as (-> & -> & ->). unfold new_ram, new_disk, new_time. rewrite Hr, Ho. rewrite (bool_decide_false (1 = 2)) by done.
    pose proof (choose_higher_user (nram r) _ _ Hm H1) as G1.
    pose proof (choose_higher_disk (ndisk r) _ _ (ndiskset n) Hd H2) as G2.
    pose proof (choose_higher_user (ntime r) _ _ Ht H3) as G3.
    cbv zeta. split_and!; destruct (lfail j1); try done;
      [destruct (raise_ge (more_ram (lpeakram j1)) (choose 1 (nram r) (bool_decide (0 < nram n)) (nram (lneed j1))))
      |destruct (raise_ge (more_disk (lpeakdisk j1)) (choose 1 (ndisk r) (bool_decide (0 < ndisk n) || ndiskset n) (ndisk (lneed j1))))
      |destruct (raise_ge (more_time (lran j1)) (choose 1 (ntime r) (bool_decide (0 < ntime n)) (ntime (lneed j1))))]; lia.
  - destruct (lfail j1); [done..|]. injection E2 as <-. done.
  - injection E2 as <-. done.
Qed.
Lemma choose_ge over rec given now : over = 0 ∨ over = 1 ∨ given = false → 0 < rec → rec ≤ choose over rec given now.
Proof.
  intros H Hr. destruct (decide (over = 1)) as [->|H1].
  - rewrite choose_higher_form, bool_decide_true by done. destruct given; lia.
  - unfold choose. rewrite bool_decide_true by done. destruct given; [|done]. destruct H as [->|[?|?]]; [|done..].
    rewrite bool_decide_true by done. done.
Qed.
Lemma more_ram_form m : more_ram m = (Z.max ((m + 1000) * 10) (if decide (m ≤ 8192) then m * 20 else m * 13) + 999) / 1000 * 100.
Proof.
  unfold more_ram, breakpoint, increase_min. destruct (decide (m ≤ 8192)) as [H|H]; [rewrite (bool_decide_true _ H)|rewrite (bool_decide_false _ H)];
    case_bool_decide; do 3 f_equal; lia.
Qed.
Lemma up_1000 x : x ≤ 10 * ((x + 999) / 1000 * 100) < x + 1000.
Proof. pose proof (Z.div_mod (x + 999) 1000 ltac:(lia)). pose proof (Z.mod_pos_bound (x + 999) 1000 ltac:(lia)). lia. Qed.
Lemma more_ram_enough m : m + 1000 ≤ more_ram m ∧ (m ≤ 8192 → 2 * m ≤ more_ram m) ∧ (8192 < m → 13 * m ≤ 10 * more_ram m).
Proof. rewrite more_ram_form. set (x := Z.max _ _). pose proof (up_1000 x) as U. set (y := (x + 999) / 1000 * 100) in *. clearbody y. unfold x in *. clear x. case_decide; lia. Qed.
Lemma more_ram_bound m : 0 ≤ m → more_ram m < 100 + Z.max (m + 1000) (if decide (m ≤ 8192) then 2 * m else 13 * m / 10 + 1).
Proof. intros Hm. rewrite more_ram_form. set (x := Z.max _ _). pose proof (up_1000 x) as U. set (y := (x + 999) / 1000 * 100) in *. clearbody y. unfold x in *. clear x. case_decide; [lia|]. pose proof (Z.div_mod (13 * m) 10 ltac:(lia)). pose proof (Z.mod_pos_bound (13 * m) 10 ltac:(lia)). lia. Qed.
Lemma more_disk_enough m : 13 * m ≤ 10 * (1024 * more_disk m).
Proof.
  unfold more_disk. change (1024 * 1000) with 1024000. pose proof (Z.div_mod (m * 13 + 1024000 - 1) 1024000 ltac:(lia)).
  pose proof (Z.mod_pos_bound (m * 13 + 1024000 - 1) 1024000 ltac:(lia)). lia.
Qed.
