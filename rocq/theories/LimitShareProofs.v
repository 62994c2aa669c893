(** Proofs about shared lists of limit groups. *)
From Coq Require Import ZArith Lia String Ascii Sorting.Sorted.
From stdpp Require Import base option strings gmap list sorting.
From Verif Require Import LimiterModel LimitNameModel LimitNameSpec LimitNameProofs UtilModel UtilProofs
  LimitStoreModel LimitStoreProofs LimitShareModel.

Notation strictly := (StronglySorted (λ a b, String.compare a b = Lt)).
(** ** Names *)
Notation bare local := (λ raw, (name_to_group local raw).1).
Lemma bare_bare local raw : bare local (bare local raw) = bare local raw.
Proof.
  cbv beta. destruct (name_to_group local raw) as [n [d|]] eqn:E; cbn [fst].
  - pose proof (name_spells _ _ _ _ E) as H. destruct H; try (rewrite E; done); rewrite free_name; done.
  - assert (n = raw) as ->; [|by rewrite E]. revert E. unfold name_to_group. repeat (case_match; [by intros [= ? ?]|]). case_match; [case_match; by intros [= ? ?]|by intros [= <-]].
Qed.
(** ** Strictly sorted lists *)
Lemma lt_irrefl s : String.compare s s ≠ Lt.
Proof. intros H. pose proof (String.compare_antisym s s) as E. rewrite H in E. done. Qed.
Lemma strictly_ext l1 l2 : strictly l1 → strictly l2 → (∀ x, x ∈ l1 ↔ x ∈ l2) → l1 = l2.
Proof.
  intros H1. revert l2. induction H1 as [|a l1 H1 IH Ha]; intros l2 H2 Heq.
  { destruct l2 as [|b l2]; [done|]. specialize (Heq b). exfalso. assert (b ∈ @nil string) as Hb by (apply Heq; by left). by apply elem_of_nil in Hb. }
  inversion H2 as [|b l2' H2' Hb]; subst.
  { specialize (Heq a). exfalso. assert (a ∈ @nil string) as Hx by (apply Heq; by left). by apply elem_of_nil in Hx. }
  rewrite Forall_forall in Ha, Hb.
  assert (a = b) as ->.
  { assert (a ∈ b :: l2') as [?|Hi1]%elem_of_cons by (apply Heq; by left); [done|].
    assert (b ∈ a :: l1) as [?|Hi2]%elem_of_cons by (apply Heq; by left); [done|].
    specialize (Hb _ Hi1). specialize (Ha _ Hi2). rewrite String.compare_antisym, Hb in Ha. done. }
  f_equal. apply IH; [done|]. intros x. split; intros Hx.
  - assert (x ∈ b :: l2') as [->|?]%elem_of_cons by (apply Heq; by right); [|done]. by destruct (lt_irrefl b (Ha _ Hx)).
  - assert (x ∈ b :: l1) as [->|?]%elem_of_cons by (apply Heq; by right); [|done]. by destruct (lt_irrefl b (Hb _ Hx)).
Qed.
(** ** What is held after compacting *)
Lemma loop_held n st x : x ∈ (fold_left dedup_step (seq 0 n) st).1.1 → x ∈ st.1.1.
Proof.
  generalize (seq 0 n) as js. intros js. revert st. induction js as [|j js IH]; intros st; [done|]. cbn [fold_left]. intros Hx%IH. revert Hx.
  destruct st as [[s seen] i]. cbn [dedup_step]. destruct (s !! j) as [v|] eqn:E; [|done]. destruct (decide _); [done|]. cbn [fst].
  intros (k & Hk)%elem_of_list_lookup. destruct (decide (k = i)) as [->|Hne].
  - assert (i < length s)%nat as Hl. { apply lookup_lt_Some in Hk. by rewrite insert_length in Hk. }
    rewrite list_lookup_insert in Hk by done. injection Hk as <-. by apply (elem_of_list_lookup_2 _ j).
  - rewrite list_lookup_insert_ne in Hk by done. by apply (elem_of_list_lookup_2 _ k).
Qed.
Lemma dedup_held s : ∃ tail, (dedup_sort s).2 = ((dedup_sort s).1 ++ tail)%list ∧ (∀ x, x ∈ tail → x ∈ s) ∧ length (dedup_sort s).2 = length s.
Proof.
  unfold dedup_sort, dedup_loop. pose proof (dedup_loop_inv s (length s) ltac:(lia)) as H. pose proof (loop_held (length s) (s, ∅, 0%nat)) as Hh.
  destruct (fold_left dedup_step _ _) as [[s' seen] i]. destruct H as (Hi & Hl & _). cbn [fst snd] in *. exists (drop i s'). split; [done|]. split.
  - intros x Hx. apply Hh. rewrite <- (take_drop i s'). apply elem_of_app. by right.
  - rewrite app_length. unfold sort_strings. rewrite merge_sort_Permutation, take_length, drop_length. lia.
Qed.
(** ** One job *)
(** [arr] holds what is left of the groups [raws] after a job has been dealt with *)
Definition settled (local : zone) (raws arr r : list string) : Prop :=
  strictly r ∧ (∀ x, x ∈ r ↔ x ∈ (bare local <$> raws)) ∧ ∃ tail, arr = (r ++ tail)%list ∧ (∀ x, x ∈ tail → x ∈ r) ∧ length arr = length raws.
Lemma handle_spec local h lg a raws arr sl' h' lg' : h !! a = Some arr → length arr = length raws →
  (∀ x, x ∈ (bare local <$> arr) ↔ x ∈ (bare local <$> raws)) → handle_groups local h lg (a, length raws) = (sl', h', lg') →
  ∃ r arr', settled local raws arr' r ∧ sl' = (a, length r) ∧ h' = <[a := arr']> h ∧ lg' = collect_in local lg arr.
Proof.
  intros Ha Hl Hb. unfold handle_groups, read. cbn [fst snd]. rewrite Ha. cbn [default]. unfold default, id. rewrite <- Hl, firstn_all, drop_all.
  destruct (Nat.ltb_spec 1 (length ((λ raw, (name_to_group local raw).1) <$> arr))) as [Hlt|Hge].
  - pose proof (dedup_sort_spec ((λ raw, (name_to_group local raw).1) <$> arr)) as (S1 & S2 & S3).
    destruct (dedup_held ((λ raw, (name_to_group local raw).1) <$> arr)) as (tail & T1 & T2 & T3).
    destruct (dedup_sort _) as [r held]. cbn [fst snd] in *. intros [= <- <- <-]. exists r, held. rewrite app_nil_r. split_and!; try done.
    split; [by apply strict_sorted|]. split; [intros x; by rewrite S3, Hb|]. exists tail. split; [done|]. split; [intros x Hx; by apply S3, T2|].
    by rewrite T3, fmap_length.
  - intros [= <- <- <-]. exists (bare local <$> arr), (bare local <$> arr). rewrite app_nil_r. rewrite fmap_length in *. split_and!; try done.
    split; [|split; [done|]].
    + destruct arr as [|x [|y arr]]; cbn in Hge; [constructor|constructor; constructor|lia].
    + exists []. rewrite app_nil_r. split; [done|]. split; [intros x Hx; by apply elem_of_nil in Hx|]. by rewrite fmap_length.
Qed.
Lemma settled_bare local raws arr r x : settled local raws arr r → x ∈ (bare local <$> arr) ↔ x ∈ (bare local <$> raws).
Proof.
  intros (S1 & S2 & tail & -> & T & _).
  assert (∀ y, y ∈ (r ++ tail)%list ↔ y ∈ r) as Hy. { intros y. rewrite elem_of_app. split; [intros [?|?]; [done|by apply T]|by left]. }
  assert (∀ y, y ∈ r → bare local y = y) as Hfix. { intros y (raw & -> & _)%S2%elem_of_list_fmap. apply bare_bare. }
  rewrite elem_of_list_fmap. split.
  - intros (y & -> & Hr%Hy). rewrite Hfix by done. by apply S2.
  - intros Hx%S2. exists x. split; [by rewrite Hfix|by apply Hy].
Qed.
Lemma settled_same local raws arr arr' r r' : settled local raws arr r → settled local raws arr' r' → r = r'.
Proof. intros (S1 & S2 & _) (S1' & S2' & _). apply strictly_ext; [done|done|]. intros x. by rewrite S2, S2'. Qed.
(** ** All jobs *)
(** every array holds the groups given, or what is left of them *)
Definition going (local : zone) (h0 h : heap) : Prop :=
  ∀ a raws, h0 !! a = Some raws → ∃ arr, h !! a = Some arr ∧ (arr = raws ∨ ∃ r, settled local raws arr r).
Definition whole (h0 : heap) (sl : slice) : Prop := ∃ raws, h0 !! sl.1 = Some raws ∧ sl.2 = length raws.
(** the slice of a job that has been dealt with *)
Definition dealt (local : zone) (h0 h : heap) (sl sl' : slice) : Prop :=
  ∃ raws arr r, h0 !! sl.1 = Some raws ∧ h !! sl.1 = Some arr ∧ settled local raws arr r ∧ sl' = (sl.1, length r).
Lemma going_len local h0 h a raws : going local h0 h → h0 !! a = Some raws →
  ∃ arr, h !! a = Some arr ∧ length arr = length raws ∧ (∀ x, x ∈ (bare local <$> arr) ↔ x ∈ (bare local <$> raws)).
Proof.
  intros Hg Ha. destruct (Hg _ _ Ha) as (arr & Harr & [->|[r Hr]]); [by exists raws|]. exists arr. split; [done|]. split; [by destruct Hr as (_ & _ & tail & _ & _ & ?)|].
  intros x. by apply (settled_bare local raws arr r).
Qed.
Definition one (local : zone) (h : heap) (lg : gmap string gdata) (sl : slice) : slice * heap * gmap string gdata :=
  if Nat.ltb 0 sl.2 then handle_groups local h lg sl else (sl, h, lg).
Lemma one_spec local h0 h lg sl sl' h' lg' : going local h0 h → whole h0 sl → one local h lg sl = (sl', h', lg') →
  going local h0 h' ∧ dealt local h0 h' sl sl' ∧ (∀ s s', whole h0 s → dealt local h0 h s s' → dealt local h0 h' s s') ∧
  lg' = collect_in local lg (default [] (h !! sl.1)) ∧ (∀ a, a ≠ sl.1 → h' !! a = h !! a).
Proof.
  destruct sl as [a n]. intros Hg (raws & Ha & Hn). cbn [fst snd] in *. subst n. destruct (going_len _ _ _ _ _ Hg Ha) as (arr & Harr & Hl & Hb). unfold one. cbn [fst snd].
  destruct (Nat.ltb_spec 0 (length raws)) as [Hpos|H0].
  - intros E. destruct (handle_spec local h lg a raws arr _ _ _ Harr Hl Hb E) as (r & arr' & Hs & -> & -> & ->). split_and!.
    + intros a' raws' Ha'. destruct (decide (a = a')) as [->|Hne].
      * exists arr'. rewrite lookup_insert. split; [done|]. right. exists r. congruence.
      * rewrite lookup_insert_ne by done. by apply Hg.
    + exists raws, arr', r. by rewrite lookup_insert.
    + intros [b m] s' _ (raws' & arr0 & r0 & H1 & H2 & H3 & ->). cbn [fst] in *. destruct (decide (a = b)) as [->|Hne].
      * assert (raws' = raws) as -> by congruence. exists raws, arr', r. cbn [fst]. rewrite lookup_insert. split_and!; try done. by rewrite (settled_same _ _ _ _ _ _ Hs H3).
      * exists raws', arr0, r0. cbn [fst]. by rewrite lookup_insert_ne.
    + by rewrite Harr.
    + intros a' Hne. by rewrite lookup_insert_ne.
  - intros [= <- <- <-]. assert (raws = []) as -> by (destruct raws; [done|cbn in H0; lia]). destruct arr; [|done]. split_and!; try done.
    + exists [], [], []. split_and!; try done. split; [constructor|]. split; [done|]. exists []. split; [done|]. split; [intros x Hx; by apply elem_of_nil in Hx|done].
    + by rewrite Harr.
Qed.
Lemma all_cons local h lg sl sls : handle_all local h lg (sl :: sls) =
  let '(sl', h1, lg1) := one local h lg sl in let '(sls', h2, lg2) := handle_all local h1 lg1 sls in (sl' :: sls', h2, lg2).
Proof. done. Qed.
Lemma all_spec local h0 h lg sls sls' h' lg' : going local h0 h → Forall (whole h0) sls → handle_all local h lg sls = (sls', h', lg') →
  going local h0 h' ∧ Forall2 (dealt local h0 h') sls sls' ∧ (∀ s s', whole h0 s → dealt local h0 h s s' → dealt local h0 h' s s').
Proof.
  revert h lg sls' h' lg'. induction sls as [|sl sls IH]; intros h lg sls' h' lg' Hg Hw E; [cbn in E; injection E as <- <- <-; by split_and!|].
  inversion Hw as [|?? Hw1 Hw2]; subst. rewrite all_cons in E. destruct (one local h lg sl) as [[sl1 h1] lg1] eqn:E1.
  destruct (one_spec _ _ _ _ _ _ _ _ Hg Hw1 E1) as (G1 & D1 & K1 & _ & _). destruct (handle_all local h1 lg1 sls) as [[sls2 h2] lg2] eqn:E2. injection E as <- <- <-.
  destruct (IH _ _ _ _ _ G1 Hw2 E2) as (G2 & D2 & K2). split; [done|]. split; [constructor; [by apply K2|done]|].
  intros s s' Hs Hd. apply K2; [done|]. by apply K1.
Qed.
Lemma going_refl local h : going local h h.
Proof. intros a raws Ha. exists raws. split; [done|by left]. Qed.
Lemma all_names local h sls sls' h' lg' i sl sl' raws : Forall (whole h) sls → handle_all local h ∅ sls = (sls', h', lg') →
  sls !! i = Some sl → sls' !! i = Some sl' → h !! sl.1 = Some raws →
  strictly (read h' sl') ∧ ∀ x, x ∈ read h' sl' ↔ ∃ raw, raw ∈ raws ∧ x = (name_to_group local raw).1.
Proof.
  intros Hw E Hi Hi' Hr. destruct (all_spec local h h ∅ sls sls' h' lg' (going_refl _ _) Hw E) as (_ & D & _).
  destruct (Forall2_lookup_lr _ _ _ _ _ _ D Hi Hi') as (raws' & arr & r & H1 & H2 & (S1 & S2 & tail & -> & _ & _) & ->). rewrite Hr in H1. injection H1 as <-.
  unfold read. cbn [fst snd]. rewrite H2. unfold default, id. rewrite take_app. split; [done|]. intros x. rewrite S2, elem_of_list_fmap.
  split; [intros (raw & -> & ?); by exists raw|intros (raw & ? & ->); by exists raw].
Qed.
(** ** The limits *)
Lemma collect_in_app local lg a b : collect_in local lg (a ++ b) = collect_in local (collect_in local lg a) b.
Proof. unfold collect_in. by rewrite fold_left_app. Qed.
Lemma all_limits local h0 h lg sls sls' h' lg' : going local h0 h → Forall (whole h0) sls → NoDup sls.*1 →
  (∀ sl, sl ∈ sls → h !! sl.1 = h0 !! sl.1) → handle_all local h lg sls = (sls', h', lg') →
  lg' = collect_in local lg (concat ((λ sl, default [] (h0 !! sl.1)) <$> sls)).
Proof.
  revert h lg sls' h' lg'. induction sls as [|sl sls IH]; intros h lg sls' h' lg' Hg Hw Hnd Hsame E; [cbn in E; by injection E as <- <- <-|].
  inversion Hw as [|?? Hw1 Hw2]; subst. apply NoDup_cons in Hnd as [Hn Hnd]. rewrite all_cons in E. destruct (one local h lg sl) as [[sl1 h1] lg1] eqn:E1.
  destruct (one_spec _ _ _ _ _ _ _ _ Hg Hw1 E1) as (G1 & _ & _ & L1 & O1). destruct (handle_all local h1 lg1 sls) as [[sls2 h2] lg2] eqn:E2. injection E as <- <- <-.
  cbn [fmap list_fmap concat]. rewrite collect_in_app. rewrite <- (Hsame sl ltac:(by left)), <- L1. apply (IH h1 lg1 sls2 h2 lg2); try done.
  intros s Hs. rewrite O1; [apply Hsame; by right|]. intros Heq. apply Hn. rewrite <- Heq. apply elem_of_list_fmap. by exists s.
Qed.
