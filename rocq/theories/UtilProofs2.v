(** Lemmas for C43 and C45. *)
From Coq Require Import ZArith Lia String Ascii.
From stdpp Require Import base option strings gmap list sorting.
From Verif Require Import UtilModel UtilSpec UtilProofs.
Open Scope Z_scope.

(** *** C43 overrides added one after the other *)
Lemma last_named_nodup l e : NoDup (env_name <$> l) → last (filter (λ x, env_name x = env_name e) l) = Some e ↔ e ∈ l.
Proof.
  intros Hn. split.
  - intros H. apply last_Some_elem_of in H. by apply elem_of_list_filter in H as [_ ?].
  - intros H. assert (Hf : filter (λ x, env_name x = env_name e) l = [e]); [|by rewrite Hf].
    induction l as [|x l IH]; [by apply elem_of_nil in H|]. cbn [fmap list_fmap] in Hn. apply NoDup_cons in Hn as [Hx Hn].
    rewrite filter_cons. apply elem_of_cons in H as [->|H].
    + rewrite decide_True by done. f_equal. destruct (filter _ l) as [|y k] eqn:E; [done|]. exfalso. apply Hx.
      assert (Hy : y ∈ filter (λ z, env_name z = env_name x) l) by (rewrite E; left). apply elem_of_list_filter in Hy as [Hy Hin].
      rewrite <- Hy. by apply elem_of_list_fmap_1.
    + rewrite decide_False; [by apply IH|]. intros He. apply Hx. rewrite He. by apply elem_of_list_fmap_1.
Qed.
Lemma not_named_last l n : n ∉ env_name <$> l ↔ last (filter (λ x, env_name x = n) l) = None.
Proof.
  rewrite last_None. split.
  - intros H. destruct (filter _ l) as [|e k] eqn:E; [done|]. exfalso. apply H.
    assert (He : e ∈ filter (λ x, env_name x = n) l) by (rewrite E; left). apply elem_of_list_filter in He as [<- He].
    by apply elem_of_list_fmap_1.
  - intros H Hin. apply elem_of_list_fmap in Hin as (e & -> & He).
    assert (Hx : e ∈ filter (λ x, env_name x = env_name e) l) by (by apply elem_of_list_filter). rewrite H in Hx. by apply elem_of_nil in Hx.
Qed.
(** the overrides held after the calls are the latest of each name *)
Definition latest (added l : list string) : Prop :=
  NoDup (env_name <$> l) ∧ ∀ e, e ∈ l ↔ last (filter (λ x, env_name x = env_name e) added) = Some e.
Lemma latest_add order added l over : some_order order → latest added l → latest (added ++ over) (env_override order l over).
Proof.
  intros Ho [Hn Hl]. destruct (env_override_spec order l over Ho Hn) as (H1 & H2 & _). split; [done|].
  intros e. rewrite H2, Hl, last_filter_app, not_named_last.
  destruct (last (filter (λ x, env_name x = env_name e) over)) as [r|] eqn:E.
  - split; [intros [[_ ?]|?]; done|by right].
  - split; [intros [[? _]|?]; done|by left].
Qed.
Lemma latest_all order calls : some_order order → ∀ added j, latest added (overrides j) →
  latest (added ++ concat calls) (overrides (fold_left (λ j o, add_override order o j) calls j)).
Proof.
  intros Ho. induction calls as [|o calls IH]; intros added j Hl; cbn [fold_left concat]; [by rewrite app_nil_r|].
  rewrite (assoc_L (++)). apply IH. cbn [add_override overrides]. by apply latest_add.
Qed.
Lemma latest_nil : latest [] [].
Proof. split; [constructor|]. intros e. split; [intros H; by apply elem_of_nil in H|done]. Qed.
Lemma added_keeps order calls : ∀ j, envc (fold_left (λ j o, add_override order o j) calls j) = envc j ∧
  retrieved (fold_left (λ j o, add_override order o j) calls j) = retrieved j.
Proof. induction calls as [|o calls IH]; intros j; cbn [fold_left]; [done|]. apply (IH (add_override order o j)). Qed.
Lemma job_env_spec order os j added : some_order order → latest added (overrides j) → NoDup (env_name <$> base_env os j) →
  (envc j = None → retrieved j = true) →
  NoDup (env_name <$> job_env order os j) ∧
  ∀ e, e ∈ job_env order os j ↔ e ∈ base_env os j ∧ env_name e ∉ env_name <$> added ∨
    last (filter (λ x, env_name x = env_name e) added) = Some e.
Proof.
  intros Ho [Hn Hl] Hb Hr.
  assert (Hje : job_env order os j = if bool_decide (overrides j = []) then base_env os j else env_override order (base_env os j) (overrides j)).
  { unfold job_env, base_env in *. cbv zeta. destruct (envc j) as [[|]|] eqn:E; [done..|]. by rewrite (Hr eq_refl). }
  assert (Hnm : ∀ n, n ∉ env_name <$> overrides j ↔ n ∉ env_name <$> added).
  { intros n. rewrite !not_named_last. split; intros H.
    - destruct (last (filter (λ x, env_name x = n) added)) as [e|] eqn:E; [|done]. exfalso.
      assert (He : env_name e = n). { apply last_Some_elem_of, elem_of_list_filter in E. by destruct E. }
      subst n. apply Hl in E. apply not_named_last in H. apply H. by apply elem_of_list_fmap_1.
    - apply not_named_last. intros Hin. apply elem_of_list_fmap in Hin as (e & -> & He). apply Hl in He. by rewrite H in He. }
  rewrite Hje. case_bool_decide as E.
  - split; [done|]. intros e. rewrite <- Hl, <- Hnm, E. split; [intros H; left; split; [done|by apply not_elem_of_nil]|].
    intros [[? _]|H]; [done|by apply elem_of_nil in H].
  - destruct (env_override_spec order (base_env os j) (overrides j) Ho Hb) as (H1 & H2 & _). split; [done|].
    intros e. rewrite H2, Hnm, <- Hl, last_named_nodup by done. done.
Qed.

(** Getenv *)
Lemma getenv_found env n v : NoDup (env_name <$> env) → "="%char ∉ String.list_ascii_of_string n → "="%char ∉ String.list_ascii_of_string v →
  (n ++ "=" ++ v)%string ∈ env → getenv env n = Some v.
Proof.
  intros Hn H1 H2 Hin. assert (Hname : env_name (n ++ "=" ++ v)%string = n).
  { apply env_name_named. split; [done|]. right. by exists v. }
  induction env as [|e env IH]; [by apply elem_of_nil in Hin|]. cbn [fmap list_fmap] in Hn. apply NoDup_cons in Hn as [Hx Hn].
  cbn [getenv]. apply elem_of_cons in Hin as [<-|Hin].
  - rewrite Hname, bool_decide_eq_true_2 by done. change ("=" ++ v)%string with (String "=" v).
    rewrite (split_at "=" n v H1). rewrite (split_lacks "=" v H2). done.
  - rewrite bool_decide_eq_false_2; [by apply IH|]. intros He. apply Hx. rewrite He, <- Hname. by apply elem_of_list_fmap_1.
Qed.
Lemma getenv_absent env n : n ∉ env_name <$> env → getenv env n = Some EmptyString.
Proof.
  induction env as [|e env IH]; [done|]. cbn [fmap list_fmap getenv]. rewrite not_elem_of_cons. intros [H1 H2].
  rewrite bool_decide_eq_false_2 by done. by apply IH.
Qed.

(** *** C45 *)
Lemma str_app_cancel_l (a b c : string) : (a ++ b = a ++ c)%string → b = c.
Proof. intros H. by apply (inj (String.append a)) in H. Qed.
Lemma str_app_len a b : String.length (a ++ b) = (String.length a + String.length b)%nat.
Proof. induction a as [|x a IH]; [done|]. change (S (String.length (a ++ b)) = S (String.length a + String.length b))%nat. by rewrite IH. Qed.
Lemma str_app_cancel_r (a b c : string) : (a ++ c = b ++ c)%string → a = b.
Proof.
  intros H. assert (Hl : String.length a = String.length b).
  { apply (f_equal String.length) in H. rewrite !str_app_len in H. lia. }
  revert b H Hl. induction a as [|x a IH]; intros [|y b] H Hl; try done.
  change (String x (a ++ c) = String y (b ++ c)) in H. injection H as -> H. f_equal. apply IH; [done|]. cbn in Hl. lia.
Qed.
Lemma sorted_unique_mounts l k : StronglySorted mount_le l → StronglySorted mount_le k → NoDup (mnt <$> l) → l ≡ₚ k → l = k.
Proof.
  intros Hl. revert k. induction Hl as [|a l Hl IH Ha]; intros k Hk Hn Hp.
  { by apply Permutation_nil in Hp as ->. }
  destruct Hk as [|b k Hk Hb]; [by apply Permutation_nil_r in Hp|].
  cbn [fmap list_fmap] in Hn. apply NoDup_cons in Hn as [Hna Hn].
  assert (a = b) as ->.
  { assert (Hbin : b ∈ a :: l) by (rewrite Hp; left). assert (Hain : a ∈ b :: k) by (rewrite <- Hp; left).
    apply elem_of_cons in Hbin as [->|Hbin]; [done|]. apply elem_of_cons in Hain as [->|Hain]; [done|].
    rewrite Forall_forall in Ha, Hb. exfalso. apply Hna.
    rewrite (String.leb_antisym (mnt a) (mnt b) (Ha b Hbin) (Hb a Hain)). by apply elem_of_list_fmap_1. }
  f_equal. apply IH; [done..|]. by apply (Permutation_cons_inv (a := b)).
Qed.
Global Instance mount_le_trans : Transitive mount_le.
Proof. intros a b c. apply str_le_trans. Qed.
Global Instance mount_le_total : Total mount_le.
Proof. intros a b. apply str_le_total. Qed.
Lemma mounts_key_perm l k : l ≡ₚ k → NoDup (mnt <$> l) → mounts_key l = mounts_key k.
Proof.
  intros Hp Hn. unfold mounts_key. f_equal. f_equal. apply sorted_unique_mounts.
  - apply (StronglySorted_merge_sort mount_le).
  - apply (StronglySorted_merge_sort mount_le).
  - by rewrite merge_sort_Permutation.
  - by rewrite !merge_sort_Permutation.
Qed.
Lemma app_nil_r_str (a : string) : (a ++ "" = a)%string.
Proof. induction a as [|x a IH]; [done|]. change (String x (a ++ "") = String x a)%string. by rewrite IH. Qed.
Definition image (j : jobkey) : string :=
  if bool_decide (kdocker j ≠ "") then ("docker:" ++ kdocker j)%string
  else if bool_decide (ksingularity j ≠ "") then ("singularity:" ++ ksingularity j)%string else ""%string.
(** the parts joined by dots *)
Definition key_parts (j : jobkey) : list string :=
  (if kcwdmatters j then [kcwd j] else []) ++ [kcmd j; mounts_key (kmounts j)] ++
  (if bool_decide (image j = "") then [] else [image j; kcmounts j]).
Lemma split_dot a b : nodot a → split "." (a ++ "." ++ b) = a :: split "." b.
Proof. intros H. change ("." ++ b)%string with (String "." b). by apply split_at. Qed.
Lemma app_assoc_str (a b c : string) : ((a ++ b) ++ c = a ++ (b ++ c))%string.
Proof. induction a as [|x a IH]; [done|]. change (String x ((a ++ b) ++ c) = String x (a ++ (b ++ c)))%string. by rewrite IH. Qed.
Lemma key_text_parts j : Forall nodot (key_parts j) → split "." (key_text j) = key_parts j.
Proof.
  unfold key_text, key_parts. fold (image j). cbv zeta. intros H.
  destruct (kcwdmatters j).
  - apply Forall_app in H as [H1 H]. apply Forall_cons in H1 as [Hcwd _]. cbn [app] in *.
    apply Forall_cons in H as [Hc H]. apply Forall_cons in H as [Hm H]. case_bool_decide as E.
    + rewrite !split_dot, split_lacks by done. done.
    + apply Forall_cons in H as [Hi H]. apply Forall_cons in H as [Hcm _].
      rewrite !app_assoc_str. rewrite !split_dot, split_lacks by done. done.
  - cbn [app] in *. apply Forall_cons in H as [Hc H]. apply Forall_cons in H as [Hm H]. case_bool_decide as E.
    + rewrite !split_dot, split_lacks by done. done.
    + apply Forall_cons in H as [Hi H]. apply Forall_cons in H as [Hcm _].
      rewrite !app_assoc_str. rewrite !split_dot, split_lacks by done. done.
Qed.

(** *** bridges to the specification *)
Lemma uniquely_named_iff l : uniquely_named l ↔ NoDup (env_name <$> l).
Proof.
  rewrite NoDup_alt. split.
  - intros H i j n Hi Hj. rewrite list_lookup_fmap in Hi, Hj. destruct (l !! i) as [x|] eqn:Ei; [|done]. destruct (l !! j) as [y|] eqn:Ej; [|done].
    cbn in Hi, Hj. injection Hi as Hi. injection Hj as Hj. apply env_name_named in Hi, Hj. by apply (H i j n x y).
  - intros H i j n x y Hi Hj Hx Hy. apply env_name_named in Hx, Hy. apply (H i j n); rewrite list_lookup_fmap.
    + by rewrite Hi; cbn; rewrite Hx.
    + by rewrite Hj; cbn; rewrite Hy.
Qed.
Lemma last_for_iff n e l : named n e → last_for n e l ↔ last (filter (λ x, env_name x = env_name e) l) = Some e.
Proof.
  intros Hn. assert (Hen : env_name e = n) by (by apply env_name_named). split.
  - intros (_ & before & after & -> & Ha). rewrite filter_app, filter_cons, decide_True by done.
    assert (Hf : filter (λ x, env_name x = env_name e) after = []).
    { destruct (filter _ after) as [|x k] eqn:E; [done|]. exfalso.
      assert (Hx : x ∈ filter (λ x, env_name x = env_name e) after) by (rewrite E; left). apply elem_of_list_filter in Hx as [Hx Hin].
      apply (Ha x Hin), env_name_named. congruence. }
    by rewrite Hf, last_snoc.
  - intros H. split; [done|]. induction l as [|x l IH] using rev_ind; [done|].
    rewrite filter_app, filter_cons, filter_nil in H. destruct (decide (env_name x = env_name e)) as [Hx|Hx].
    + rewrite last_snoc in H. injection H as ->. exists l, []. split; [done|]. intros y Hy. by apply elem_of_nil in Hy.
    + rewrite app_nil_r in H. destruct (IH H) as (b & a & -> & Ha). exists b, (a ++ [x]). split; [by rewrite <- (assoc_L (++))|].
      intros y Hy. apply elem_of_app in Hy as [Hy|Hy]; [by apply Ha|]. apply elem_of_list_singleton in Hy as ->.
      intros Hyn. apply env_name_named in Hyn. congruence.
Qed.
Lemma not_named_iff n (l : list string) : n ∉ env_name <$> l ↔ ∀ x, x ∈ l → ¬ named n x.
Proof.
  rewrite elem_of_list_fmap. split.
  - intros H x Hx Hn. apply env_name_named in Hn. apply H. by exists x.
  - intros H (x & -> & Hx). apply (H x Hx). by apply env_name_named.
Qed.
Lemma image_text j : image j = match image_of j with
  | None => "" | Some (true, i) => "docker:" ++ i | Some (false, i) => "singularity:" ++ i end%string.
Proof.
  unfold image, image_of. destruct (decide (kdocker j = "")) as [E|E].
  - rewrite bool_decide_eq_false_2 by (intros H; by apply H). destruct (decide (ksingularity j = "")) as [F|F].
    + by rewrite bool_decide_eq_false_2 by (intros H; by apply H).
    + by rewrite bool_decide_eq_true_2.
  - by rewrite bool_decide_eq_true_2.
Qed.
Lemma image_inj j k : image j = image k → image_of j = image_of k.
Proof.
  rewrite !image_text. destruct (image_of j) as [[[] a]|], (image_of k) as [[[] b]|]; intros H; try done; try discriminate H.
  - apply str_app_cancel_l in H. by rewrite H.
  - apply str_app_cancel_l in H. by rewrite H.
Qed.
Lemma image_none j : image j = "" ↔ image_of j = None.
Proof. rewrite image_text. by destruct (image_of j) as [[[] a]|]. Qed.
Lemma cmounts_cases j : (image_of j = None ∧ cmounts_of j = None ∧ bool_decide (image j = "") = true) ∨
  (image_of j ≠ None ∧ cmounts_of j = Some (kcmounts j) ∧ bool_decide (image j = "") = false).
Proof.
  unfold cmounts_of. case_decide as H.
  - left. split_and!; try done. apply bool_decide_eq_true_2. by apply image_none.
  - right. split_and!; try done. apply bool_decide_eq_false_2. by rewrite image_none.
Qed.
(** the text before the container's part, and that part *)
Definition front (j : jobkey) : string :=
  ((if kcwdmatters j then kcwd j ++ "." else "") ++ kcmd j ++ "." ++ mounts_key (kmounts j))%string.
Lemma key_text_front j : key_text j = (front j ++ if decide (image_of j = None) then "" else "." ++ image j ++ "." ++ kcmounts j)%string.
Proof.
  assert (Hf : front j = (let t := (kcmd j ++ "." ++ mounts_key (kmounts j))%string in if kcwdmatters j then (kcwd j ++ "." ++ t)%string else t)).
  { unfold front. cbv zeta. destruct (kcwdmatters j); [by rewrite app_assoc_str|done]. }
  unfold key_text. cbv zeta in *. rewrite <- Hf. fold (image j).
  destruct (decide (image_of j = None)) as [H|H].
  - rewrite bool_decide_eq_true_2 by (by apply image_none). by rewrite app_nil_r_str.
  - rewrite bool_decide_eq_false_2 by (by rewrite image_none). done.
Qed.

Definition tail (j : jobkey) : string := (if decide (image_of j = None) then "" else "." ++ image j ++ "." ++ kcmounts j)%string.
Lemma tail_eq j k : image_of j = image_of k → cmounts_of j = cmounts_of k → tail j = tail k.
Proof.
  intros Hi Hc. unfold tail, cmounts_of in *. rewrite !image_text, Hi in *. destruct (decide (image_of k = None)); [done|].
  by injection Hc as ->.
Qed.
Lemma front_eq j k : cwd_of j = cwd_of k → kcmd j = kcmd k → mounts_key (kmounts j) = mounts_key (kmounts k) → front j = front k.
Proof.
  intros Hw Hc Hm. unfold front, cwd_of in *. rewrite Hc, Hm. destruct (kcwdmatters j), (kcwdmatters k); try done. by injection Hw as ->.
Qed.
Lemma tail_inj j k : tail j = tail k → (kcmounts j = kcmounts k → image_of j = image_of k) ∧ (image_of j = image_of k → cmounts_of j = cmounts_of k).
Proof.
  unfold tail, cmounts_of. destruct (decide (image_of j = None)) as [Hj|Hj], (decide (image_of k = None)) as [Hk|Hk]; intros H; try discriminate H.
  - split; [by rewrite Hj, Hk|done].
  - split.
    + intros E. rewrite E in H. apply str_app_cancel_l in H. rewrite <- !app_assoc_str in H. do 2 apply str_app_cancel_r in H.
      by apply image_inj.
    + intros E. rewrite !image_text, E in H. apply str_app_cancel_l in H.
      rewrite <- !app_assoc_str in H. by apply str_app_cancel_l in H as ->.
Qed.
Lemma key_one_part j k : key_text j = key_text k →
  (cwd_of j = cwd_of k → mounts_key (kmounts j) = mounts_key (kmounts k) → image_of j = image_of k → cmounts_of j = cmounts_of k → kcmd j = kcmd k) ∧
  (kcmd j = kcmd k → mounts_key (kmounts j) = mounts_key (kmounts k) → image_of j = image_of k → cmounts_of j = cmounts_of k → cwd_of j = cwd_of k) ∧
  (cwd_of j = cwd_of k → kcmd j = kcmd k → image_of j = image_of k → cmounts_of j = cmounts_of k → mounts_key (kmounts j) = mounts_key (kmounts k)) ∧
  (cwd_of j = cwd_of k → kcmd j = kcmd k → mounts_key (kmounts j) = mounts_key (kmounts k) → kcmounts j = kcmounts k → image_of j = image_of k) ∧
  (cwd_of j = cwd_of k → kcmd j = kcmd k → mounts_key (kmounts j) = mounts_key (kmounts k) → image_of j = image_of k → cmounts_of j = cmounts_of k).
Proof.
  rewrite !key_text_front. fold (tail j) (tail k). intros H. split_and!.
  - intros Hw Hm Hi Hc. rewrite (tail_eq j k Hi Hc) in H. apply str_app_cancel_r in H. unfold front, cwd_of in *. rewrite Hm in H.
    rewrite <- !app_assoc_str in H. do 2 apply str_app_cancel_r in H.
    destruct (kcwdmatters j), (kcwdmatters k); try done. injection Hw as Hw. rewrite Hw in H. by apply str_app_cancel_l in H.
  - intros Hc Hm Hi Hcm. rewrite (tail_eq j k Hi Hcm) in H. apply str_app_cancel_r in H. unfold front, cwd_of in *. rewrite Hm, Hc in H.
    apply str_app_cancel_r in H. destruct (kcwdmatters j), (kcwdmatters k); try done.
    + f_equal. by apply str_app_cancel_r in H.
    + exfalso. by destruct (kcwd j).
    + exfalso. by destruct (kcwd k).
  - intros Hw Hc Hi Hcm. rewrite (tail_eq j k Hi Hcm) in H. apply str_app_cancel_r in H. unfold front, cwd_of in *. rewrite Hc in H.
    destruct (kcwdmatters j), (kcwdmatters k); try done; [injection Hw as Hw; rewrite Hw in H|].
    + by do 3 apply str_app_cancel_l in H.
    + by do 3 apply str_app_cancel_l in H.
  - intros Hw Hc Hm. rewrite (front_eq j k Hw Hc Hm) in H. apply str_app_cancel_l in H. by apply tail_inj.
  - intros Hw Hc Hm. rewrite (front_eq j k Hw Hc Hm) in H. apply str_app_cancel_l in H. by apply tail_inj.
Qed.
Lemma key_text_same j k : cwd_of j = cwd_of k → kcmd j = kcmd k → mounts_key (kmounts j) = mounts_key (kmounts k) →
  image_of j = image_of k → cmounts_of j = cmounts_of k → key_text j = key_text k.
Proof.
  intros Hw Hc Hm Hi Hcm. rewrite !key_text_front. fold (tail j) (tail k). by rewrite (front_eq j k Hw Hc Hm), (tail_eq j k Hi Hcm).
Qed.
Lemma key_parts_inj j k : key_parts j = key_parts k →
  cwd_of j = cwd_of k ∧ kcmd j = kcmd k ∧ mounts_key (kmounts j) = mounts_key (kmounts k) ∧ image_of j = image_of k ∧ cmounts_of j = cmounts_of k.
Proof.
  unfold key_parts, cwd_of.
  destruct (cmounts_cases j) as [(Hj & -> & ->)|(Hj & -> & ->)], (cmounts_cases k) as [(Hk & -> & ->)|(Hk & -> & ->)];
    destruct (kcwdmatters j), (kcwdmatters k); cbn [app]; intros H; try discriminate H; injection H; intros; subst; split_and!; try congruence;
    by apply image_inj.
Qed.
Lemma image_nodot j : (∀ b i, image_of j = Some (b, i) → nodot i) → nodot (image j).
Proof.
  intros H. rewrite image_text. unfold nodot in *.
  assert (Ha : ∀ a b, "."%char ∉ String.list_ascii_of_string a → "."%char ∉ String.list_ascii_of_string b → "."%char ∉ String.list_ascii_of_string (a ++ b)).
  { intros a b Ha Hb. induction a as [|x a IH]; [done|]. cbn in Ha. apply not_elem_of_cons in Ha as [H1 H2].
    change (String.list_ascii_of_string (String x a ++ b)) with (x :: String.list_ascii_of_string (a ++ b)). apply not_elem_of_cons. auto. }
  destruct (image_of j) as [[[] i]|].
  - apply Ha; [apply (bool_decide_unpack _); by vm_compute|by apply (H true)].
  - apply Ha; [apply (bool_decide_unpack _); by vm_compute|by apply (H false)].
  - apply not_elem_of_nil.
Qed.
Lemma key_nodots j k : 
  (∀ x, x = j ∨ x = k → (kcwdmatters x = true → nodot (kcwd x)) ∧ nodot (kcmd x) ∧ nodot (mounts_key (kmounts x)) ∧
    (∀ b i, image_of x = Some (b, i) → nodot i) ∧ nodot (kcmounts x)) →
  key_text j = key_text k →
  cwd_of j = cwd_of k ∧ kcmd j = kcmd k ∧ mounts_key (kmounts j) = mounts_key (kmounts k) ∧ image_of j = image_of k ∧ cmounts_of j = cmounts_of k.
Proof.
  intros Hd H. apply key_parts_inj.
  assert (Hp : ∀ x, x = j ∨ x = k → Forall nodot (key_parts x)).
  { intros x Hx. destruct (Hd x Hx) as (H1 & H2 & H3 & H4 & H5). unfold key_parts. apply Forall_app. split.
    - destruct (kcwdmatters x); [|constructor]. constructor; [auto|constructor].
    - constructor; [done|]. constructor; [done|]. case_bool_decide; [constructor|].
      constructor; [by apply image_nodot|]. by constructor. }
  rewrite <- (key_text_parts j), <- (key_text_parts k); [by rewrite H|auto..].
Qed.
