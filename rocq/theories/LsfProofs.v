(** Proofs about the LSF scheduler: the ranking of queues. *)
From Coq Require Import ZArith Lia String Ascii.
From stdpp Require Import base option strings list gmap sorting pretty.
From Verif Require Import UtilModel UtilProofs UtilProps BsubModel LsfModel LsfSpec.
Open Scope Z_scope.

(** ** Counting better values *)
Definition bt (rev : bool) (x v : Z) : bool := if rev then v <? x else x <? v.
Definition cntb (rev : bool) (v : Z) (l : list Z) : Z := Z.of_nat (length (remove_dups (filter (λ x, bt rev x v = true) l))).
Lemma rd_length (l k : list Z) : (∀ x, x ∈ l ↔ x ∈ k) → length (remove_dups l) = length (remove_dups k).
Proof.
  intros H. apply Permutation_length. apply NoDup_Permutation; try apply NoDup_remove_dups. intros x. by rewrite !elem_of_remove_dups.
Qed.
Lemma cntb_same rev v l k : (∀ x, bt rev x v = true → x ∈ l ↔ x ∈ k) → cntb rev v l = cntb rev v k.
Proof. intros H. unfold cntb. f_equal. apply rd_length. intros x. rewrite !elem_of_list_filter. specialize (H x). tauto. Qed.
Lemma cntb_new rev v x l : bt rev x v = true → x ∉ l → cntb rev v (x :: l) = 1 + cntb rev v l.
Proof.
  intros Hb Hx. unfold cntb.
  rewrite (rd_length (filter (λ x, bt rev x v = true) (x :: l)) (x :: remove_dups (filter (λ x, bt rev x v = true) l))).
  - assert (Hn : NoDup (x :: remove_dups (filter (λ y, bt rev y v = true) l))).
    { constructor; [|apply NoDup_remove_dups]. rewrite elem_of_remove_dups, elem_of_list_filter. tauto. }
    assert (He : remove_dups (x :: remove_dups (filter (λ y, bt rev y v = true) l)) ≡ₚ x :: remove_dups (filter (λ y, bt rev y v = true) l)).
    { apply NoDup_Permutation; [apply NoDup_remove_dups|done|]. intros y. by rewrite elem_of_remove_dups. }
    apply Permutation_length in He. rewrite He. cbn [length]. lia.
  - intros y. rewrite !elem_of_list_filter, !elem_of_cons, elem_of_remove_dups, elem_of_list_filter. naive_solver.
Qed.
Lemma cntb_none rev v l : (∀ x, x ∈ l → bt rev x v = false) → cntb rev v l = 0.
Proof.
  intros H. unfold cntb. rewrite (rd_length _ []); [done|]. intros x. rewrite elem_of_list_filter, elem_of_nil. split; [|done].
  intros [H1 H2]. rewrite (H x H2) in H1. done.
Qed.

(** ** One criterion *)
Definition nb (val : string → Z) (rev : bool) : relation string := λ a b, if rev then val b ≤ val a else val a ≤ val b.
Lemma rank_loop_other val w prev rank s rk q : q ∉ s → rank_loop val w prev rank s rk !! q = rk !! q.
Proof.
  revert prev rank rk. induction s as [|x s IH]; intros prev rank rk H; [done|]. cbn [rank_loop].
  apply not_elem_of_cons in H as [H1 H2]. rewrite (IH _ _ _ H2). by rewrite lookup_insert_ne.
Qed.
Lemma rank_loop_go val w rev s : ∀ prev rank rk q, prev ≠ -1 → NoDup s → StronglySorted (nb val rev) s →
  (∀ x, x ∈ s → val x ≠ -1 ∧ bt rev (val x) prev = false) → q ∈ s →
  rank_loop val w prev rank s rk !! q = Some (default 0 (rk !! q) + (rank + cntb rev (val q) (prev :: (val <$> s))) * w).
Proof.
  induction s as [|x s IH]; intros prev rank rk q Hp Hn Hs Hv Hq; [by apply elem_of_nil in Hq|].
  apply NoDup_cons in Hn as [Hx Hn]. inversion Hs as [|? ? Hs' Hf]; subst. rewrite Forall_forall in Hf.
  cbn [rank_loop]. destruct (Hv x) as [Hx1 Hx2]; [apply elem_of_list_here|].
  set (rank' := if negb (prev =? -1) && (1 <=? Z.abs (val x - prev)) then rank + 1 else rank).
  assert (Hr : rank' = if val x =? prev then rank else rank + 1).
  { unfold rank'. destruct (Z.eqb_spec prev (-1)); [done|]. cbn [negb andb].
    destruct (Z.leb_spec 1 (Z.abs (val x - prev))), (Z.eqb_spec (val x) prev); lia. }
  clearbody rank'. subst rank'.
  assert (Hrest : ∀ y, y ∈ s → bt rev (val y) (val x) = false).
  { intros y Hy. specialize (Hf y Hy). unfold nb, bt in *. destruct rev; apply Z.ltb_ge; lia. }
  assert (Hprev : val x ≠ prev → ∀ y, y = x ∨ y ∈ s → bt rev prev (val y) = true ∧ val y ≠ prev).
  { intros Hne y Hy. assert (H : bt rev (val y) (val x) = false).
    { destruct Hy as [->|Hy]; [unfold bt; destruct rev; apply Z.ltb_irrefl|by apply Hrest]. }
    unfold bt in *. destruct rev; apply Z.ltb_ge in H, Hx2; (split; [apply Z.ltb_lt|]; lia). }
  apply elem_of_cons in Hq as [->|Hq].
  - rewrite rank_loop_other by done. rewrite lookup_insert. f_equal. f_equal. f_equal.
    rewrite fmap_cons. destruct (Z.eqb_spec (val x) prev) as [He|He].
    + rewrite cntb_none; [lia|]. intros z. rewrite !elem_of_cons, elem_of_list_fmap. intros [->|[->|(y & -> & Hy)]].
      * rewrite He. unfold bt. destruct rev; apply Z.ltb_irrefl.
      * unfold bt. destruct rev; apply Z.ltb_irrefl.
      * by apply Hrest.
    + destruct (Hprev He x (or_introl eq_refl)) as [Hb _]. rewrite cntb_new; [|done|].
      * rewrite cntb_none; [lia|]. intros z. rewrite !elem_of_cons, elem_of_list_fmap. intros [->|(y & -> & Hy)].
        -- unfold bt. destruct rev; apply Z.ltb_irrefl.
        -- by apply Hrest.
      * rewrite elem_of_cons, elem_of_list_fmap. intros [?|(y & ? & Hy)]; [done|].
        destruct (Hprev He y (or_intror Hy)). congruence.
  - rewrite IH; [|done|done|done| |done].
    2:{ intros y Hy. split; [|by apply Hrest]. apply Hv. by apply elem_of_list_further. }
    assert (x ≠ q) by (intros ->; done). rewrite lookup_insert_ne by done. f_equal. f_equal. f_equal.
    rewrite fmap_cons. destruct (Z.eqb_spec (val x) prev) as [He|He].
    + f_equal. apply cntb_same. intros z _. rewrite !elem_of_cons. rewrite He. naive_solver.
    + rewrite (cntb_new rev (val q) prev); [lia|by apply Hprev; [|right]|].
      rewrite elem_of_cons, elem_of_list_fmap. intros [?|(y & ? & Hy)]; [done|].
      destruct (Hprev He y (or_intror Hy)). congruence.
Qed.
Lemma rank_loop_spec val w rev s rk q : NoDup s → StronglySorted (nb val rev) s → (∀ x, x ∈ s → 0 ≤ val x) → q ∈ s →
  rank_loop val w (-1) 0 s rk !! q = Some (default 0 (rk !! q) + cntb rev (val q) (val <$> s) * w).
Proof.
  intros Hn Hs Hv Hq. destruct s as [|x s]; [by apply elem_of_nil in Hq|].
  apply NoDup_cons in Hn as [Hx Hn]. inversion Hs as [|? ? Hs' Hf]; subst. rewrite Forall_forall in Hf.
  cbn [rank_loop]. rewrite Z.eqb_refl. cbn [negb andb].
  assert (Hrest : ∀ y, y ∈ s → bt rev (val y) (val x) = false).
  { intros y Hy. specialize (Hf y Hy). unfold nb, bt in *. destruct rev; apply Z.ltb_ge; lia. }
  apply elem_of_cons in Hq as [->|Hq].
  - rewrite rank_loop_other by done. rewrite lookup_insert. f_equal. rewrite fmap_cons. rewrite cntb_none; [lia|].
    intros z. rewrite elem_of_cons, elem_of_list_fmap. intros [->|(y & -> & Hy)].
    + unfold bt. destruct rev; apply Z.ltb_irrefl.
    + by apply Hrest.
  - rewrite (rank_loop_go val w rev); [|specialize (Hv x (elem_of_list_here _ _)); lia|done|done| |done].
    + assert (x ≠ q) by (intros ->; done). rewrite lookup_insert_ne by done. f_equal.
    + intros y Hy. split; [|by apply Hrest]. specialize (Hv y (elem_of_list_further _ _ _ Hy)). lia.
Qed.

(** ** The facts *)
Lemma fill_lookup l m c : fill l m !! c =
  match m !! c with Some v => Some v | None => if decide (c ∈ criteria_with_default) then Some (the_default l c) else None end.
Proof.
  unfold fill. generalize criteria_with_default as cs. intros cs. revert m. induction cs as [|d cs IH]; intros m.
  - cbn [fold_left]. destruct (m !! c); [done|]. by rewrite decide_False by apply not_elem_of_nil.
  - cbn [fold_left]. rewrite IH. destruct (m !! d) eqn:Hd.
    + destruct (m !! c) eqn:Hc; [done|]. apply decide_ext. rewrite elem_of_cons. split; [auto|]. intros [->|?]; [congruence|done].
    + destruct (decide (d = c)) as [->|Hne].
      * rewrite lookup_insert, Hd. by rewrite decide_True by apply elem_of_list_here.
      * rewrite lookup_insert_ne by done. destruct (m !! c) eqn:Hc; [done|]. apply decide_ext. rewrite elem_of_cons. split; [auto|]. intros [->|?]; [congruence|done].
Qed.
Lemma fold_max (f : seen → option Z) l : ∀ h, let r := fold_left (λ h q, Z.max h (default 0 (f q))) l h in
  h ≤ r ∧ (∀ n w, n ∈ l → f n = Some w → w ≤ r) ∧ (r = h ∨ r = Z.max h 0 ∨ ∃ n, n ∈ l ∧ f n = Some r).
Proof.
  induction l as [|x l IH]; intros h; cbn [fold_left].
  - cbn zeta. split_and!; [lia|set_solver|auto].
  - destruct (IH (Z.max h (default 0 (f x)))) as (H1 & H2 & H3). set (r := fold_left _ l _) in *. split_and!.
    + lia.
    + intros n w Hn Hw. apply elem_of_cons in Hn as [->|Hn]; [rewrite Hw in H1; cbn in H1; lia|by apply (H2 n)].
    + destruct (f x) as [v|] eqn:Hx; cbn in *.
      * destruct H3 as [H3|[H3|(n & Hn & H3)]].
        -- destruct (Z.max_spec h v) as [[_ E]|[_ E]]; rewrite E in *; [|auto]. right; right. exists x. split; [apply elem_of_list_here|]. by rewrite Hx, H3.
        -- destruct (decide (0 < v ∧ h < v)) as [Hv|Hv].
           ++ right; right. exists x. split; [apply elem_of_list_here|]. rewrite Hx, H3. f_equal. lia.
           ++ right; left. lia.
        -- right; right. exists n. split; [by apply elem_of_list_further|done].
      * destruct H3 as [H3|[H3|(n & Hn & H3)]]; [right; left; lia|right; left; lia|].
        right; right. exists n. split; [by apply elem_of_list_further|done].
Qed.
Lemma highest_spec l c : (c ∈ ["memlimit"; "max"; "max_user"; "hosts"]%string) →
  0 ≤ highest l c ∧ (∀ n w, n ∈ l → n_facts n !! c = Some w → w ≤ highest l c) ∧ (0 < highest l c → ∃ n, n ∈ l ∧ n_facts n !! c = Some (highest l c)).
Proof.
  intros Hc. unfold highest. rewrite decide_True by done. destruct (fold_max (λ q, n_facts q !! c) l 0) as (H1 & H2 & H3).
  cbv zeta beta in *. split_and!; [done|done|]. intros Hp. destruct H3 as [H3|[H3|H3]]; [|change (Z.max 0 0) with 0 in H3|done]; rewrite H3 in Hp; lia.
Qed.
Lemma worth_unique l n c v w : is_worth l n c v → is_worth l n c w → c ∈ eight → v = w.
Proof.
  unfold is_worth. destruct (n_facts n !! c); [congruence|]. unfold unsaid. intros Hv Hw Hc.
  assert (Hd : ∀ a, c = a → a ∉ ["memlimit"; "max"; "max_user"; "hosts"]%string → c ∉ ["memlimit"; "max"; "max_user"; "hosts"]%string) by (by intros a ->).
  assert (Hin : (c ∈ ["memlimit"; "max"; "max_user"; "hosts"]%string → c ≠ "prio" ∧ c ≠ "chunk_size" ∧ c ≠ "num_users" ∧ c ≠ "runlimit")%string).
  { intros H. split_and!; intros ->; set_solver. }
  destruct Hv as [[? ->]|[[? ->]|[[? ->]|[[? ->]|[Hm Hv]]]]], Hw as [[? ->]|[[? ->]|[[? ->]|[[? ->]|[Hm' Hw]]]]]; subst; try done;
    try (destruct (Hin Hm) as (?&?&?&?); done); try (destruct (Hin Hm') as (?&?&?&?); done).
  destruct Hv as [(h & [(n1 & Hn1 & Hf1) Hl1] & Hp & ->)|[Hv ->]], Hw as [(h' & [(n2 & Hn2 & Hf2) Hl2] & Hp' & ->)|[Hw ->]]; [|..|done].
  - specialize (Hl1 _ _ Hn2 Hf2). specialize (Hl2 _ _ Hn1 Hf1). lia.
  - specialize (Hw _ _ Hn1 Hf1). lia.
  - specialize (Hv _ _ Hn2 Hf2). lia.
Qed.
Lemma fill_worth l n c : c ∈ eight → is_worth l n c (default 0 (fill l (n_facts n) !! c)).
Proof.
  intros Hc. unfold is_worth. rewrite fill_lookup. destruct (n_facts n !! c) as [v|]; [done|].
  unfold unsaid. assert (Hm : c ∈ ["memlimit"; "max"; "max_user"; "hosts"]%string → fallback c = 10000000 ∧ c ∈ criteria_with_default).
  { intros H. rewrite !elem_of_cons, elem_of_nil in H. destruct H as [->|[->|[->|[->|[]]]]]; (split; [done|]); by apply (bool_decide_unpack _). }
  assert (Hg : c ∈ ["memlimit"; "max"; "max_user"; "hosts"]%string → ((∃ h, is_largest l c h ∧ 0 < h ∧ the_default l c = h + 1) ∨ ((∀ n w, n ∈ l → n_facts n !! c = Some w → w ≤ 0) ∧ the_default l c = 10000000))).
  { intros H. destruct (highest_spec l c H) as (H1 & H2 & H3). unfold the_default. destruct (Z.ltb_spec 0 (highest l c)).
    - left. exists (highest l c). split_and!; [split; [by apply H3|done]|done|done].
    - right. split; [|by apply Hm]. intros m w Hm' Hw. specialize (H2 m w Hm' Hw). lia. }
  unfold eight in Hc. rewrite !elem_of_cons, elem_of_nil in Hc.
  destruct Hc as [->|[->|[->|[->|[->|[->|[->|[->|[]]]]]]]]];
    try (rewrite decide_True by (by apply (bool_decide_unpack _)); cbn [default]; right; right; right; right; split; [by apply (bool_decide_unpack _)|apply Hg; by apply (bool_decide_unpack _)]).
  - rewrite decide_False by (by apply (bool_decide_unpack _)). by left.
  - rewrite decide_True by (by apply (bool_decide_unpack _)). right; by left.
  - rewrite decide_True by (by apply (bool_decide_unpack _)). right; right; by left.
  - rewrite decide_True by (by apply (bool_decide_unpack _)). right; right; right; by left.
Qed.
Lemma worth_nonneg l n c v : good_seen l → n ∈ l → is_worth l n c v → 0 ≤ v.
Proof.
  intros [_ Hg] Hn. unfold is_worth. destruct (n_facts n !! c) eqn:He; [intros ->; by apply (Hg n c)|].
  intros [[_ ->]|[[_ ->]|[[_ ->]|[[_ ->]|[_ [(h & _ & ? & ->)|[_ ->]]]]]]]; lia.
Qed.

(** ** The names and values kept *)
Lemma queues_of_eq l : queues_of l = (λ n, (n_queue n, fill l (n_facts n))) <$> usable l.
Proof.
  unfold queues_of, usable. generalize (fill l). intros f. induction l as [|x l IH]; [done|]. rewrite filter_cons. cbn [omap list_omap].
  destruct (n_mine x); [rewrite decide_True by done|rewrite decide_False by done]; cbn; f_equal/=; exact IH.
Qed.
Lemma usable_elem l n : n ∈ usable l ↔ n ∈ l ∧ n_mine n = true.
Proof. unfold usable. rewrite elem_of_list_filter. tauto. Qed.
Lemma usable_nodup l : NoDup (n_queue <$> l) → NoDup (n_queue <$> usable l).
Proof.
  unfold usable. induction l as [|x l IH]; [done|]. rewrite fmap_cons, NoDup_cons. intros [Hx Hn]. rewrite filter_cons. destruct (decide _); [|by apply IH].
  rewrite fmap_cons. constructor; [|by apply IH]. intros H. apply Hx. apply elem_of_list_fmap in H as (y & -> & Hy). apply elem_of_list_filter in Hy as [_ Hy].
  apply elem_of_list_fmap. by exists y.
Qed.
Lemma queues_names l : (queues_of l).*1 = n_queue <$> usable l.
Proof. rewrite queues_of_eq, <- list_fmap_compose. done. Qed.
Lemma value_of l n c : NoDup (n_queue <$> l) → n ∈ usable l → value (queues_of l) c (n_queue n) = default 0 (fill l (n_facts n) !! c).
Proof.
  intros Hn Hu. unfold value. destruct (list_find _ (queues_of l)) as [[i [q m]]|] eqn:He.
  - apply list_find_Some in He as (Hi & Hq & _). cbn in Hq. subst q.
    rewrite queues_of_eq, list_lookup_fmap in Hi. destruct (usable l !! i) as [n'|] eqn:Hi'; [|done]. injection Hi as Hq Hm. subst m.
    apply elem_of_list_lookup in Hu as (j & Hj). assert (i = j) as ->; [|by rewrite Hj in Hi'; injection Hi' as ->].
    apply (NoDup_lookup _ _ _ (n_queue n) (usable_nodup _ Hn)); rewrite list_lookup_fmap; [by rewrite Hi'; cbn; rewrite Hq|by rewrite Hj].
  - exfalso. rewrite list_find_None, Forall_forall in He. apply (He (n_queue n, fill l (n_facts n))); [|done].
    rewrite queues_of_eq. apply elem_of_list_fmap. by exists n.
Qed.

(** ** The ranking *)
Definition hs (us : list seen) (worth : seen → string → Z) (n : seen) (h : string * Z * bool) : Z :=
  let '(c, w, rev) := h in cntb rev (worth n c) ((λ m, worth m c) <$> us) * w.
Lemma penalty_eq us worth n : penalty us worth n = fold_right Z.add 0 (hs us worth n <$> handling).
Proof.
  unfold penalty, handling. rewrite !fmap_cons, fmap_nil. cbn [fold_right hs].
  assert (Ha : ∀ c, cntb true (worth n c) ((λ m, worth m c) <$> us) = above us worth n c).
  { intros c. unfold cntb, above. f_equal. f_equal. f_equal. apply list_filter_iff. intros x. unfold bt. by rewrite Z.ltb_lt. }
  assert (Hb : ∀ c, cntb false (worth n c) ((λ m, worth m c) <$> us) = below us worth n c).
  { intros c. unfold cntb, below. f_equal. f_equal. f_equal. apply list_filter_iff. intros x. unfold bt. by rewrite Z.ltb_lt. }
  rewrite !Ha, !Hb. lia.
Qed.
Section rank.
Context (l : list seen) (order : string → list (string * gmap string Z)) (worth : seen → string → Z).
Context (Hg : good_seen l) (Ho : any_order l order) (Hw : ∀ n c, n ∈ usable l → c ∈ eight → is_worth l n c (worth n c)).
Lemma val_worth n c : n ∈ usable l → c ∈ eight → value (queues_of l) c (n_queue n) = worth n c.
Proof.
  intros Hn Hc. rewrite value_of; [|apply Hg|done]. apply (worth_unique l n c); [|by apply Hw|done]. by apply fill_worth.
Qed.
Lemma criterion_step c w rev rk n : c ∈ eight → n ∈ usable l →
  rank_loop (value (queues_of l) c) w (-1) 0 (sort_by_map_int (order c) c rev) rk !! n_queue n =
    Some (default 0 (rk !! n_queue n) + hs (usable l) worth n (c, w, rev)).
Proof.
  intros Hc Hn.
  assert (Hnd : NoDup (order c).*1). { rewrite (Ho c), queues_names. apply usable_nodup, Hg. }
  destruct (C39_keys_by_inner_value (order c) c rev Hnd) as [Hp Hs].
  assert (Hq : sort_by_map_int (order c) c rev ≡ₚ n_queue <$> usable l). { rewrite Hp, (Ho c). by rewrite queues_names. }
  rewrite (rank_loop_spec _ w rev).
  - f_equal. f_equal. cbn [hs]. f_equal. rewrite (val_worth n c Hn Hc). apply cntb_same. intros x _. rewrite Hq.
    rewrite <- list_fmap_compose. rewrite !elem_of_list_fmap. unfold compose. split; intros (m & -> & Hm); exists m; (split; [|done]); by rewrite (val_worth m c Hm Hc).
  - rewrite Hq. apply usable_nodup, Hg.
  - assert (Hin : ∀ x, x ∈ sort_by_map_int (order c) c rev → ∃ n, n ∈ usable l ∧ x = n_queue n ∧ (x, fill l (n_facts n)) ∈ order c).
    { intros x Hx. rewrite Hq in Hx. apply elem_of_list_fmap in Hx as (m & -> & Hm). exists m. split_and!; [done|done|].
      rewrite (Ho c), queues_of_eq. apply elem_of_list_fmap. by exists m. }
    clear Hp Hq. induction Hs as [|x s Hs IH Hf]; constructor.
    + apply IH. intros y Hy. apply Hin. by apply elem_of_list_further.
    + apply Forall_forall. intros y Hy. rewrite Forall_forall in Hf. specialize (Hf y Hy).
      destruct (Hin x (elem_of_list_here _ _)) as (mx & Hmx & -> & Hox). destruct (Hin y (elem_of_list_further _ _ _ Hy)) as (my & Hmy & -> & Hoy).
      specialize (Hf _ _ Hox Hoy). cbv zeta in Hf. unfold nb. rewrite !value_of by (done || apply Hg). done.
  - intros x Hx. rewrite Hq in Hx. apply elem_of_list_fmap in Hx as (m & -> & Hm). rewrite val_worth by done.
    apply (worth_nonneg l m c); [done|by apply usable_elem in Hm as [? _]|by apply Hw].
  - rewrite Hq. apply elem_of_list_fmap. by exists n.
Qed.
Lemma criterion_other c w rev rk q : q ∉ n_queue <$> usable l →
  rank_loop (value (queues_of l) c) w (-1) 0 (sort_by_map_int (order c) c rev) rk !! q = rk !! q.
Proof. intros H. apply rank_loop_other. rewrite sort_by_map_int_perm, (Ho c), queues_names. done. Qed.
Lemma ranking_go hl : (∀ h, h ∈ hl → fst (fst h) ∈ eight) → ∀ rk n, n ∈ usable l →
  default 0 (fold_left (λ rk h, let '(c, w, rev) := h in rank_loop (value (queues_of l) c) w (-1) 0 (sort_by_map_int (order c) c rev) rk) hl rk !! n_queue n)
    = default 0 (rk !! n_queue n) + fold_right Z.add 0 (hs (usable l) worth n <$> hl) ∧
  (hl ≠ [] → is_Some (fold_left (λ rk h, let '(c, w, rev) := h in rank_loop (value (queues_of l) c) w (-1) 0 (sort_by_map_int (order c) c rev) rk) hl rk !! n_queue n)).
Proof.
  induction hl as [|[[c w] rev] hl IH] using rev_ind; intros Hh rk n Hn; [cbn; split; [lia|done]|].
  rewrite fold_left_app. cbn [fold_left]. rewrite fmap_app, fold_right_app. cbn [fmap list_fmap fold_right].
  assert (Hc : c ∈ eight). { apply (Hh (c, w, rev)). apply elem_of_app. right. apply elem_of_list_here. }
  rewrite (criterion_step c w rev _ n Hc Hn). split; [|by eexists]. cbn [default].
  destruct (IH ltac:(intros h H; apply Hh; apply elem_of_app; by left) rk n Hn) as [IH1 _]. rewrite IH1.
  assert (Hf : ∀ k z, fold_right Z.add z k = fold_right Z.add 0 k + z). { clear. induction k as [|a k IH]; intros z; cbn; [lia|]. rewrite (IH z). lia. }
  change (default 0 (rk !! n_queue n) + fold_right Z.add 0 (hs (usable l) worth n <$> hl) + hs (usable l) worth n (c, w, rev) =
    default 0 (rk !! n_queue n) + fold_right Z.add (hs (usable l) worth n (c, w, rev) + 0) (hs (usable l) worth n <$> hl)).
  rewrite (Hf _ (_ + 0)). lia.
Qed.
Lemma ranking_other hl rk q : q ∉ n_queue <$> usable l →
  fold_left (λ rk h, let '(c, w, rev) := h in rank_loop (value (queues_of l) c) w (-1) 0 (sort_by_map_int (order c) c rev) rk) hl rk !! q = rk !! q.
Proof. intros Hq. revert rk. induction hl as [|[[c w] rev] hl IH]; intros rk; [done|]. cbn [fold_left]. rewrite IH. by apply criterion_other. Qed.
Lemma ranking_spec n : n ∈ usable l → ranking (queues_of l) order !! n_queue n = Some (penalty (usable l) worth n).
Proof.
  intros Hn. destruct (ranking_go handling) with (rk := ∅ : gmap string Z) (n := n) as [H1 H2]; [|done|].
  { intros h. unfold handling. rewrite !elem_of_cons, elem_of_nil. intros H. decompose [or] H; subst; try done; by apply (bool_decide_unpack _). }
  destruct (H2 ltac:(done)) as [v Hv]. unfold ranking. rewrite Hv in *. cbn [default] in H1. rewrite penalty_eq. f_equal. exact H1.
Qed.
Lemma ranking_dom q v : ranking (queues_of l) order !! q = Some v → ∃ n, n ∈ usable l ∧ q = n_queue n ∧ v = penalty (usable l) worth n.
Proof.
  intros H. destruct (decide (q ∈ n_queue <$> usable l)) as [Hq|Hq].
  - apply elem_of_list_fmap in Hq as (n & -> & Hn). exists n. split_and!; [done|done|]. rewrite ranking_spec in H by done. congruence.
  - unfold ranking in H. rewrite ranking_other in H by done. done.
Qed.
Lemma sorted_spec : ∃ ss, sortedqs (queues_of l) order = n_queue <$> ss ∧ ss ≡ₚ usable l ∧ StronglySorted (before (usable l) worth) ss.
Proof.
  set (rk := ranking (queues_of l) order).
  assert (Hnd : NoDup (map_to_list rk).*1) by apply NoDup_fst_map_to_list.
  destruct (C39_keys_by_value (map_to_list rk) false Hnd) as [Hp Hs]. change (sort_by_int (map_to_list rk) false) with (sortedqs (queues_of l) order) in Hp, Hs.
  assert (Hk : (map_to_list rk).*1 ≡ₚ n_queue <$> usable l).
  { apply NoDup_Permutation; [done|apply usable_nodup, Hg|]. intros q. rewrite !elem_of_list_fmap. split.
    - intros ([q' v] & -> & H). apply elem_of_map_to_list in H. destruct (ranking_dom _ _ H) as (n & Hn & -> & _). by exists n.
    - intros (n & -> & Hn). exists (n_queue n, penalty (usable l) worth n). split; [done|]. apply elem_of_map_to_list. by apply ranking_spec. }
  assert (Hq : n_queue <$> usable l ≡ₚ sortedqs (queues_of l) order) by (etransitivity; [symmetry; exact Hk|]; symmetry; exact Hp).
  symmetry in Hq. apply Permutation_map_inv in Hq as (ss & Hss & Hperm). exists ss. split_and!; [exact Hss|by symmetry|].
  rewrite Hss in Hs. change (map n_queue ss) with (n_queue <$> ss) in Hs.
  assert (Hin : ∀ n, n ∈ ss → n ∈ usable l) by (intros n; by rewrite <- Hperm). clear Hperm Hss Hp.
  induction ss as [|n ss IH]; [constructor|]. rewrite fmap_cons in Hs. inversion Hs as [|? ? Hs' Hf]; subst. constructor.
  - apply IH; [done|]. intros m Hm. apply Hin. by apply elem_of_list_further.
  - apply Forall_forall. intros m Hm. rewrite Forall_fmap, Forall_forall in Hf. specialize (Hf m Hm). cbn in Hf.
    apply Hf; apply elem_of_map_to_list; apply ranking_spec; apply Hin; [apply elem_of_list_here|by apply elem_of_list_further].
Qed.
End rank.
