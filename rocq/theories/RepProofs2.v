(** Proofs on lookups by rep group: the queue, and the notes of the database. *)
From Coq Require Import ZArith Lia String Ascii.
From stdpp Require Import base option strings gmap list sorting.
From RecordUpdate Require Import RecordSet.
From Verif Require Import UtilModel LearnModel LearnProofs RepModel RepSpec RepProofs.
Import RecordSetNotations.
Open Scope Z_scope.

(** * Items *)
Lemma update_items_in l : ∀ st k j, items (update_items l st).1 !! k = Some j → items st !! k = Some j ∨ (k, j) ∈ l.
Proof.
  induction l as [|[k0 j0] l IH]; intros st k j; cbn [update_items fst snd]; [auto|]. destruct (items st !! k0) eqn:E; [|auto].
  intros [H|H]%IH; [|right; by right]. destruct st as [lv cp rt rg en it rp]. cbn in *. destruct (decide (k = k0)) as [->|Hne].
  - rewrite lookup_insert in H. injection H as <-. right. left.
  - rewrite lookup_insert_ne in H by done. by left.
Qed.
Lemma update_items_some l : ∀ st k, is_Some (items (update_items l st).1 !! k) ↔ is_Some (items st !! k).
Proof.
  induction l as [|[k0 j0] l IH]; intros st k; cbn [update_items fst snd]; [done|]. destruct (items st !! k0) eqn:E; [|done].
  rewrite IH. destruct st as [lv cp rt rg en it rp]. cbn in *. destruct (decide (k = k0)) as [->|Hne].
  - rewrite lookup_insert, E. split; intros _; by eexists.
  - by rewrite lookup_insert_ne.
Qed.
Lemma update_items_ok l : ∀ st, (∀ k, k ∈ l.*1 → is_Some (items st !! k)) → (update_items l st).2 = true.
Proof.
  induction l as [|[k0 j0] l IH]; intros st H; cbn [update_items fst snd]; [done|]. destruct (H k0 ltac:(left)) as [j E]. rewrite E.
  apply IH. intros k Hk. destruct (H k ltac:(by right)) as [j' E']. destruct st as [lv cp rt rg en it rp]. cbn in *. destruct (decide (k = k0)) as [->|Hne].
  - rewrite lookup_insert. by eexists.
  - rewrite lookup_insert_ne by done. by eexists.
Qed.
Lemma add_items_in l : ∀ st k j, items (fold_left add_item l st) !! k = Some j → items st !! k = Some j ∨ (items st !! k = None ∧ (k, j) ∈ l).
Proof.
  induction l as [|[k0 j0] l IH]; intros st k j; cbn [fold_left]; [auto|]. intros [H|[Hn H]]%IH; unfold add_item in *; cbn [fst snd] in *.
  - destruct (items st !! k0) eqn:E; [auto|]. destruct st as [lv cp rt rg en it rp]. cbn in *. destruct (decide (k = k0)) as [->|Hne].
    + rewrite lookup_insert in H. injection H as <-. right. split; [done|left].
    + rewrite lookup_insert_ne in H by done. auto.
  - destruct (items st !! k0) eqn:E; [right; split; [done|by right]|]. destruct st as [lv cp rt rg en it rp]. cbn in *. right. split; [|by right].
    destruct (decide (k = k0)) as [->|Hne]; [done|]. by rewrite lookup_insert_ne in Hn.
Qed.
Lemma add_items_keep l : ∀ st k j, items st !! k = Some j → items (fold_left add_item l st) !! k = Some j.
Proof.
  induction l as [|[k0 j0] l IH]; intros st k j H; cbn [fold_left]; [done|]. apply IH. unfold add_item. cbn [fst snd]. destruct (items st !! k0) eqn:E; [done|].
  destruct st as [lv cp rt rg en it rp]. cbn in *. rewrite lookup_insert_ne; [done|]. congruence.
Qed.
Lemma add_items_some l : ∀ st k, k ∈ l.*1 → is_Some (items (fold_left add_item l st) !! k).
Proof.
  induction l as [|[k0 j0] l IH]; intros st k; cbn [fold_left]; [by intros ?%elem_of_nil|]. cbn. intros [->|H]%elem_of_cons; [|by apply IH].
  destruct (items st !! k0) as [j|] eqn:E.
  - exists j. apply add_items_keep. unfold add_item. cbn [fst]. by rewrite E.
  - exists j0. apply add_items_keep. unfold add_item. cbn [fst]. rewrite E. destruct st as [lv cp rt rg en it rp]. cbn. apply lookup_insert.
Qed.
Lemma enqueue_items st l : items (enqueue st l) = items (fold_left add_item l st).
Proof. unfold enqueue. by destruct (fold_left add_item l st). Qed.
Lemma enqueue_rpl st l : rpl (enqueue st l) = fold_left (λ m kj, rpl_add m (j_rg kj.2) kj.1) l (rpl st).
Proof. unfold enqueue. by destruct (fold_left add_item l st). Qed.
(** * The server's lookup *)
Lemma rpl_add_in m rg k g x : x ∈ rpl_values (rpl_add m rg k) g ↔ x ∈ rpl_values m g ∨ (g = rg ∧ x = k).
Proof.
  unfold rpl_values, rpl_add. destruct (decide (g = rg)) as [->|Hne].
  - rewrite lookup_insert. cbn. destruct (decide (k ∈ default [] (m !! rg))) as [Hk|Hk].
    + split; [auto|]. intros [?|[_ ->]]; done.
    + rewrite elem_of_app, elem_of_list_singleton. split; intros [?|?]; auto. destruct H; auto.
  - rewrite lookup_insert_ne by done. split; [auto|]. intros [?|[? _]]; done.
Qed.
Lemma rpl_delete_in m rg k g x : x ∈ rpl_values (rpl_delete m rg k) g ↔ x ∈ rpl_values m g ∧ ¬ (g = rg ∧ x = k).
Proof.
  unfold rpl_values, rpl_delete. destruct (m !! rg) as [ks|] eqn:E.
  - destruct (decide (g = rg)) as [->|Hne].
    + rewrite lookup_insert, E. cbn. rewrite elem_of_list_In, filter_In, <- elem_of_list_In, negb_true_iff, bool_decide_eq_false. split.
      * intros [? ?]. split; [done|]. intros [_ ?]. done.
      * intros [? Hn]. split; [done|]. intros ->. by apply Hn.
    + rewrite lookup_insert_ne by done. split; [intros ?; split; [done|]; intros [? _]; done|by intros [? _]].
  - split; [|by intros [? _]]. intros H. split; [done|]. intros [-> ->]. rewrite E in H. by apply elem_of_nil in H.
Qed.
Lemma rpl_adds_in l : ∀ m g x, x ∈ rpl_values (fold_left (λ m (kj : string * rjob), rpl_add m (j_rg kj.2) kj.1) l m) g ↔
  x ∈ rpl_values m g ∨ ∃ j, (x, j) ∈ l ∧ j_rg j = g.
Proof.
  induction l as [|[k j] l IH]; intros m g x; cbn [fold_left fst snd].
  - split; [auto|]. intros [?|(? & H & _)]; [done|]. by apply elem_of_nil in H.
  - rewrite IH, rpl_add_in. split.
    + intros [[?|[-> ->]]|(j' & ? & ?)]; [auto| |].
      * right. exists j. split; [left|done].
      * right. exists j'. split; [by right|done].
    + intros [?|(j' & [E|?]%elem_of_cons & Hg)]; [auto| |right; eauto].
      injection E as -> ->. left. right. auto.
Qed.
Lemma rpl_nodup_add m rg k g : (∀ g, NoDup (rpl_values m g)) → NoDup (rpl_values (rpl_add m rg k) g).
Proof.
  intros H. unfold rpl_values, rpl_add. destruct (decide (g = rg)) as [->|Hne]; [|rewrite lookup_insert_ne by done; apply H].
  rewrite lookup_insert. cbn. specialize (H rg). unfold rpl_values in H. destruct (decide _) as [Hk|Hk]; [done|].
  apply NoDup_app. split_and!; [done| |apply NoDup_singleton]. intros x Hx ->%elem_of_list_singleton. done.
Qed.
Lemma rpl_nodup_delete m rg k g : (∀ g, NoDup (rpl_values m g)) → NoDup (rpl_values (rpl_delete m rg k) g).
Proof.
  intros H. unfold rpl_delete. destruct (m !! rg) as [ks|] eqn:E; [|apply H]. unfold rpl_values. destruct (decide (g = rg)) as [->|Hne]; [|rewrite lookup_insert_ne by done; apply H].
  rewrite lookup_insert. cbn. specialize (H rg). unfold rpl_values in H. rewrite E in H. cbn in H. apply NoDup_ListNoDup in H. apply NoDup_ListNoDup. by apply List.NoDup_filter.
Qed.
Lemma rpl_nodup_adds l : ∀ m, (∀ g, NoDup (rpl_values m g)) → ∀ g, NoDup (rpl_values (fold_left (λ m (kj : string * rjob), rpl_add m (j_rg kj.2) kj.1) l m) g).
Proof. induction l as [|[k j] l IH]; intros m H g; cbn [fold_left]; [apply H|]. apply IH. intros g'. by apply rpl_nodup_add. Qed.
(** * Where items come from *)
Lemma to_update_in st deps k j : (k, j) ∈ to_update st deps → live st !! k = Some j.
Proof. unfold to_update. intros (k0 & _ & H)%elem_of_list_omap. destruct (live st !! k0) eqn:E; [|done]. cbn in H. injection H as -> ->. done. Qed.
Lemma again_in st new deps k j : (k, j) ∈ again st new deps → live st !! k = None ∧ comp st !! k = Some j ∧ k ∉ new.*1 ∧ k ∈ deps.
Proof.
  unfold again. intros (k0 & Hd & H)%elem_of_list_omap. destruct (live st !! k0) eqn:E; [done|]. destruct (decide _) as [Hin|Hin]; [done|].
  destruct (comp st !! k0) eqn:Ec; [|done]. cbn in H. injection H as -> ->. done.
Qed.
Lemma queued_in st i jobs deps k j :
  (k, j) ∈ match again st (kept i st jobs) deps with [] => kept i st jobs | _ => again st (kept i st jobs) deps ++ jobs end →
  (k, j) ∈ jobs ∨ (live st !! k = None ∧ comp st !! k = Some j).
Proof.
  destruct (again _ _ _) as [|a l] eqn:E; [intros H; left; by apply kept_sub in H|]. rewrite <- E. intros [H|H]%elem_of_app; [right|by left].
  apply again_in in H as (? & ? & _). done.
Qed.
Lemma add_source i jobs deps st k j : items (add_jobs i jobs deps st).1 !! k = Some j →
  items st !! k = Some j ∨ live st !! k = Some j ∨ comp st !! k = Some j ∨ (k, j) ∈ jobs.
Proof.
  rewrite add_unfold. cbv zeta. destruct (bool_decide _); [auto|].
  assert (items (stored_st st (kept i st jobs) (again st (kept i st jobs) deps)) = items st) as Hi by (by destruct st).
  destruct (put_lookups (rtk st) _); [|cbn [fst]; rewrite Hi; auto]. destruct (put_lookups (rgs st) _); [|cbn [fst]; rewrite Hi; auto].
  destruct (update_items _ _) as [st2 ok] eqn:E.
  assert (items st2 !! k = Some j → items st !! k = Some j ∨ live st !! k = Some j ∨ comp st !! k = Some j ∨ (k, j) ∈ jobs) as H2.
  { intros H. pose proof (update_items_in (to_update st deps) (stored_st st (kept i st jobs) (again st (kept i st jobs) deps)) k j) as Hu.
    rewrite E in Hu. destruct (Hu H) as [H'|H']; [rewrite Hi in H'; auto|]. apply to_update_in in H'. auto. }
  destruct ok; [|exact H2]. cbn [fst]. rewrite enqueue_items. intros [H|[_ H]]%add_items_in; [auto|]. apply queued_in in H as [?|[_ ?]]; auto.
Qed.
Lemma restart_items st : items (restart st) = live st.
Proof.
  unfold restart. rewrite enqueue_items. apply map_eq. intros k. destruct (live st !! k) as [j|] eqn:E.
  - assert (k ∈ (map_to_list (live st)).*1) as Hk. { apply elem_of_list_fmap. exists (k, j). split; [done|]. by apply elem_of_map_to_list. }
    destruct (add_items_some (map_to_list (live st)) (st <| items := ∅ |> <| rpl := ∅ |>) k Hk) as [j' E'].
    rewrite E'. apply add_items_in in E' as [H|[_ H]]; [destruct st; cbn in H; by rewrite lookup_empty in H|]. apply elem_of_map_to_list in H. congruence.
  - destruct (items (fold_left add_item (map_to_list (live st)) _) !! k) as [j|] eqn:E'; [|done].
    apply add_items_in in E' as [H|[_ H]]; [destruct st; cbn in H; by rewrite lookup_empty in H|]. apply elem_of_map_to_list in H. congruence.
Qed.
Lemma restart_only st : only_items st (restart st).
Proof. unfold restart. eapply only_items_trans; [|apply enqueue_only]. by destruct st. Qed.
Lemma restart_rpl st g x : x ∈ rpl_values (rpl (restart st)) g ↔ ∃ j, live st !! x = Some j ∧ j_rg j = g.
Proof.
  unfold restart. rewrite enqueue_rpl, rpl_adds_in. split.
  - intros [H|(j & H%elem_of_map_to_list & Hg)]; [|eauto]. destruct st. cbn in H. unfold rpl_values in H. rewrite lookup_empty in H. by apply elem_of_nil in H.
  - intros (j & H & Hg). right. exists j. by rewrite elem_of_map_to_list.
Qed.

(** * The notes are what the lookups hold *)
Definition lim : nat := (2 ^ 15)%nat.
Lemma storable_iff s : storable s = true ↔ (0 < String.length s)%nat ∧ (String.length s ≤ lim)%nat.
Proof. unfold storable. rewrite bool_decide_eq_true. done. Qed.
Lemma storable_lookup g k : String.length k = 32%nat → storable (lookup_key g k) = bool_decide (String.length g + 36 ≤ lim)%nat.
Proof.
  intros Hk. apply eq_true_iff_eq. rewrite storable_iff, bool_decide_eq_true, lookup_key_length, Hk. lia.
Qed.
Record tinv (st : rstate) (P : gset (string * string)) : Prop := {
  t_rtk : ∀ s v, rtk st !! s = Some v ↔ v = 0 ∧ ∃ g k, (g, k) ∈ P ∧ s = lookup_key g k;
  t_P : ∀ g k, (g, k) ∈ P → String.length k = 32%nat;
  t_live : ∀ k j, live st !! k = Some j → String.length k = 32%nat;
  t_comp : ∀ k j, comp st !! k = Some j → String.length k = 32%nat;
  t_items : ∀ k j, items st !! k = Some j → String.length k = 32%nat }.
Lemma tinv_empty : tinv rempty ∅.
Proof.
  split; cbn; [|set_solver|..]; try (intros k j; by rewrite lookup_empty).
  intros s v. rewrite lookup_empty. split; [done|]. intros (_ & g & k & H & _). set_solver.
Qed.
Lemma tinv_frame st st' P : rtk st' = rtk st → (∀ k, is_Some (live st' !! k) → is_Some (live st !! k) ∨ is_Some (items st !! k)) →
  (∀ k, is_Some (comp st' !! k) → is_Some (comp st !! k) ∨ is_Some (items st !! k)) →
  (∀ k, is_Some (items st' !! k) → is_Some (items st !! k) ∨ is_Some (live st !! k)) → tinv st P → tinv st' P.
Proof.
  intros E Hl Hc Hi H. split.
  - intros s v. rewrite E. apply (t_rtk _ _ H).
  - apply (t_P _ _ H).
  - intros k j Hk. destruct (Hl k ltac:(by eexists)) as [[j' ?]|[j' ?]]; [by apply (t_live _ _ H k j')|by apply (t_items _ _ H k j')].
  - intros k j Hk. destruct (Hc k ltac:(by eexists)) as [[j' ?]|[j' ?]]; [by apply (t_comp _ _ H k j')|by apply (t_items _ _ H k j')].
  - intros k j Hk. destruct (Hi k ltac:(by eexists)) as [[j' ?]|[j' ?]]; [by apply (t_items _ _ H k j')|by apply (t_live _ _ H k j')].
Qed.
Lemma forallb_storable new : (∀ kj, kj ∈ new → String.length kj.1 = 32%nat) →
  forallb storable (tkeys new) = forallb (λ kj : string * rjob, bool_decide (String.length (j_rg kj.2) + 36 ≤ 2 ^ 15)%nat) new.
Proof.
  intros H. induction new as [|kj new IH]; [done|]. cbn [tkeys fmap list_fmap forallb]. f_equal; [|apply IH; intros kj' ?; apply H; by right].
  apply storable_lookup. apply H. left.
Qed.
Lemma tinv_add i jobs deps st P : tinv st P → keyed (RAdd i jobs deps) → tinv (add_jobs i jobs deps st).1 (notes st P (RAdd i jobs deps)).
Proof.
  intros H Hk. unfold notes. cbv zeta. rewrite <- kept_eq.
  assert (∀ kj, kj ∈ jobs → String.length kj.1 = 32%nat) as Hlen by (intros kj ?; apply key_length; by apply (Hk kj)).
  destruct (decide (kept i st jobs = [])) as [En|Hn].
  { rewrite add_nil, En by done. cbn. replace (P ∪ ∅) with P by set_solver. done. }
  pose proof (add_fields i jobs deps st Hn) as (El & Ec & Er & _ & _).
  assert (∀ kj, kj ∈ kept i st jobs → String.length kj.1 = 32%nat) as Hlen' by (intros kj ?%kept_sub; by apply Hlen).
  rewrite <- forallb_storable by done. split.
  - intros s v. rewrite Er. replace (rtk (stored_st st (kept i st jobs) (again st (kept i st jobs) deps))) with (default (rtk st) (put_lookups (rtk st) (tkeys (kept i st jobs)))) by (by destruct st).
    unfold put_lookups. destruct (forallb storable (tkeys (kept i st jobs))) eqn:E; [|apply (t_rtk _ _ H)].
    cbn [from_option id]. rewrite put_fold. rewrite (t_rtk _ _ H). split.

    + intros [[Hs ->]|[_ (-> & g & k & ? & ?)]]; (split; [done|]).
      * apply elem_of_list_fmap in Hs as ([k j] & -> & Hin). exists (j_rg j), k. split; [|done]. apply elem_of_union. right. apply elem_of_list_to_set. apply elem_of_list_fmap. by exists (k, j).
      * exists g, k. split; [|done]. apply elem_of_union. by left.
    + intros (-> & g & k & [HP|HP]%elem_of_union & ->).
      * destruct (decide (lookup_key g k ∈ tkeys (kept i st jobs))); [by left|right]. split; [done|]. eauto.
      * left. split; [|done]. apply elem_of_list_to_set, elem_of_list_fmap in HP as ([k' j] & E' & Hin). injection E' as -> ->. apply elem_of_list_fmap. by exists (k', j).
  - intros g k. destruct (forallb storable _); [|apply (t_P _ _ H)]. intros [?|HP]%elem_of_union; [by apply (t_P _ _ H g)|].
    apply elem_of_list_to_set, elem_of_list_fmap in HP as ([k' j] & E' & Hin). injection E' as -> ->. by apply (Hlen' (k', j)).
  - intros k j. rewrite El. replace (live (stored_st st (kept i st jobs) (again st (kept i st jobs) deps))) with (put_jobs (live st) (kept i st jobs ++ again st (kept i st jobs) deps)) by (by destruct st).
    intros [[Hin|Hin]%elem_of_app|[_ ?]]%put_jobs_lookup; [by apply (Hlen' (k, j))| |by apply (t_live _ _ H k j)].
    apply again_in in Hin as (_ & ? & _). by apply (t_comp _ _ H k j).
  - intros k j. rewrite Ec. replace (comp (stored_st st _ _)) with (comp st) by (by destruct st). apply (t_comp _ _ H).
  - intros k j [?|[?|[?|?]]]%add_source; [by apply (t_items _ _ H k j)|by apply (t_live _ _ H k j)|by apply (t_comp _ _ H k j)|by apply (Hlen (k, j))].
Qed.
Lemma has_suffix_lookup o g k : String.length o = String.length k → has_suffix (delimiter +:+ o) (lookup_key g k) = bool_decide (k = o).
Proof.
  intros Hl. apply eq_true_iff_eq. rewrite has_suffix_spec, bool_decide_eq_true. unfold lookup_key. split.
  - intros [a E]. rewrite <- !app_assoc_s in E. apply app_inj_same in E as [_ ?]; done.
  - intros ->. by exists g.
Qed.
Lemma tinv_modify o n st P : tinv st P → keyed (RModify o n) → tinv (modify o n st) (notes st P (RModify o n)).
Proof.
  intros H Hk. cbn in Hk. apply key_length in Hk. unfold modify, notes. destruct (items st !! o) as [j|] eqn:E; [|done].
  pose proof (t_items _ _ H o j E) as Ho.
  assert (bool_decide (o ≠ n) && match items st !! n with Some _ => true | None => false end = negb (bool_decide (o = n ∨ items st !! n = None))) as ->.
  { destruct (decide (o = n)) as [->|Hne]; [rewrite bool_decide_false by (intros ?; done); rewrite bool_decide_true by auto; done|].
    rewrite bool_decide_true by done. cbn. destruct (items st !! n); [rewrite bool_decide_false by (intros [?|?]; done)|rewrite bool_decide_true by auto]; done. }
  destruct (bool_decide (o = n ∨ items st !! n = None)) eqn:Eb; [|done]. cbn [negb andb].
  set (st1 := if bool_decide (o = n) then st else _).
  assert (rtk st1 = rtk st ∧ live st1 = live st ∧ comp st1 = comp st ∧ ∀ k, is_Some (items st1 !! k) → is_Some (items st !! k) ∨ k = n) as (Hr & Hl & Hc & Hi).
  { unfold st1. destruct (bool_decide (o = n)); [split_and!; auto|]. clear st1. destruct st as [lv cp rt rg en it rp]. cbn. split_and!; [done|done|done|].
    intros k. destruct (decide (k = n)) as [->|Hne]; [auto|]. rewrite lookup_insert_ne by done. intros [j' [_ ?]%lookup_delete_Some]. left. by eexists. }
  assert (tinv st1 P) as H1.
  { split.
    - intros s v. rewrite Hr. apply (t_rtk _ _ H).
    - apply (t_P _ _ H).
    - rewrite Hl. apply (t_live _ _ H).
    - rewrite Hc. apply (t_comp _ _ H).
    - intros k j' Hk'. destruct (Hi k ltac:(by eexists)) as [[j'' ?]| ->]; [by apply (t_items _ _ H k j'')|done]. }
  unfold put_lookups. cbn [forallb]. rewrite storable_lookup by done. rewrite !andb_true_r.
  destruct (bool_decide (String.length (j_rg j) + 36 ≤ lim)%nat) eqn:E1.
  2:{ rewrite bool_decide_false; [done|]. apply bool_decide_eq_false in E1. intros [_ ?]. done. }
  apply bool_decide_eq_true in E1. destruct (storable (j_rg j)) eqn:E2.
  2:{ rewrite bool_decide_false; [done|]. intros [? _]. assert (storable (j_rg j) = true) as E3; [|congruence]. apply storable_iff. split; [done|]. lia. }
  rewrite bool_decide_true. 2:{ apply storable_iff in E2 as [? _]. by split. }
  cbn [fold_left].
  assert (∀ x : bucket, rtk (st1 <| rtk := x |> <| rgs := <[j_rg j:=0]> (rgs st) |> <| live ::= λ m, <[n:=j]> (delete o m) |>) = x) as Er by (intros x; by destruct st1).
  assert (∀ x : bucket, live (st1 <| rtk := x |> <| rgs := <[j_rg j:=0]> (rgs st) |> <| live ::= λ m, <[n:=j]> (delete o m) |>) = <[n:=j]> (delete o (live st))) as El by (intros x; rewrite <- Hl; by destruct st1).
  assert (∀ x : bucket, comp (st1 <| rtk := x |> <| rgs := <[j_rg j:=0]> (rgs st) |> <| live ::= λ m, <[n:=j]> (delete o m) |>) = comp st1) as Ec by (intros x; by destruct st1).
  assert (∀ x : bucket, items (st1 <| rtk := x |> <| rgs := <[j_rg j:=0]> (rgs st) |> <| live ::= λ m, <[n:=j]> (delete o m) |>) = items st1) as Ei by (intros x; by destruct st1).
  split.
  - intros s v. rewrite Er. clear Er El Ec Ei. destruct (decide (s = lookup_key (j_rg j) n)) as [->|Hne].
    + rewrite lookup_insert. split; [intros [= <-]; split; [done|]; exists (j_rg j), n; set_solver|]. by intros [-> _].
    + rewrite lookup_insert_ne by done. rewrite map_filter_lookup_Some. cbn. rewrite (t_rtk _ _ H). split.
      * intros [(-> & g & k & HP & ->) Hs]. split; [done|]. exists g, k. split; [|done]. apply elem_of_union. right. apply elem_of_filter. split; [|done]. cbn.
        pose proof (t_P _ _ H g k HP) as Hlk. rewrite has_suffix_lookup in Hs by congruence. apply bool_decide_eq_false in Hs. done.
      * intros (-> & g & k & [HP|HP]%elem_of_union & ->).
        { apply elem_of_singleton in HP. injection HP as -> ->. done. }
        apply elem_of_filter in HP as [Hko HP]. cbn in Hko. split; [eauto|]. pose proof (t_P _ _ H g k HP) as Hlk. rewrite has_suffix_lookup by congruence. by apply bool_decide_eq_false.
  - intros g k [HP|HP]%elem_of_union; [apply elem_of_singleton in HP; injection HP as -> ->; done|]. apply elem_of_filter in HP as [_ HP]. by apply (t_P _ _ H g).
  - intros k j'. rewrite El. destruct (decide (k = n)) as [->|Hne]; [done|]. rewrite lookup_insert_ne by done. intros [_ ?]%lookup_delete_Some. by apply (t_live _ _ H k j').
  - intros k j'. rewrite Ec. apply (t_comp _ _ H1).
  - intros k j'. rewrite Ei. apply (t_items _ _ H1).
Qed.
Lemma tinv_step st P r : tinv st P → keyed r → tinv (rstep st r) (notes st P r).
Proof.
  intros H Hk. destruct r as [i jobs deps|k s e|ks|o n|]; cbn [rstep].
  - by apply tinv_add.
  - cbn [notes]. unfold archive. destruct (items st !! k) as [j|] eqn:E; [|done]. destruct (storable (j_rg j)); cbn [fst].
    + apply (tinv_frame st); [by destruct st|..|done]; destruct st as [lv cp rt rg en it rp]; cbn in *; intros k'.
      * intros [? [_ ?]%lookup_delete_Some]. left. by eexists.
      * destruct (decide (k' = k)) as [->|Hne]; [intros _; right; by eexists|]. rewrite lookup_insert_ne by done. auto.
      * intros [? [_ ?]%lookup_delete_Some]. left. by eexists.
    + apply (tinv_frame st); [by destruct st|..|done]; destruct st as [lv cp rt rg en it rp]; cbn in *; intros k'; auto.
      destruct (decide (k' = k)) as [->|Hne]; [intros _; left; by eexists|]. rewrite lookup_insert_ne by done. auto.
  - destruct (delete_jobs_fields ks st) as (A & B & _ & _ & D & E). cbn [notes]. apply (tinv_frame st); [done|..|done]; intros k'.
    + rewrite E. destruct (decide _); [by intros [? ?]|]. auto.
    + rewrite A. auto.
    + rewrite D. destruct (decide _); [by intros [? ?]|]. auto.
  - by apply tinv_modify.
  - destruct (restart_only st) as (A & B & C & _). cbn [notes]. apply (tinv_frame st); [done|..|done]; intros k'.
    + rewrite A. auto.
    + rewrite B. auto.
    + rewrite restart_items. auto.
Qed.
Lemma tinv_run h : ∀ st P, tinv st P → along (λ _ r, keyed r) h st → tinv (rrun h st) (noted h st P).
Proof. induction h as [|r h IH]; intros st P H Ha; [done|]. destruct Ha as [Hk Ha]. unfold rrun. cbn [fold_left noted]. apply IH; [by apply tinv_step|done]. Qed.

(** * What is listed *)
Lemma db_complete_in st P g k j : tinv st P → (k, j) ∈ db_complete st g ↔ (g, k) ∈ P ∧ comp st !! k = Some j ∧ live st !! k = None.
Proof.
  intros H. unfold db_complete. cbv zeta. destruct (met_entries (rtk st) (g +:+ delimiter)) as (_ & _ & Hin). rewrite elem_of_list_omap. split.
  - intros (e & He & Hx). apply Hin in He as [He Hp]. destruct e as [s v]. cbn [fst snd] in *. apply prefix_spec in Hp as [t ->].
    rewrite drop_prefix_app in Hx. destruct (comp st !! t) as [j'|] eqn:Ec; [|done]. destruct (live st !! t) eqn:El; [done|]. injection Hx as -> ->.
    apply (t_rtk _ _ H) in He as (_ & g' & k' & HP & E). rewrite app_assoc_s in E.
    apply lookup_key_inj in E as [-> ->]; [done|]. rewrite (t_comp _ _ H k j Ec). symmetry. by apply (t_P _ _ H g').
  - intros (HP & Hc & Hl). exists (lookup_key g k, 0). split.
    + apply Hin. cbn. split; [apply (t_rtk _ _ H); eauto|]. apply prefix_spec. exists k. unfold lookup_key. by rewrite app_assoc_s.
    + cbn [fst snd]. unfold lookup_key. rewrite <- app_assoc_s, drop_prefix_app, Hc, Hl. done.
Qed.
Lemma db_complete_nodup st P g : tinv st P → NoDup (db_complete st g).*1.
Proof.
  intros H. unfold db_complete. cbv zeta. destruct (met_entries (rtk st) (g +:+ delimiter)) as (_ & Hn & Hin).
  revert Hn Hin. generalize (while_prefix (g +:+ delimiter) (seek (g +:+ delimiter) (entries (rtk st)))). intros l Hn Hin.
  assert (∀ e, e ∈ l → ∃ t, e.1 = (g +:+ delimiter) +:+ t) as Hp by (intros e He; apply Hin in He as [_ Hp]; by apply prefix_spec).
  clear Hin. induction l as [|e l IH]; [constructor|]. cbn in Hn. apply NoDup_cons in Hn as [Hn1 Hn]. cbn [omap list_omap].
  destruct (Hp e ltac:(left)) as [t Et]. rewrite Et, drop_prefix_app. assert (∀ e, e ∈ l → ∃ t, e.1 = (g +:+ delimiter) +:+ t) as Hp' by (intros e' ?; apply Hp; by right).
  specialize (IH Hn Hp'). destruct (comp st !! t) as [j|]; [|exact IH]. destruct (live st !! t); [exact IH|]. cbn. apply NoDup_cons. split; [|exact IH].
  intros ([k' j'] & -> & Hx)%elem_of_list_fmap. cbn in *. apply elem_of_list_omap in Hx as (e' & He' & Hx). destruct (Hp' e' He') as [t' Et']. rewrite Et', drop_prefix_app in Hx.
  destruct (comp st !! t'); [|done]. destruct (live st !! t'); [done|]. injection Hx as -> ->. apply Hn1. rewrite Et, <- Et'. by apply elem_of_list_fmap_1.
Qed.
Global Instance time_le_trans : Transitive time_le.
Proof. intros a b c. unfold time_le. lia. Qed.
Global Instance time_le_total : Total time_le.
Proof. intros a b. unfold time_le. lia. Qed.
Lemma complete_by_rg_sorted st g : StronglySorted time_le (complete_by_rg st g).
Proof. apply (StronglySorted_merge_sort _). Qed.
Lemma complete_by_rg_in st P g k j : tinv st P → (k, j) ∈ complete_by_rg st g ↔
  (g, k) ∈ P ∧ live st !! k = None ∧ ∃ j0, comp st !! k = Some j0 ∧ j = RJob g (j_start j0) (j_end j0).
Proof.
  intros H. unfold complete_by_rg. rewrite merge_sort_Permutation, elem_of_list_fmap. split.
  - intros ([k' j'] & E & (HP & Hc & Hl)%(db_complete_in st P g k' j' H)). injection E as -> ->. split; [done|]. split; [done|]. exists j'. by destruct j'.
  - intros (HP & Hl & j0 & Hc & ->). exists (k, j0). split; [by destruct j0|]. by apply (db_complete_in st P).
Qed.
Lemma complete_by_rg_nodup st P g : tinv st P → NoDup (complete_by_rg st g).*1.
Proof.
  intros H. unfold complete_by_rg. rewrite merge_sort_Permutation, <- list_fmap_compose.
  replace ((fst ∘ λ kj : string * rjob, (kj.1, kj.2 <| j_rg := g |>)) <$> db_complete st g) with ((db_complete st g).*1) by (by apply list_fmap_ext).
  by apply (db_complete_nodup st P).
Qed.
