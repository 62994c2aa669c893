(** ChangeKey, Remove, Destroy *)
From Coq Require Import ZArith Lia String.
From stdpp Require Import base option strings gmap list.
From RecordUpdate Require Import RecordSet.
From Verif Require Import GoHeap GoHeapProofs QueueModel QueueCore QueueInv QueueInvAdd.
Import RecordSetNotations.
Open Scope Z_scope.

(** ** ChangeKey *)
Lemma map_fold_alter (f : item → item) (o : gmap nat item) (m : gmap key nat) :
  (∀ k1 k2 y, m !! k1 = Some y → m !! k2 = Some y → k1 = k2) →
  ∀ y, map_fold (λ _ x o, alter f x o) o m !! y =
       if decide (y ∈ (map_to_list m).*2) then f <$> o !! y else o !! y.
Proof.
  set (P := λ (o' : gmap nat item) (m : gmap key nat),
    (∀ k1 k2 y, m !! k1 = Some y → m !! k2 = Some y → k1 = k2) →
    ∀ y, o' !! y = if decide (y ∈ (map_to_list m).*2) then f <$> o !! y else o !! y).
  change (P (map_fold (λ (_ : key) x o, alter f x o) o m) m).
  apply (map_fold_ind P); unfold P; clear P.
  - intros _ y. rewrite map_to_list_empty. done.
  - intros k x m' o' Hk IH Hinj y.
    assert (Hinj' : ∀ k1 k2 y, m' !! k1 = Some y → m' !! k2 = Some y → k1 = k2).
    { intros k1 k2 z H1 H2. eapply Hinj; rewrite lookup_insert_ne; try done; congruence. }
    specialize (IH Hinj').
    assert (Hin : ∀ y, y ∈ (map_to_list (<[k:=x]> m')).*2 ↔ y = x ∨ y ∈ (map_to_list m').*2).
    { intros z. rewrite (map_to_list_insert m' k x Hk). by rewrite fmap_cons, elem_of_cons. }
    assert (Hx : x ∉ (map_to_list m').*2).
    { intros ([k' x'] & -> & Hk')%elem_of_list_fmap. apply elem_of_map_to_list in Hk'. simpl in *.
      assert (k = k') as ->. { eapply (Hinj _ _ x'); [apply lookup_insert|]. rewrite lookup_insert_ne; [done|congruence]. }
      congruence. }
    destruct (decide (y = x)) as [->|Hne].
    + rewrite lookup_alter, IH. rewrite (decide_False (P:=x ∈ (map_to_list m').*2)) by done.
      by rewrite decide_True by (apply Hin; by left).
    + rewrite lookup_alter_ne by done. rewrite IH. apply decide_ext. rewrite Hin. naive_solver.
Qed.

Definition rekey (old new : key) (it : item) : item :=
  if decide (ist it = SRemoved) then it else changed_key old new it.

Lemma changed_key_ist old new it : ist (changed_key old new it) = ist it.
Proof. unfold changed_key. by case_decide. Qed.
Lemma changed_key_group old new it : igroup (changed_key old new it) = igroup it.
Proof. unfold changed_key. by case_decide. Qed.
Lemma changed_key_key old new it :
  ikey (changed_key old new it) = if decide (ikey it = old) then new else ikey it.
Proof. unfold changed_key. by case_decide. Qed.
Lemma rekey_loc old new it : loc_of (rekey old new it) = loc_of it.
Proof.
  unfold rekey. case_decide; [done|]. unfold loc_of.
  by rewrite changed_key_ist, changed_key_group.
Qed.
Lemma rekey_same old new it l : samekey l it (rekey old new it).
Proof.
  unfold rekey. case_decide; [apply samekey_refl|]. unfold changed_key. case_decide; by destruct l.
Qed.

Lemma rename_dependants_range old new d d' m k y :
  rename_dependants old new d !! d' = Some m → m !! k = Some y →
  ∃ d0 m0 k0, d !! d0 = Some m0 ∧ m0 !! k0 = Some y.
Proof.
  unfold rename_dependants. rewrite lookup_fmap. intros Hm Hk.
  destruct (match d !! old with None => d | Some v => <[new := v]> (delete old d) end !! d') as [m1|] eqn:E; [|done].
  simpl in Hm. injection Hm as <-.
  assert (∃ d0, d !! d0 = Some m1) as (d0 & Hd0).
  { destruct (d !! old) eqn:Eo; [|by eauto].
    apply lookup_insert_Some in E as [[_ <-]|[_ E]]; [by eauto|].
    apply lookup_delete_Some in E as [_ E]. eauto. }
  assert (∃ k0, m1 !! k0 = Some y) as (k0 & Hk0).
  { destruct (m1 !! old) eqn:Eo; [|by eauto].
    apply lookup_insert_Some in Hk as [[_ <-]|[_ Hk]]; [by eauto|].
    apply lookup_delete_Some in Hk as [_ Hk]. eauto. }
  eauto.
Qed.

Lemma q_change_key_ok b old new x s :
  Inv b s → items s !! new = None → items s !! old = Some x →
  ∃ s', q_change_key old new s = Some (s', ROk, []) ∧ Inv b s' ∧
    objs s' = rekey old new <$> objs s ∧
    items s' = <[new := x]> (delete old (items s)) ∧
    dependants s' = rename_dependants old new (dependants s) ∧
    nextid s' = nextid s ∧ closed s' = closed s.
Proof.
  intros HI Hnew Hold. unfold q_change_key. rewrite (i_open HI), Hnew, Hold.
  set (its := <[new:=x]> (delete old (items s))).
  assert (Hlive : ∀ y, y ∈ (map_to_list its).*2 ↔
     ∃ it, objs s !! y = Some it ∧ ist it ≠ SRemoved).
  { intros y. rewrite elem_of_list_fmap. split.
    - intros ([k y'] & -> & Hk%elem_of_map_to_list). simpl.
      apply lookup_insert_Some in Hk as [[_ <-]|[_ Hk]].
      + apply (i_items HI) in Hold as (it & ? & _ & ?). eauto.
      + apply lookup_delete_Some in Hk as [_ Hk].
        apply (i_items HI) in Hk as (it & ? & _ & ?). eauto.
    - intros (it & Hy & Hr).
      assert (Hk : items s !! ikey it = Some y) by (apply (i_items HI); eauto).
      destruct (decide (ikey it = old)) as [He|Hne].
      + exists (new, y). split; [done|]. apply elem_of_map_to_list. unfold its.
        rewrite He in Hk. rewrite lookup_insert. congruence.
      + exists (ikey it, y). split; [done|]. apply elem_of_map_to_list. unfold its.
        rewrite lookup_insert_ne by congruence. by rewrite lookup_delete_ne. }
  assert (Hobj : rename_objs old new its (objs s) = rekey old new <$> objs s).
  { apply map_eq. intros y. unfold rename_objs. rewrite map_fold_alter.
    - rewrite lookup_fmap. destruct (objs s !! y) as [it|] eqn:Hy.
      + simpl. unfold rekey. destruct (decide (ist it = SRemoved)) as [Hr|Hr].
        * rewrite decide_False; [done|]. rewrite Hlive. intros (it' & ? & ?). congruence.
        * rewrite decide_True; [done|]. apply Hlive. eauto.
      + by case_decide.
    - intros k1 k2 z H1 H2.
      assert (Hone : ∀ k, its !! k = Some z → ∃ it, objs s !! z = Some it ∧
         (if decide (ikey it = old) then new else ikey it) = k).
      { intros k Hk. apply lookup_insert_Some in Hk as [[<- <-]|[Hn Hk]].
        - apply (i_items HI) in Hold as (it & Hx & Hk & _). exists it. split; [done|]. by rewrite decide_True.
        - apply lookup_delete_Some in Hk as [Ho Hk]. apply (i_items HI) in Hk as (it & Hx & Hk & _).
          exists it. split; [done|]. rewrite decide_False; congruence. }
      destruct (Hone _ H1) as (it1 & E1 & <-). destruct (Hone _ H2) as (it2 & E2 & <-).
      rewrite E1 in E2. by injection E2 as <-. }
  eexists. split; [done|]. split_and!; try done; [|by simpl; rewrite (i_open HI)].
  split; simpl; rewrite ?Hobj.
  - apply HI.
  - apply (core_ext b (s <| objs := rekey old new <$> objs s |>)); [|by intros []|done].
    eapply core_lm; [|apply core_objs; [apply HI|]].
    + intros y. rewrite !locs_lookup, lookup_fmap. destruct (objs s !! y); [|done]. simpl.
      by rewrite rekey_loc.
    + intros y l Hl. unfold obj. rewrite lookup_fmap. destruct (objs s !! y); [|by apply samekey_refl].
      simpl. apply rekey_same.
  - intros k y. unfold its. rewrite lookup_insert_Some, lookup_delete_Some, lookup_fmap. split.
    + intros [[<- <-]|[Hn [Ho Hk]]].
      * apply (i_items HI) in Hold as (it & -> & Hk & Hr). eexists. split; [done|].
        unfold rekey. rewrite decide_False by done. rewrite changed_key_key, changed_key_ist.
        by rewrite decide_True.
      * apply (i_items HI) in Hk as (it & -> & Hk & Hr). eexists. split; [done|].
        unfold rekey. rewrite decide_False by done. rewrite changed_key_key, changed_key_ist.
        rewrite decide_False; [done|congruence].
    + intros (it' & Hy & Hk & Hr). destruct (objs s !! y) as [it|] eqn:Ey; [|done].
      simpl in Hy. injection Hy as <-. unfold rekey in Hk, Hr.
      destruct (decide (ist it = SRemoved)); [done|]. rewrite changed_key_ist in Hr.
      rewrite changed_key_key in Hk.
      assert (Hit : items s !! ikey it = Some y) by (apply (i_items HI); eauto).
      destruct (decide (ikey it = old)) as [He|He].
      * left. split; [done|]. congruence.
      * right. split; [congruence|]. split; congruence.
  - intros y. rewrite lookup_fmap, fmap_is_Some. apply HI.
  - intros d m k y Hd Hk. rewrite lookup_fmap, fmap_is_Some.
    destruct (rename_dependants_range _ _ _ _ _ _ _ Hd Hk) as (d0 & m0 & k0 & H1 & H2).
    by eapply (i_deps HI).
Qed.

(** ** Remove *)
Definition vals (m : gmap key nat) : list nat := (map_to_list m).*2.
Lemma elem_of_vals m y : y ∈ vals m ↔ ∃ k, m !! k = Some y.
Proof.
  unfold vals. rewrite elem_of_list_fmap. split.
  - intros ([k y'] & -> & Hk%elem_of_map_to_list). eauto.
  - intros (k & Hk). exists (k, y). split; [done|]. by apply elem_of_map_to_list.
Qed.
Lemma elem_of_arrange ord m y : y ∈ arrange ord m ↔ y ∈ vals m.
Proof.
  unfold arrange. rewrite elem_of_app, elem_of_list_omap, elem_of_list_fmap, elem_of_vals. split.
  - intros [(k & _ & Hk)|([k y'] & -> & Hk%elem_of_map_to_list)]; [by eauto|].
    apply map_filter_lookup_Some in Hk as [Hk _]. eauto.
  - intros (k & Hk). destruct (decide (k ∈ ord)) as [Ho|Ho].
    + left. exists k. split; [by apply elem_of_remove_dups|done].
    + right. exists (k, y). split; [done|]. apply elem_of_map_to_list.
      by apply map_filter_lookup_Some.
Qed.

Definition resolve (k : key) (it : item) : item :=
  let it := it <| iremain := iremain it ∖ {[k]} |> in
  if bool_decide (ist it = SDep) && bool_decide (iremain it = ∅)
  then switch_dependent_ready it else it.
Definition freed (k : key) (it : item) : Prop := ist it = SDep ∧ iremain it ∖ {[k]} = ∅.
Global Instance freed_dec k it : Decision (freed k it).
Proof. apply _. Defined.
Lemma resolve_cases k it :
  resolve k it = it <| iremain := iremain it ∖ {[k]} |> <| ist := if decide (freed k it) then SReady else ist it |>.
Proof.
  unfold resolve. cbn [ist iremain set].
  destruct (decide (freed k it)) as [[Hs He]|Hn].
  - simpl. rewrite !bool_decide_true by done. done.
  - destruct (bool_decide _ && bool_decide _) eqn:E; [|by destruct it].
    apply andb_true_iff in E as [E1%bool_decide_eq_true E2%bool_decide_eq_true].
    destruct Hn. by split.
Qed.
Lemma resolve_idem k it : resolve k (resolve k it) = resolve k it.
Proof.
  rewrite !resolve_cases. destruct (decide (freed k it)) as [Hf|Hf].
  - rewrite decide_False; [|by intros [? _]]. unfold set. simpl. f_equal. set_solver.
  - rewrite decide_False.
    + unfold set. simpl. f_equal. set_solver.
    + intros [H1 H2]. simpl in *. apply Hf. split; [done|]. set_solver.
Qed.

Lemma resolve_one_ok b k s added y :
  core b s (locs (objs s)) → is_Some (objs s !! y) →
  ∃ s', resolve_one k (Some (s, added)) y =
      Some (s', added ++ if decide (freed k (obj (objs s) y)) then [y] else []) ∧
    core b s' (locs (objs s')) ∧ objs s' = alter (resolve k) y (objs s) ∧ rest_eq s s'.
Proof.
  intros Hc [it Hy]. unfold resolve_one. cbn beta iota zeta delta [mbind option_bind].
  set (f := λ it : item, it <| iremain := iremain it ∖ {[k]} |>).
  assert (Hy1 : objs (mod_obj f y s) !! y = Some (f it)) by (simpl; by rewrite lookup_alter, Hy).
  rewrite Hy1. rewrite (obj_Some _ _ _ Hy).
  assert (Hc1 : core b (mod_obj f y s) (locs (objs s))).
  { apply core_mod; [done|]. intros it' l _ _. by destruct l. }
  cbn beta iota zeta delta [mbind option_bind].
  change (ist (f it)) with (ist it). change (iremain (f it)) with (iremain it ∖ {[k]}).
  destruct (decide (freed k it)) as [Hf|Hf].
  - destruct Hf as [Hst He]. rewrite !bool_decide_true by done. simpl andb. cbv iota.
    assert (Hlm : locs (objs s) !! y = Some LDep) by (by rewrite (locs_Some _ _ _ Hy); unfold loc_of; rewrite Hst).
    destruct (dep_remove_core b _ _ y Hc1 Hlm) as (q & -> & Hc2). cbn beta iota zeta delta [mbind option_bind].
    assert (Hd : delete y (locs (objs s)) !! y = None) by apply lookup_delete.
    set (s2 := clr_dep y (mod_obj switch_dependent_ready y (mod_obj f y s <| depQ := q |>))).
    assert (Hc3 : core b s2 (delete y (locs (objs s)))).
    { apply core_clr_dep; [|by rewrite Hd]. by apply core_mod_out. }
    assert (Hy2 : objs s2 !! y = Some (switch_dependent_ready (f it))) by (simpl; by rewrite !lookup_alter, Hy).
    destruct (ready_push_core b s2 _ y _ Hc3 Hd Hy2) as (r & -> & _ & Hc4).
    assert (Hres : resolve k it = switch_dependent_ready (f it)).
    { unfold resolve. simpl. rewrite !bool_decide_true by done. done. }
    eexists. split; [done|].
    assert (Ho : objs s2 = alter (resolve k) y (objs s)).
    { unfold s2. simpl. rewrite <- alter_compose. rewrite !(alter_insert_eq _ _ _ _ Hy). by rewrite Hres. }
    split; [|split; [exact Ho|by split_and!]].
    eapply core_lm; [|exact Hc4]. intros z. change (objs (s2 <| readyQ := r |>)) with (objs s2).
    rewrite Ho, locs_lookup. destruct (decide (z = y)) as [->|Hne].
    + rewrite lookup_insert, lookup_alter, Hy. simpl. rewrite Hres. done.
    + rewrite lookup_insert_ne, lookup_delete_ne, lookup_alter_ne by done. by rewrite locs_lookup.
  - assert (bool_decide (ist it = SDep) && bool_decide (iremain it ∖ {[k]} = ∅) = false) as ->.
    { apply not_true_is_false. intros [E1%bool_decide_eq_true E2%bool_decide_eq_true]%andb_true_iff.
      apply Hf. by split. }
    eexists. split; [by rewrite app_nil_r|].
    assert (Hres : resolve k it = f it).
    { rewrite resolve_cases, decide_False by done. by destruct it. }
    assert (Ho : objs (mod_obj f y s) = alter (resolve k) y (objs s)).
    { simpl. rewrite !(alter_insert_eq _ _ _ _ Hy). by rewrite Hres. }
    split; [|split; [exact Ho|by split_and!]].
    eapply core_lm; [|exact Hc1]. intros z. rewrite Ho, !locs_lookup.
    destruct (decide (z = y)) as [->|Hne].
    + rewrite lookup_alter, Hy. simpl. by rewrite Hres.
    + by rewrite lookup_alter_ne.
Qed.

Lemma resolve_fold_ok b k l s added :
  core b s (locs (objs s)) → (∀ y, y ∈ l → is_Some (objs s !! y)) →
  ∃ s' new, fold_left (resolve_one k) l (Some (s, added)) = Some (s', added ++ new) ∧
    core b s' (locs (objs s')) ∧ rest_eq s s' ∧
    (∀ y, objs s' !! y = if decide (y ∈ l) then resolve k <$> objs s !! y else objs s !! y) ∧
    NoDup new ∧
    (∀ y, y ∈ new ↔ y ∈ l ∧ ∃ it, objs s !! y = Some it ∧ freed k it).
Proof.
  revert s added. induction l as [|z l IH]; intros s added Hc Hl; cbn [fold_left].
  { exists s, []. rewrite app_nil_r. split_and!; try done; [constructor|].
    intros y. rewrite !elem_of_nil. naive_solver. }
  destruct (Hl z) as [it Hz]; [by left|].
  destruct (resolve_one_ok b k s added z Hc) as (s1 & -> & Hc1 & Ho1 & Hr1); [by eexists|].
  destruct (IH s1 (added ++ (if decide (freed k (obj (objs s) z)) then [z] else []))) as (s' & new & -> & Hc' & Hr' & Ho' & Hnd & Hin).
  { done. }
  { intros y Hy. rewrite Ho1, lookup_alter_is_Some. apply Hl. by right. }
  rewrite (obj_Some _ _ _ Hz).
  exists s', ((if decide (freed k it) then [z] else []) ++ new). rewrite app_assoc.
  split; [done|]. split; [done|].
  split. { destruct Hr1 as (?&?&?&?), Hr' as (?&?&?&?). split_and!; congruence. }
  assert (Hnot : freed k it → z ∉ new).
  { intros Hf Hzn. apply Hin in Hzn as [_ (it' & Hz' & Hf')]. rewrite Ho1, lookup_alter, Hz in Hz'.
    simpl in Hz'. injection Hz' as <-. rewrite resolve_cases, decide_True in Hf' by done.
    by destruct Hf'. }
  split_and!.
  - intros y. rewrite Ho', Ho1. destruct (decide (y = z)) as [->|Hne].
    + rewrite lookup_alter, Hz. simpl. rewrite (decide_True (P:= z ∈ z :: l)) by (by left).
      case_decide; [|done]. by rewrite resolve_idem.
    + rewrite lookup_alter_ne by done. apply decide_ext. rewrite elem_of_cons. naive_solver.
  - case_decide as Hf; simpl; [|done]. apply NoDup_cons. split; [by apply Hnot|done].
  - intros y. rewrite elem_of_app, Hin, Ho1, elem_of_cons. 
    assert (Hif : y ∈ (if decide (freed k it) then [z] else []) ↔ y = z ∧ freed k it).
    { case_decide; rewrite ?elem_of_list_singleton, ?elem_of_nil; naive_solver. }
    rewrite Hif. destruct (decide (y = z)) as [->|Hne].
    + rewrite lookup_alter, Hz. simpl. split.
      * intros [[_ Hf]|[Hzl (it' & [= <-] & Hf)]]; [by eauto|].
        split; [by left|]. exists it. split; [done|].
        destruct (decide (freed k it)) as [|Hnf]; [done|].
        rewrite resolve_cases, decide_False in Hf by done. destruct Hf as [H1 H2]. simpl in *.
        split; [done|]. set_solver.
      * intros [_ (it' & [= <-] & Hf)]. by left.
    + rewrite lookup_alter_ne by done. naive_solver.
Qed.

Lemma forget_parents_range k l d d' m k' y :
  fold_left (forget_parent k) l d !! d' = Some m → m !! k' = Some y →
  ∃ m0, d !! d' = Some m0 ∧ m0 !! k' = Some y.
Proof.
  revert d. induction l as [|a l IH]; intros d; simpl; [by eauto|].
  intros Hm Hk. destruct (IH _ Hm Hk) as (m0 & Hm0 & Hk0).
  unfold forget_parent in Hm0. destruct (d !! a) as [ma|] eqn:Ea; [|by eauto].
  case_decide.
  - apply lookup_delete_Some in Hm0 as [_ Hm0]. eauto.
  - apply lookup_insert_Some in Hm0 as [[<- <-]|[_ Hm0]]; [|by eauto].
    apply lookup_delete_Some in Hk0 as [_ Hk0]. eauto.
Qed.

Lemma remove_from_sub_ok b s lm x it :
  core b s lm → objs s !! x = Some it → lm !! x = loc_of it → ist it ≠ SRemoved →
  ∃ s', remove_from_sub (ist it) x s = Some (s', [ev s' (sub_of (ist it)) QRemoved [x]]) ∧
    core b s' (delete x lm) ∧ objs s' = objs s ∧ rest_eq s s'.
Proof.
  intros Hc Hx Hl Hr. unfold remove_from_sub, loc_of in *. destruct (ist it) eqn:Hst; [..|done].
  - destruct (delay_remove_core b s lm x Hc Hl) as (q & -> & Hc1). eexists. split; [done|].
    split; [done|]. split; [done|]. by split_and!.
  - destruct (ready_remove_core b s lm x it Hc Hx Hl) as (q & -> & _ & Hc1). eexists. split; [done|].
    split; [done|]. split; [done|]. by split_and!.
  - destruct (run_remove_core b s lm x Hc Hl) as (q & -> & Hc1). eexists. split; [done|].
    split; [done|]. split; [done|]. by split_and!.
  - destruct (bury_remove_core b s lm x Hc Hl) as (q & -> & Hc1). eexists. split; [done|].
    split; [done|]. split; [done|]. by split_and!.
  - destruct (dep_remove_core b s lm x Hc Hl) as (q & -> & Hc1). eexists. split; [done|].
    split; [done|]. split; [done|]. by split_and!.
Qed.

(** the items after telling everything in [m] that [k] is resolved *)
Definition resolve_all (k : key) (m : gmap key nat) (o : gmap nat item) : gmap nat item :=
  map_imap (λ y it, Some (if decide (y ∈ vals m) then resolve k it else it)) o.
Lemma resolve_all_lookup k m o y :
  resolve_all k m o !! y = if decide (y ∈ vals m) then resolve k <$> o !! y else o !! y.
Proof.
  unfold resolve_all. rewrite map_lookup_imap. destruct (o !! y); simpl; by case_decide.
Qed.
Lemma resolve_data k it : idata (resolve k it) = idata it.
Proof. rewrite resolve_cases. done. Qed.
Lemma resolve_key k it : ikey (resolve k it) = ikey it.
Proof. rewrite resolve_cases. done. Qed.
Lemma resolve_deps k it : ideps (resolve k it) = ideps it.
Proof. rewrite resolve_cases. done. Qed.
Lemma resolve_live k it : ist (resolve k it) = SRemoved ↔ ist it = SRemoved.
Proof. rewrite resolve_cases. simpl. destruct (decide _) as [[H _]|]; [|done]. rewrite H. done. Qed.

Lemma q_remove_ok b k x it ord s :
  Inv b s → items s !! k = Some x → objs s !! x = Some it →
  let m := default ∅ (dependants s !! k) in
  let it' := if decide (x ∈ vals m) then resolve k it else it in
  ∃ s' added, q_remove k ord s = Some (s', ROk,
        [ev s' (sub_of (ist it')) QRemoved [x]] ++
        match added with [] => [] | _ => [ev s' QDep QReady added] end) ∧
    Inv b s' ∧ objs s' = alter removal_cleanup x (resolve_all k m (objs s)) ∧
    items s' = delete k (items s) ∧ nextid s' = nextid s ∧ closed s' = closed s ∧
    dependants s' = fold_left (forget_parent k) (ideps it) (delete k (dependants s)) ∧
    NoDup added ∧
    (∀ y, y ∈ added ↔ y ∈ vals m ∧ ∃ it, objs s !! y = Some it ∧ freed k it).
Proof.
  intros HI Hk Hx m it'. unfold q_remove. rewrite (i_open HI), Hk.
  destruct (inv_get _ _ _ _ HI Hk) as (it'' & Hx' & Hkey & Hr). rewrite Hx in Hx'. injection Hx' as <-.
  assert (Hpart : ∃ s1 added, (match dependants s !! k with
                     | None => Some (s, [])
                     | Some m =>
                         '(s, added) ← fold_left (resolve_one k) (arrange ord m) (Some (s, []));
                         Some (s <| dependants ::= delete k |>, added)
                     end) = Some (s1, added) ∧
      core b s1 (locs (objs s1)) ∧ objs s1 = resolve_all k m (objs s) ∧
      dependants s1 = delete k (dependants s) ∧ items s1 = items s ∧ nextid s1 = nextid s ∧
      closed s1 = closed s ∧ NoDup added ∧
      (∀ y, y ∈ added ↔ y ∈ vals m ∧ ∃ it, objs s !! y = Some it ∧ freed k it)).
  { unfold m. destruct (dependants s !! k) as [m0|] eqn:Hm.
    - destruct (resolve_fold_ok b k (arrange ord m0) s [] (i_core HI)) as (s1 & new & -> & Hc1 & (H1 & H2 & H3 & H4) & Ho & Hnd & Hin).
      { intros y [k' Hy]%elem_of_arrange%elem_of_vals. by eapply (i_deps HI). }
      cbn beta iota zeta delta [mbind option_bind]. eexists _, _. split; [done|].
      split_and!; try done.
      + apply (core_ext b s1); [done|by intros []|done].
      + apply map_eq. intros y. rewrite resolve_all_lookup. simpl. rewrite Ho.
        apply decide_ext. apply elem_of_arrange.
      + simpl. by rewrite H2.
      + intros y. rewrite Hin, elem_of_arrange. done.
    - exists s, []. split; [done|]. split_and!; try done.
      + apply HI.
      + apply map_eq. intros y. rewrite resolve_all_lookup. by rewrite decide_False by (by apply not_elem_of_nil).
      + by rewrite delete_notin.
      + constructor.
      + intros y. simpl. rewrite elem_of_nil. split; [done|]. intros [Hy _]. by apply not_elem_of_nil in Hy. }
  destruct Hpart as (s1 & added & -> & Hc1 & Ho1 & Hd1 & Hi1 & Hn1 & Hcl1 & Hnd & Hin).
  cbn beta iota zeta delta [mbind option_bind].
  assert (Hx1 : objs s1 !! x = Some it').
  { rewrite Ho1, resolve_all_lookup. unfold it'. by case_decide; rewrite Hx. }
  rewrite Hx1. cbn beta iota zeta delta [mbind option_bind].
  assert (Hr' : ist it' ≠ SRemoved) by (unfold it'; case_decide; [by rewrite resolve_live|done]).
  assert (Hdeps : ideps it' = ideps it) by (unfold it'; case_decide; [by rewrite resolve_deps|done]).
  assert (Hkey' : ikey it' = k) by (unfold it'; case_decide; [by rewrite resolve_key|done]).
  set (s2 := s1 <| dependants ::= (λ d, fold_left (forget_parent k) (ideps it') d) |> <| items ::= delete k |>).
  assert (Hc2 : core b s2 (locs (objs s1))) by (apply (core_ext b s1); [done|by intros []|done]).
  destruct (remove_from_sub_ok b s2 (locs (objs s1)) x it' Hc2) as (s3 & -> & Hc3 & Ho3 & Hi3 & Hd3 & Hn3 & Hcl3);
    [done|by apply locs_Some|done|].
  cbn beta iota zeta delta [mbind option_bind].
  set (s4 := clr_dep x (clr_bury x (clr_run x (clr_ready x (clr_delay x (mod_obj removal_cleanup x s3)))))).
  assert (Hdx : delete x (locs (objs s1)) !! x = None) by apply lookup_delete.
  assert (Hc4 : core b s4 (delete x (locs (objs s1)))).
  { apply core_clr_dep; [|by rewrite Hdx]. apply core_clr_bury; [|by rewrite Hdx].
    apply core_clr_run; [|by rewrite Hdx]. apply core_clr_ready; [|intros; by rewrite Hdx].
    apply core_clr_delay; [|by rewrite Hdx]. by apply core_mod_out. }
  assert (Ho4 : objs s4 = alter removal_cleanup x (resolve_all k m (objs s))).
  { change (objs s4) with (alter removal_cleanup x (objs s3)). rewrite Ho3.
    change (objs s2) with (objs s1). by rewrite Ho1. }
  assert (Hd4 : dependants s4 = fold_left (forget_parent k) (ideps it) (delete k (dependants s))).
  { change (dependants s4) with (dependants s3). rewrite Hd3. simpl. by rewrite Hd1, Hdeps. }
  assert (Hi4 : items s4 = delete k (items s)).
  { change (items s4) with (items s3). rewrite Hi3. simpl. by rewrite Hi1. }
  assert (Hn4 : nextid s4 = nextid s).
  { change (nextid s4) with (nextid s3). rewrite Hn3. done. }
  assert (Hcl4 : closed s4 = closed s).
  { change (closed s4) with (closed s3). rewrite Hcl3. done. }
  assert (Hev : ∀ f t l, ev s3 f t l = ev s4 f t l).
  { intros f t l. unfold ev. f_equal. apply list_fmap_ext. intros _ y _. unfold data_of.
    change (objs s4) with (alter removal_cleanup x (objs s3)).
    destruct (decide (y = x)) as [->|Hne].
    - rewrite lookup_alter. by destruct (objs s3 !! x).
    - by rewrite lookup_alter_ne. }
  exists s4, added. split.
  { by rewrite Hev. }
  split; [|by rewrite <- (i_open HI); split_and!].
  assert (His : ∀ y, is_Some (objs s4 !! y) ↔ is_Some (objs s !! y)).
  { intros y. rewrite Ho4, lookup_alter_is_Some, resolve_all_lookup.
    case_decide; [by rewrite fmap_is_Some|done]. }
  split.
  - rewrite Hcl4. apply HI.
  - eapply core_lm; [|exact Hc4]. intros y. rewrite Ho4, <- Ho1, locs_lookup.
    destruct (decide (y = x)) as [->|Hne].
    + rewrite lookup_delete, lookup_alter, Hx1. done.
    + by rewrite lookup_delete_ne, lookup_alter_ne, locs_lookup.
  - intros k' y. rewrite Hi4, Ho4, lookup_delete_Some, (i_items HI).
    destruct (decide (y = x)) as [->|Hne].
    + rewrite lookup_alter, <- Ho1, Hx1. simpl. rewrite Hx. split.
      * intros [Hn (it1 & [= <-] & Hk' & _)]. congruence.
      * intros (it1 & [= <-] & _ & Hr1). done.
    + rewrite lookup_alter_ne, resolve_all_lookup by done. split.
      * intros [Hn (it1 & Hy & Hk' & Hr1)]. rewrite Hy. case_decide; [|by eauto].
        exists (resolve k it1). rewrite resolve_key. split_and!; try done. by rewrite resolve_live.
      * intros (it1 & Hy & Hk' & Hr1).
        assert (∃ it2, objs s !! y = Some it2 ∧ ikey it2 = k' ∧ ist it2 ≠ SRemoved) as (it2 & Hy2 & Hk2 & Hr2).
        { case_decide; [|by eauto]. destruct (objs s !! y) as [it2|]; [|done]. injection Hy as <-.
          rewrite resolve_key in Hk'. rewrite resolve_live in Hr1. eauto. }
        split; [|by eauto]. intros <-.
        assert (items s !! k = Some y) by (apply (i_items HI); eauto). congruence.
  - intros y. rewrite His, Hn4. apply HI.
  - intros d m' k' y. rewrite Hd4, His. intros H1 H2.
    destruct (forget_parents_range _ _ _ _ _ _ _ H1 H2) as (m0 & H3 & H4).
    apply lookup_delete_Some in H3 as [_ H3]. by eapply (i_deps HI).
Qed.

Lemma q_destroy_ok b s :
  Inv b s → ∃ s', q_destroy s = Some (s', ROk, []) ∧ Dead s' ∧ objs s' = objs s ∧
    nextid s' = nextid s ∧ dependants s' = dependants s.
Proof.
  intros HI. unfold q_destroy. rewrite (i_open HI). eexists. split; [done|]. by split_and!.
Qed.
