(** Proofs of the properties that hold whatever calls were made. *)
From Coq Require Import ZArith Lia String.
From stdpp Require Import base option strings gmap list.
From RecordUpdate Require Import RecordSet.
From Verif Require Import GoHeap QueueModel QueueFrame QueueSpec.
Import RecordSetNotations.
Open Scope Z_scope.

(** ** C06 *)
Record track (o : op) (r : qres) (s s' : qstate) : Prop := {
  tr_next : (nextid s ≤ nextid s')%nat;
  tr_fwd k x k' : items s !! k = Some x → key_after o r k = Some k' → items s' !! k' = Some x;
  tr_bwd k' x : items s' !! k' = Some x →
     (nextid s ≤ x < nextid s')%nat ∨ ∃ k, items s !! k = Some x ∧ key_after o r k = Some k';
  tr_new k1 k2 x : (nextid s ≤ x)%nat → (∀ k x, items s !! k = Some x → (x < nextid s)%nat) →
     items s' !! k1 = Some x → items s' !! k2 = Some x → k1 = k2;
  tr_data k x : items s !! k = Some x → (∀ k x, items s !! k = Some x → (x < nextid s)%nat) →
     (∀ k', items s !! k' = Some x → k' = k) →
     idata <$> objs s' !! x = data_after o r k <$> (idata <$> objs s !! x);
  tr_closed : o = ODestroy ∨ closed s' = closed s;
}.
Definition ids_ok (s : qstate) : Prop :=
  (∀ k x, items s !! k = Some x → (x < nextid s)%nat) ∧
  (∀ k1 k2 x, items s !! k1 = Some x → items s !! k2 = Some x → k1 = k2).

Lemma track_keeps o r s s' : keeps idata s s' → (∀ k, key_after o r k = Some k) →
  (∀ k d, data_after o r k d = d) → track o r s s'.
Proof.
  intros (Hi & Hn & Hc & Ho) Hk Hd. split; rewrite ?Hi, ?Hn.
  - done.
  - intros k x k' Hx. rewrite Hk. congruence.
  - intros k' x Hx. right. eauto.
  - intros k1 k2 x Hx Hlt H1 _. apply Hlt in H1. lia.
  - intros k x Hx _ _. rewrite Ho. destruct (idata <$> objs s !! x); simpl; [by rewrite Hd|done].
  - by right.
Qed.

Lemma track_err o e s s' : keeps idata s s' → track o (RErr e) s s'.
Proof. intros H. apply track_keeps; [done|by destruct o|by destruct o]. Qed.

Lemma add_many_one_data now def s a s' a' :
  add_many_one now def s a = Some (s', a') →
  match items s !! d_key def with
  | Some _ => s' = s ∧ a_added a' = a_added a ∧ a_dups a' = S (a_dups a)
  | None => items s' = <[d_key def := nextid s]> (items s) ∧ nextid s' = S (nextid s) ∧
      closed s' = closed s ∧
      (∀ y, props <$> objs s' !! y = if decide (y = nextid s)
          then Some (props (new_item now (d_key def) (d_group def) (d_data def) (d_prio def) 0%N (d_delay def) (d_ttr def)))
          else props <$> objs s !! y) ∧
      a_added a' = S (a_added a) ∧ a_dups a' = a_dups a
  end.
Proof.
  unfold add_many_one. destruct (items s !! d_key def) as [x|] eqn:Hk; [by intros [= <- <-]|].
  unfold alloc_item. cbv beta iota zeta.
  set (s0 := _ <| nextid := S (nextid s) |>). intros H.
  assert (keeps props s0 s' ∧ a_added a' = S (a_added a) ∧ a_dups a' = a_dups a) as ((Hi & Hn & Hc & Ho) & Ha & Hd).
  { destruct (d_deps def) as [|dp dps].
    - destruct (d_start def).
      + destruct (d_delay def =? 0); mdest H; simplify_eq.
        * split; [|done]. eapply keeps_trans; [|apply same_keeps; prim].
          eapply keeps_trans; [|apply keeps_clr_delay]. by apply keeps_mod.
        * split; [apply same_keeps; prim|]. by destruct (_ && _).
      + mdest H; simplify_eq. split; [|by destruct (_ && _)].
        eapply keeps_trans; [|apply keeps_clr_ready]. eapply keeps_trans; [|by apply keeps_mod].
        eapply keeps_trans; [|apply same_keeps; prim]. eapply keeps_trans; [|by apply keeps_mod].
        eapply keeps_trans; [|apply keeps_clr_delay]. by apply keeps_mod.
      + mdest H; simplify_eq. split; [|done].
        eapply keeps_trans; [|apply keeps_clr_run]. eapply keeps_trans; [|by apply keeps_mod].
        eapply keeps_trans; [|apply keeps_clr_ready]. eapply keeps_trans; [|by apply keeps_mod].
        eapply keeps_trans; [|apply keeps_bury_push].
        eapply keeps_trans; [|apply keeps_clr_delay]. by apply keeps_mod.
    - mdest H; simplify_eq. split; [|done]. eapply set_item_dependencies_keeps; [apply reads_all|done]. }
  split_and!; try done.
  intros y. rewrite Ho. unfold s0. simpl. destruct (decide (y = nextid s)) as [->|Hne].
  - by rewrite lookup_insert.
  - by rewrite lookup_insert_ne.
Qed.

Lemma data_of_props (a b : option item) : props <$> a = props <$> b → idata <$> a = idata <$> b.
Proof. destruct a as [a|], b as [b|]; simpl; try done. unfold props. intros [=]. congruence. Qed.

Lemma add_many_loop_track now ds s a s' a' :
  add_many_loop now ds s a = Some (s', a') → track (OAddMany now ds) ROk s s' ∧ closed s' = closed s.
Proof.
  revert s a. induction ds as [|d ds IH]; intros s a.
  { simpl. intros [= <- <-]. split; [|done]. apply track_keeps; [apply keeps_refl|done..]. }
  cbn [add_many_loop]. intros H. mdest H.
  match goal with E : add_many_one _ _ _ _ = Some (?sm, _) |- _ => rename sm into s1; apply add_many_one_data in E; rename E into E1 end.
  apply IH in H as [[Hn Hf Hb Hnew Hd _] Hcl].
  destruct (items s !! d_key d) as [x|] eqn:Hk.
  { destruct E1 as (-> & _ & _). split; [|done]. split; try done. by right. }
  destruct E1 as (Hi1 & Hn1 & Hc1 & Ho1 & _). split; [|congruence]. simpl in *. split; simpl.
  - lia.
  - intros k x k' Hx [= <-]. apply (Hf k x); [|done]. rewrite Hi1. rewrite lookup_insert_ne by congruence. done.
  - intros k' x Hx. destruct (Hb k' x Hx) as [H1|(k & Hx1 & [= <-])]; [left; lia|].
    rewrite Hi1 in Hx1. apply lookup_insert_Some in Hx1 as [[<- <-]|[_ ?]]; [left; lia|by eauto].
  - intros k1 k2 x Hx Hlt Hk1 Hk2.
    assert (Hlt1 : ∀ k x, items s1 !! k = Some x → (x < nextid s1)%nat).
    { intros k y. rewrite Hi1. intros [[_ <-]|[_ Hy]]%lookup_insert_Some; [lia|]. apply Hlt in Hy. lia. }
    destruct (decide (x = nextid s)) as [->|Hne].
    + assert (Hu : ∀ k, items s' !! k = Some (nextid s) → k = d_key d).
      { intros k Hkk. destruct (Hb _ _ Hkk) as [|(k0 & Hx0 & [= <-])]; [lia|].
        rewrite Hi1 in Hx0. apply lookup_insert_Some in Hx0 as [[<- _]|[_ Hy]]; [done|]. apply Hlt in Hy. lia. }
      rewrite (Hu k1), (Hu k2) by done. done.
    + eapply (Hnew k1 k2 x); [lia|done..].
  - intros k x Hx Hlt Huniq.
    assert (Hlt1 : ∀ k x, items s1 !! k = Some x → (x < nextid s1)%nat).
    { intros k0 y. rewrite Hi1. intros [[_ <-]|[_ Hy]]%lookup_insert_Some; [lia|]. apply Hlt in Hy. lia. }
    pose proof (Hlt _ _ Hx) as Hxl.
    rewrite (Hd k x); [|rewrite Hi1, lookup_insert_ne by congruence; done|done|].
    + rewrite (data_of_props (objs s1 !! x) (objs s !! x)); [done|].
      rewrite Ho1. rewrite decide_False by lia. done.
    + intros k' Hk'. rewrite Hi1 in Hk'. apply lookup_insert_Some in Hk' as [[<- ?]|[_ ?]]; [lia|by auto].
  - right. congruence.
Qed.

Lemma rename_objs_data old new its o x : idata <$> rename_objs old new its o !! x = idata <$> o !! x.
Proof.
  unfold rename_objs.
  apply (map_fold_ind (λ o' (_ : gmap key nat), idata <$> o' !! x = idata <$> o !! x)); [done|].
  intros k y m o' _ IH. rewrite <- IH. destruct (decide (x = y)) as [->|Hne].
  - rewrite lookup_alter. destruct (o' !! y) as [it|]; [|done]. simpl. unfold changed_key. by case_decide.
  - by rewrite lookup_alter_ne.
Qed.

Lemma update_props_keeps now x g prio delay ttr added s s' :
  update_props now x g prio delay ttr added s = Some s' → keeps idata s s'.
Proof.
  unfold update_props. intros H. mdest H.
  destruct (negb (idelay i =? delay)).
  { destruct (ist i); simplify_eq; try by apply keeps_mod.
    eapply keeps_trans; [|apply same_keeps; prim]. eapply keeps_trans; by apply keeps_mod. }
  destruct (_ || _).
  { destruct (ist i); simplify_eq; try by apply keeps_mod.
    eapply keeps_trans; [|apply same_keeps; prim]. by apply keeps_mod. }
  destruct (negb (ittr i =? ttr)); [|simplify_eq; apply keeps_refl].
  destruct (ist i); simplify_eq; try by apply keeps_mod.
  eapply keeps_trans; [|apply same_keeps; prim]. eapply keeps_trans; by apply keeps_mod.
Qed.

Lemma step_track s o s' r e : step s o = Some (s', r, e) → track o r s s'.
Proof.
  destruct o; cbn [step].
  - unfold q_add. destruct (closed s); [intros [= <- <- <-]; apply track_err, keeps_refl|].
    destruct (items s !! k) as [x|] eqn:Hk.
    { intros [= <- <- <-]. by apply track_keeps; [apply keeps_refl|..]. }
    unfold alloc_item. cbv beta iota zeta. set (s0 := _ <| nextid := S (nextid s) |>).
    intros H. apply (handle_item_keeps props reads_all) in H as [(Hi & Hn & Hc & Ho) ->].
    split; simpl in *.
    + rewrite Hn. lia.
    + intros k1 x k' Hx [= <-]. rewrite Hi. rewrite lookup_insert_ne by congruence. done.
    + intros k' x. rewrite Hi, Hn. intros [[<- <-]|[_ Hy]]%lookup_insert_Some; [left; lia|by eauto].
    + intros k1 k2 x Hx Hlt. rewrite Hi.
      intros [[<- <-]|[_ Hy]]%lookup_insert_Some; [|apply Hlt in Hy; lia].
      intros [[<- _]|[_ Hy]]%lookup_insert_Some; [done|apply Hlt in Hy; lia].
    + intros k1 x Hx Hlt _. apply Hlt in Hx.
      rewrite (data_of_props _ (objs s !! x)); [by destruct (objs s !! x)|].
      rewrite Ho. by rewrite lookup_insert_ne by lia.
    + by right.
  - unfold q_add_many. destruct (closed s); [intros [= <- <- <-]; apply track_err, keeps_refl|].
    intros H. mdest H. simplify_eq.
    match goal with E : add_many_loop _ _ _ _ = Some (?sm, _) |- _ => rename sm into s1;
      apply add_many_loop_track in E as [[H1 H2 H3 H4 H5 _] Hcl] end.
    assert (same s1 s') as (Ho & Hi & _ & Hn & Hc2).
    { eapply same_trans; prim. }
    split; rewrite ?Ho, ?Hi, ?Hn; try done. right. congruence.
  - unfold q_get. destruct (closed s); [intros [= <- <- <-]; apply track_err, keeps_refl|].
    destruct (items s !! k); intros [= <- <- <-]; [|apply track_err, keeps_refl].
    by apply track_keeps; [apply keeps_refl|..].
  - unfold q_update. destruct (closed s); [intros [= <- <- <-]; apply track_err, keeps_refl|].
    destruct (items s !! k) as [x|] eqn:Hk; [|intros [= <- <- <-]; apply track_err, keeps_refl].
    intros H. match type of H with (?m ≫= _) = _ => destruct m as [[[s1 ad] fr]|] eqn:E1; [|done] end.
    cbn beta iota zeta delta [mbind option_bind] in H.
    destruct (update_props now x g prio delay ttr ad s1) as [s2|] eqn:E2; [|done].
    cbn beta iota zeta delta [mbind option_bind] in H. injection H as -> <- _.
    apply update_props_keeps in E2.
    assert (keeps idata (mod_obj (λ it, it <| idata := d |>) x s) s1) as E3.
    { destruct deps; [by eapply update_deps_keeps; [apply reads_data|]|].
      injection E1 as <- _ _. apply keeps_refl. }
    destruct (keeps_trans _ _ _ _ E3 E2) as (Hi & Hn & Hc & Ho). simpl in *.
    split; simpl; rewrite ?Hi, ?Hn.
    + lia.
    + intros k1 y k' Hy [= <-]. done.
    + intros k' y Hy. eauto.
    + intros k1 k2 y Hy Hlt H1 _. apply Hlt in H1. lia.
    + intros k1 y Hy Hlt Hu. rewrite Ho. destruct (decide (y = x)) as [->|Hne].
      * rewrite lookup_alter. destruct (objs s !! x); simpl; [|done]. by rewrite decide_True by (by apply Hu).
      * rewrite lookup_alter_ne by done. destruct (objs s !! y); simpl; [|done]. by rewrite decide_False by congruence.
    + by right.
  - unfold q_change_key. destruct (closed s); [intros [= <- <- <-]; apply track_err, keeps_refl|].
    destruct (items s !! new) as [x|] eqn:Hnew; [intros [= <- <- <-]; apply track_err, keeps_refl|].
    destruct (items s !! old) as [x|] eqn:Hold; [|intros [= <- <- <-]; apply track_err, keeps_refl].
    intros [= <- <- <-]. simpl. split; simpl.
    + lia.
    + intros k y k' Hy. case_decide as Hd; intros [= <-].
      * subst. rewrite lookup_insert. congruence.
      * rewrite lookup_insert_ne by congruence. by rewrite lookup_delete_ne.
    + intros k' y [[<- <-]|[Hne [Hne' Hy]%lookup_delete_Some]]%lookup_insert_Some; right.
      * exists old. split; [done|]. by rewrite decide_True.
      * exists k'. split; [done|]. by rewrite decide_False.
    + intros k1 k2 y Hy Hlt H1 H2.
      assert (y = x ∨ ∃ k, items s !! k = Some y) as [->|[k Hky]].
      { apply lookup_insert_Some in H1 as [[_ <-]|[_ [_ ?]%lookup_delete_Some]]; eauto. }
      * apply Hlt in Hold. lia.
      * apply Hlt in Hky. lia.
    + intros k y Hy _ _. rewrite rename_objs_data. by destruct (objs s !! y).
    + by right.
  - unfold q_set_delay. destruct (closed s); [intros [= <- <- <-]; apply track_err, keeps_refl|].
    destruct (items s !! k) as [x|] eqn:Hk; [|intros [= <- <- <-]; apply track_err, keeps_refl].
    intros H. mdest H. destruct (idelay i =? delay); mdest H; simplify_eq.
    { by apply track_keeps; [apply keeps_refl|..]. }
    destruct (ist i); mdest H; simplify_eq; (apply track_keeps; [|done..]); try by apply keeps_mod.
    eapply keeps_trans; [|apply same_keeps; prim]. eapply keeps_trans; [|apply same_keeps; prim].
    eapply keeps_trans; by apply keeps_mod.
  - unfold q_set_reserve_group. destruct (closed s); [intros [= <- <- <-]; apply track_err, keeps_refl|].
    destruct (items s !! k) as [x|] eqn:Hk; [|intros [= <- <- <-]; apply track_err, keeps_refl].
    intros H. mdest H. destruct (decide (igroup i = g)); mdest H; simplify_eq.
    { by apply track_keeps; [apply keeps_refl|..]. }
    destruct (ist i); mdest H; simplify_eq; (apply track_keeps; [|done..]); try by apply keeps_mod.
    eapply keeps_trans; [|apply same_keeps; prim]. by apply keeps_mod.
  - intros H. apply (reserve_keeps _ reads_data) in H. by apply track_keeps.
  - intros H. apply (touch_keeps _ reads_data) in H. by apply track_keeps.
  - intros H. apply (release_keeps _ reads_data) in H. by apply track_keeps.
  - intros H. apply (bury_keeps _ reads_data) in H. by apply track_keeps.
  - intros H. apply (kick_keeps _ reads_data) in H. by apply track_keeps.
  - intros H. assert ((∃ e0, r = RErr e0 ∧ s' = s) ∨ r = ROk) as [(e0 & -> & ->)| ->].
    { unfold q_remove in H. destruct (closed s); [naive_solver|]. destruct (items s !! k); [|naive_solver].
      right. mdest H. by simplify_eq. }
    { apply track_err, keeps_refl. }
    apply (remove_keeps _ reads_data) in H as (x & s1 & Hk & _ & (H1 & H2 & H3 & H4) & Hi & (H5 & H6 & H7 & H8)).
    simpl in *. split; rewrite ?Hi.
    + lia.
    + simpl. intros k1 y k' Hy. case_decide; [done|]. intros [= <-]. by rewrite lookup_delete_ne.
    + intros k' y [Hne Hy]%lookup_delete_Some. right. exists k'. split; [done|]. simpl. by rewrite decide_False.
    + intros k1 k2 y Hy Hlt [_ H9]%lookup_delete_Some _. apply Hlt in H9. lia.
    + intros k1 y _ _ _. rewrite H8, H4. simpl. by destruct (objs s !! y).
    + right. congruence.
  - unfold q_has_dependents. destruct (closed s); intros [= <- <- <-]; [apply track_err, keeps_refl|].
    by apply track_keeps; [apply keeps_refl|..].
  - unfold q_destroy. destruct (closed s); intros [= <- <- <-]; [apply track_err, keeps_refl|].
    split; simpl.
    + lia.
    + done.
    + intros k' x H. by rewrite lookup_empty in H.
    + intros k1 k2 x _ _ H. by rewrite lookup_empty in H.
    + intros k x _ _ _. by destruct (objs s !! x).
    + by left.
  - intros H. apply (tick_delay_keeps _ reads_data) in H. by apply track_keeps.
  - intros H. apply (tick_ttr_keeps _ reads_data) in H. by apply track_keeps.
Qed.

Lemma key_after_inj o r k1 k2 k s x1 x2 s' :
  track o r s s' → items s !! k1 = Some x1 → items s !! k2 = Some x2 →
  key_after o r k1 = Some k → key_after o r k2 = Some k → x1 = x2.
Proof.
  intros Ht H1 H2 H3 H4. pose proof (tr_fwd _ _ _ _ Ht _ _ _ H1 H3). pose proof (tr_fwd _ _ _ _ Ht _ _ _ H2 H4).
  congruence.
Qed.

Lemma track_ids o r s s' : track o r s s' → ids_ok s → ids_ok s'.
Proof.
  intros Ht [Hlt Hinj]. split.
  - intros k x Hk. destruct (tr_bwd _ _ _ _ Ht _ _ Hk) as [|(k0 & Hk0 & _)]; [lia|].
    apply Hlt in Hk0. pose proof (tr_next _ _ _ _ Ht). lia.
  - intros k1 k2 x H1 H2. destruct (decide (nextid s ≤ x)%nat) as [Hge|Hl].
    + by eapply (tr_new _ _ _ _ Ht k1 k2 x).
    + destruct (tr_bwd _ _ _ _ Ht _ _ H1) as [|(k3 & Hk3 & Ha3)]; [lia|].
      destruct (tr_bwd _ _ _ _ Ht _ _ H2) as [|(k4 & Hk4 & Ha4)]; [lia|].
      assert (k3 = k4) as -> by (by eapply Hinj). congruence.
Qed.

Lemma run_cons s o ops s' out :
  run s (o :: ops) = Some (s', out) →
  ∃ s1 r e out1, step s o = Some (s1, r, e) ∧ run s1 ops = Some (s', out1) ∧ out = (r, e) :: out1.
Proof.
  simpl. intros H. mdest H. simplify_eq. eauto 10.
Qed.
Lemma run_app s ops1 ops2 s' out :
  run s (ops1 ++ ops2) = Some (s', out) ↔
  ∃ s1 out1 out2, run s ops1 = Some (s1, out1) ∧ run s1 ops2 = Some (s', out2) ∧ out = out1 ++ out2.
Proof.
  revert s out. induction ops1 as [|o ops1 IH]; intros s out.
  - simpl. split; [intros H; eauto 10|]. intros (s1 & o1 & o2 & [= <- <-] & H & ->). done.
  - split.
    + intros (s1 & r & e & out1 & Hs & Hr & ->)%run_cons. apply IH in Hr as (s2 & o1 & o2 & H1 & H2 & ->).
      exists s2, ((r, e) :: o1), o2. split_and!; [|done|done]. simpl. rewrite Hs. simpl. by rewrite H1.
    + intros (s1 & o1 & o2 & (s2 & r & e & o3 & Hs & Hr & ->)%run_cons & H2 & ->).
      assert (run s2 (ops1 ++ ops2) = Some (s', o3 ++ o2)) as E by (apply IH; eauto 10).
      simpl. rewrite Hs. simpl. by rewrite E.
Qed.

Lemma run_ids s ops s' out : ids_ok s → run s ops = Some (s', out) → ids_ok s'.
Proof.
  revert s out. induction ops as [|o ops IH]; intros s out Hi.
  { simpl. by intros [= <- <-]. }
  intros (s1 & r & e & out1 & Hs & Hr & ->)%run_cons. eapply IH; [|done].
  eapply track_ids; [by eapply step_track|done].
Qed.
Lemma ids_new t : ids_ok (q_new t).
Proof. split; intros k; intros; simpl in *; by rewrite lookup_empty in *. Qed.
Lemma hist_ids t ops s : history t ops s → ids_ok s.
Proof. intros [out Hr]. eapply run_ids; [apply (ids_new t)|done]. Qed.

Lemma gone_stays s ops s' out x :
  ids_ok s → (x < nextid s)%nat → (∀ k, items s !! k ≠ Some x) → run s ops = Some (s', out) →
  ∀ k, items s' !! k ≠ Some x.
Proof.
  revert s out. induction ops as [|o ops IH]; intros s out Hi Hx Hg.
  { simpl. by intros [= <- <-]. }
  intros (s1 & r & e & out1 & Hs & Hr & ->)%run_cons. pose proof (step_track _ _ _ _ _ Hs) as Ht.
  eapply IH; [by eapply track_ids| |  |done].
  - pose proof (tr_next _ _ _ _ Ht). lia.
  - intros k Hk. destruct (tr_bwd _ _ _ _ Ht _ _ Hk) as [|(k0 & Hk0 & _)]; [lia|]. by eapply Hg.
Qed.

Lemma followed s ops s' out k x it :
  ids_ok s → named s k x it → run s ops = Some (s', out) →
  match follow k (idata it) (zip ops (fst <$> out)) with
  | Some (k', d') => ∃ it', named s' k' x it' ∧ idata it' = d'
  | None => ∀ k', items s' !! k' ≠ Some x
  end.
Proof.
  revert s out k it. induction ops as [|o ops IH]; intros s out k it Hi Hn Hr.
  { simpl in *. injection Hr as <- <-. simpl. eauto. }
  apply run_cons in Hr as (s1 & r & e & out1 & Hs & Hr & ->).
  pose proof (step_track _ _ _ _ _ Hs) as Ht. destruct Hn as [Hk Hx].
  pose proof (track_ids _ _ _ _ Ht Hi) as Hi1. pose proof (proj1 Hi _ _ Hk) as Hlt.
  rewrite fmap_cons. cbn [zip zip_with follow fst].
  destruct (key_after o r k) as [k'|] eqn:Hka.
  - pose proof (tr_fwd _ _ _ _ Ht _ _ _ Hk Hka) as Hk'.
    pose proof (tr_data _ _ _ _ Ht k x Hk (proj1 Hi) (λ k2 H2, proj2 Hi _ _ _ H2 Hk)) as Hd.
    rewrite Hx in Hd. simpl in Hd. destruct (objs s1 !! x) as [it1|] eqn:Hx1; [|done].
    injection Hd as Hd. rewrite <- Hd. apply (IH s1 out1 k' it1); [done|by split|done].
  - eapply (gone_stays s1 ops s' out1); [done| | |done].
    + pose proof (tr_next _ _ _ _ Ht). lia.
    + intros k' Hk'. destruct (tr_bwd _ _ _ _ Ht _ _ Hk') as [|(k0 & Hk0 & Ha)]; [lia|].
      assert (k0 = k) as -> by (by eapply (proj2 Hi)). congruence.
Qed.

(** ** C07 *)
Lemma add_known_ok s now k g d prio size delay ttr start deps s' r e x :
  closed s = false → items s !! k = Some x →
  step s (OAdd now k g d prio size delay ttr start deps) = Some (s', r, e) →
  r = RErrItem x EExists ∧ s' = s ∧ e = [].
Proof. intros Hc Hk. simpl. unfold q_add. rewrite Hc, Hk. by intros [= <- <- <-]. Qed.

Lemma first_defs_new known ds d : d ∈ first_defs known ds → d ∈ ds ∧ d_key d ∉ known.
Proof.
  revert known. induction ds as [|d0 ds IH]; intros known; simpl; [by intros ?%elem_of_nil|].
  case_decide.
  - intros H'%IH. set_solver.
  - intros [->|H'%IH]%elem_of_cons; set_solver.
Qed.

Lemma first_defs_ext known1 known2 ds :
  (∀ k, k ∈ known1 ↔ k ∈ known2) → first_defs known1 ds = first_defs known2 ds.
Proof.
  revert known1 known2. induction ds as [|d ds IH]; intros k1 k2 He; simpl; [done|].
  destruct (decide (d_key d ∈ k1)) as [H|H].
  - rewrite decide_True by (by apply He). by apply IH.
  - rewrite decide_False by (by rewrite <- He). f_equal. apply IH. intros k. rewrite !elem_of_union, He. done.
Qed.

Definition def_props (now : Z) (d : itemdef) :=
  props (new_item now (d_key d) (d_group d) (d_data d) (d_prio d) 0%N (d_delay d) (d_ttr d)).

Lemma add_many_loop_defs now ds s a s' a' :
  add_many_loop now ds s a = Some (s', a') → ids_ok s →
  let fd := first_defs (dom (items s)) ds in
  (a_added a' = a_added a + length fd)%nat ∧ (a_dups a' = a_dups a + (length ds - length fd))%nat ∧
  (length fd ≤ length ds)%nat ∧
  (∀ d, d ∈ fd → ∃ x, items s' !! d_key d = Some x ∧ (nextid s ≤ x)%nat ∧ props <$> objs s' !! x = Some (def_props now d)) ∧
  (∀ k x, items s' !! k = Some x → items s !! k = Some x ∨ ∃ d, d ∈ fd ∧ d_key d = k) ∧
  (∀ k x, items s !! k = Some x → items s' !! k = Some x) ∧
  (∀ x, (x < nextid s)%nat → props <$> objs s' !! x = props <$> objs s !! x) ∧ ids_ok s' ∧ (nextid s ≤ nextid s')%nat.
Proof.
  revert s a. induction ds as [|d ds IH]; intros s a.
  { simpl. intros [= <- <-] Hids. split_and!; try lia; try done; eauto. by intros d ?%elem_of_nil. }
  cbn [add_many_loop first_defs]. intros H Hids. mdest H.
  match goal with E : add_many_one _ _ _ _ = Some (?sm, ?am) |- _ => rename sm into s1, am into a1; apply add_many_one_data in E; rename E into E1 end.
  destruct (items s !! d_key d) as [x|] eqn:Hk.
  - destruct E1 as (-> & Ha & Hd). rewrite decide_True by (apply elem_of_dom; by eexists).
    specialize (IH _ _ H Hids). cbv zeta in *. destruct IH as (H1 & H2 & Hle & H3). split_and!; simpl; try lia; apply H3.
  - destruct E1 as (Hi1 & Hn1 & Hc1 & Ho1 & Ha & Hd). rewrite decide_False by (by rewrite not_elem_of_dom).
    assert (Hids1 : ids_ok s1).
    { destruct Hids as [Hlt Hinj]. split.
      - intros k x. rewrite Hi1. intros [[<- <-]|[_ Hy]]%lookup_insert_Some; [lia|]. apply Hlt in Hy. lia.
      - intros k1 k2 x. rewrite Hi1.
        intros [[<- <-]|[_ Hy]]%lookup_insert_Some [[<- Hz]|[_ Hz]]%lookup_insert_Some.
        + done.
        + apply Hlt in Hz. lia.
        + apply Hlt in Hy. lia.
        + by eapply Hinj. }
    specialize (IH _ _ H Hids1). cbv zeta in IH.
    rewrite (first_defs_ext (dom (items s1)) ({[d_key d]} ∪ dom (items s))) in IH
      by (intros k; rewrite Hi1, dom_insert; done).
    destruct IH as (H1 & H2 & Hle & H3 & H4 & H5 & H6 & H7 & H8). cbv zeta. simpl. split_and!; try lia.
    + intros d' [->|Hd']%elem_of_cons.
      * exists (nextid s). split_and!; [|lia|].
        -- apply H5. rewrite Hi1. apply lookup_insert.
        -- rewrite H6 by lia. rewrite Ho1. by rewrite decide_True.
      * destruct (H3 _ Hd') as (x & ? & ? & ?). exists x. split_and!; [done|lia|done].
    + intros k x Hkx. destruct (H4 _ _ Hkx) as [Hkx1|(d' & ? & ?)].
      * rewrite Hi1 in Hkx1. apply lookup_insert_Some in Hkx1 as [[<- _]|[_ ?]]; [|by left].
        right. exists d. split; [by left|done].
      * right. exists d'. split; [by right|done].
    + intros k x Hkx. apply H5. rewrite Hi1, lookup_insert_ne by congruence. done.
    + intros x Hx. rewrite H6 by lia. rewrite Ho1. by rewrite decide_False by lia.
    + done.
Qed.

Lemma add_many_ok t ops s now ds s' r e :
  history t ops s → closed s = false → step s (OAddMany now ds) = Some (s', r, e) →
  let fd := first_defs (dom (items s)) ds in
  r = RAdded (length fd) (length ds - length fd) ∧ (length fd ≤ length ds)%nat ∧
  (∀ d, d ∈ fd → ∃ x it, named s' (d_key d) x it ∧ (∀ k, items s !! k ≠ Some x) ∧
      igroup it = d_group d ∧ idata it = d_data d ∧ iprio it = d_prio d ∧
      idelay it = d_delay d ∧ ittr it = d_ttr d ∧ creation it = now) ∧
  (∀ k x, items s !! k = Some x → items s' !! k = Some x ∧
      props <$> objs s' !! x = props <$> objs s !! x) ∧
  (∀ k, is_Some (items s' !! k) → is_Some (items s !! k) ∨ ∃ d, d ∈ fd ∧ d_key d = k).
Proof.
  intros Hh Hc Hs. pose proof (hist_ids _ _ _ Hh) as Hids. simpl in Hs. unfold q_add_many in Hs. rewrite Hc in Hs.
  mdest Hs. simplify_eq.
  match goal with E : add_many_loop _ _ _ _ = Some (?sm, _) |- _ => rename sm into s1;
    destruct (add_many_loop_defs _ _ _ _ _ _ E Hids) as (H1 & H2 & Hle & H3 & H4 & H5 & H6 & H7 & H8) end.
  assert (same s1 s') as (Ho & Hi & _ & Hn & _) by (eapply same_trans; prim).
  simpl in H1, H2. rewrite Ho, Hi. split_and!.
  - by rewrite H1, H2.
  - done.
  - intros d Hd. destruct (H3 _ Hd) as (x & Hx & Hxl & Hp).
    destruct (objs s1 !! x) as [it|] eqn:Hox; [|done]. injection Hp as Hp.
    unfold def_props, props in Hp. simpl in Hp. exists x, it. unfold named. rewrite Ho, Hi. split_and!; try done; try congruence.
    intros k Hkx. apply (proj1 Hids) in Hkx. lia.
  - intros k x Hkx. split; [by apply H5|]. apply H6. by apply (proj1 Hids) in Hkx.
  - intros k [x Hx]. destruct (H4 _ _ Hx); [left; by eexists|by right].
Qed.

(** ** C10: errors *)
Lemma holding_readyQ s s' q :
  delayQ s' = delayQ s → rgroups (readyQ s') = rgroups (readyQ s) → runQ s' = runQ s →
  buryQ s' = buryQ s → depQ s' = depQ s → holding s' q = holding s q.
Proof. intros H1 H2 H3 H4 H5. destruct q; simpl; congruence. Qed.

Lemma unchanged_refl s : unchanged s s.
Proof. by split_and!. Qed.

Lemma error_unchanged s o s' r e :
  step s o = Some (s', r, e) → fails r → unchanged s s' ∧ e = [].
Proof.
  assert (Hs : ∀ (r1 : qres), Some (s, r1, @nil event) = Some (s', r, e) → unchanged s s' ∧ e = []).
  { intros r1 [= <- <- <-]. split; [apply unchanged_refl|done]. }
  intros Hst Hf. destruct o; cbn [step] in Hst.
  - unfold q_add in Hst. destruct (closed s); [by eapply Hs|]. destruct (items s !! k); [by eapply Hs|].
    unfold alloc_item in Hst. cbv beta iota zeta in Hst.
    apply (handle_item_keeps props reads_all) in Hst as [_ ->]. done.
  - unfold q_add_many in Hst. destruct (closed s); [by eapply Hs|]. mdest Hst; by simplify_eq.
  - unfold q_get in Hst. destruct (closed s); [by eapply Hs|]. destruct (items s !! k); by eapply Hs.
  - unfold q_update in Hst. destruct (closed s); [by eapply Hs|]. destruct (items s !! k); [|by eapply Hs].
    mdest Hst; by simplify_eq.
  - unfold q_change_key in Hst. destruct (closed s); [by eapply Hs|]. destruct (items s !! new); [by eapply Hs|].
    destruct (items s !! old); [|by eapply Hs]. by simplify_eq.
  - unfold q_set_delay in Hst. destruct (closed s); [by eapply Hs|]. destruct (items s !! k); [|by eapply Hs].
    mdest Hst. destruct (idelay i =? delay); [by eapply Hs|]. destruct (ist i); mdest Hst; by simplify_eq.
  - unfold q_set_reserve_group in Hst. destruct (closed s); [by eapply Hs|]. destruct (items s !! k); [|by eapply Hs].
    mdest Hst. case_decide; [by eapply Hs|]. destruct (ist i); mdest Hst; by simplify_eq.
  - unfold q_reserve in Hst. destruct (closed s && negb retry); [by eapply Hs|]. mdest Hst; simplify_eq; [done|].
    split; [|done].
    match goal with E : ready_pop _ _ = _ |- _ => rename E into Hpop end. unfold ready_pop in Hpop.
    destruct (rgroups (readyQ s) !! g) as [l|]; [|mdest Hpop; simplify_eq; apply unchanged_refl].
    destruct l; mdest Hpop; simplify_eq. unfold unchanged. split_and!; try done.
  - unfold q_touch in Hst. destruct (closed s); [by eapply Hs|]. destruct (items s !! k); [|by eapply Hs].
    mdest Hst. destruct (ist i); try (by eapply Hs). mdest Hst; by simplify_eq.
  - unfold q_release in Hst. destruct (closed s); [by eapply Hs|]. destruct (items s !! k); [|by eapply Hs].
    mdest Hst. destruct (ist i); try (by eapply Hs). mdest Hst. destruct (idelay i =? 0); mdest Hst; by simplify_eq.
  - unfold q_bury in Hst. destruct (closed s); [by eapply Hs|]. destruct (items s !! k); [|by eapply Hs].
    mdest Hst. destruct (ist i); try (by eapply Hs). mdest Hst; by simplify_eq.
  - unfold q_kick in Hst. destruct (closed s); [by eapply Hs|]. destruct (items s !! k); [|by eapply Hs].
    mdest Hst. destruct (ist i); try (by eapply Hs). mdest Hst. destruct (item_has_deps _ _); mdest Hst; by simplify_eq.
  - unfold q_remove in Hst. destruct (closed s); [by eapply Hs|]. destruct (items s !! k); [|by eapply Hs].
    mdest Hst; by simplify_eq.
  - unfold q_has_dependents in Hst. destruct (closed s); by eapply Hs.
  - unfold q_destroy in Hst. destruct (closed s); [by eapply Hs|]. by simplify_eq.
  - unfold q_tick_delay in Hst. mdest Hst; by simplify_eq.
  - unfold q_tick_ttr in Hst. mdest Hst; by simplify_eq.
Qed.

(** Which answer the guarded operations give *)
Definition needs (o : op) : option (key * istate * qerr) :=
  match o with
  | OTouch _ k | ORelease _ k | OBury k => Some (k, SRun, ENotRunning)
  | OKick k => Some (k, SBury, ENotBuried)
  | _ => None
  end.
Lemma guarded_ok s o s' r e k st err :
  needs o = Some (k, st, err) → step s o = Some (s', r, e) →
  r = if closed s then RErr EClosed
      else match items s !! k with
           | None => RErr ENotFound
           | Some x => if decide (ist <$> objs s !! x = Some st) then ROk else RErr err
           end.
Proof.
  intros Hn Hst. destruct o; simplify_eq/=; try discriminate.
  - unfold q_touch in Hst. destruct (closed s); [by simplify_eq|]. destruct (items s !! _) as [x|]; [|by simplify_eq].
    mdest Hst. simpl. destruct (ist i); mdest Hst; simplify_eq; done.
  - unfold q_release in Hst. destruct (closed s); [by simplify_eq|]. destruct (items s !! _) as [x|]; [|by simplify_eq].
    mdest Hst. simpl. destruct (ist i); mdest Hst; simplify_eq; try done. destruct (idelay i =? 0); mdest Hst; by simplify_eq.
  - unfold q_bury in Hst. destruct (closed s); [by simplify_eq|]. destruct (items s !! _) as [x|]; [|by simplify_eq].
    mdest Hst. simpl. destruct (ist i); mdest Hst; simplify_eq; done.
  - unfold q_kick in Hst. destruct (closed s); [by simplify_eq|]. destruct (items s !! _) as [x|]; [|by simplify_eq].
    mdest Hst. simpl. destruct (ist i); mdest Hst; simplify_eq; try done. destruct (item_has_deps _ _); mdest Hst; by simplify_eq.
Qed.

(** On success *)
Definition moved_to (s : qstate) (x : nat) (it : item) (o : op) : istate :=
  match o with
  | OTouch _ _ => SRun
  | ORelease _ _ => if idelay it =? 0 then SReady else SDelay
  | OBury _ => SBury
  | OKick _ => if item_has_deps x s then SDep else SReady
  | _ => ist it
  end.
Lemma objs_alter_one f x it s (P : item → Prop) o' :
  o' = alter f x (objs s) → objs s !! x = Some it → P (f it) →
  (∃ it', o' !! x = Some it' ∧ P it') ∧ ∀ y, y ≠ x → o' !! y = objs s !! y.
Proof.
  intros -> Hx HP. split.
  - exists (f it). by rewrite lookup_alter, Hx.
  - intros y Hne. by rewrite lookup_alter_ne.
Qed.

Lemma guarded_effect s o s' e k st err x it :
  needs o = Some (k, st, err) → step s o = Some (s', ROk, e) → named s k x it →
  ist it = st ∧ items s' = items s ∧
  (∃ it', objs s' !! x = Some it' ∧ ist it' = moved_to s x it o ∧ props it' = props it) ∧
  ∀ y, y ≠ x → objs s' !! y = objs s !! y.
Proof.
  intros Hn Hst [Hk Hx]. destruct o; simplify_eq/=; try discriminate.
  - unfold q_touch in Hst. rewrite Hk, Hx in Hst. destruct (closed s); [done|]. cbn beta iota zeta delta [mbind option_bind] in Hst.
    destruct (ist it) eqn:E; try done. mdest Hst. simplify_eq.
    match goal with H1 : run_update _ ?sa = Some ?sb |- _ =>
      destruct (same_trans sa sb s') as (Ho & Hi & _); [prim|prim|] end.
    split_and!; [done|done|..]; eapply (objs_alter_one (touch now) x it s (λ it', ist it' = SRun ∧ props it' = props it)); done.
  - unfold q_release in Hst. rewrite Hk, Hx in Hst. destruct (closed s); [done|]. cbn beta iota zeta delta [mbind option_bind] in Hst.
    destruct (ist it) eqn:E; try done. mdest Hst.
    match goal with H1 : run_remove _ _ = Some ?sb |- _ =>
      rename sb into s1; destruct (run_remove_same _ _ _ H1) as (Ho1 & Hi1 & _) end.
    destruct (idelay it =? 0) eqn:Ed; mdest Hst; simplify_eq.
    + match goal with H1 : ready_push _ _ = Some _ |- _ => destruct (ready_push_same _ _ _ H1) as (Ho & Hi & _) end.
      simpl in Ho, Hi. rewrite Ho1 in Ho. rewrite Hi1 in Hi.
      split_and!; [done|done|..]; eapply (objs_alter_one switch_run_ready x it s (λ it', ist it' = SReady ∧ props it' = props it)); done.
    + match goal with H1 : delay_push _ _ = Some _ |- _ => destruct (delay_push_same _ _ _ H1) as (Ho2 & Hi2 & _) end.
      match goal with H1 : delay_trigger _ _ _ = Some _ |- _ => destruct (delay_trigger_same _ _ _ _ H1) as (Ho & Hi & _) end.
      simpl in *. rewrite Ho2, Ho1 in Ho. rewrite Hi2, Hi1 in Hi.
      rewrite <- alter_compose in Ho.
      split_and!; [done|done|..]; eapply (objs_alter_one (switch_run_delay false ∘ restart now) x it s (λ it', ist it' = SDelay ∧ props it' = props it)); done.
  - unfold q_bury in Hst. rewrite Hk, Hx in Hst. destruct (closed s); [done|]. cbn beta iota zeta delta [mbind option_bind] in Hst.
    destruct (ist it) eqn:E; try done. mdest Hst. simplify_eq.
    match goal with H1 : run_remove _ _ = Some ?sb |- _ =>
      destruct (run_remove_same _ _ _ H1) as (Ho1 & Hi1 & _) end. simpl.
    split_and!; [done|done|..]; eapply (objs_alter_one (switch_run_bury false) x it s (λ it', ist it' = SBury ∧ props it' = props it)); try done; by rewrite Ho1.
  - unfold q_kick in Hst. rewrite Hk, Hx in Hst. destruct (closed s); [done|]. cbn beta iota zeta delta [mbind option_bind] in Hst.
    destruct (ist it) eqn:E; try done. mdest Hst.
    match goal with H1 : bury_remove _ _ = Some ?sb |- _ =>
      rename sb into s1; destruct (bury_remove_same _ _ _ H1) as (Ho1 & Hi1 & _) end.
    assert (item_has_deps x s1 = item_has_deps x s) as Hd by (unfold item_has_deps; by rewrite Ho1, Hi1).
    rewrite Hd in Hst. destruct (item_has_deps x s); mdest Hst; simplify_eq; simpl.
    + split_and!; [done|done|..]; eapply (objs_alter_one switch_bury_dependent x it s (λ it', ist it' = SDep ∧ props it' = props it)); try done; by rewrite Ho1.
    + match goal with H1 : ready_push _ _ = Some _ |- _ => destruct (ready_push_same _ _ _ H1) as (Ho & Hi & _) end.
      split_and!; [done|congruence|..]; eapply (objs_alter_one switch_bury_ready x it s (λ it', ist it' = SReady ∧ props it' = props it)); try done; by rewrite Ho, Ho1.
Qed.

(** ** C13 *)
Record emptied (s : qstate) : Prop := {
  em_closed : closed s = true; em_items : items s = ∅; em_hold q : holding s q = [];
  em_groups : rgroups (readyQ s) = ∅ }.

Lemma emptied_step s o : emptied s →
  ∃ s', step s o = Some (s', match o with
      | OReserve _ _ true => RErr ENothingReady
      | OTickDelay _ | OTickTTR _ _ => ROk
      | _ => RErr EClosed
      end, []) ∧ emptied s'.
Proof.
  intros HE. pose proof (em_closed _ HE) as Hcl.
  pose proof (em_hold _ HE SDelay) as Hdl. pose proof (em_hold _ HE SRun) as Hrn. simpl in Hdl, Hrn.
  assert (Hgen : ∀ r : qres, ∃ s', Some (s, r, @nil event) = Some (s', r, []) ∧ emptied s').
  { intros r. eexists. split; [done|done]. }
  destruct o; simpl; try (unfold q_add, q_add_many, q_get, q_update, q_change_key, q_set_delay,
    q_set_reserve_group, q_touch, q_release, q_bury, q_kick, q_remove, q_has_dependents, q_destroy;
    rewrite Hcl; apply Hgen).
  - unfold q_reserve. rewrite Hcl. destruct retry; simpl; [|apply Hgen].
    unfold ready_pop. rewrite (em_groups _ HE), lookup_empty. simpl. apply Hgen.
  - unfold q_tick_delay. rewrite Hdl. simpl. unfold delay_loop_top. rewrite Hdl. simpl.
    eexists. split; [done|]. split; apply HE.
  - unfold q_tick_ttr. rewrite Hrn. simpl. unfold ttr_loop_top. simpl. rewrite Hrn. simpl.
    eexists. split; [done|]. split; apply HE.
Qed.

Lemma destroy_empties s s' r e : closed s = false → step s ODestroy = Some (s', r, e) → r = ROk ∧ e = [] ∧ emptied s'.
Proof.
  intros Hc. simpl. unfold q_destroy. rewrite Hc. intros [= <- <- <-]. split_and!; try done.
  split; try done. intros q. by destruct q.
Qed.

Lemma emptied_run s ops : emptied s → ∃ s' out, run s ops = Some (s', out) ∧ emptied s'.
Proof.
  revert s. induction ops as [|o ops IH]; intros s HE; simpl; [by eauto|].
  destruct (emptied_step s o HE) as (s1 & -> & HE1). simpl. destruct (IH s1 HE1) as (s2 & out & -> & HE2). simpl. eauto.
Qed.
Lemma closed_emptied s ops s' out :
  (closed s = true → emptied s) → run s ops = Some (s', out) → closed s' = true → emptied s'.
Proof.
  revert s out. induction ops as [|o ops IH]; intros s out Hs.
  { simpl. intros [= <- <-]. done. }
  intros (s1 & r & e & out1 & Hst & Hr & ->)%run_cons. eapply IH; [|done]. intros Hc1.
  destruct (closed s) eqn:Hc.
  - destruct (emptied_step s o (Hs eq_refl)) as (s2 & Hst2 & HE). rewrite Hst in Hst2. by simplify_eq.
  - pose proof (tr_closed _ _ _ _ (step_track _ _ _ _ _ Hst)) as [->|Hc2]; [|congruence].
    by destruct (destroy_empties _ _ _ _ Hc Hst) as (_ & _ & ?).
Qed.
Lemma hist_closed t ops s : history t ops s → closed s = true → emptied s.
Proof. intros [out Hr]. eapply closed_emptied; [|done]. done. Qed.
Lemma emptied_stats s : emptied s → q_stats s = QStats 0 0 0 0 0 0.
Proof.
  intros HE. unfold q_stats. rewrite (em_items _ HE), (em_groups _ HE).
  pose proof (em_hold _ HE SDelay) as H1. pose proof (em_hold _ HE SRun) as H2.
  pose proof (em_hold _ HE SBury) as H3. pose proof (em_hold _ HE SDep) as H4. simpl in *.
  by rewrite H1, H2, H3, H4.
Qed.
