(** Proofs about dependencies. *)
From Coq Require Import ZArith Lia String.
From stdpp Require Import base option strings gmap list.
From RecordUpdate Require Import RecordSet.
From Verif Require Import GoHeap GoHeapProofs QueueModel QueueCore QueueInv QueueInvAdd
  QueueInvUpd QueueInvRem QueueInvTick QueueEff QueueItem QueueFrame QueueSpec QueueProofs QueueProofs2
  QueueProofs3.
Import RecordSetNotations.
Open Scope Z_scope.

(** ** What each call does to an item's unresolved dependencies *)
Lemma prop_change_remain now g prio delay ttr added it :
  iremain (prop_change now g prio delay ttr added it) = iremain it.
Proof.
  unfold prop_change. destruct (negb _); [by destruct (ist it)|].
  destruct (_ || _); [done|]. destruct (negb _); [|done]. by destruct (ist it).
Qed.
Lemma deps_diff_spec (old : gset key) (ds : list key) n (o' : gset key) n' :
  fold_left (λ '(o, n) d, (o ∖ {[d]}, if decide (d ∈ o) then n else S n)) ds (old, n) = (o', n') →
  o' = old ∖ list_to_set ds ∧ (n ≤ n')%nat ∧ (n' = n → ∀ d, d ∈ ds → d ∈ old).
Proof.
  revert old n. induction ds as [|d ds IH]; intros old n; simpl.
  - intros [= <- <-]. split_and!; [set_solver|lia|]. intros _ d Hd. by apply elem_of_nil in Hd.
  - intros H. apply IH in H as (-> & Hle & H). split_and!.
    + set_solver.
    + destruct (decide (d ∈ old)); lia.
    + intros Hn. destruct (decide (d ∈ old)) as [Hd|Hd]; [|lia].
      intros d' [->|Hd']%elem_of_cons; [done|]. specialize (H Hn d' Hd'). set_solver.
Qed.
Lemma dep_changed_false ds it : dep_changed ds it = false → iremain it = list_to_set ds.
Proof.
  unfold dep_changed, deps_diff. destruct (fold_left _ ds _) as [o' n'] eqn:E.
  apply deps_diff_spec in E as (-> & _ & H). simpl.
  intros [H1 H2]%negb_false_iff%andb_true_iff. apply bool_decide_eq_true in H1. apply Nat.eqb_eq in H2.
  specialize (H H2). apply sets.set_eq. intros d. split.
  - intros Hd. destruct (decide (d ∈ (list_to_set ds : gset key))) as [|Hn]; [done|].
    assert (d ∈ iremain it ∖ list_to_set ds) by set_solver. rewrite H1 in *. set_solver.
  - intros Hd%elem_of_list_to_set. by apply H.
Qed.
Lemma updated_remain now g d prio delay ttr deps it :
  iremain (updated now g d prio delay ttr deps it) =
  match deps with Some ds => list_to_set ds | None => iremain it end.
Proof.
  unfold updated, dep_part. destruct deps as [ds|]; [|by rewrite prop_change_remain].
  destruct (dep_changed ds _) eqn:E; rewrite prop_change_remain.
  - unfold dep_change. destruct ds; [done|]. by destruct (ist _).
  - by apply dep_changed_false in E.
Qed.
Lemma updated_key now g d prio delay ttr deps it : ikey (updated now g d prio delay ttr deps it) = ikey it.
Proof.
  assert (Hp : ∀ added it, ikey (prop_change now g prio delay ttr added it) = ikey it).
  { intros added i. unfold prop_change. destruct (negb _); [by destruct (ist i)|].
    destruct (_ || _); [done|]. destruct (negb _); [|done]. by destruct (ist i). }
  unfold updated, dep_part. destruct deps as [ds|]; [|by rewrite Hp].
  destruct (dep_changed ds _); rewrite Hp; [|done].
  unfold dep_change. destruct ds; [done|]. by destruct (ist _).
Qed.
Lemma added_item_remain many now k g d prio size delay ttr start deps :
  iremain (added_item many now k g d prio size delay ttr start deps) = list_to_set deps.
Proof. unfold added_item. destruct deps; [|done]. destruct start; [|done|by destruct many]. by destruct (_ =? _). Qed.
Lemma added_item_state many now k g d prio size delay ttr start deps :
  deps ≠ [] → ist (added_item many now k g d prio size delay ttr start deps) = SDep.
Proof. by destruct deps. Qed.
Lemma added_item_nodeps many now k g d prio size delay ttr start :
  ist (added_item many now k g d prio size delay ttr start []) ≠ SDep.
Proof. unfold added_item. destruct start; [|done|by destruct many]. by destruct (_ =? _). Qed.

(** the definition a new item of AddMany came from *)
Lemma abs_adds_find now ds a x it :
  (a.2 ≤ x)%nat → (∀ y, is_Some (abs_objs a !! y) → (y < a.2)%nat) →
  abs_objs (abs_adds now ds a) !! x = Some it →
  ∃ d, find (λ d, bool_decide (d_key d = ikey it)) ds = Some d ∧ it = added_def now d ∧
       a.1.1.2 !! ikey it = None.
Proof.
  revert a. induction ds as [|d0 ds IH]; intros a Hx Hlt Hit.
  { simpl in Hit. assert (x < a.2)%nat by (apply Hlt; by eexists). lia. }
  destruct a as [[[o its] dp] n]. simpl in Hx, Hlt. unfold abs_adds in Hit. cbn [fold_left] in Hit.
  fold (abs_adds now ds (abs_add now (o, its, dp, n) d0)) in Hit. unfold abs_add in Hit.
  destruct (its !! d_key d0) as [y|] eqn:Hk.
  - destruct (IH (o, its, dp, n) Hx Hlt Hit) as (d & Hf & -> & Hn). exists d. split_and!; try done.
    cbn [find]. rewrite bool_decide_false; [done|]. intros He. simpl in Hn. rewrite <- He in Hn. congruence.
  - destruct (decide (x = n)) as [->|Hne].
    + pose proof (abs_adds_old now ds (<[n:=added_def now d0]> o, <[d_key d0:=n]> its,
         add_dependants (d_key d0) n (d_deps d0) dp, S n) n) as [Ho _]; [simpl; lia|].
      rewrite Ho in Hit. unfold abs_objs in Hit. simpl in Hit. rewrite lookup_insert in Hit. injection Hit as <-.
      exists d0. assert (ikey (added_def now d0) = d_key d0) as Hkey by apply added_item_key.
      rewrite Hkey. split_and!; try done. cbn [find]. by rewrite bool_decide_true.
    + destruct (IH (<[n:=added_def now d0]> o, <[d_key d0:=n]> its,
         add_dependants (d_key d0) n (d_deps d0) dp, S n)) as (d & Hf & -> & Hn); [simpl; lia| |done|].
      { intros y. unfold abs_objs. simpl. rewrite lookup_insert_is_Some.
        intros [<-|[_ Hy]]; [lia|]. specialize (Hlt y Hy). lia. }
      simpl in Hn. apply lookup_insert_None in Hn as [Hn1 Hn2].
      exists d. split_and!; try done. cbn [find]. rewrite bool_decide_false; done.
Qed.

(** ** C04: unresolved dependencies are in the item's map, and keep it from being ready *)
Definition tracks (U : nat → gset key) (s : qstate) : Prop :=
  ∀ x it, objs s !! x = Some it → ist it ≠ SRemoved → U x ⊆ iremain it.
Definition busy (s : qstate) : Prop :=
  ∀ x it, objs s !! x = Some it → ist it ≠ SRemoved → iremain it ≠ ∅ → ist it = SDep ∨ ist it = SBury.

Lemma live_named b s x it : Inv b s → objs s !! x = Some it → ist it ≠ SRemoved → items s !! ikey it = Some x.
Proof. intros HI Hx Hl. apply (i_items HI). eauto. Qed.

Lemma eff_update_named b s now k g d prio delay ttr deps s' e x :
  Inv b s → eff b s (OUpdate now k g d prio delay ttr deps) s' ROk e → items s !! k = Some x →
  ∃ it, objs s !! x = Some it ∧ objs s' !! x = Some (updated now g d prio delay ttr deps it).
Proof.
  intros HI He Hk. inversion He; subst; [done|]. simplify_eq. exists it. split; [done|].
  match goal with H : objs s' = _ |- _ => rewrite H end. by rewrite lookup_insert.
Qed.
Lemma eff_rekey_objs b s old new s' e :
  eff b s (OChangeKey old new) s' ROk e →
  ∃ x, items s !! new = None ∧ items s !! old = Some x ∧ objs s' = rekey old new <$> objs s ∧
    items s' = <[new := x]> (delete old (items s)) ∧ dependants s' = rename_dependants old new (dependants s).
Proof. intros He. inversion He; subst; [done|]. eauto 10. Qed.

Lemma tracks_step b s o s' r e U :
  Inv b s → eff b s o s' r e → tracks U s → tracks (unres_step s o r s' U) s'.
Proof.
  intros HI He HT x it' Hx' Hl'.
  destruct (objs s !! x) as [it|] eqn:Hx.
  - destruct (eff_item b s o s' r e x it HI He Hx) as (it1 & Hx1 & Hc). simplify_eq.
    assert (Hl : ist it ≠ SRemoved).
    { intros Hr. apply Hl'. destruct Hc; try done; try congruence. by apply resolve_live. }
    specialize (HT x it Hx Hl).
    assert (Hsame : iremain it' = iremain it → unres_step s o r s' U x ⊆ U x → unres_step s o r s' U x ⊆ iremain it').
    { intros -> H. by etrans. }
    assert (Hnew : ∀ y, objs s !! y = None → x ≠ y) by congruence.
    (* the calls that set or rename dependencies are settled by their effect *)
    destruct o; try (apply Hsame; [by inversion Hc|done]).
    + (* Add *) assert (it' = it) as -> by (by inversion Hc). apply Hsame; [done|]. simpl. destruct r; try done.
      case_decide as Hy; [|done]. subst. inversion He; subst; [done|]. exfalso.
      assert (nextid s < nextid s)%nat by (apply (i_ids HI); by eexists). lia.
    + (* AddMany *) assert (it' = it) as -> by (by inversion Hc). apply Hsame; [done|]. simpl. destruct r; try done.
      by rewrite Hx.
    + (* Update *)
      destruct deps as [ds|]; [|apply Hsame; [inversion Hc; subst; [done|by rewrite updated_remain]|simpl; by destruct r]].
      simpl. destruct r; try (apply Hsame; [by inversion Hc|done]).
      case_decide as Hk.
      * destruct (eff_update_named _ _ _ _ _ _ _ _ _ _ _ _ _ HI He Hk) as (it0 & H0 & H1). simplify_eq.
        by rewrite updated_remain.
      * inversion Hc; subst; [done|]. exfalso. apply Hk. by eapply live_named.
    + (* ChangeKey *)
      simpl. destruct r; try (apply Hsame; [by inversion Hc|done]).
      destruct (eff_rekey_objs _ _ _ _ _ _ He) as (y & Hnw & Hod & Ho & _).
      rewrite Ho, lookup_fmap, Hx in Hx'. simpl in Hx'. injection Hx' as <-.
      assert (Hk : items s !! ikey it = Some x) by (by eapply live_named).
      unfold rekey. destruct (decide (ist it = SRemoved)); [done|].
      destruct (decide (items s !! old = Some x)) as [Ho1|Ho1].
      * assert (ikey it = old) as <-. { apply (i_items HI) in Ho1 as (it2 & ? & ? & _). congruence. }
        unfold changed_key. by rewrite decide_True.
      * assert (ikey it ≠ old) as Hne by congruence. unfold changed_key.
        destruct (decide (ikey it = old)); [done|]. simpl.
        destruct (decide (old ∈ U x)) as [HU|HU].
        -- rewrite decide_True by set_solver. set_solver.
        -- destruct (decide (old ∈ iremain it)); set_solver.
    + apply Hsame; [|done]. inversion Hc; subst; [done|]. unfold set_delay. destruct (_ =? _); [done|]. by destruct (ist it).
    + apply Hsame; [|done]. inversion Hc; subst; [done|]. unfold released. by destruct (_ =? _).
    + apply Hsame; [|done]. inversion Hc; subst; [done|]. by destruct (item_has_deps x s).
    + (* Remove *)
      simpl. destruct r; try (assert (it' = it) as -> by (by inversion Hc); done).
      inversion Hc; subst.
      * set_solver.
      * done.
      * rewrite resolve_cases. simpl. set_solver.
    + apply Hsame; [|done]. inversion Hc; subst; [done|]. by destruct (cb j).
  - pose proof (eff_new b s o s' r e x it' HI He Hx Hx') as Hn. destruct Hn.
    + simpl. rewrite decide_True by done. by rewrite added_item_remain.
    + assert (Hab : abs_of s' = abs_adds now ds (abs_of s) ∧ ∃ a b, r = RAdded a b).
      { inversion He; subst; [|eauto]. exfalso. rewrite H0 in Hx'. congruence. }
      destruct Hab as [Hab (na & nd & ->)]. simpl. rewrite Hx, Hx'.
      destruct (abs_adds_find now ds (abs_of s) x (added_def now d)) as (d1 & Hf & Hd & _).
      * simpl. destruct (decide (nextid s ≤ x)%nat) as [|Hn]; [done|]. exfalso.
        assert (is_Some (objs s !! x)) as [? ?] by (apply (i_ids HI); lia). congruence.
      * intros y Hy. by apply (i_ids HI).
      * by rewrite <- Hab.
      * rewrite Hf, Hd. unfold added_def. by rewrite added_item_remain.
Qed.

Lemma has_deps_spec x s it : objs s !! x = Some it →
  item_has_deps x s = true ↔ ∃ d, d ∈ ideps it ∧ is_Some (items s !! d).
Proof.
  intros Hx. unfold item_has_deps. rewrite Hx, existsb_exists. setoid_rewrite <- elem_of_list_In.
  by setoid_rewrite bool_decide_eq_true.
Qed.

Lemma new_item_ok o r x it : inew o r x it → iremain it ≠ ∅ ↔ ist it = SDep.
Proof.
  assert (H : ∀ many now k g d prio size delay ttr start deps,
    iremain (added_item many now k g d prio size delay ttr start deps) ≠ ∅ ↔
    ist (added_item many now k g d prio size delay ttr start deps) = SDep).
  { intros. rewrite added_item_remain. destruct deps as [|d0 ds].
    - split; [done|]. intros E. by apply added_item_nodeps in E.
    - split; [done|]. intros _. simpl. set_solver. }
  destruct 1; apply H.
Qed.

Lemma busy_step b s o s' r e :
  Inv b s → eff b s o s' r e → kicks_soundly s o → busy s → busy s'.
Proof.
  intros HI He Hk HB x it' Hx' Hl' Hr'.
  destruct (objs s !! x) as [it|] eqn:Hx.
  - destruct (eff_item b s o s' r e x it HI He Hx) as (it1 & Hx1 & Hc). simplify_eq.
    assert (Hl : ist it ≠ SRemoved).
    { intros Hr. apply Hl'. destruct Hc; try done; try congruence. by apply resolve_live. }
    specialize (HB x it Hx Hl).
    destruct Hc; simpl in *; try (by auto); try (by destruct HB; [done|congruence|congruence]).
    + rewrite updated_remain in Hr'. rewrite updated_ist. destruct deps as [[|d0 ds]|]; [done| |by auto].
      destruct (dep_changed (d0 :: ds) it) eqn:Ed.
      * destruct (ist it); auto.
      * apply dep_changed_false in Ed. apply HB. by rewrite Ed.
    + destruct (changed_key_props old new it) as (-> & _). apply HB. intros E. apply Hr'.
      unfold changed_key. destruct (decide _); [done|]. simpl. by rewrite E, decide_False by set_solver.
    + rewrite set_delay_ist. apply HB. intros E. apply Hr'. unfold set_delay.
      destruct (_ =? _); [done|]. by destruct (ist it).
    + exfalso. destruct HB; [|congruence|congruence]. intros E. apply Hr'. unfold released. by destruct (_ =? _).
    + left. assert (items s !! ikey it = Some x) as Hn by (by eapply live_named).
      assert (item_has_deps x s = true) as ->; [|done].
      apply (has_deps_spec x s it Hx). apply (Hk x it); [done|]. intros E. apply Hr'. by destruct (item_has_deps x s).
    + rewrite resolve_ist. assert (iremain (resolve k it) = iremain it ∖ {[k]}) as E by (by rewrite resolve_cases).
      rewrite decide_False; [|intros [_ H']; apply Hr'; by rewrite E].
      apply HB. intros E'. apply Hr'. rewrite E, E'. set_solver.
    + exfalso. destruct HB; [|congruence|congruence]. intros E. apply Hr'. by destruct (cb j).
  - left. apply (new_item_ok o r x); [|done]. by eapply eff_new.
Qed.

Lemma c04_run s ops s' out U :
  Ok false s → tracks U s → (Inv false s → busy s) →
  always (λ s o, clears_safely s o ∧ kicks_soundly s o) s ops → run s ops = Some (s', out) →
  Ok false s' ∧ (Inv false s' → tracks (unres_run U s ops) s' ∧ busy s').
Proof.
  revert s out U. induction ops as [|o ops IH]; intros s out U HO HT HB Ha Hr.
  { simpl in Hr. injection Hr as <- <-. auto. }
  apply run_cons in Hr as (s1 & r & e & out1 & Hs & Hr & ->).
  destruct Ha as [[Hc1 Hc2] Ha]. cbn [unres_run]. rewrite Hs in Ha |- *.
  destruct (ok_step false s o s1 r e HO (good_false _ _ Hc1) Hs) as [HO1 [[HI He]|(_ & HD & _)]].
  - eapply IH; [done| | |done|done].
    + by eapply tracks_step.
    + intros _. eapply busy_step; eauto.
  - (* the queue is destroyed *)
    assert (HD' : ∀ l sa sb o2, Dead sa → run sa l = Some (sb, o2) → Dead sb).
    { clear. intros l. induction l as [|o l IH]; intros sa sb o2 HD Hr.
      { simpl in Hr. by injection Hr as <- <-. }
      apply run_cons in Hr as (s1 & r & e & out1 & Hs & Hr & ->).
      destruct (dead_step sa o HD) as (s2 & Hs2 & HD2 & _). rewrite Hs in Hs2. injection Hs2 as <- _ _. by eapply IH. }
    pose proof (HD' _ _ _ _ HD Hr) as HD2. split; [by right|]. intros HI.
    pose proof (i_open HI) as H1. by rewrite (dd_closed _ HD2) in H1.
Qed.

Lemma not_reserved t ops s now g w s' x e :
  history t ops s → always (λ s o, clears_safely s o ∧ kicks_soundly s o) (q_new t) ops →
  unresolved t ops x ≠ ∅ → step s (OReserve now g w) ≠ Some (s', RItem x, e).
Proof.
  intros [out Hr] Ha HU Hs.
  destruct (c04_run (q_new t) ops s out (λ _, ∅)) as [HO HI]; try done.
  { left. apply inv_new. }
  destruct (ok_step false s (OReserve now g w) s' (RItem x) e HO I Hs) as [_ [[Hi He]|(_ & _ & _ & _ & Hr1 & _)]].
  2:{ simpl in Hr1. by destruct w. }
  destruct (HI Hi) as [HT HB]. inversion He; subst; [done|].
  assert (ist it ≠ SRemoved) as Hl by congruence.
  match goal with H : objs s !! x = Some it |- _ => specialize (HT x it H Hl); specialize (HB x it H Hl) end.
  destruct HB; [|congruence|congruence]. intros E. apply HU. rewrite E in HT. unfold unresolved. set_solver.
Qed.

(** ** C05: the lookup of dependants is complete *)
Definition looked_up (o : gmap nat item) (dp : gmap key (gmap key nat)) : Prop :=
  ∀ x it d, o !! x = Some it → ist it ≠ SRemoved → d ∈ iremain it →
    ∃ m, dp !! d = Some m ∧ m !! ikey it = Some x.

Definition has (dp : gmap key (gmap key nat)) (d k : key) (x : nat) : Prop :=
  ∃ m, dp !! d = Some m ∧ m !! k = Some x.
Lemma has_insert dp d0 m d k x : has (<[d0 := m]> dp) d k x ↔ (d = d0 ∧ m !! k = Some x) ∨ (d ≠ d0 ∧ has dp d k x).
Proof.
  unfold has. destruct (decide (d = d0)) as [->|Hne].
  - rewrite lookup_insert. naive_solver.
  - rewrite lookup_insert_ne by done. naive_solver.
Qed.
Lemma has_delete dp d0 d k x : has (delete d0 dp) d k x ↔ d ≠ d0 ∧ has dp d k x.
Proof.
  unfold has. destruct (decide (d = d0)) as [->|Hne].
  - rewrite lookup_delete. naive_solver.
  - rewrite lookup_delete_ne by done. naive_solver.
Qed.

Lemma has_add_new k x deps dp d : d ∈ deps → has (add_dependants k x deps dp) d k x.
Proof.
  unfold add_dependants.
  assert (Hkeep : ∀ deps dp, has dp d k x → has (fold_left (λ d dep, <[dep := <[k := x]> (default ∅ (d !! dep))]> d) deps dp) d k x).
  { clear. induction deps as [|a deps IH]; intros dp H; [done|]. cbn [fold_left]. apply IH. apply has_insert.
    destruct (decide (d = a)) as [->|]; [left|by right]. split; [done|]. by rewrite lookup_insert. }
  revert dp. induction deps as [|a deps IH]; intros dp; [by intros ?%elem_of_nil|].
  intros [->|H]%elem_of_cons; cbn [fold_left]; [|by apply IH].
  apply Hkeep. apply has_insert. left. split; [done|]. by rewrite lookup_insert.
Qed.
Lemma has_add_old k x deps dp d k' y : k' ≠ k → has dp d k' y → has (add_dependants k x deps dp) d k' y.
Proof.
  intros Hne. unfold add_dependants. revert dp. induction deps as [|a deps IH]; intros dp H; [done|].
  cbn [fold_left]. apply IH. apply has_insert. destruct (decide (d = a)) as [->|]; [left|by right]. split; [done|].
  rewrite lookup_insert_ne by done. destruct H as (m & -> & Hm). done.
Qed.
Lemma has_drop its k l dp d k' y : k' ≠ k → has dp d k' y → has (drop_dependants its k l dp) d k' y.
Proof.
  intros Hne. unfold drop_dependants. revert dp. induction l as [|a l IH]; intros dp H; [done|].
  cbn [fold_left]. apply IH. destruct (its !! a); [|done]. cbv zeta.
  destruct (decide (d = a)) as [->|Hda].
  - destruct H as (m & Hd & Hm). rewrite Hd. simpl.
    assert (delete k m !! k' = Some y) as Hdm by (by rewrite lookup_delete_ne).
    destruct (decide (delete k m = ∅)) as [E|]; [by rewrite E, lookup_empty in Hdm|].
    apply has_insert. by left.
  - destruct (decide _); [apply has_delete|apply has_insert]; auto.
Qed.
Lemma has_forget k l dp d k' y : k' ≠ k → has dp d k' y → has (fold_left (forget_parent k) l dp) d k' y.
Proof.
  intros Hne. revert dp. induction l as [|a l IH]; intros dp H; [done|].
  cbn [fold_left]. apply IH. unfold forget_parent. destruct (dp !! a) as [m0|] eqn:Ea; [|done]. cbv zeta.
  destruct (decide (d = a)) as [->|Hda].
  - destruct H as (m & Hd & Hm). simplify_eq.
    assert (delete k m !! k' = Some y) as Hdm by (by rewrite lookup_delete_ne).
    destruct (decide (delete k m = ∅)) as [E|]; [by rewrite E, lookup_empty in Hdm|].
    apply has_insert. by left.
  - destruct (decide _); [apply has_delete|apply has_insert]; auto.
Qed.
(** ChangeKey's renaming of the lookup *)
Definition sub_key (old new k : key) : key := if decide (k = old) then new else k.
Lemma has_rename old new dp d k x :
  has dp d k x → k ≠ new → (d = new → dp !! old = None) →
  has (rename_dependants old new dp) (sub_key old new d) (sub_key old new k) x.
Proof.
  intros (m & Hd & Hm) Hk Hcl. unfold rename_dependants.
  set (ren := λ m : gmap key nat, match m !! old with None => m | Some v => <[new := v]> (delete old m) end).
  assert (Hren : ren m !! sub_key old new k = Some x).
  { unfold ren, sub_key. destruct (decide (k = old)) as [->|Hko].
    - rewrite Hm. by rewrite lookup_insert.
    - destruct (m !! old); [|done]. by rewrite lookup_insert_ne, lookup_delete_ne by congruence. }
  exists (ren m). split; [|done]. rewrite lookup_fmap. unfold sub_key.
  destruct (decide (d = old)) as [->|Hdo].
  - rewrite Hd, lookup_insert. done.
  - destruct (dp !! old) as [v|] eqn:Eo; [|by rewrite Hd].
    assert (d ≠ new) by (intros ->; by specialize (Hcl eq_refl)).
    rewrite lookup_insert_ne, lookup_delete_ne by congruence. by rewrite Hd.
Qed.

Lemma looked_add o (its : gmap key nat) dp n k deps it :
  looked_up o dp → (∀ x i, o !! x = Some i → ist i ≠ SRemoved → its !! ikey i = Some x) →
  its !! k = None → ikey it = k → iremain it = list_to_set deps → o !! n = None →
  looked_up (<[n := it]> o) (add_dependants k n deps dp).
Proof.
  intros HL Hits Hk Hkey Hrem Hn x i d Hx Hl Hd.
  apply lookup_insert_Some in Hx as [[<- <-]|[Hne Hx]].
  - rewrite Hrem in Hd. apply elem_of_list_to_set in Hd. rewrite Hkey. by apply has_add_new.
  - apply has_add_old; [|by apply (HL x i d)]. intros E. specialize (Hits x i Hx Hl). congruence.
Qed.

Lemma looked_adds now ds o its dp n o' its' dp' n' :
  abs_adds now ds (o, its, dp, n) = (o', its', dp', n') →
  looked_up o dp → (∀ x i, o !! x = Some i → ist i ≠ SRemoved → its !! ikey i = Some x) →
  (∀ x, is_Some (o !! x) → (x < n)%nat) → looked_up o' dp'.
Proof.
  revert o its dp n. induction ds as [|d ds IH]; intros o its dp n Ha HL Hits Hlt.
  { unfold abs_adds in Ha. simpl in Ha. by simplify_eq. }
  unfold abs_adds in Ha. cbn [fold_left] in Ha. unfold abs_add in Ha at 2.
  destruct (its !! d_key d) as [y|] eqn:Hk; [by eapply IH|].
  assert (Hn : o !! n = None).
  { destruct (o !! n) eqn:E; [|done]. assert (n < n)%nat by (apply Hlt; by eexists). lia. }
  eapply IH; [exact Ha| | |].
  - eapply looked_add; try done; unfold added_def; [apply added_item_key|apply added_item_remain].
  - intros x i Hx Hl. apply lookup_insert_Some in Hx as [[<- <-]|[Hne Hx]].
    + assert (ikey (added_def now d) = d_key d) as -> by apply added_item_key. by rewrite lookup_insert.
    + specialize (Hits x i Hx Hl). rewrite lookup_insert_ne; [done|]. congruence.
  - intros x. rewrite lookup_insert_is_Some. intros [<-|[_ H]]; [lia|]. specialize (Hlt x H). lia.
Qed.

Lemma looked_step b s o s' r e :
  Inv b s → eff b s o s' r e → renames_safely s o → o ≠ ODestroy →
  looked_up (objs s) (dependants s) → looked_up (objs s') (dependants s').
Proof.
  intros HI He Hrn Hnd HL.
  assert (Hits : ∀ x i, objs s !! x = Some i → ist i ≠ SRemoved → items s !! ikey i = Some x).
  { intros. by eapply live_named. }
  (* calls after which every live item has the same key and unresolved dependencies *)
  assert (Hsame : rest_eq s s' → (∀ x it', objs s' !! x = Some it' → ist it' ≠ SRemoved →
      ∃ it, objs s !! x = Some it ∧ ist it ≠ SRemoved ∧ ikey it' = ikey it ∧ iremain it' = iremain it) →
      looked_up (objs s') (dependants s')).
  { intros (_ & Hd & _) H x it' d Hx' Hl' Hd'. destruct (H x it' Hx' Hl') as (it & Hx & Hl & Hk & Hr).
    rewrite Hd, Hk. apply (HL x it); [done|done|by rewrite <- Hr]. }
  assert (Halt : ∀ f x it, objs s !! x = Some it → ist it ≠ SRemoved → objs s' = alter f x (objs s) → rest_eq s s' →
     ikey (f it) = ikey it → iremain (f it) = iremain it → looked_up (objs s') (dependants s')).
  { intros f x it Hx Hl Ho Hre Hfk Hfr. apply Hsame; [done|]. intros y it' Hy' Hl'. rewrite Ho in Hy'.
    destruct (decide (y = x)) as [->|Hne].
    - rewrite lookup_alter, Hx in Hy'. simpl in Hy'. simplify_eq. exists it. done.
    - rewrite lookup_alter_ne in Hy' by done. exists it'. done. }
  destruct He.
  - apply Hsame; [done|]. intros x it' Hx' Hl'. exists it'. split_and!; try done. congruence.
  - done.
  - done.
  - rewrite H1, H5. eapply looked_add; try done; subst it; [apply added_item_key|apply added_item_remain|].
    destruct (objs s !! nextid s) as [i|] eqn:E; [|done].
    assert (nextid s < nextid s)%nat by (apply (i_ids HI); by eexists). lia.
  - unfold abs_of in H. eapply looked_adds; [symmetry; exact H|done|done|]. intros x Hx. by apply (i_ids HI).
  - (* Update *)
    rewrite H4, H8. unfold upd_dependants. intros y i d0 Hy Hl Hd0.
    apply lookup_insert_Some in Hy as [[<- <-]|[Hne Hy]].
    + rewrite updated_remain in Hd0. rewrite updated_key, H1.
      destruct deps as [ds|]; [|rewrite <- H1; by apply (HL x it)].
      change (dep_changed ds (it <| idata := d |>)) with (dep_changed ds it).
      destruct (dep_changed ds it) eqn:Ed.
      * apply has_add_new. by apply elem_of_list_to_set in Hd0.
      * apply dep_changed_false in Ed. rewrite <- H1. apply (HL x it); [done|done|by rewrite Ed].
    + assert (ikey i ≠ k) as Hki. { intros E. specialize (Hits y i Hy Hl). congruence. }
      pose proof (HL y i d0 Hy Hl Hd0) as Hh. destruct deps as [ds|]; [|done].
      destruct (dep_changed ds _); [|done]. apply has_add_old; [done|]. by apply has_drop.
  - (* ChangeKey *)
    destruct Hrn as [Hself Hclob]. rewrite H1, H3. intros y i d Hy Hl Hd.
    rewrite lookup_fmap in Hy. destruct (objs s !! y) as [i0|] eqn:Hy0; [|done]. simpl in Hy. injection Hy as <-.
    unfold rekey in *. destruct (decide (ist i0 = SRemoved)) as [|Hl0]; [done|].
    specialize (Hits y i0 Hy0 Hl0).
    assert (ikey i0 ≠ new) as Hnew by congruence.
    assert (Hcl : new ∈ iremain i0 → dependants s !! old = None).
    { intros Hin. destruct Hclob as [|Hn]; [done|]. exfalso. by apply (Hn (ikey i0) y i0). }
    assert (Hlook : ∀ d, d ∈ iremain i0 → has (rename_dependants old new (dependants s)) (sub_key old new d) (sub_key old new (ikey i0)) y).
    { intros d' Hd'. apply has_rename; [by apply (HL y i0)|done|]. intros ->. by apply Hcl. }
    unfold changed_key in *. destruct (decide (ikey i0 = old)) as [Hko|Hko]; simpl in *.
    + specialize (Hlook d Hd). unfold sub_key in Hlook. rewrite (decide_True (P:=ikey i0 = old)) in Hlook by done.
      rewrite decide_False in Hlook; [done|]. intros ->. apply (Hself y i0); [|done]. split; [|done]. congruence.
    + assert (sub_key old new (ikey i0) = ikey i0) as Esk by (unfold sub_key; by destruct (decide (ikey i0 = old))).
      rewrite Esk in Hlook. unfold sub_key in Hlook.
      destruct (decide (old ∈ iremain i0)) as [Hin|Hin].
      * apply elem_of_union in Hd as [->%elem_of_singleton|[Hd Hdo]%elem_of_difference].
        -- specialize (Hlook old Hin). by rewrite decide_True in Hlook.
        -- specialize (Hlook d Hd). rewrite decide_False in Hlook; [done|set_solver].
      * specialize (Hlook d Hd). rewrite decide_False in Hlook; [done|]. by intros ->.
  - eapply (Halt _ x it); try done; simpl; (destruct (_ =? _); [done|]); by destruct (ist it).
  - eapply (Halt _ x it); done.
  - eapply (Halt _ x it); try done. congruence.
  - eapply (Halt _ x it); try done. congruence.
  - eapply (Halt _ x it); try done; simpl; [congruence|by destruct (_ =? _)..].
  - eapply (Halt _ x it); try done. congruence.
  - eapply (Halt _ x it); try done; simpl; [congruence|by destruct (item_has_deps x s)..].
  - (* Remove *)
    rewrite H5, H9. intros y i d Hy Hl Hd. destruct (decide (y = x)) as [->|Hne].
    { rewrite lookup_alter, resolve_all_lookup, H0 in Hy. destruct (decide _); simpl in Hy; by simplify_eq. }
    rewrite lookup_alter_ne, resolve_all_lookup in Hy by done.
    destruct (objs s !! y) as [i0|] eqn:Hy0; [|by destruct (decide (y ∈ vals m))].
    assert (Hl0 : ist i0 ≠ SRemoved).
    { intros E. apply Hl. destruct (decide (y ∈ vals m)); simpl in Hy; simplify_eq; try done; by apply resolve_live. }
    assert (Hki : ikey i = ikey i0) by (destruct (decide (y ∈ vals m)); simpl in Hy; simplify_eq; try done; apply resolve_key).
    assert (d ∈ iremain i0 ∧ d ≠ k) as [Hd0 Hdk].
    { destruct (decide (y ∈ vals m)) as [Hv|Hv]; simpl in Hy; simplify_eq.
      - rewrite resolve_cases in Hd. simpl in Hd. set_solver.
      - split; [done|]. intros ->. apply Hv. destruct (HL y i _ Hy0 Hl0 Hd) as (m' & Hm' & Hv').
        rewrite Hm'. simpl. apply elem_of_vals. eauto. }
    rewrite Hki. apply has_forget.
    { intros E. specialize (Hits y i0 Hy0 Hl0). congruence. }
    apply has_delete. split; [done|]. by apply (HL y i0).
  - done.
  - apply Hsame; [done|]. intros x it' Hx' Hl'. rewrite H2 in Hx'. destruct (decide (x ∈ moved)) as [Hm|Hm].
    + apply H1 in Hm as (it & Hx & Hst & _). rewrite Hx in Hx'. simpl in Hx'. simplify_eq. exists it.
      split_and!; try done. congruence.
    + eauto.
  - apply Hsame; [done|]. intros x it' Hx' Hl'. destruct (decide (x ∈ ord)) as [Hm|Hm].
    + pose proof (H1 x Hm) as (it & Hx & Hst & _). apply elem_of_list_lookup in Hm as (j & Hj).
      rewrite (H3 j x Hj), Hx in Hx'. simpl in Hx'. simplify_eq. exists it.
      split_and!; [done|congruence|by destruct (cb j)|by destruct (cb j)].
    + rewrite H4 in Hx' by done. eauto.
Qed.

Definition exact_un (U : nat → gset key) (s : qstate) : Prop :=
  ∀ x it, objs s !! x = Some it → ist it ≠ SRemoved → U x = iremain it.
Definition waits (s : qstate) : Prop :=
  ∀ x it, objs s !! x = Some it → ist it = SDep → iremain it ≠ ∅.

Lemma eff_remove_item b s k ord s' e x it it' :
  Inv b s → eff b s (ORemove k ord) s' ROk e → objs s !! x = Some it → objs s' !! x = Some it' →
  ist it' ≠ SRemoved → looked_up (objs s) (dependants s) → waits s →
  items s !! k ≠ Some x ∧ iremain it' = iremain it ∖ {[k]} ∧
  ist it' = (if decide (freed k it) then SReady else ist it).
Proof.
  intros HI He Hx Hx' Hl' HL HW. inversion He as [| | | | | | | | | | | | | |? ? ? x0 it0 it0' m added H1 H2 H3 H4 H5 H6 H7 H8 H9 H10 H11 H12 H13| | |]; subst.
  { done. }
  destruct (decide (x = x0)) as [->|Hne].
  { rewrite H7, lookup_alter, resolve_all_lookup, H2 in Hx'.
    destruct (decide (x0 ∈ _)) in Hx'; simpl in Hx'; by simplify_eq. }
  rewrite H7, lookup_alter_ne, resolve_all_lookup, Hx in Hx' by done.
  split; [congruence|].
  destruct (decide (x ∈ vals (default ∅ (dependants s !! ikey it0)))) as [Hv|Hv]; simpl in Hx'; injection Hx' as <-.
  - rewrite resolve_ist. by rewrite resolve_cases.
  - assert (Hl : ist it ≠ SRemoved) by done.
    assert (ikey it0 ∉ iremain it) as Hn.
    { intros Hin. apply Hv. destruct (HL x it _ Hx Hl Hin) as (m' & Hm' & Hv'). rewrite Hm'. simpl.
      apply elem_of_vals. eauto. }
    split; [set_solver|]. destruct (decide (freed (ikey it0) it)) as [[Hst He0]|]; [|done]. exfalso.
    apply (HW x it Hx Hst). set_solver.
Qed.

Lemma exact_step b s o s' r e U :
  Inv b s → eff b s o s' r e → looked_up (objs s) (dependants s) → waits s →
  exact_un U s → exact_un (unres_step s o r s' U) s'.
Proof.
  intros HI He HL HW HT x it' Hx' Hl'.
  destruct (objs s !! x) as [it|] eqn:Hx.
  - destruct (eff_item b s o s' r e x it HI He Hx) as (it1 & Hx1 & Hc). simplify_eq.
    assert (Hl : ist it ≠ SRemoved).
    { intros Hr. apply Hl'. destruct Hc; try done; try congruence. by apply resolve_live. }
    specialize (HT x it Hx Hl).
    assert (Hsame : iremain it' = iremain it → unres_step s o r s' U x = U x → unres_step s o r s' U x = iremain it').
    { congruence. }
    destruct o; try (apply Hsame; [by inversion Hc|done]).
    + (* Add *) assert (it' = it) as -> by (by inversion Hc). apply Hsame; [done|]. simpl. destruct r; try done.
      case_decide as Hy; [|done]. subst. inversion He; subst; [done|]. exfalso.
      assert (nextid s < nextid s)%nat by (apply (i_ids HI); by eexists). lia.
    + (* AddMany *) assert (it' = it) as -> by (by inversion Hc). apply Hsame; [done|]. simpl. destruct r; try done.
      by rewrite Hx.
    + (* Update *)
      destruct deps as [ds|]; [|apply Hsame; [inversion Hc; subst; [done|by rewrite updated_remain]|simpl; by destruct r]].
      simpl. destruct r; try (apply Hsame; [by inversion Hc|done]).
      case_decide as Hk.
      * destruct (eff_update_named _ _ _ _ _ _ _ _ _ _ _ _ _ HI He Hk) as (it0 & H0 & H1). simplify_eq.
        by rewrite updated_remain.
      * inversion Hc; subst; [done|]. exfalso. apply Hk. by eapply live_named.
    + (* ChangeKey *)
      simpl. destruct r; try (apply Hsame; [by inversion Hc|done]).
      destruct (eff_rekey_objs _ _ _ _ _ _ He) as (y & Hnw & Hod & Ho & _).
      rewrite Ho, lookup_fmap, Hx in Hx'. simpl in Hx'. injection Hx' as <-.
      assert (Hk : items s !! ikey it = Some x) by (by eapply live_named).
      unfold rekey. destruct (decide (ist it = SRemoved)); [done|].
      destruct (decide (items s !! old = Some x)) as [Ho1|Ho1].
      * assert (ikey it = old) as <-. { apply (i_items HI) in Ho1 as (it2 & ? & ? & _). congruence. }
        unfold changed_key. by rewrite decide_True.
      * assert (ikey it ≠ old) as Hne by congruence. unfold changed_key.
        destruct (decide (ikey it = old)); [done|]. simpl. by rewrite HT.
    + apply Hsame; [|done]. inversion Hc; subst; [done|]. unfold set_delay. destruct (_ =? _); [done|]. by destruct (ist it).
    + apply Hsame; [|done]. inversion Hc; subst; [done|]. unfold released. by destruct (_ =? _).
    + apply Hsame; [|done]. inversion Hc; subst; [done|]. by destruct (item_has_deps x s).
    + (* Remove *)
      simpl. destruct r; try (assert (it' = it) as -> by (by inversion Hc); done).
      destruct (eff_remove_item b s k ord s' e x it it' HI He Hx Hx' Hl' HL HW) as (_ & -> & _). by rewrite HT.
    + apply Hsame; [|done]. inversion Hc; subst; [done|]. by destruct (cb j).
  - pose proof (eff_new b s o s' r e x it' HI He Hx Hx') as Hn. destruct Hn.
    + simpl. rewrite decide_True by done. by rewrite added_item_remain.
    + assert (Hab : abs_of s' = abs_adds now ds (abs_of s) ∧ ∃ a b, r = RAdded a b).
      { inversion He; subst; [|eauto]. exfalso. rewrite H0 in Hx'. congruence. }
      destruct Hab as [Hab (na & nd & ->)]. simpl. rewrite Hx, Hx'.
      destruct (abs_adds_find now ds (abs_of s) x (added_def now d)) as (d1 & Hf & Hd & _).
      * simpl. destruct (decide (nextid s ≤ x)%nat) as [|Hn]; [done|]. exfalso.
        assert (is_Some (objs s !! x)) as [? ?] by (apply (i_ids HI); lia). congruence.
      * intros y Hy. by apply (i_ids HI).
      * by rewrite <- Hab.
      * rewrite Hf, Hd. unfold added_def. by rewrite added_item_remain.
Qed.

Lemma waits_step b s o s' r e :
  Inv b s → eff b s o s' r e → kicks_exactly s o → waits s → waits s'.
Proof.
  intros HI He [Hk1 Hk] HB x it' Hx' Hst'.
  destruct (objs s !! x) as [it|] eqn:Hx.
  - destruct (eff_item b s o s' r e x it HI He Hx) as (it1 & Hx1 & Hc). simplify_eq.
    specialize (HB x it Hx).
    destruct Hc; simpl in *; try (by auto); try congruence.
    + rewrite updated_remain. rewrite updated_ist in Hst'. destruct deps as [[|d0 ds]|].
      * destruct (decide (iremain it = ∅)) as [E|E]; [|by rewrite bool_decide_false in Hst'].
        rewrite bool_decide_true in Hst' by done. by specialize (HB Hst').
      * simpl. set_solver.
      * by apply HB.
    + destruct (changed_key_props old new it) as (E & _). rewrite E in Hst'. specialize (HB Hst').
      unfold changed_key. destruct (decide _); [done|]. simpl. destruct (decide _); [|done]. set_solver.
    + rewrite set_delay_ist in Hst'. unfold set_delay. destruct (_ =? _); [by apply HB|].
      destruct (ist it) eqn:E; try done. by apply HB.
    + unfold released in Hst'. by destruct (_ =? _).
    + assert (items s !! ikey it = Some x) as Hn by (eapply live_named; [done|done|congruence]).
      destruct (item_has_deps x s) eqn:E; [|done]. simpl. intros Hr.
      apply (has_deps_spec x s it Hx) in E as (d & Hd & [y Hy]).
      rewrite (Hk x it d) in Hy; done.
    + assert (iremain (resolve k it) = iremain it ∖ {[k]}) as E by (by rewrite resolve_cases). rewrite E.
      rewrite resolve_ist in Hst'. destruct (decide (freed k it)) as [|Hf]; [done|]. intros E'. apply Hf. by split.
    + by destruct (cb j); simpl in *; try congruence.
  - apply (new_item_ok o r x); [|done]. by eapply eff_new.
Qed.

Lemma dead_runs s ops s' out : Dead s → run s ops = Some (s', out) → Dead s'.
Proof.
  revert s out. induction ops as [|o ops IH]; intros s out HD Hr.
  { simpl in Hr. by injection Hr as <- <-. }
  apply run_cons in Hr as (s1 & r & e & out1 & Hs & Hr & ->).
  destruct (dead_step s o HD) as (s2 & Hs2 & HD2 & _). rewrite Hs in Hs2. injection Hs2 as <- _ _. by eapply IH.
Qed.
Lemma c05_run s ops s' out U :
  Inv false s → exact_un U s → looked_up (objs s) (dependants s) → waits s →
  always waits_safely s ops → run s ops = Some (s', out) → closed s' = false →
  Inv false s' ∧ exact_un (unres_run U s ops) s' ∧ looked_up (objs s') (dependants s') ∧ waits s'.
Proof.
  revert s out U. induction ops as [|o ops IH]; intros s out U HI HT HL HW Ha Hr Hcl.
  { simpl in Hr. injection Hr as <- <-. auto. }
  apply run_cons in Hr as (s1 & r & e & out1 & Hs & Hr & ->).
  destruct Ha as [(Hc1 & Hc2 & Hc3) Ha]. cbn [unres_run]. rewrite Hs in Ha |- *.
  destruct (step_eff false s o s1 r e HI (good_false _ _ Hc1) Hs) as [He [HI1|[_ HD]]].
  - assert (o ≠ ODestroy) as Hno.
    { intros ->. destruct (destroy_empties s s1 r e (i_open HI) Hs) as (_ & _ & HE).
      pose proof (em_closed _ HE) as H. by rewrite (i_open HI1) in H. }
    eapply IH; try done.
    + by eapply exact_step.
    + eapply (looked_step false s o s1 r e); done.
    + eapply (waits_step false s o s1 r e); done.
  - apply (dead_runs _ _ _ _ HD) in Hr. by rewrite (dd_closed _ Hr) in Hcl.
Qed.

Lemma resolved t ops s k ord s' e :
  history t ops s → always waits_safely (q_new t) ops →
  step s (ORemove k ord) = Some (s', ROk, e) →
  (∀ x, state_of s x = Some SDep → unresolved t ops x ≠ ∅) ∧
  (∀ x, state_of s x = Some SDep → items s !! k ≠ Some x →
     state_of s' x = Some (if decide (unresolved t ops x ⊆ {[k]}) then SReady else SDep)) ∧
  (∀ x st, state_of s x = Some st → st ≠ SDep → items s !! k ≠ Some x → state_of s' x = Some st).
Proof.
  intros [out Hr] Ha Hs.
  assert (Hcl : closed s = false).
  { destruct (closed s) eqn:E; [|done]. simpl in Hs. unfold q_remove in Hs. by rewrite E in Hs. }
  destruct (c05_run (q_new t) ops s out (λ _, ∅)) as (HI & HT & HL & HW); try done; [apply inv_new|].
  destruct (step_eff false s (ORemove k ord) s' ROk e HI I Hs) as [He _].
  assert (Hit : ∀ x it, objs s !! x = Some it → ist it ≠ SRemoved → items s !! k ≠ Some x →
     state_of s' x = Some (if decide (freed k it) then SReady else ist it)).
  { intros x it Hx Hl Hk. destruct (eff_item _ _ _ _ _ _ _ _ HI He Hx) as (it' & Hx' & Hc).
    assert (ist it' ≠ SRemoved) as Hl'.
    { inversion Hc; subst; [done| |].
      - exfalso. apply Hk. by eapply live_named.
      - intros E. by apply resolve_live in E. }
    destruct (eff_remove_item _ _ _ _ _ _ _ _ _ HI He Hx Hx' Hl' HL HW) as (_ & _ & E).
    unfold state_of. rewrite Hx'. simpl. by rewrite E. }
  assert (Hst : ∀ x st, state_of s x = Some st → ∃ it, objs s !! x = Some it ∧ ist it = st).
  { intros x st. unfold state_of. destruct (objs s !! x) as [it|]; [|done]. simpl. intros [= <-]. eauto. }
  split_and!.
  - intros x Hx. destruct (Hst _ _ Hx) as (it & H1 & H2). unfold unresolved. rewrite (HT x it) by (try done; congruence).
    by apply (HW x).
  - intros x Hx Hk. destruct (Hst _ _ Hx) as (it & H1 & H2).
    rewrite (Hit x it H1) by (try done; congruence). f_equal. rewrite H2. unfold unresolved.
    rewrite (HT x it) by (try done; congruence). unfold freed.
    destruct (decide (ist it = SDep ∧ _)) as [[_ E]|E], (decide (iremain it ⊆ {[k]})) as [E'|E']; try done; exfalso.
    + apply E'. intros d Hd. destruct (decide (d = k)) as [->|]; [set_solver|].
      assert (d ∈ iremain it ∖ {[k]}) as Hd' by set_solver. rewrite E in Hd'. set_solver.
    + apply E. split; [done|]. apply sets.set_eq. intros d. set_solver.
  - intros x st Hx Hne Hk. destruct (Hst _ _ Hx) as (it & H1 & H2).
    destruct (decide (ist it = SRemoved)) as [Hrm|Hl].
    + destruct (eff_item _ _ _ _ _ _ _ _ HI He H1) as (it' & Hx' & Hc). unfold state_of. rewrite Hx'. simpl. f_equal.
      inversion Hc; subst; [done|done|]. rewrite Hrm. by apply resolve_live.
    + rewrite (Hit x it H1) by done. f_equal. rewrite decide_False; [done|]. intros [? _]. congruence.
Qed.

Lemma never_stuck t ops s x :
  history t ops s → always waits_safely (q_new t) ops → closed s = false →
  state_of s x = Some SDep → unresolved t ops x ≠ ∅.
Proof.
  intros [out Hr] Ha Hcl Hx.
  destruct (c05_run (q_new t) ops s out (λ _, ∅)) as (HI & HT & HL & HW); try done; [apply inv_new|].
  unfold state_of in Hx. destruct (objs s !! x) as [it|] eqn:E; [|done]. simpl in Hx. injection Hx as Hx.
  unfold unresolved. rewrite (HT x it) by (try done; congruence). by apply (HW x).
Qed.
