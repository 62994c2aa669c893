(** Queue lemmas in the form of the property theorems: no panic, ChangeKey,
    Update, destroyed queues, heaps. *)
From Coq Require Import ZArith Lia String.
From stdpp Require Import base option strings gmap list.
From RecordUpdate Require Import RecordSet.
From Verif Require Import GoHeap GoHeapProofs QueueModel QueueCore QueueInv QueueInvAdd
  QueueInvUpd QueueInvRem QueueInvTick QueueEff QueueItem QueueFrame HeapSpec QueueSpec QueueProofs QueueProofs2
  QueueProofs3 QueueProofs4 QueueProofs5.
Import RecordSetNotations.
Open Scope Z_scope.

(** ** No panic *)
Lemma no_panic t ops : always safely (q_new t) ops → is_Some (run (q_new t) ops).
Proof. intros Ha. apply run_total; [left; apply inv_new|by apply good_run_true]. Qed.
Lemma no_panic_step t ops s o : history t ops s → always clears_safely (q_new t) ops → safely s o → is_Some (step s o).
Proof.
  intros Hh Ha Hs. destruct (hist_inv_false t ops s Hh Ha) as [HI|HD].
  - eapply step_total; [done|]. by apply good_true.
  - destruct (dead_step s o HD) as (s1 & -> & _). by eexists.
Qed.

(** ** C10 *)
Lemma props_settings it it' : props it' = props it → same_settings it it'.
Proof. unfold props, same_settings. intros [=]. split_and!; congruence. Qed.
Lemma has_deps_queued x s it : objs s !! x = Some it → item_has_deps x s = bool_decide (has_queued_dep s it).
Proof.
  intros Hx. unfold item_has_deps. rewrite Hx. apply bool_decide_ext_r || idtac.
  destruct (decide (has_queued_dep s it)) as [H|H].
  - rewrite bool_decide_true by done. apply existsb_exists. apply Exists_exists in H as (d & Hd & Hs).
    exists d. split; [by apply elem_of_list_In|]. by rewrite bool_decide_true.
  - rewrite bool_decide_false by done. apply not_true_is_false. intros (d & Hd & Hs)%existsb_exists.
    apply H. apply Exists_exists. exists d. apply bool_decide_eq_true in Hs. split; [by apply elem_of_list_In|done].
Qed.
Lemma demands_needs o : demands o = needs o.
Proof. by destruct o. Qed.
Lemma guarded_answer s o s' r e k st err :
  demands o = Some (k, st, err) → step s o = Some (s', r, e) →
  r = if closed s then RErr EClosed
      else match items s !! k with
           | None => RErr ENotFound
           | Some x => if decide (state_of s x = Some st) then ROk else RErr err
           end.
Proof. rewrite demands_needs. apply guarded_ok. Qed.
Lemma guarded_lands s o s' e k st err x it :
  demands o = Some (k, st, err) → step s o = Some (s', ROk, e) → named s k x it →
  ist it = st ∧ items s' = items s ∧
  (∃ it', objs s' !! x = Some it' ∧ ist it' = lands s it o ∧ same_settings it it') ∧
  ∀ y, y ≠ x → objs s' !! y = objs s !! y.
Proof.
  rewrite demands_needs. intros Hn Hs Hk. destruct (guarded_effect _ _ _ _ _ _ _ _ _ Hn Hs Hk) as (H1 & H2 & (it' & H3 & H4 & H5) & H6).
  split_and!; try done. exists it'. split_and!; [done| |by apply props_settings].
  rewrite H4. destruct o; try done; simpl.
  - destruct (Z.eqb_spec (idelay it) 0), (decide (idelay it = 0)); done.
  - rewrite (has_deps_queued x s it (proj2 Hk)). by destruct (decide (has_queued_dep s it)) as [Hd|Hd];
      [rewrite bool_decide_true|rewrite bool_decide_false].
Qed.

(** ** C11 *)
Lemma rename_ok t ops s old new s' r e :
  history t ops s → always clears_safely (q_new t) ops →
  step s (OChangeKey old new) = Some (s', r, e) →
  r = rename_answer s old new ∧
  (fails r → s' = s) ∧
  (r = ROk → ∀ x, items s !! old = Some x →
     items s' !! new = Some x ∧ items s' !! old = None ∧
     (∀ k, k ≠ old → k ≠ new → items s' !! k = items s !! k) ∧
     (∀ q, holding s' q = holding s q) ∧
     (∀ y it, objs s !! y = Some it → ∃ it', objs s' !! y = Some it' ∧ same_but_keys it it' ∧
        (y = x → ikey it' = new) ∧
        (y ≠ x → ikey it' = ikey it ∧
           (ist it ≠ SRemoved → ∀ d, d ∈ iremain it' ↔ (d = new ∧ old ∈ iremain it) ∨ (d ≠ old ∧ d ∈ iremain it))))).
Proof.
  intros Hh Ha Hs. destruct (hist_inv_false t ops s Hh Ha) as [HI|HD].
  2: { simpl in Hs. unfold q_change_key, rename_answer in *. rewrite (dd_closed _ HD) in *. by injection Hs as <- <- <-. }
  pose proof Hs as Hs0. simpl in Hs0. unfold q_change_key in Hs0.
  assert (r = rename_answer s old new ∧ (fails r → s' = s)) as [H1 H2].
  { unfold rename_answer. destruct (closed s); [by injection Hs0 as <- <- <-|].
    destruct (items s !! new); [rewrite decide_True by (by eexists); by injection Hs0 as <- <- <-|].
    rewrite decide_False by (by intros [??]).
    destruct (items s !! old); [rewrite decide_True by (by eexists)|rewrite decide_False by (by intros [??])];
      by injection Hs0 as <- <- <-. }
  split_and!; [done|done|]. intros -> x Hx.
  destruct (step_eff false s (OChangeKey old new) s' ROk e HI I Hs) as [He _].
  destruct (eff_rekey_objs _ _ _ _ _ _ He) as (y & Hn & Ho & Hobj & Hit & _). simplify_eq.
  assert (old ≠ new) as Hne by congruence.
  rewrite Hit. split_and!.
  - by rewrite lookup_insert.
  - rewrite lookup_insert_ne by done. by rewrite lookup_delete.
  - intros k Hk1 Hk2. rewrite lookup_insert_ne by done. by rewrite lookup_delete_ne.
  - intros q. simpl in Hs. unfold q_change_key in Hs. rewrite (i_open HI), Hn, Hx in Hs. injection Hs as <- _. by destruct q.
  - intros y it Hy. rewrite Hobj, lookup_fmap, Hy. simpl. eexists. split; [done|].
    unfold rekey. destruct (decide (ist it = SRemoved)) as [Hrm|Hl].
    { split_and!; try done. intros ->. apply (i_items HI) in Hx as (it2 & H & _ & Hl). congruence. }
    assert (items s !! ikey it = Some y) as Hnm by (by eapply live_named).
    unfold changed_key. destruct (decide (ikey it = old)) as [Hk|Hk].
    + assert (y = x) as -> by congruence. split_and!; done.
    + split_and!; try done.
      * intros ->. apply (i_items HI) in Hx as (it2 & H & Hk2 & Hl2). congruence.
      * intros Hyx. split; [done|]. intros _ d. simpl. destruct (decide (old ∈ iremain it)) as [Hd|Hd].
        -- rewrite elem_of_union, elem_of_difference, !elem_of_singleton. naive_solver.
        -- naive_solver.
Qed.

(** ** C12 *)
Lemma prop_change_fields now g prio delay ttr added it :
  let it' := prop_change now g prio delay ttr added it in
  idata it' = idata it ∧ idelay it' = delay ∧
  (idelay it = delay → iprio it' = prio ∧ igroup it' = g) ∧
  (idelay it ≠ delay → iprio it' = iprio it ∧ igroup it' = igroup it ∧ ittr it' = ittr it) ∧
  (idelay it = delay → iprio it = prio → igroup it = g → added = false → ittr it' = ttr) ∧
  (ittr it = ttr → ittr it' = ttr).
Proof.
  unfold prop_change. simpl. destruct (Z.eqb_spec (idelay it) delay) as [Hd|Hd]; simpl.
  - destruct (N.eqb_spec (iprio it) prio) as [Hp|Hp]; simpl.
    + case_bool_decide as Hg; simpl; [by split_and!; try done|].
      destruct added; simpl; [by split_and!|].
      destruct (Z.eqb_spec (ittr it) ttr) as [Ht|Ht]; simpl; [by split_and!|].
      destruct (ist it); simpl; split_and!; done.
    + split_and!; done.
  - destruct (ist it); simpl; split_and!; done.
Qed.
Lemma dep_part_fields deps it :
  let '(it', added, _) := dep_part deps it in
  idata it' = idata it ∧ idelay it' = idelay it ∧ iprio it' = iprio it ∧ igroup it' = igroup it ∧ ittr it' = ittr it ∧
  (added = true → deps = Some [] ∧ iremain it ≠ ∅).
Proof.
  unfold dep_part. destruct deps as [ds|]; [|by split_and!].
  destruct (dep_changed ds it) eqn:E; [|by split_and!].
  unfold dep_change. destruct ds as [|d ds].
  - split_and!; try done. intros _. split; [done|]. rewrite dep_changed_nil in E.
    apply negb_true_iff, bool_decide_eq_false in E. done.
  - destruct (ist it); split_and!; done.
Qed.
Lemma dep_changed_iff ds it : dep_changed ds it = false ↔ list_to_set ds = iremain it ∧ NoDup ds.
Proof.
  assert (H : ∀ (old : gset key) n o' n', fold_left (λ '(o, n) d, (o ∖ {[d]}, if decide (d ∈ o) then n else S n)) ds (old, n) = (o', n') →
     n' = n ↔ NoDup ds ∧ ∀ d, d ∈ ds → d ∈ old).
  { induction ds as [|d ds IH]; intros old n o' n'; cbn [fold_left].
    - intros [= <- <-]. split; [|done]. intros _. split; [constructor|]. by intros d ?%elem_of_nil.
    - intros H. destruct (decide (d ∈ old)) as [Hd|Hd].
      + rewrite (IH _ _ _ _ H). rewrite NoDup_cons. split.
        * intros [H1 H2]. split_and!; [|done|].
          -- intros Hin. apply H2 in Hin. set_solver.
          -- intros d' [->|Hd']%elem_of_cons; [done|]. apply H2 in Hd'. set_solver.
        * intros [[H1 H2] H3]. split; [done|]. intros d' Hd'.
          assert (d' ≠ d) by (by intros ->). assert (d' ∈ old) by (apply H3; by right). set_solver.
      + pose proof (deps_diff_spec _ _ _ _ _ H) as (_ & Hle & _). split; [lia|].
        intros [_ H3]. exfalso. apply Hd, H3. by left. }
  unfold dep_changed, deps_diff. destruct (fold_left _ ds _) as [o' n'] eqn:E.
  specialize (H _ _ _ _ E). apply deps_diff_spec in E as (-> & _ & _). simpl.
  rewrite negb_false_iff, andb_true_iff, bool_decide_eq_true, Nat.eqb_eq, H. split.
  - intros (H1 & H2 & H3). split; [|done]. apply sets.set_eq. intros d. rewrite elem_of_list_to_set. split; [apply H3|].
    intros Hd. destruct (decide (d ∈ ds)) as [|Hn]; [done|].
    assert (d ∈ iremain it ∖ list_to_set ds) as Hx by set_solver. rewrite H1 in Hx. set_solver.
  - intros [H1 H2]. rewrite <- H1. split_and!; [|done|].
    + apply sets.set_eq. set_solver.
    + intros d Hd. by apply elem_of_list_to_set.
Qed.

Lemma update_ok t ops s now k g d prio delay ttr deps s' r e :
  history t ops s → always clears_safely (q_new t) ops → clears_safely s (OUpdate now k g d prio delay ttr deps) →
  step s (OUpdate now k g d prio delay ttr deps) = Some (s', r, e) →
  r = (if closed s then RErr EClosed else if decide (is_Some (items s !! k)) then ROk else RErr ENotFound) ∧
  (r = ROk → items s' = items s ∧ ∀ x it, named s k x it →
     (∀ y, y ≠ x → objs s' !! y = objs s !! y) ∧
     ∃ it', objs s' !! x = Some it' ∧ ikey it' = k ∧
       ist it' = waiting_state it deps ∧
       idata it' = d ∧ idelay it' = delay ∧
       (idelay it = delay → iprio it' = prio ∧ igroup it' = g) ∧
       (one_at_a_time it g prio delay ttr deps → given it' g d prio delay ttr deps)).
Proof.
  intros Hh Ha Hc Hs. destruct (hist_inv_false t ops s Hh Ha) as [HI|HD].
  2: { simpl in Hs. unfold q_update in *. rewrite (dd_closed _ HD) in *. by injection Hs as <- <- <-. }
  split.
  { simpl in Hs. unfold q_update in Hs. rewrite (i_open HI) in *.
    destruct (items s !! k) as [x|] eqn:Hk.
    - rewrite decide_True by (by eexists). mdest Hs; congruence.
    - rewrite decide_False by (by intros [??]). by injection Hs as <- <- <-. }
  intros ->. destruct (step_eff false s _ s' ROk e HI (good_false _ _ Hc) Hs) as [He _].
  inversion He; subst; [done|]. split; [done|]. intros y it0 [Hk Hy]. simplify_eq.
  match goal with H : objs s' = _ |- _ => rewrite H end. split.
  - intros y Hne. by rewrite lookup_insert_ne.
  - eexists. split; [by rewrite lookup_insert|].
    set (it' := updated now g d prio delay ttr deps it).
    assert (Hrem : match deps with Some ds => iremain it' = list_to_set ds | None => True end).
    { unfold it'. rewrite updated_remain. by destruct deps. }
    assert (Hst : ist it' = waiting_state it deps).
    { unfold it'. rewrite updated_ist. unfold waiting_state. destruct deps as [[|d0 ds]|]; [|  |done].
      - destruct (decide (iremain it = ∅)); [by rewrite bool_decide_true|by rewrite bool_decide_false].
      - pose proof (dep_changed_iff (d0 :: ds) it) as Hdc.
        destruct (decide (ist it = SBury)) as [->|]; [by destruct (dep_changed _ _)|].
        destruct (decide (list_to_set (d0 :: ds) = iremain it ∧ NoDup (d0 :: ds))) as [Hq|Hq].
        + apply Hdc in Hq. by rewrite Hq.
        + destruct (dep_changed (d0 :: ds) it); [by destruct (ist it)|]. by destruct Hq; apply Hdc. }
    assert (Hkey : ikey it' = ikey it) by apply updated_key.
    unfold it', updated in *. pose proof (dep_part_fields deps (it <| idata := d |>)) as Hdp.
    destruct (dep_part deps (it <| idata := d |>)) as [[it1 added] fr].
    destruct Hdp as (D1 & D2 & D3 & D4 & D5 & D6). simpl in D1, D2, D3, D4, D5, D6.
    destruct (prop_change_fields now g prio delay ttr added it1) as (P1 & P2 & P3 & P4 & P5 & P6).
    rewrite D2 in P3, P4, P5. rewrite D3, D4 in P4, P5. rewrite D5 in P4, P6. rewrite D1 in P1.
    split_and!; try done.
    intros [O1 O2]. unfold given.
    destruct (decide (idelay it = delay)) as [Hd|Hd].
    + destruct (P3 Hd) as [-> ->]. split_and!; try done.
      destruct O2 as [O2|(O2 & O3 & O4)]; [by apply P6|]. apply P5; try done.
      destruct added; [|done]. destruct (D6 eq_refl) as [D7 D8]. by apply O4 in D7.
    + destruct (P4 Hd) as (-> & -> & ->). destruct O1 as [|(-> & -> & ->)]; [done|]. by split_and!.
Qed.

(** ** C13 *)
Lemma destroyed t ops s s' r e ops' s2 out :
  history t ops s → closed s = false → step s ODestroy = Some (s', r, e) →
  run s' ops' = Some (s2, out) →
  r = ROk ∧ e = [] ∧ (fst <$> out) = (closed_answer <$> ops') ∧ Forall (λ o, snd o = []) out ∧
  items s2 = ∅ ∧ (∀ q, holding s2 q = []) ∧ q_stats s2 = QStats 0 0 0 0 0 0.
Proof.
  intros Hh Hcl Hs Hr. destruct (destroy_empties s s' r e Hcl Hs) as (-> & -> & HE). split; [done|]. split; [done|].
  clear Hs. revert s' HE out Hr. induction ops' as [|o ops' IH]; intros s1 HE out Hr.
  - simpl in Hr. injection Hr as <- <-. split_and!; try done; [apply HE|apply HE|by apply emptied_stats].
  - apply run_cons in Hr as (s3 & r & e & out1 & Hs & Hr & ->).
    destruct (emptied_step s1 o HE) as (s4 & Hs4 & HE4). rewrite Hs in Hs4. injection Hs4 as <- Hr1 ->.
    destruct (IH s3 HE4 out1 Hr) as (H1 & H2 & H3). split_and!; try apply H3.
    + rewrite !fmap_cons, H1. f_equal. simpl. rewrite Hr1. unfold closed_answer. by destruct o as [| | | | | | | ? ? []| | | | | | | | |].
    + by constructor.
Qed.
Lemma destroyed_total t ops s s' r e ops' :
  history t ops s → closed s = false → step s ODestroy = Some (s', r, e) → is_Some (run s' ops').
Proof.
  intros Hh Hcl Hs. destruct (destroy_empties s s' r e Hcl Hs) as (-> & -> & HE).
  destruct (emptied_run s' ops' HE) as (s2 & out & -> & _). by eexists.
Qed.

(** ** C06 *)
Lemma followed_hist t ops0 s ops s' out k x it :
  history t ops0 s → named s k x it → run s ops = Some (s', out) →
  match follow k (idata it) (zip ops (fst <$> out)) with
  | Some (k', d') => ∃ it', named s' k' x it' ∧ idata it' = d'
  | None => ∀ k', items s' !! k' ≠ Some x
  end.
Proof. intros Hh. apply followed. by eapply hist_ids. Qed.

(** ** C07 *)
Lemma add_many_settings t ops s now ds s' r e :
  history t ops s → closed s = false → step s (OAddMany now ds) = Some (s', r, e) →
  let fd := first_defs (dom (items s)) ds in
  r = RAdded (length fd) (length ds - length fd) ∧ (length fd ≤ length ds)%nat ∧
  (∀ d, d ∈ fd → ∃ x it, named s' (d_key d) x it ∧ (∀ k, items s !! k ≠ Some x) ∧
      igroup it = d_group d ∧ idata it = d_data d ∧ iprio it = d_prio d ∧
      idelay it = d_delay d ∧ ittr it = d_ttr d ∧ creation it = now) ∧
  (∀ k x it, named s k x it → ∃ it', named s' k x it' ∧ same_settings it it') ∧
  (∀ k, is_Some (items s' !! k) → is_Some (items s !! k) ∨ ∃ d, d ∈ fd ∧ d_key d = k).
Proof.
  intros Hh Hc Hs. destruct (add_many_ok _ _ _ _ _ _ _ _ Hh Hc Hs) as (H1 & H2 & H3 & H4 & H5).
  split_and!; try done. intros k x it [Hk Hx]. destruct (H4 _ _ Hk) as [Hk' Hp]. rewrite Hx in Hp.
  destruct (objs s' !! x) as [it'|] eqn:Hx'; [|done]. simpl in Hp. exists it'. split; [done|].
  apply props_settings. congruence.
Qed.

(** ** C08 *)
Lemma tick_delay_moves t ops s now s' r e :
  history t ops s → always clears_safely (q_new t) ops → closed s = false →
  step s (OTickDelay now) = Some (s', r, e) →
  ∀ x it, objs s !! x = Some it →
    if decide (ist it = SDelay ∧ readyAt it < now)
    then ∃ it', objs s' !! x = Some it' ∧ ist it' = SReady ∧ same_settings it it'
    else objs s' !! x = Some it.
Proof.
  intros Hh Ha Hc Hs x it Hx. pose proof (tick_delay_exact _ _ _ _ _ _ _ Hh Ha Hc Hs x it Hx) as H.
  destruct (decide _); [|done]. destruct H as (it' & H1 & H2 & H3). exists it'. split_and!; try done.
  by apply props_settings.
Qed.

(** ** C17 *)
Lemma weak_class less : weak_order less → StrictWeak less.
Proof. intros [H1 H2]. by split. Qed.
Lemma ordered_heap less l : ordered less l ↔ heap less l.
Proof.
  split.
  - intros Ho c Hc Hn x y Hx Hy. eapply (Ho (par c) c); try done.
    destruct (par_child c (par c) Hc eq_refl); [by left|by right].
  - intros Hh i j x y Hj Hx Hy. pose proof (lookup_lt_Some _ _ _ Hy) as Hlt.
    assert (par j = i) as Hp.
    { destruct Hj as [->| ->]; [apply par_c1|]. replace (2*i+2)%nat with (2*i+1+1)%nat by lia. apply par_c2. }
    apply (Hh j); [lia|done|done|]. by rewrite Hp.
Qed.

Lemma heap_push_spec less q x : weak_order less → indexed q → ordered less (arr q) → x ∉ arr q →
  ∃ q', heap_push less q x = Some q' ∧ indexed q' ∧ ordered less (arr q') ∧ arr q' ≡ₚ x :: arr q.
Proof.
  intros Hw Hi Ho Hx. pose proof (weak_class _ Hw).
  destruct (heap_push_struct less q x Hi Hx) as (q' & Hp & Hi' & Hperm). exists q'. split_and!; try done; try apply Hi'.
  apply ordered_heap. eapply (heap_push_order less q x); try done. by apply ordered_heap.
Qed.
Lemma heap_remove_spec less q x : weak_order less → indexed q → ordered less (arr q) → x ∈ arr q →
  ∃ q', heap_remove less q (idx_of q x) = Some (x, q') ∧ indexed q' ∧ ordered less (arr q') ∧ arr q ≡ₚ x :: arr q'.
Proof.
  intros Hw Hi Ho Hx. pose proof (weak_class _ Hw).
  destruct (heap_remove_struct less q x Hi Hx) as (q' & Hp & Hi' & Hperm). exists q'. split_and!; try done; try apply Hi'.
  apply ordered_heap. eapply (heap_remove_order less q x); try done. by apply ordered_heap.
Qed.
Lemma heap_pop_spec less q : weak_order less → indexed q → ordered less (arr q) → arr q ≠ [] →
  ∃ x q', heap_pop less q = Some (x, q') ∧ indexed q' ∧ ordered less (arr q') ∧ arr q ≡ₚ x :: arr q' ∧
    ∀ y, y ∈ arr q → less y x = false.
Proof.
  intros Hw Hi Ho Hx. pose proof (weak_class _ Hw). apply ordered_heap in Ho.
  destruct (heap_pop_struct less q Hi Hx) as (x & q' & Hp & Hi' & Hperm & H0).
  exists x, q'. split_and!; try done; try apply Hi'.
  - apply ordered_heap. eapply (heap_pop_order less q x); done.
  - intros y Hy. eapply (heap_min less (arr q)); done.
Qed.
Lemma heap_fix_spec less less' q x : weak_order less → weak_order less' → indexed q → ordered less (arr q) → x ∈ arr q →
  (∀ a b, a ≠ x → b ≠ x → less' a b = less a b) →
  ∃ q', heap_fix less' q (idx_of q x) = Some q' ∧ indexed q' ∧ ordered less' (arr q') ∧ arr q' ≡ₚ arr q.
Proof.
  intros Hw Hw' Hi Ho Hx He. pose proof (weak_class _ Hw). pose proof (weak_class _ Hw'). apply ordered_heap in Ho.
  destruct (wf_idx q x Hi Hx) as (i & -> & Hix).
  destruct (heap_fix_struct less' q i Hi) as (q' & Hp & Hi' & Hperm); [by eapply lookup_lt_Some|].
  exists q'. split_and!; try done; try apply Hi'. apply ordered_heap.
  eapply (heap_fix_order less' q i); try done; [by eapply lookup_lt_Some|].
  eapply (heap_hole_change less less'); try done; [apply Hi|]. intros a b _ _ Ha Hb. by rewrite He.
Qed.
