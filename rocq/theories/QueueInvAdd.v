(** Add, AddMany *)
From Coq Require Import ZArith Lia String.
From stdpp Require Import base option strings gmap list.
From RecordUpdate Require Import RecordSet.
From Verif Require Import GoHeap GoHeapProofs QueueModel QueueCore QueueInv.
Import RecordSetNotations.
Open Scope Z_scope.

Lemma core_ext b s s' lm :
  core b s lm → (∀ l, cont s' l = cont s l) → objs s' = objs s → core b s' lm.
Proof.
  intros [Hw Hi Ho] Hc Hob. split.
  - intros l. by rewrite Hc.
  - intros l x. by rewrite Hc.
  - intros l Hl. rewrite Hc, Hob. by apply Ho.
Qed.

Definition add_dependants (k : key) (x : nat) (deps : list key)
    (d : gmap key (gmap key nat)) : gmap key (gmap key nat) :=
  fold_left (λ d dep, <[dep := <[k := x]> (default ∅ (d !! dep))]> d) deps d.

Lemma add_dependants_range k x deps d d' m k' y :
  add_dependants k x deps d !! d' = Some m → m !! k' = Some y →
  y = x ∨ ∃ m0, d !! d' = Some m0 ∧ m0 !! k' = Some y.
Proof.
  revert d. induction deps as [|a deps IH]; intros d; simpl; [by eauto|].
  intros Hm Hk. destruct (IH _ Hm Hk) as [->|(m0 & Hm0 & Hk0)]; [by left|].
  destruct (decide (d' = a)) as [->|Hne].
  - rewrite lookup_insert in Hm0. injection Hm0 as <-.
    destruct (decide (k' = k)) as [->|Hne'].
    + rewrite lookup_insert in Hk0. left. congruence.
    + rewrite lookup_insert_ne in Hk0 by done. right.
      destruct (d !! a) as [m1|]; simpl in Hk0; [by eauto|]. by rewrite lookup_empty in Hk0.
  - rewrite lookup_insert_ne in Hm0 by done. eauto.
Qed.

(** The item as it is when Add ([many = false]) or AddMany has placed it *)
Definition added_item (many : bool) (now : Z) (k : key) (g : group) (d : N) (prio size : N)
    (delay ttr : Z) (start : startq) (deps : list key) : item :=
  let it := new_item now k g d prio size delay ttr in
  match deps with
  | _ :: _ => switch_delay_dependent (set_dependencies deps it)
  | [] =>
      match start with
      | StartRun => switch_ready_run (touch now (switch_delay_ready it))
      | StartBury =>
          let it := switch_delay_ready it in
          switch_run_bury false (if many then switch_ready_run it else it)
      | StartDefault => if delay =? 0 then switch_delay_ready it else it
      end
  end.
Definition sub_of (st : istate) : subq :=
  match st with
  | SDelay => QDelay | SReady => QReady | SRun => QRun | SBury => QBury | SDep => QDep
  | SRemoved => QRemoved
  end.

Lemma added_item_key many now k g d prio size delay ttr start deps :
  ikey (added_item many now k g d prio size delay ttr start deps) = k.
Proof. unfold added_item. destruct deps; [|done]. destruct start; [|done|by destruct many]. by destruct (_ =? _). Qed.
Lemma added_item_live many now k g d prio size delay ttr start deps :
  ist (added_item many now k g d prio size delay ttr start deps) ≠ SRemoved.
Proof. unfold added_item. destruct deps; [|done]. destruct start; [|done|by destruct many]. by destruct (_ =? _). Qed.

Lemma inv_fresh b s : Inv b s → objs s !! nextid s = None.
Proof.
  intros HI. destruct (objs s !! nextid s) eqn:E; [|done].
  assert (is_Some (objs s !! nextid s)) as H%(i_ids HI) by (by eexists). lia.
Qed.
Lemma inv_fresh_lm b s : Inv b s → locs (objs s) !! nextid s = None.
Proof. intros HI. by rewrite locs_lookup, (inv_fresh _ _ HI). Qed.

Lemma inv_add b s s' k it lm' :
  let x := nextid s in
  core b s' lm' → Inv b s → items s !! k = None →
  objs s' = <[x := it]> (objs s) → items s' = <[k := x]> (items s) →
  ikey it = k → ist it ≠ SRemoved → nextid s' = S x → closed s' = false →
  (∀ y, y ≠ x → lm' !! y = locs (objs s) !! y) → lm' !! x = loc_of it →
  (∀ d m k' y, dependants s' !! d = Some m → m !! k' = Some y → y = x ∨ is_Some (objs s !! y)) →
  Inv b s'.
Proof.
  intros x Hc HI Hk Ho Hi Hkey Hst Hn Hcl Hlm Hlmx Hd.
  pose proof (inv_fresh _ _ HI) as Hf. split.
  - done.
  - eapply core_lm; [|exact Hc]. intros y. rewrite locs_lookup, Ho.
    destruct (decide (y = x)) as [->|Hne].
    + by rewrite lookup_insert, Hlmx.
    + by rewrite lookup_insert_ne, Hlm, locs_lookup.
  - intros k' y. rewrite Hi, Ho. rewrite lookup_insert_Some, (i_items HI). split.
    + intros [[<- <-]|[Hne (it' & Hy & Hky & Hr)]].
      * exists it. by rewrite lookup_insert.
      * exists it'. rewrite lookup_insert_ne; [done|]. intros <-.
        unfold x in Hy. congruence.
    + intros (it' & Hy & Hky & Hr). destruct (decide (y = x)) as [->|Hne].
      * rewrite lookup_insert in Hy. injection Hy as <-. left. by rewrite <- Hky, Hkey.
      * rewrite lookup_insert_ne in Hy by done. right. split; [|by eauto].
        intros Hkk. assert (Hs : items s !! k' = Some y) by (apply (i_items HI); eauto).
        congruence.
  - intros y. rewrite Hn, Ho. destruct (decide (y = x)) as [->|Hne].
    + rewrite lookup_insert. split; [lia|by eexists].
    + rewrite lookup_insert_ne by done. rewrite (i_ids HI). unfold x in *. lia.
  - intros d m k' y H1 H2. rewrite Ho. destruct (decide (y = x)) as [->|Hne].
    + rewrite lookup_insert. by eexists.
    + rewrite lookup_insert_ne by done. destruct (Hd _ _ _ _ H1 H2); [done|done].
Qed.

(** The state after newItem has been put in queue.items *)
Lemma alloc_core b s now k g d prio size delay ttr x s0 :
  Inv b s → alloc_item now k g d prio size delay ttr s = (x, s0) →
  x = nextid s ∧ core b s0 (locs (objs s)) ∧
  objs s0 = <[x := new_item now k g d prio size delay ttr]> (objs s) ∧
  items s0 = <[k := x]> (items s) ∧ nextid s0 = S x ∧ closed s0 = false ∧
  dependants s0 = dependants s ∧ delayTime s0 = delayTime s ∧ ttrTime s0 = ttrTime s ∧
  readyQ s0 = readyQ s.
Proof.
  intros HI [= <- <-]. split_and!; try done; [|apply HI].
  set (o' := <[nextid s := new_item now k g d prio size delay ttr]> (objs s)).
  apply (core_ext b (s <| objs := o' |>)); [|by intros []|done].
  apply core_objs; [apply HI|]. intros y l Hl. unfold o', obj.
  rewrite lookup_insert_ne; [apply samekey_refl|].
  intros <-. by rewrite (inv_fresh_lm _ _ HI) in Hl.
Qed.

Lemma set_item_dependencies_ok b s lm x it deps :
  core b s lm → lm !! x = None → objs s !! x = Some it →
  ∃ s', set_item_dependencies x deps s = Some s' ∧ core b s' (<[x := LDep]> lm) ∧
    objs s' = <[x := switch_delay_dependent (set_dependencies deps it)]> (objs s) ∧
    items s' = items s ∧ nextid s' = nextid s ∧ closed s' = closed s ∧
    dependants s' = add_dependants (ikey it) x deps (dependants s) ∧
    delayTime s' = delayTime s ∧ ttrTime s' = ttrTime s ∧ readyQ s' = readyQ s.
Proof.
  intros Hc Hn Hx. unfold set_item_dependencies, set_queue_deps.
  simpl. rewrite lookup_alter, Hx. simpl.
  eexists. split; [done|]. split_and!; try done.
  - apply dep_push_core; [|done]. apply core_clr_delay; [|by rewrite Hn].
    apply core_mod_out; [|done].
    apply (core_ext b (mod_obj (set_dependencies deps) x s)); [|by intros []|done].
    by apply core_mod_out.
  - simpl. rewrite <- alter_compose. apply map_eq. intros y.
    destruct (decide (y = x)) as [->|Hne].
    + by rewrite lookup_alter, lookup_insert, Hx.
    + by rewrite lookup_alter_ne, lookup_insert_ne.
Qed.

Lemma alter_insert_eq (o : gmap nat item) f x it : o !! x = Some it → alter f x o = <[x := f it]> o.
Proof.
  intros Hx. apply map_eq. intros y. destruct (decide (y = x)) as [->|Hne].
  - by rewrite lookup_alter, lookup_insert, Hx.
  - by rewrite lookup_alter_ne, lookup_insert_ne.
Qed.

Lemma enter_run_ok b s lm x it now :
  core b s lm → lm !! x = None → objs s !! x = Some it →
  ∃ q, run_push x (mod_obj (touch now) x (clr_delay x (mod_obj switch_delay_ready x s)))
       = Some (mod_obj (touch now) x (clr_delay x (mod_obj switch_delay_ready x s)) <| runQ := q |>) ∧
    let s' := clr_ready x (mod_obj switch_ready_run x
      (mod_obj (touch now) x (clr_delay x (mod_obj switch_delay_ready x s)) <| runQ := q |>)) in
    core b s' (<[x := LRun]> lm) ∧
    objs s' = <[x := switch_ready_run (touch now (switch_delay_ready it))]> (objs s).
Proof.
  intros Hc Hn Hx.
  assert (Hc1 : core b (mod_obj (touch now) x (clr_delay x (mod_obj switch_delay_ready x s))) lm).
  { apply core_mod_out; [|done]. apply core_clr_delay; [|by rewrite Hn]. by apply core_mod_out. }
  destruct (run_push_core b _ _ x Hc1 Hn) as (q & -> & Hc2). exists q. split; [done|]. split.
  - apply core_clr_ready; [|intros; by rewrite lookup_insert].
    apply core_mod; [done|]. intros it' l _. rewrite lookup_insert. by intros [= <-].
  - simpl. rewrite <- !alter_compose. by erewrite alter_insert_eq.
Qed.
Lemma enter_ready_ok b s lm x it :
  core b s lm → lm !! x = None → objs s !! x = Some it →
  ∃ r, ready_push x (clr_delay x (mod_obj switch_delay_ready x s)) =
       Some (clr_delay x (mod_obj switch_delay_ready x s) <| readyQ := r |>) ∧
    let s' := clr_delay x (mod_obj switch_delay_ready x s) <| readyQ := r |> in
    core b s' (<[x := LReady (igroup it)]> lm) ∧
    objs s' = <[x := switch_delay_ready it]> (objs s) ∧ rlast r = igroup it.
Proof.
  intros Hc Hn Hx.
  assert (Hc1 : core b (clr_delay x (mod_obj switch_delay_ready x s)) lm).
  { apply core_clr_delay; [|by rewrite Hn]. by apply core_mod_out. }
  destruct (ready_push_core b _ _ x (switch_delay_ready it) Hc1 Hn) as (r & -> & Hr & Hc2).
  { simpl. by rewrite lookup_alter, Hx. }
  exists r. split; [done|]. split_and!; [done| |done]. simpl. by erewrite alter_insert_eq.
Qed.

Lemma live_ins b s x it lm l :
  Inv b s → (∀ y, y ≠ x → lm !! y = locs (objs s) !! y) →
  live_lm (<[x := it]> (objs s)) (<[x:=l]> lm).
Proof.
  intros HI Hlm y l' Hl. destruct (decide (y = x)) as [->|Hne].
  - rewrite lookup_insert. by eexists.
  - rewrite lookup_insert_ne in Hl by done. rewrite Hlm in Hl by done.
    rewrite lookup_insert_ne by done. by eapply live_locs.
Qed.

Lemma q_add_ok b now k g d prio size delay ttr start deps s :
  Inv b s → items s !! k = None →
  let x := nextid s in
  let it := added_item false now k g d prio size delay ttr start deps in
  ∃ s', q_add now k g d prio size delay ttr start deps s =
          Some (s', RItem x, [ev s' QNew (sub_of (ist it)) [x]]) ∧
    Inv b s' ∧ objs s' = <[x := it]> (objs s) ∧ items s' = <[k := x]> (items s) ∧
    nextid s' = S x ∧ closed s' = false ∧
    dependants s' = add_dependants k x deps (dependants s).
Proof.
  intros HI Hk. cbv zeta. unfold q_add. rewrite (i_open HI), Hk.
  destruct (alloc_item now k g d prio size delay ttr s) as [x s0] eqn:Ha.
  destruct (alloc_core _ _ _ _ _ _ _ _ _ _ _ _ HI Ha)
    as (Hx & Hc0 & Ho0 & Hi0 & Hn0 & Hcl0 & Hd0 & _).
  assert (Hln : locs (objs s) !! x = None) by (rewrite Hx; by eapply inv_fresh_lm).
  set (it0 := new_item now k g d prio size delay ttr) in *.
  assert (Hx0 : objs s0 !! x = Some it0) by (rewrite Ho0; apply lookup_insert).
  rewrite <- Hx. unfold handle_item_for_add.
  destruct deps as [|dp deps]; [destruct start|].
  - unfold added_item. fold it0. destruct (delay =? 0).
    + destruct (enter_ready_ok b s0 _ x it0 Hc0 Hln Hx0) as (r & -> & Hc & Hobj & _). simpl.
      eexists. split; [done|].
      assert (Hob : objs s0 = <[x:=it0]> (objs s)) by done.
      split_and!; try done.
      * eapply (inv_add b s _ k (switch_delay_ready it0) _ Hc HI Hk); try done.
        -- rewrite <- Hx, Hobj, Hob. by rewrite insert_insert.
        -- by rewrite <- Hx.
        -- by rewrite <- Hx.
        -- rewrite <- Hx. intros y Hy. by rewrite lookup_insert_ne.
        -- rewrite <- Hx. by rewrite lookup_insert.
        -- simpl. rewrite Hd0. intros. right. by eapply (i_deps HI).
      * by rewrite Hobj, Hob, insert_insert.
    + destruct (delay_push_core b s0 _ x Hc0 Hln) as (q & -> & Hc). simpl.
      destruct (delay_trigger_ok b now x _ _ Hc) as (t & ->).
      { simpl. rewrite Ho0. by apply (live_ins b). }
      { simpl. rewrite Hx0. by eexists. }
      eexists. split; [done|]. split_and!; try done.
      eapply (inv_add b s _ k it0 _ (core_dt _ _ _ t Hc) HI Hk); try done.
      -- by rewrite <- Hx.
      -- by rewrite <- Hx.
      -- by rewrite <- Hx.
      -- rewrite <- Hx. intros y Hy. by rewrite lookup_insert_ne.
      -- rewrite <- Hx. by rewrite lookup_insert.
      -- simpl. rewrite Hd0. intros. right. by eapply (i_deps HI).
  - destruct (enter_run_ok b s0 _ x it0 now Hc0 Hln Hx0) as (q & -> & Hc & Hobj).
    cbn beta iota delta [mbind option_bind].
    destruct (ttr_trigger_ok b now x _ _ Hc) as (t & ->).
    { rewrite Hobj, Ho0, insert_insert. by apply (live_ins b). }
    { rewrite Hobj, lookup_insert. by eexists. }
    eexists. split; [done|].
    assert (Hobj' : objs (clr_ready x (mod_obj switch_ready_run x
       (mod_obj (touch now) x (clr_delay x (mod_obj switch_delay_ready x s0)) <| runQ := q |>)))
       = <[x := switch_ready_run (touch now (switch_delay_ready it0))]> (objs s)).
    { by rewrite Hobj, Ho0, insert_insert. }
    split_and!; try done.
    eapply (inv_add b s _ k (switch_ready_run (touch now (switch_delay_ready it0))) _ (core_tt _ _ _ t Hc) HI Hk); try done.
    -- by rewrite <- Hx.
    -- by rewrite <- Hx.
    -- by rewrite <- Hx.
    -- rewrite <- Hx. intros y Hy. by rewrite lookup_insert_ne.
    -- rewrite <- Hx. by rewrite lookup_insert.
    -- simpl. rewrite Hd0. intros. right. by eapply (i_deps HI).
  - assert (Hc1 : core b (bury_push x (clr_delay x (mod_obj switch_delay_ready x s0)))
                    (<[x:=LBury]> (locs (objs s)))).
    { apply bury_push_core; [|done]. apply core_clr_delay; [|by rewrite Hln]. by apply core_mod_out. }
    pose proof (core_fin_run _ _ _ _ _ (switch_run_bury false) Hc1 ltac:(done) ltac:(done)) as Hc.
    eexists. split; [done|].
    match type of Hc with core _ ?s' _ => assert (Hobj : objs s' = <[x := switch_run_bury false (switch_delay_ready it0)]> (objs s)) end.
    { simpl. rewrite <- alter_compose. erewrite alter_insert_eq by done. by rewrite Ho0, insert_insert. }
    split_and!; try done.
    eapply (inv_add b s _ k _ _ Hc HI Hk); try done.
    -- rewrite <- Hx. exact Hobj.
    -- by rewrite <- Hx.
    -- done.
    -- done.
    -- by rewrite <- Hx.
    -- rewrite <- Hx. intros y Hy. by rewrite lookup_insert_ne.
    -- rewrite <- Hx. by rewrite lookup_insert.
    -- simpl. rewrite Hd0. intros. right. by eapply (i_deps HI).
  - destruct (set_item_dependencies_ok b s0 _ x it0 (dp :: deps) Hc0 Hln Hx0)
      as (s' & -> & Hc & Hobj & Hit & Hn & Hcl & Hd & _). simpl.
    eexists. split; [done|].
    assert (Hobj' : objs s' = <[x := switch_delay_dependent (set_dependencies (dp::deps) it0)]> (objs s)).
    { by rewrite Hobj, Ho0, insert_insert. }
    split_and!; try done; try congruence; [|by rewrite Hd, Hd0].
    eapply (inv_add b s _ k _ _ Hc HI Hk).
    -- rewrite <- Hx. exact Hobj'.
    -- rewrite <- Hx. congruence.
    -- done.
    -- done.
    -- rewrite <- Hx. congruence.
    -- congruence.
    -- rewrite <- Hx. intros y Hy. by rewrite lookup_insert_ne.
    -- rewrite <- Hx. by rewrite lookup_insert.
    -- rewrite Hd, Hd0, <- Hx. intros d' m k' y H1 H2.
       destruct (add_dependants_range _ _ _ _ _ _ _ _ H1 H2) as [->|(m0 & H3 & H4)]; [by left|].
       right. by eapply (i_deps HI).
Qed.

(** ** AddMany *)
Definition abs : Type := gmap nat item * gmap key nat * gmap key (gmap key nat) * nat.
Definition abs_of (s : qstate) : abs := (objs s, items s, dependants s, nextid s).
Definition added_def (now : Z) (d : itemdef) : item :=
  added_item true now (d_key d) (d_group d) (d_data d) (d_prio d) 0%N (d_delay d) (d_ttr d)
    (d_start d) (d_deps d).
Definition abs_add (now : Z) (a : abs) (d : itemdef) : abs :=
  let '(o, its, dp, n) := a in
  match its !! d_key d with
  | Some _ => a
  | None => (<[n := added_def now d]> o, <[d_key d := n]> its,
             add_dependants (d_key d) n (d_deps d) dp, S n)
  end.
Definition abs_adds (now : Z) (ds : list itemdef) (a : abs) : abs := fold_left (abs_add now) ds a.

(** the accumulator after one more item of the given state *)
Definition acc_put (st : istate) (x : nat) (a : addacc) : addacc :=
  let a := a <| a_added ::= S |> in
  match st with
  | SDelay => a <| a_delay ::= λ l, l ++ [x] |>
  | SReady => a <| a_ready ::= λ l, l ++ [x] |>
  | SRun => a <| a_run ::= λ l, l ++ [x] |>
  | SBury => a <| a_bury ::= λ l, l ++ [x] |>
  | SDep => a <| a_dep ::= λ l, l ++ [x] |>
  | SRemoved => a
  end.
(** equal but for the triggers, which are items of the queue *)
Definition acc_eq (s : qstate) (a a' : addacc) : Prop :=
  a_added a' = a_added a ∧ a_dups a' = a_dups a ∧ a_ready a' = a_ready a ∧
  a_delay a' = a_delay a ∧ a_dep a' = a_dep a ∧ a_run a' = a_run a ∧ a_bury a' = a_bury a ∧
  (∀ x, a_dtrig a' = Some x → is_Some (objs s !! x)) ∧
  (∀ x, a_ttrig a' = Some x → is_Some (objs s !! x)).

Lemma add_many_one_ok b now d s a :
  Inv b s → items s !! d_key d = None → acc_eq s a a →
  ∃ s' a', add_many_one now d s a = Some (s', a') ∧ Inv b s' ∧
    abs_of s' = abs_add now (abs_of s) d ∧
    acc_eq s' (acc_put (ist (added_def now d)) (nextid s) a) a'.
Proof.
  intros HI Hk (_ & _ & _ & _ & _ & _ & _ & Hdt & Htt). unfold add_many_one. rewrite Hk.
  unfold abs_of, abs_add, added_def. cbv beta iota. rewrite Hk.
  destruct d as [k g d prio delay ttr start deps].
  cbn [d_key d_group d_data d_prio d_delay d_ttr d_start d_deps] in *.
  destruct (alloc_item now k g d prio 0 delay ttr s) as [x s0] eqn:Ha.
  destruct (alloc_core _ _ _ _ _ _ _ _ _ _ _ _ HI Ha)
    as (Hx & Hc0 & Ho0 & Hi0 & Hn0 & Hcl0 & Hd0 & _).
  assert (Hln : locs (objs s) !! x = None) by (rewrite Hx; by eapply inv_fresh_lm).
  set (it0 := new_item now k g d prio 0 delay ttr) in *.
  assert (Hx0 : objs s0 !! x = Some it0) by (rewrite Ho0; apply lookup_insert).
  unfold added_item. fold it0.
  rewrite <- Hx.
  assert (Hext : ∀ s' it, objs s' = <[x := it]> (objs s) →
     (∀ y, is_Some (objs s !! y) → is_Some (objs s' !! y)) ∧ is_Some (objs s' !! x)).
  { intros s' it ->. split; [|rewrite lookup_insert; by eexists].
    intros y Hy. rewrite lookup_insert_is_Some. destruct (decide (x = y)); auto. }
  destruct deps as [|dp deps]; [destruct start|].
  - destruct (delay =? 0).
    + destruct (enter_ready_ok b s0 _ x it0 Hc0 Hln Hx0) as (r & -> & Hc & Hobj & _).
      rewrite Ho0, insert_insert in Hobj.
      cbn beta iota delta [mbind option_bind].
      eexists _, _. split; [done|].
      destruct (Hext _ _ Hobj) as [He Hex].
      split_and!; [|rewrite Hobj; simpl; by rewrite Hi0, Hd0, Hn0|by unfold acc_eq; split_and!; eauto].
      eapply (inv_add b s _ k (switch_delay_ready it0) _ Hc HI Hk); try done.
      * by rewrite <- Hx.
      * by rewrite <- Hx.
      * by rewrite <- Hx.
      * rewrite <- Hx. intros y Hy. by rewrite lookup_insert_ne.
      * rewrite <- Hx. by rewrite lookup_insert.
      * simpl. rewrite Hd0. intros. right. by eapply (i_deps HI).
    + destruct (delay_push_core b s0 _ x Hc0 Hln) as (q & -> & Hc).
      cbn beta iota delta [mbind option_bind].
      eexists _, _. split; [done|].
      destruct (Hext (s0 <| delayQ := q |>) it0 Ho0) as [He Hex].
      split_and!.
      * eapply (inv_add b s _ k it0 _ Hc HI Hk); try done.
        -- by rewrite <- Hx.
        -- by rewrite <- Hx.
        -- by rewrite <- Hx.
        -- rewrite <- Hx. intros y Hy. by rewrite lookup_insert_ne.
        -- rewrite <- Hx. by rewrite lookup_insert.
        -- simpl. rewrite Hd0. intros. right. by eapply (i_deps HI).
      * simpl. by rewrite Ho0, Hi0, Hd0, Hn0.
      * destruct (_ && _); unfold acc_eq; split_and!; eauto; by intros ? [= <-].
  - destruct (enter_run_ok b s0 _ x it0 now Hc0 Hln Hx0) as (q & -> & Hc & Hobj).
    rewrite Ho0, insert_insert in Hobj.
    cbn beta iota delta [mbind option_bind].
    eexists _, _. split; [done|].
    destruct (Hext _ _ Hobj) as [He Hex].
    split_and!.
    + eapply (inv_add b s _ k _ _ Hc HI Hk); try done.
      * rewrite <- Hx. exact Hobj.
      * by rewrite <- Hx.
      * done.
      * done.
      * by rewrite <- Hx.
      * rewrite <- Hx. intros y Hy. by rewrite lookup_insert_ne.
      * rewrite <- Hx. by rewrite lookup_insert.
      * simpl. rewrite Hd0. intros. right. by eapply (i_deps HI).
    + rewrite Hobj. simpl. by rewrite Hi0, Hd0, Hn0.
    + destruct (_ && _); unfold acc_eq; split_and!; eauto; by intros ? [= <-].
  - assert (Hc1 : core b (bury_push x (clr_delay x (mod_obj switch_delay_ready x s0)))
                    (<[x:=LBury]> (locs (objs s)))).
    { apply bury_push_core; [|done]. apply core_clr_delay; [|by rewrite Hln]. by apply core_mod_out. }
    assert (Hc2 : core b (clr_ready x (mod_obj switch_ready_run x
              (bury_push x (clr_delay x (mod_obj switch_delay_ready x s0))))) (<[x:=LBury]> (locs (objs s)))).
    { apply core_clr_ready; [|intros; by rewrite lookup_insert].
      apply core_mod; [done|]. intros it' l _. rewrite lookup_insert. by intros [= <-]. }
    pose proof (core_fin_run _ _ _ _ _ (switch_run_bury false) Hc2 ltac:(done) ltac:(done)) as Hc.
    match type of Hc with core _ ?s' _ => assert (Hobj : objs s' =
      <[x := switch_run_bury false (switch_ready_run (switch_delay_ready it0))]> (objs s)) end.
    { simpl. rewrite <- !alter_compose. erewrite alter_insert_eq by done. by rewrite Ho0, insert_insert. }
    destruct (Hext _ _ Hobj) as [He Hex].
    eexists _, _. split; [done|]. split_and!.
    + eapply (inv_add b s _ k _ _ Hc HI Hk); try done.
      * rewrite <- Hx. exact Hobj.
      * by rewrite <- Hx.
      * done.
      * done.
      * by rewrite <- Hx.
      * rewrite <- Hx. intros y Hy. by rewrite lookup_insert_ne.
      * rewrite <- Hx. by rewrite lookup_insert.
      * simpl. rewrite Hd0. intros. right. by eapply (i_deps HI).
    + rewrite Hobj. simpl. by rewrite Hi0, Hd0, Hn0.
    + by unfold acc_eq; split_and!; eauto.
  - destruct (set_item_dependencies_ok b s0 _ x it0 (dp :: deps) Hc0 Hln Hx0)
      as (s' & -> & Hc & Hobj & Hit & Hn & Hcl & Hd & _).
    rewrite Ho0, insert_insert in Hobj.
    cbn beta iota delta [mbind option_bind].
    destruct (Hext _ _ Hobj) as [He Hex].
    eexists _, _. split; [done|]. split_and!.
    + eapply (inv_add b s _ k _ _ Hc HI Hk).
      * rewrite <- Hx. exact Hobj.
      * rewrite <- Hx. congruence.
      * done.
      * done.
      * rewrite <- Hx. congruence.
      * congruence.
      * rewrite <- Hx. intros y Hy. by rewrite lookup_insert_ne.
      * rewrite <- Hx. by rewrite lookup_insert.
      * rewrite Hd, Hd0, <- Hx. intros d' m k' y H1 H2.
        destruct (add_dependants_range _ _ _ _ _ _ _ _ H1 H2) as [->|(m0 & H3 & H4)]; [by left|].
        right. by eapply (i_deps HI).
    + by rewrite Hobj, Hit, Hi0, Hd, Hd0, Hn, Hn0.
    + by unfold acc_eq; split_and!; eauto.
Qed.

Definition abs_objs (a : abs) : gmap nat item := a.1.1.1.
Lemma abs_adds_old now ds a y :
  (y < a.2)%nat → abs_objs (abs_adds now ds a) !! y = abs_objs a !! y ∧
  (a.2 ≤ (abs_adds now ds a).2)%nat.
Proof.
  revert a. induction ds as [|d ds IH]; intros a Hy; [done|]. simpl.
  destruct a as [[[o its] dp] n]. simpl in *. destruct (its !! d_key d).
  - by apply IH.
  - destruct (IH (<[n:=added_def now d]> o, <[d_key d:=n]> its,
       add_dependants (d_key d) n (d_deps d) dp, S n)) as [H1 H2]; simpl in *; [lia|].
    split; [|lia]. rewrite H1. unfold abs_objs. simpl. rewrite lookup_insert_ne; [done|lia].
Qed.
Lemma abs_adds_le now ds a : (a.2 ≤ (abs_adds now ds a).2 ∧ (abs_adds now ds a).2 ≤ a.2 + length ds)%nat.
Proof.
  revert a. induction ds as [|d ds IH]; intros a; [simpl; lia|]. simpl.
  destruct a as [[[o its] dp] n]. simpl in *. destruct (its !! d_key d).
  - destruct (IH (o, its, dp, n)) as [H1 H2]. simpl in *. lia.
  - destruct (IH (<[n:=added_def now d]> o, <[d_key d:=n]> its,
       add_dependants (d_key d) n (d_deps d) dp, S n)) as [H1 H2]; simpl in *; lia.
Qed.

(** The items of a state that were not there before *)
Definition newly (st : istate) (s s' : qstate) : list nat :=
  filter (λ y, ist (obj (objs s') y) = st) (seq (nextid s) (nextid s' - nextid s)).

Definition acc_get (st : istate) (a : addacc) : list nat :=
  match st with
  | SDelay => a_delay a | SReady => a_ready a | SRun => a_run a | SBury => a_bury a
  | SDep => a_dep a | SRemoved => []
  end.
Lemma acc_get_put st st' x a :
  st' ≠ SRemoved → acc_get st (acc_put st' x a) = acc_get st a ++ (if decide (st = st') then [x] else []).
Proof. intros H. destruct st, st'; simpl; rewrite ?app_nil_r; done. Qed.
Lemma acc_get_eq s st a a' : acc_eq s a a' → acc_get st a' = acc_get st a.
Proof. intros (H1 & H2 & H3 & H4 & H5 & H6 & H7 & _). by destruct st. Qed.
Lemma acc_put_counts st x a : a_added (acc_put st x a) = S (a_added a) ∧ a_dups (acc_put st x a) = a_dups a.
Proof. by destruct st. Qed.

Lemma added_def_live now d : ist (added_def now d) ≠ SRemoved.
Proof. apply added_item_live. Qed.

Lemma add_many_loop_ok b now ds s a :
  Inv b s → acc_eq s a a →
  ∃ s' a', add_many_loop now ds s a = Some (s', a') ∧ Inv b s' ∧
    abs_of s' = abs_adds now ds (abs_of s) ∧
    (∀ st, st ≠ SRemoved → acc_get st a' = acc_get st a ++ newly st s s') ∧
    (a_added a' = a_added a + (nextid s' - nextid s))%nat ∧
    (a_added a' + a_dups a' = a_added a + a_dups a + length ds)%nat ∧
    acc_eq s' a' a'.
Proof.
  revert s a. induction ds as [|d ds IH]; intros s a HI Ha; simpl.
  { exists s, a. split_and!; try done; try lia.
    intros st _. unfold newly. by rewrite Nat.sub_diag, app_nil_r. }
  destruct (items s !! d_key d) as [x|] eqn:Hk.
  - assert (add_many_one now d s a = Some (s, a <| a_dups ::= S |>)) as ->.
    { unfold add_many_one. by rewrite Hk. }
    cbn beta iota delta [mbind option_bind].
    match goal with |- context [add_many_loop now ds s ?a2] =>
      destruct (IH s a2 HI) as (s' & a' & -> & HI' & Habs & Hacc & Had & Hct & Heq) end.
    { destruct Ha as (_&_&_&_&_&_&_&H1&H2). by unfold acc_eq; split_and!. }
    exists s', a'. split_and!; try done.
    simpl in Hct. lia.
  - destruct (add_many_one_ok b now d s a HI Hk Ha) as (s1 & a1 & -> & HI1 & Habs1 & Hacc1).
    simpl. destruct (IH s1 a1 HI1) as (s' & a' & -> & HI' & Habs & Hacc & Had & Hct & Heq).
    { destruct Hacc1 as (_&_&_&_&_&_&_&H1&H2). by unfold acc_eq; split_and!. }
    pose proof (abs_adds_le now ds (abs_of s1)) as [Hle1 Hle2]. rewrite <- Habs in Hle1, Hle2. simpl in Hle1, Hle2.
    unfold abs_add, abs_of in Habs1. rewrite Hk in Habs1. injection Habs1 as Ho1 Hi1 Hd1 Hn1.
    destruct (acc_put_counts (ist (added_def now d)) (nextid s) a) as [Hp1 Hp2].
    pose proof Hacc1 as (Ha1 & Ha2 & _).
    exists s', a'. split_and!; try done.
    + rewrite Habs. unfold abs_of. by rewrite Ho1, Hi1, Hd1, Hn1.
    + intros st Hst. rewrite Hacc by done. rewrite (acc_get_eq _ _ _ _ Hacc1).
      rewrite acc_get_put by apply added_def_live. rewrite <- app_assoc. f_equal.
      unfold newly. rewrite Hn1.
      replace (nextid s' - nextid s)%nat with (S (nextid s' - S (nextid s))) by lia. simpl.
      rewrite filter_cons.
      assert (obj (objs s') (nextid s) = added_def now d) as ->.
      { apply obj_Some. pose proof (abs_adds_old now ds (abs_of s1) (nextid s)) as [H _]; [simpl; lia|].
        rewrite <- Habs in H. unfold abs_objs, abs_of in H. simpl in H. rewrite H, Ho1. apply lookup_insert. }
      destruct (decide (st = ist (added_def now d))) as [e|e].
      * by rewrite decide_True.
      * by rewrite decide_False.
    + lia.
    + simpl. lia.
Qed.

Lemma q_add_many_ok b now ds s :
  Inv b s →
  ∃ s', q_add_many now ds s =
      Some (s', RAdded (nextid s' - nextid s) (length ds - (nextid s' - nextid s)),
        ev_if s' QReady (newly SReady s s') ++ ev_if s' QDelay (newly SDelay s s') ++
        ev_if s' QDep (newly SDep s s') ++ ev_if s' QRun (newly SRun s s') ++
        ev_if s' QBury (newly SBury s s')) ∧
    Inv b s' ∧ abs_of s' = abs_adds now ds (abs_of s).
Proof.
  intros HI. unfold q_add_many. rewrite (i_open HI).
  destruct (add_many_loop_ok b now ds s (AddAcc 0 0 [] [] [] [] [] None None) HI)
    as (s1 & a & -> & HI1 & Habs & Hacc & Had & Hct & (_&_&_&_&_&_&_&Hdt&Htt)).
  { by unfold acc_eq; split_and!. }
  cbn beta iota delta [mbind option_bind].
  assert (∃ t, trig_opt (delay_trigger now) (a_dtrig a) s1 = Some (s1 <| delayTime := t |>)) as (t & ->).
  { destruct (a_dtrig a) as [x|]; simpl.
    - eapply delay_trigger_ok; [apply HI1|apply live_locs|by apply Hdt].
    - exists (delayTime s1). by rewrite set_delayTime_id. }
  cbn beta iota delta [mbind option_bind].
  set (s2 := s1 <| delayTime := t |>).
  assert (HI2 : Inv b s2).
  { destruct HI1 as [A B C D E]. split; try done. by apply core_dt. }
  assert (∃ t, trig_opt (ttr_trigger now) (a_ttrig a) s2 = Some (s2 <| ttrTime := t |>)) as (t' & ->).
  { destruct (a_ttrig a) as [x|]; simpl.
    - eapply ttr_trigger_ok; [apply HI2|apply live_locs|by apply Htt].
    - exists (ttrTime s2). by rewrite set_ttrTime_id. }
  assert (HI3 : Inv b (s2 <| ttrTime := t' |>)).
  { destruct HI2 as [A B C D E]. split; try done. by apply core_tt. }
  cbn beta iota delta [mbind option_bind].
  eexists. split; [|split; [exact HI3|exact Habs]].
  pose proof (Hacc SReady ltac:(done)) as H1. pose proof (Hacc SDelay ltac:(done)) as H2.
  pose proof (Hacc SDep ltac:(done)) as H3. pose proof (Hacc SRun ltac:(done)) as H4.
  pose proof (Hacc SBury ltac:(done)) as H5. simpl in H1, H2, H3, H4, H5.
  rewrite H1, H2, H3, H4, H5. simpl in Had, Hct.
  assert (a_added a = (nextid s1 - nextid s)%nat) as -> by lia.
  assert (a_dups a = (length ds - (nextid s1 - nextid s))%nat) as -> by lia.
  done.
Qed.
