(** Update *)
From Coq Require Import ZArith Lia String.
From stdpp Require Import base option strings gmap list.
From RecordUpdate Require Import RecordSet.
From Verif Require Import GoHeap GoHeapProofs QueueModel QueueCore QueueInv QueueInvAdd.
Import RecordSetNotations.
Open Scope Z_scope.

(** the dependants map after the item has stopped waiting for [l] *)
Definition drop_dependants (its : gmap key nat) (k : key) (l : list key)
    (d : gmap key (gmap key nat)) : gmap key (gmap key nat) :=
  fold_left (λ d dep, match its !! dep with
    | None => d
    | Some _ => let m := delete k (default ∅ (d !! dep)) in
                if decide (m = ∅) then delete dep d else <[dep := m]> d
    end) l d.

Lemma drop_dependants_fold k l s :
  fold_left (drop_dependant k) l s = s <| dependants := drop_dependants (items s) k l (dependants s) |>.
Proof.
  revert s. induction l as [|dep l IH]; intros s; simpl; [by destruct s|].
  rewrite IH. unfold drop_dependant. destruct (items s !! dep) eqn:E; [done|]. done.
Qed.
Lemma drop_dependants_range its k l d d' m k' y :
  drop_dependants its k l d !! d' = Some m → m !! k' = Some y →
  ∃ m0, d !! d' = Some m0 ∧ m0 !! k' = Some y.
Proof.
  revert d. induction l as [|a l IH]; intros d; simpl; [by eauto|].
  intros Hm Hk. destruct (IH _ Hm Hk) as (m0 & Hm0 & Hk0).
  destruct (its !! a); [|by eauto].
  case_decide as He.
  - apply lookup_delete_Some in Hm0 as [_ Hm0]. eauto.
  - apply lookup_insert_Some in Hm0 as [[<- <-]|[_ Hm0]]; [|by eauto].
    apply lookup_delete_Some in Hk0 as [_ Hk0].
    destruct (d !! a) as [m1|]; simpl in Hk0; [by eauto|]. by rewrite lookup_empty in Hk0.
Qed.

(** what Update does to the item *)
Definition dep_change (deps : list key) (it : item) : item :=
  let it' := set_dependencies deps it in
  match deps with
  | [] => switch_dependent_ready it'
  | _ => match ist it with
         | SDelay => switch_delay_dependent it'
         | SReady => switch_ready_dependent it'
         | SRun => switch_run_dependent it'
         | _ => it'
         end
  end.
Definition dep_changed (deps : list key) (it : item) : bool :=
  negb (bool_decide ((deps_diff (iremain it) deps).1 = ∅) && ((deps_diff (iremain it) deps).2 =? 0)%nat).
Definition dep_from (deps : list key) (it : item) : option subq :=
  match deps with
  | [] => None
  | _ => match ist it with SDelay => Some QDelay | SReady => Some QReady | SRun => Some QRun | _ => None end
  end.
Definition prop_change (now : Z) (g : group) (prio : N) (delay ttr : Z) (added : bool) (it : item) : item :=
  if negb (idelay it =? delay) then
    match ist it with
    | SDelay => restart now (it <| idelay := delay |>)
    | _ => it <| idelay := delay |>
    end
  else if negb (iprio it =? prio)%N || bool_decide (igroup it ≠ g) || added then
    it <| iprio := prio |> <| igroup := g |>
  else if negb (ittr it =? ttr) then
    match ist it with
    | SRun => touch now (it <| ittr := ttr |>)
    | _ => it <| ittr := ttr |>
    end
  else it.
Definition dep_part (deps : option (list key)) (it : item) : item * bool * option subq :=
  match deps with
  | Some ds => if dep_changed ds it
               then (dep_change ds it, match ds with [] => true | _ => false end, dep_from ds it)
               else (it, false, None)
  | None => (it, false, None)
  end.
Definition updated (now : Z) (g : group) (d prio : N) (delay ttr : Z) (deps : option (list key)) (it : item) : item :=
  let '(it', added, _) := dep_part deps (it <| idata := d |>) in
  prop_change now g prio delay ttr added it'.
Definition upd_dependants (its : gmap key nat) (k : key) (x : nat) (deps : option (list key)) (it : item)
    (d : gmap key (gmap key nat)) : gmap key (gmap key nat) :=
  match deps with
  | Some ds => if dep_changed ds it
               then add_dependants k x ds
                      (drop_dependants its k (elements (deps_diff (iremain it) ds).1) d)
               else d
  | None => d
  end.

Lemma deps_diff_nil old : deps_diff old [] = (old, 0%nat).
Proof. done. Qed.

Lemma alter_add_dep (o : gmap nat item) x it f : o !! x = Some it → f it = it → alter f x o = o.
Proof. intros Hx Hf. rewrite (alter_insert_eq _ _ _ _ Hx), Hf. by apply insert_id. Qed.

Ltac fin_upd HI Hx Hr Hc F :=
  eapply (inv_alter _ _ _ _ _ F _ Hc HI Hx Hr).

Lemma update_deps_ok b k x it deps s :
  Inv b s → items s !! k = Some x → objs s !! x = Some it →
  (deps = [] → iremain it ≠ ∅ → ist it = SDep) →
  ∃ s', update_deps k x deps s =
      Some (s', (dep_part (Some deps) it).1.2, (dep_part (Some deps) it).2) ∧
    Inv b s' ∧ objs s' = <[x := (dep_part (Some deps) it).1.1]> (objs s) ∧
    items s' = items s ∧ nextid s' = nextid s ∧ closed s' = closed s ∧
    dependants s' = upd_dependants (items s) k x (Some deps) it (dependants s) ∧
    (ist (dep_part (Some deps) it).1.1 = SReady →
       (readyQ s' = readyQ s ∧ (dep_part (Some deps) it).1.1 = it ∧ (dep_part (Some deps) it).1.2 = false) ∨
       rlast (readyQ s') = igroup it ∧ (dep_part (Some deps) it).1.2 = true).
Proof.
  intros HI Hk Hx Hgood. unfold update_deps. rewrite Hx. cbn beta iota delta [mbind option_bind].
  destruct (inv_get _ _ _ _ HI Hk) as (it' & Hx' & Hkey & Hr). rewrite Hx in Hx'. injection Hx' as <-.
  unfold dep_part, upd_dependants, dep_changed.
  destruct (deps_diff (iremain it) deps) as [rem nw] eqn:Hdd. cbn [fst snd].
  destruct (bool_decide (rem = ∅) && (nw =? 0)%nat) eqn:Hch; cbn [negb fst snd].
  { exists s. split_and!; try done; [by rewrite insert_id|]. intros _. by left. }
  rewrite drop_dependants_fold.
  set (D := drop_dependants (items s) k (elements rem) (dependants s)).
  unfold set_queue_deps. cbv zeta.
  assert (Hl1 : objs (mod_obj (set_dependencies deps) x (s <| dependants := D |>)) !! x = Some (set_dependencies deps it)).
  { simpl. by rewrite lookup_alter, Hx. }
  rewrite Hl1. cbn beta iota delta [mbind option_bind].
  set (s1 := mod_obj (set_dependencies deps) x (s <| dependants := D |>) <| dependants ::= _ |>).
  assert (Hd1 : dependants s1 = add_dependants k x deps D) by (unfold s1; simpl; by rewrite Hkey).
  assert (Hrange : ∀ d m k' y, dependants s1 !! d = Some m → m !! k' = Some y → is_Some (objs s !! y)).
  { rewrite Hd1. intros d m k' y H1 H2.
    destruct (add_dependants_range _ _ _ _ _ _ _ _ H1 H2) as [->|(m0 & H3 & H4)]; [by eexists|].
    destruct (drop_dependants_range _ _ _ _ _ _ _ _ H3 H4) as (m1 & H5 & H6). by eapply (i_deps HI). }
  assert (Ho1 : objs s1 = alter (set_dependencies deps) x (objs s)) by done.
  assert (Hc1 : core b s1 (locs (objs s))).
  { apply (core_ext b (mod_obj (set_dependencies deps) x s)); [|by intros []|done].
    apply core_mod; [apply HI|]. intros it' l _ _. by destruct l. }
  assert (Hx1 : objs s1 !! x = Some (set_dependencies deps it)) by (by rewrite Ho1, lookup_alter, Hx).
  assert (Hdel : delete x (locs (objs s)) !! x = None) by apply lookup_delete.
  assert (Hother : ∀ l y, y ≠ x → <[x:=l]> (delete x (locs (objs s))) !! y = locs (objs s) !! y).
  { intros l y Hy. by rewrite lookup_insert_ne, lookup_delete_ne. }
  destruct deps as [|dp deps].
  - assert (Hst : ist it = SDep).
    { apply Hgood; [done|]. intros He. rewrite deps_diff_nil in Hdd. injection Hdd as <- <-.
      rewrite bool_decide_true in Hch by done. done. }
    assert (Hlm : locs (objs s) !! x = Some LDep) by (by rewrite (locs_Some _ _ _ Hx); unfold loc_of; rewrite Hst).
    destruct (dep_remove_core b s1 _ x Hc1 Hlm) as (q & -> & Hc2).
    cbn beta iota delta [mbind option_bind].
    set (s2 := clr_dep x (mod_obj switch_dependent_ready x (s1 <| depQ := q |>))).
    assert (Hc3 : core b s2 (delete x (locs (objs s)))).
    { apply core_clr_dep; [|by rewrite Hdel]. by apply core_mod_out. }
    assert (Hx2 : objs s2 !! x = Some (dep_change [] it)).
    { unfold s2. simpl. by rewrite !lookup_alter, Hx. }
    destruct (ready_push_core b s2 _ x _ Hc3 Hdel Hx2) as (r & -> & Hrl & Hc4).
    cbn beta iota delta [mbind option_bind].
    assert (Hobj : objs s2 = alter (λ it, dep_change [] it) x (objs s)).
    { unfold s2. simpl. by rewrite <- alter_compose. }
    eexists. split; [done|]. split_and!; try done.
    + eapply (inv_alter b s _ x it (λ it, dep_change [] it) _ Hc4 HI Hx Hr); try done; [by apply Hother|].
      by rewrite lookup_insert.
    + simpl objs. change (objs s2 = <[x := dep_change [] it]> (objs s)). rewrite Hobj. by rewrite (alter_insert_eq _ _ _ _ Hx).
    + intros _. by right.
  - destruct (ist it) eqn:Hst.
    + assert (Hlm : locs (objs s) !! x = Some LDelay) by (by rewrite (locs_Some _ _ _ Hx); unfold loc_of; rewrite Hst).
      destruct (delay_remove_core b s1 _ x Hc1 Hlm) as (q & -> & Hc2).
      cbn beta iota delta [mbind option_bind].
      assert (Hc3 : core b (dep_push x (clr_delay x (mod_obj switch_delay_dependent x (s1 <| delayQ := q |>))))
                (<[x := LDep]> (delete x (locs (objs s))))).
      { apply dep_push_core; [|done]. apply core_clr_delay; [|by rewrite Hdel]. by apply core_mod_out. }
      eexists. split; [by unfold dep_from; rewrite Hst|].
      assert (Hobj : objs (dep_push x (clr_delay x (mod_obj switch_delay_dependent x (s1 <| delayQ := q |>)))) =
         alter (λ it, switch_delay_dependent (set_dependencies (dp :: deps) it)) x (objs s)).
      { simpl. by rewrite <- alter_compose. }
      split_and!; try done.
      * eapply (inv_alter b s _ x it _ _ Hc3 HI Hx ltac:(by rewrite Hst) Hobj); try done; [by apply Hother|].
        by rewrite lookup_insert.
      * rewrite Hobj. unfold dep_change. rewrite Hst. by rewrite (alter_insert_eq _ _ _ _ Hx).
      * unfold dep_change. by rewrite Hst.
    + assert (Hlm : locs (objs s) !! x = Some (LReady (igroup it))) by (by rewrite (locs_Some _ _ _ Hx); unfold loc_of; rewrite Hst).
      destruct (ready_remove_core b s1 _ x (set_dependencies (dp :: deps) it) Hc1 Hx1 Hlm) as (q & -> & _ & Hc2).
      cbn beta iota delta [mbind option_bind].
      assert (Hc3 : core b (dep_push x (clr_ready x (mod_obj switch_ready_dependent x (s1 <| readyQ := q |>))))
                (<[x := LDep]> (delete x (locs (objs s))))).
      { apply dep_push_core; [|done]. apply core_clr_ready; [|by rewrite Hdel]. by apply core_mod_out. }
      eexists. split; [by unfold dep_from; rewrite Hst|].
      assert (Hobj : objs (dep_push x (clr_ready x (mod_obj switch_ready_dependent x (s1 <| readyQ := q |>)))) =
         alter (λ it, switch_ready_dependent (set_dependencies (dp :: deps) it)) x (objs s)).
      { simpl. by rewrite <- alter_compose. }
      split_and!; try done.
      * eapply (inv_alter b s _ x it _ _ Hc3 HI Hx ltac:(by rewrite Hst) Hobj); try done; [by apply Hother|].
        by rewrite lookup_insert.
      * rewrite Hobj. unfold dep_change. rewrite Hst. by rewrite (alter_insert_eq _ _ _ _ Hx).
      * unfold dep_change. by rewrite Hst.
    + assert (Hlm : locs (objs s) !! x = Some LRun) by (by rewrite (locs_Some _ _ _ Hx); unfold loc_of; rewrite Hst).
      destruct (run_remove_core b s1 _ x Hc1 Hlm) as (q & -> & Hc2).
      cbn beta iota delta [mbind option_bind].
      assert (Hc3 : core b (dep_push x (clr_run x (mod_obj switch_run_dependent x (s1 <| runQ := q |>))))
                (<[x := LDep]> (delete x (locs (objs s))))).
      { apply dep_push_core; [|done]. apply core_clr_run; [|by rewrite Hdel]. by apply core_mod_out. }
      eexists. split; [by unfold dep_from; rewrite Hst|].
      assert (Hobj : objs (dep_push x (clr_run x (mod_obj switch_run_dependent x (s1 <| runQ := q |>)))) =
         alter (λ it, switch_run_dependent (set_dependencies (dp :: deps) it)) x (objs s)).
      { simpl. by rewrite <- alter_compose. }
      split_and!; try done.
      * eapply (inv_alter b s _ x it _ _ Hc3 HI Hx ltac:(by rewrite Hst) Hobj); try done; [by apply Hother|].
        by rewrite lookup_insert.
      * rewrite Hobj. unfold dep_change. rewrite Hst. by rewrite (alter_insert_eq _ _ _ _ Hx).
      * unfold dep_change. by rewrite Hst.
    + eexists. split; [by unfold dep_from; rewrite Hst|]. split_and!; try done.
      * eapply (inv_alter b s _ x it (set_dependencies (dp :: deps)) _ Hc1 HI Hx); try done; [by rewrite Hst| |simpl; by rewrite Hst].
        rewrite (locs_Some _ _ _ Hx). done.
      * rewrite Ho1. unfold dep_change. rewrite Hst. by rewrite (alter_insert_eq _ _ _ _ Hx).
      * unfold dep_change. rewrite Hst. simpl. by rewrite Hst.
    + eexists. split; [by unfold dep_from; rewrite Hst|]. split_and!; try done.
      * eapply (inv_alter b s _ x it (set_dependencies (dp :: deps)) _ Hc1 HI Hx); try done; [by rewrite Hst| |simpl; by rewrite Hst].
        rewrite (locs_Some _ _ _ Hx). done.
      * rewrite Ho1. unfold dep_change. rewrite Hst. by rewrite (alter_insert_eq _ _ _ _ Hx).
      * unfold dep_change. rewrite Hst. simpl. by rewrite Hst.
    + done.
Qed.

Lemma update_props_ok b now x it g prio delay ttr added s s' :
  Inv b s → objs s !! x = Some it → ist it ≠ SRemoved →
  (b = true → ist it = SReady → idelay it = delay → igroup it = g →
     (iprio it ≠ prio ∨ added = true) → rlast (readyQ s) = g) →
  update_props now x g prio delay ttr added s = Some s' →
  one_item b s s' x (prop_change now g prio delay ttr added).
Proof.
  intros HI Hx Hr Hgood. unfold update_props. rewrite Hx. cbn beta iota zeta delta [mbind option_bind].
  assert (Hone : ∀ f s1, core b s1 (locs (objs s)) → objs s1 = alter f x (objs s) → rest_eq s s1 →
     f it = prop_change now g prio delay ttr added it →
     loc_of (f it) = loc_of it → ikey (f it) = ikey it → ist (f it) = ist it →
     one_item b s s1 x (prop_change now g prio delay ttr added)).
  { intros f s1 Hc Ho (H1 & H2 & H3 & H4) Hf Hl Hk Hs. split; [|split; [|by split_and!]].
    - eapply (inv_alter b s s1 x it f _ Hc HI Hx Hr Ho); try done.
      + by rewrite (locs_Some _ _ _ Hx), Hl.
      + by rewrite Hs.
      + rewrite H2. apply HI.
    - rewrite Ho, !(alter_insert_eq _ _ _ _ Hx). by rewrite Hf. }
  unfold prop_change in Hone.
  destruct (idelay it =? delay) eqn:Hdl; cbn [negb] in *.
  2: { assert (Hc1 : core b (mod_obj (λ it, it <| idelay := delay |>) x s) (locs (objs s))).
    { apply core_mod; [apply HI|]. intros it' l _ _. by destruct l. }
    destruct (ist it) eqn:Hst; try (intros [= <-]; apply (Hone (λ it, it <| idelay := delay |>)); done).
    assert (Hlm : locs (objs s) !! x = Some LDelay) by (by rewrite (locs_Some _ _ _ Hx); unfold loc_of; rewrite Hst).
    destruct (delay_update_core b _ _ x (restart now) Hc1 Hlm) as (q & -> & Hc). intros [= <-].
    apply (Hone (λ it, restart now (it <| idelay := delay |>))); try done.
    simpl. by rewrite <- alter_compose. }
  apply Z.eqb_eq in Hdl.
  destruct (negb (iprio it =? prio)%N || bool_decide (igroup it ≠ g) || added) eqn:Hpg.
  - set (f := λ it : item, it <| iprio := prio |> <| igroup := g |>).
    assert (Hcase : ist it ≠ SReady → one_item b s (mod_obj f x s) x (prop_change now g prio delay ttr added)).
    { intros Hne. apply (Hone f); try done.
      - apply core_mod; [apply HI|]. intros it' l Hx' Hl. rewrite Hx in Hx'. injection Hx' as <-.
        rewrite (locs_Some _ _ _ Hx) in Hl. unfold loc_of in Hl. destruct (ist it); simplify_eq; done.
      - unfold f, loc_of. simpl. by destruct (ist it). }
    destruct (ist it) eqn:Hst; try (intros [= <-]; by apply Hcase).
    assert (Hlm : locs (objs s) !! x = Some (LReady (igroup it))) by (by rewrite (locs_Some _ _ _ Hx); unfold loc_of; rewrite Hst).
    assert (Hx1 : objs (mod_obj f x s) !! x = Some (f it)) by (simpl; by rewrite lookup_alter, Hx).
    unfold ready_update. rewrite Hx1. cbn beta iota zeta delta [mbind option_bind].
    destruct (decide (igroup it = igroup (f it))) as [Hg|Hg].
    + simpl in Hg. intros Hf.
      destruct (rheap_fix_core b s _ x f (igroup it) (i_core HI) Hlm) with (s' := s') as (r & -> & Hc).
      { intros Hb. rewrite Hg. apply Hgood; try done.
        destruct (N.eqb_spec (iprio it) prio); [|by left].
        destruct added; [by right|]. rewrite bool_decide_false in Hpg by (intros H; by apply H). done. }
      { done. }
      apply (Hone f); try done. unfold loc_of. simpl. by rewrite Hst, Hg.
    + simpl in Hg. intros Hf.
      (* the heap keys change while the item is in the old group's heap, then it is taken out *)
      destruct (rheap_remove_mod_core b (set_rlast (igroup it) s) (locs (objs s)) x (igroup it) f)
        as (r & Hr1 & _ & Hc1); [apply core_set_rlast, HI|done|done|].
      change (mod_obj f x (set_rlast (igroup it) s)) with (set_rlast (igroup it) (mod_obj f x s)) in Hr1.
      rewrite Hr1 in Hf. cbn beta iota zeta delta [mbind option_bind] in Hf.
      destruct (rheap_push_core b (set_rlast g (set_rlast (igroup it) (mod_obj f x s) <| readyQ := r |>))
        (delete x (locs (objs s))) x g) as (r2 & Hr2 & _ & Hc2);
        [by apply core_set_rlast|apply lookup_delete|done|].
      change (igroup (f it)) with g in Hf. rewrite Hr2 in Hf. injection Hf as <-.
      split; [|split; [|by split_and!]].
      * eapply (inv_alter b s _ x it f _ Hc2 HI Hx); try done.
        -- by rewrite Hst.
        -- intros y Hy. by rewrite lookup_insert_ne, lookup_delete_ne.
        -- rewrite lookup_insert. unfold loc_of. simpl. by rewrite Hst.
        -- simpl. by rewrite Hst.
        -- apply HI.
      * change (alter f x (objs s) = alter (prop_change now g prio delay ttr added) x (objs s)).
        rewrite !(alter_insert_eq _ _ _ _ Hx). unfold prop_change.
        assert (idelay it =? delay = true) as -> by (by apply Z.eqb_eq).
        by rewrite Hpg.
  - destruct (ittr it =? ttr) eqn:Ht; cbn [negb].
    + intros [= <-]. apply (Hone (λ it, it)); try done; [apply HI| ].
      rewrite (alter_add_dep _ _ _ _ Hx); done.
    + assert (Hc1 : core b (mod_obj (λ it, it <| ittr := ttr |>) x s) (locs (objs s))).
      { apply core_mod; [apply HI|]. intros it' l _ _. by destruct l. }
      destruct (ist it) eqn:Hst; try (intros [= <-]; apply (Hone (λ it, it <| ittr := ttr |>)); done).
      assert (Hlm : locs (objs s) !! x = Some LRun) by (by rewrite (locs_Some _ _ _ Hx); unfold loc_of; rewrite Hst).
      destruct (run_update_core b _ _ x (touch now) Hc1 Hlm) as (q & -> & Hc). intros [= <-].
      apply (Hone (λ it, touch now (it <| ittr := ttr |>))); try done.
      simpl. by rewrite <- alter_compose.
Qed.

Lemma update_props_total b now x it g prio delay ttr added s :
  Inv b s → objs s !! x = Some it → ist it ≠ SRemoved →
  (ist it = SReady → idelay it = delay → igroup it = g →
     (iprio it ≠ prio ∨ added = true) → rlast (readyQ s) = g) →
  is_Some (update_props now x g prio delay ttr added s).
Proof.
  intros HI Hx Hr Hgood. unfold update_props. rewrite Hx. cbn beta iota zeta delta [mbind option_bind].
  destruct (idelay it =? delay) eqn:Hdl; cbn [negb] in *.
  2: { assert (Hc1 : core b (mod_obj (λ it, it <| idelay := delay |>) x s) (locs (objs s))).
    { apply core_mod; [apply HI|]. intros it' l _ _. by destruct l. }
    destruct (ist it) eqn:Hst; try (by eexists).
    assert (Hlm : locs (objs s) !! x = Some LDelay) by (by rewrite (locs_Some _ _ _ Hx); unfold loc_of; rewrite Hst).
    destruct (delay_update_core b _ _ x (restart now) Hc1 Hlm) as (q & -> & Hc). by eexists. }
  apply Z.eqb_eq in Hdl.
  destruct (negb (iprio it =? prio)%N || bool_decide (igroup it ≠ g) || added) eqn:Hpg.
  - set (f := λ it : item, it <| iprio := prio |> <| igroup := g |>).
    destruct (ist it) eqn:Hst; try (by eexists).
    assert (Hlm : locs (objs s) !! x = Some (LReady (igroup it))) by (by rewrite (locs_Some _ _ _ Hx); unfold loc_of; rewrite Hst).
    assert (Hx1 : objs (mod_obj f x s) !! x = Some (f it)) by (simpl; by rewrite lookup_alter, Hx).
    unfold ready_update. rewrite Hx1. cbn beta iota zeta delta [mbind option_bind].
    destruct (decide (igroup it = igroup (f it))) as [Hg|Hg].
    + simpl in Hg. eapply (rheap_fix_total b s _ x f (igroup it) (i_core HI) Hlm).
      rewrite Hg. apply Hgood; try done.
      destruct (N.eqb_spec (iprio it) prio); [|by left].
      destruct added; [by right|]. rewrite bool_decide_false in Hpg by (intros H; by apply H). done.
    + simpl in Hg.
      destruct (rheap_remove_mod_core b (set_rlast (igroup it) s) (locs (objs s)) x (igroup it) f)
        as (r & Hr1 & _ & Hc1); [apply core_set_rlast, HI|done|done|].
      change (mod_obj f x (set_rlast (igroup it) s)) with (set_rlast (igroup it) (mod_obj f x s)) in Hr1.
      rewrite Hr1. cbn beta iota zeta delta [mbind option_bind].
      destruct (rheap_push_core b (set_rlast g (set_rlast (igroup it) (mod_obj f x s) <| readyQ := r |>))
        (delete x (locs (objs s))) x g) as (r2 & Hr2 & _ & Hc2);
        [by apply core_set_rlast|apply lookup_delete|done|].
      change (igroup (f it)) with g. rewrite Hr2. by eexists.
  - destruct (ittr it =? ttr) eqn:Ht; cbn [negb]; [by eexists|].
    assert (Hc1 : core b (mod_obj (λ it, it <| ittr := ttr |>) x s) (locs (objs s))).
    { apply core_mod; [apply HI|]. intros it' l _ _. by destruct l. }
    destruct (ist it) eqn:Hst; try (by eexists).
    assert (Hlm : locs (objs s) !! x = Some LRun) by (by rewrite (locs_Some _ _ _ Hx); unfold loc_of; rewrite Hst).
    destruct (run_update_core b _ _ x (touch now) Hc1 Hlm) as (q & -> & Hc). by eexists.
Qed.

Definition upd_events (s : qstate) (x : nat) (p : item * bool * option subq) : list event :=
  (if p.1.2 then [ev s QDep QReady [x]] else []) ++
  match p.2 with None => [] | Some f => [ev s f QDep [x]] end.

(** The cases in which Update works as intended: it does not clear the
    dependencies of an item that has unresolved ones but is not in the dependent
    sub-queue, and (with [b]) it does not change the priority of a ready item
    unless the ready sub-queue last worked on its group. *)
Definition good_update (b : bool) (s : qstate) (it : item) (g : group) (prio : N) (delay : Z)
    (deps : option (list key)) : Prop :=
  (deps = Some [] → iremain it ≠ ∅ → ist it = SDep) ∧
  (b = true → ist it = SReady → idelay it = delay → igroup it = g → iprio it ≠ prio →
     rlast (readyQ s) = g).

Lemma dep_part_group deps it : igroup (dep_part deps it).1.1 = igroup it.
Proof.
  destruct deps as [ds|]; [|done]. unfold dep_part. destruct (dep_changed ds it); [|done].
  simpl. destruct ds; [done|]. unfold dep_change. by destruct (ist it).
Qed.
Lemma dep_part_key deps it : ikey (dep_part deps it).1.1 = ikey it.
Proof.
  destruct deps as [ds|]; [|done]. unfold dep_part. destruct (dep_changed ds it); [|done].
  simpl. destruct ds; [done|]. unfold dep_change. by destruct (ist it).
Qed.
Lemma dep_part_live deps it : ist it ≠ SRemoved → ist (dep_part deps it).1.1 ≠ SRemoved.
Proof.
  destruct deps as [ds|]; [|done]. unfold dep_part. destruct (dep_changed ds it); [|done].
  simpl. destruct ds; [done|]. unfold dep_change. destruct (ist it) eqn:E; simpl; by rewrite ?E.
Qed.

Lemma update_first b k x it d s :
  Inv b s → items s !! k = Some x → objs s !! x = Some it →
  Inv b (mod_obj (λ it, it <| idata := d |>) x s) ∧ ist it ≠ SRemoved.
Proof.
  intros HI Hk Hx.
  destruct (inv_get _ _ _ _ HI Hk) as (it' & Hx' & Hkey & Hr). rewrite Hx in Hx'. injection Hx' as <-.
  split; [|done].
  assert (Hc1 : core b (mod_obj (λ it, it <| idata := d |>) x s) (locs (objs s))).
  { apply core_mod; [apply HI|]. intros it' l _ _. by destruct l. }
  eapply (inv_alter b s _ x it (λ it, it <| idata := d |>) _ Hc1 HI Hx Hr); try done.
  - by rewrite (locs_Some _ _ _ Hx).
  - apply HI.
Qed.

Lemma update_middle b k x it d deps s :
  Inv b s → items s !! k = Some x → objs s !! x = Some it →
  (deps = Some [] → iremain it ≠ ∅ → ist it = SDep) →
  let p := dep_part deps (it <| idata := d |>) in
  ∃ s', match deps with
        | None => Some (mod_obj (λ it, it <| idata := d |>) x s, false, None)
        | Some deps => update_deps k x deps (mod_obj (λ it, it <| idata := d |>) x s)
        end = Some (s', p.1.2, p.2) ∧
    Inv b s' ∧ objs s' = <[x := p.1.1]> (objs s) ∧
    items s' = items s ∧ nextid s' = nextid s ∧ closed s' = closed s ∧
    dependants s' = upd_dependants (items s) k x deps (it <| idata := d |>) (dependants s) ∧
    (ist p.1.1 = SReady →
       (readyQ s' = readyQ s ∧ p.1.1 = it <| idata := d |> ∧ p.1.2 = false) ∨
       rlast (readyQ s') = igroup it ∧ p.1.2 = true).
Proof.
  intros HI Hk Hx Hg p. destruct (update_first b k x it d s HI Hk Hx) as [HI1 Hr].
  set (s1 := mod_obj (λ it, it <| idata := d |>) x s) in *.
  assert (Hx1 : objs s1 !! x = Some (it <| idata := d |>)) by (simpl; by rewrite lookup_alter, Hx).
  assert (Ho1 : ∀ v, <[x := v]> (objs s1) = <[x := v]> (objs s)).
  { intros v. simpl. rewrite (alter_insert_eq _ _ _ _ Hx). apply insert_insert. }
  destruct deps as [deps|].
  - destruct (update_deps_ok b k x (it <| idata := d |>) deps s1 HI1 Hk Hx1)
      as (s' & -> & HI' & Ho & Hi & Hn & Hcl & Hd & Hrd).
    { intros ->. by apply Hg. }
    exists s'. split; [done|]. split_and!; try done. by rewrite Ho, Ho1.
  - exists s1. split; [done|]. split_and!; try done.
    + simpl. by rewrite (alter_insert_eq _ _ _ _ Hx).
    + intros _. by left.
Qed.

Lemma q_update_ok b now k x it g d prio delay ttr deps s s' r e :
  Inv b s → items s !! k = Some x → objs s !! x = Some it →
  good_update b s it g prio delay deps →
  q_update now k g d prio delay ttr deps s = Some (s', r, e) →
  r = ROk ∧ e = upd_events s' x (dep_part deps (it <| idata := d |>)) ∧
  Inv b s' ∧ objs s' = <[x := updated now g d prio delay ttr deps it]> (objs s) ∧
  items s' = items s ∧ nextid s' = nextid s ∧ closed s' = closed s ∧
  dependants s' = upd_dependants (items s) k x deps (it <| idata := d |>) (dependants s).
Proof.
  intros HI Hk Hx [Hg1 Hg2]. unfold q_update. rewrite (i_open HI), Hk.
  destruct (update_middle b k x it d deps s HI Hk Hx Hg1) as (s1 & Hm & HI1 & Ho1 & Hi1 & Hn1 & Hcl1 & Hd1 & Hr1).
  destruct (update_first b k x it d s HI Hk Hx) as [_ Hr].
  cbv zeta. rewrite Hm. cbn beta iota zeta delta [mbind option_bind].
  set (p := dep_part deps (it <| idata := d |>)) in *.
  assert (Hx1 : objs s1 !! x = Some p.1.1) by (by rewrite Ho1, lookup_insert).
  destruct (update_props now x g prio delay ttr p.1.2 s1) as [s2|] eqn:Hp; [|done].
  cbn beta iota zeta delta [mbind option_bind]. intros [= <- <- <-].
  assert (Hpk : igroup p.1.1 = igroup it) by (unfold p; by rewrite dep_part_group).
  destruct (update_props_ok b now x p.1.1 g prio delay ttr p.1.2 s1 s2 HI1 Hx1)
    as (HI2 & Ho2 & Hi2 & Hd2 & Hn2 & Hcl2); [by apply dep_part_live| |done|].
  { intros Hb Hst Hdl Hgr Hor. destruct (Hr1 Hst) as [(Hrq & Hpe & Hpf)|[Hrl _]].
    - rewrite Hpe in *. rewrite Hpf in Hor. rewrite Hrq. apply Hg2; try done. by destruct Hor.
    - congruence. }
  split_and!; try done; try congruence.
  - rewrite Ho2, (alter_insert_eq _ _ _ _ Hx1), Ho1, insert_insert. f_equal.
    unfold updated. fold p. by destruct p as [[] ].
  - rewrite Hcl2, Hcl1. apply HI.
Qed.

Lemma q_update_total b now k x it g d prio delay ttr deps s :
  Inv b s → items s !! k = Some x → objs s !! x = Some it →
  good_update true s it g prio delay deps →
  is_Some (q_update now k g d prio delay ttr deps s).
Proof.
  intros HI Hk Hx [Hg1 Hg2]. unfold q_update. rewrite (i_open HI), Hk.
  destruct (update_middle b k x it d deps s HI Hk Hx Hg1) as (s1 & Hm & HI1 & Ho1 & Hi1 & Hn1 & Hcl1 & Hd1 & Hr1).
  destruct (update_first b k x it d s HI Hk Hx) as [_ Hr].
  cbv zeta. rewrite Hm. cbn beta iota zeta delta [mbind option_bind].
  set (p := dep_part deps (it <| idata := d |>)) in *.
  assert (Hx1 : objs s1 !! x = Some p.1.1) by (by rewrite Ho1, lookup_insert).
  assert (Hpk : igroup p.1.1 = igroup it) by (unfold p; by rewrite dep_part_group).
  destruct (update_props_total b now x p.1.1 g prio delay ttr p.1.2 s1 HI1 Hx1) as [s2 ->];
    [by apply dep_part_live| |by eexists].
  intros Hst Hdl Hgr Hor. destruct (Hr1 Hst) as [(Hrq & Hpe & Hpf)|[Hrl _]].
  - rewrite Hpe in *. rewrite Hpf in Hor. rewrite Hrq. apply Hg2; try done. by destruct Hor.
  - congruence.
Qed.
