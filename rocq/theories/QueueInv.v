(** The queue invariant and what each operation does to the items, by operation. *)
From Coq Require Import ZArith Lia String.
From stdpp Require Import base option strings gmap list.
From RecordUpdate Require Import RecordSet.
From Verif Require Import GoHeap GoHeapProofs QueueModel QueueCore.
Import RecordSetNotations.
Open Scope Z_scope.

Record Inv (b : bool) (s : qstate) : Prop := MkInv {
  i_open : closed s = false;
  i_core : core b s (locs (objs s));
  i_items k x : items s !! k = Some x ↔
    ∃ it, objs s !! x = Some it ∧ ikey it = k ∧ ist it ≠ SRemoved;
  i_ids x : is_Some (objs s !! x) ↔ (x < nextid s)%nat;
  i_deps d m k x : dependants s !! d = Some m → m !! k = Some x → is_Some (objs s !! x);
}.
Arguments i_open {_ _} _.
Arguments i_core {_ _} _.
Arguments i_items {_ _} _ _ _.
Arguments i_ids {_ _} _ _.
Arguments i_deps {_ _} _ _ _ _ _ _ _.

(** a destroyed queue *)
Record Dead (s : qstate) : Prop := {
  dd_closed : closed s = true;
  dd_items : items s = ∅;
  dd_delay : arr (delayQ s) = [];
  dd_ready : rgroups (readyQ s) = ∅;
  dd_run : arr (runQ s) = [];
  dd_bury : arr (buryQ s) = [];
  dd_dep : arr (depQ s) = [];
}.

Definition rest_eq (s s' : qstate) : Prop :=
  items s' = items s ∧ dependants s' = dependants s ∧ nextid s' = nextid s ∧ closed s' = closed s.

Lemma locs_lookup o x : locs o !! x = o !! x ≫= loc_of.
Proof. apply lookup_omap. Qed.
Lemma locs_Some o x it : o !! x = Some it → locs o !! x = loc_of it.
Proof. intros H. by rewrite locs_lookup, H. Qed.
Lemma locs_is_Some o x : is_Some (locs o !! x) → is_Some (o !! x).
Proof. rewrite locs_lookup. destruct (o !! x); [by eexists|]. intros [? [=]]. Qed.

Lemma inv_get b s k x : Inv b s → items s !! k = Some x →
  ∃ it, objs s !! x = Some it ∧ ikey it = k ∧ ist it ≠ SRemoved.
Proof. intros HI Hk. by apply (i_items HI). Qed.

Lemma core_dt b s lm t : core b s lm → core b (s <| delayTime := t |>) lm.
Proof.
  intros Hc. split.
  - intros l. pose proof (c_wf Hc l). by destruct l.
  - intros l x. rewrite <- (c_in Hc l x). by destruct l.
  - intros l Hl. pose proof (c_ord Hc l Hl). by destruct l.
Qed.
Lemma core_tt b s lm t : core b s lm → core b (s <| ttrTime := t |>) lm.
Proof.
  intros Hc. split.
  - intros l. pose proof (c_wf Hc l). by destruct l.
  - intros l x. rewrite <- (c_in Hc l x). by destruct l.
  - intros l Hl. pose proof (c_ord Hc l Hl). by destruct l.
Qed.

Lemma core_fin_delay b s lm x l f :
  core b s (<[x:=l]> lm) → l ≠ LDelay → (∀ it, samekey l it (f it)) →
  core b (clr_delay x (mod_obj f x s)) (<[x:=l]> lm).
Proof.
  intros Hc Hl Hf. apply core_clr_delay; [|rewrite lookup_insert; congruence].
  apply core_mod; [done|]. intros it' l' _. rewrite lookup_insert. intros [= <-]. apply Hf.
Qed.
Lemma core_fin_run b s lm x l f :
  core b s (<[x:=l]> lm) → l ≠ LRun → (∀ it, samekey l it (f it)) →
  core b (clr_run x (mod_obj f x s)) (<[x:=l]> lm).
Proof.
  intros Hc Hl Hf. apply core_clr_run; [|rewrite lookup_insert; congruence].
  apply core_mod; [done|]. intros it' l' _. rewrite lookup_insert. intros [= <-]. apply Hf.
Qed.
Lemma core_fin_bury b s lm x l f :
  core b s (<[x:=l]> lm) → l ≠ LBury → (∀ it, samekey l it (f it)) →
  core b (clr_bury x (mod_obj f x s)) (<[x:=l]> lm).
Proof.
  intros Hc Hl Hf. apply core_clr_bury; [|rewrite lookup_insert; congruence].
  apply core_mod; [done|]. intros it' l' _. rewrite lookup_insert. intros [= <-]. apply Hf.
Qed.
Lemma core_fin_dep b s lm x l f :
  core b s (<[x:=l]> lm) → l ≠ LDep → (∀ it, samekey l it (f it)) →
  core b (clr_dep x (mod_obj f x s)) (<[x:=l]> lm).
Proof.
  intros Hc Hl Hf. apply core_clr_dep; [|rewrite lookup_insert; congruence].
  apply core_mod; [done|]. intros it' l' _. rewrite lookup_insert. intros [= <-]. apply Hf.
Qed.

Definition live_lm (o : gmap nat item) (lm : gmap nat loc) : Prop :=
  ∀ x l, lm !! x = Some l → is_Some (o !! x).
Lemma live_locs o : live_lm o (locs o).
Proof. intros x l Hl. apply locs_is_Some. by eexists. Qed.

Lemma delay_loop_top_ok b now s lm :
  core b s lm → live_lm (objs s) lm → ∃ t, delay_loop_top now s = Some (s <| delayTime := t |>).
Proof.
  intros Hc Hl. unfold delay_loop_top. destruct (arr (delayQ s)) as [|x l] eqn:Ha.
  - by eexists.
  - destruct (Hl x LDelay) as [it Hit].
    { apply (c_in Hc LDelay). simpl. rewrite Ha. by left. }
    rewrite Hit. by eexists.
Qed.
Lemma ttr_loop_top_ok b now s lm :
  core b s lm → live_lm (objs s) lm → ∃ t, ttr_loop_top now s = Some (s <| ttrTime := t |>).
Proof.
  intros Hc Hl. unfold ttr_loop_top. destruct (arr (runQ s)) as [|x l] eqn:Ha.
  - by eexists.
  - destruct (Hl x LRun) as [it Hit].
    { apply (c_in Hc LRun). simpl. rewrite Ha. by left. }
    rewrite Hit. by eexists.
Qed.
Lemma set_delayTime_id s : s <| delayTime := delayTime s |> = s.
Proof. by destruct s. Qed.
Lemma set_ttrTime_id s : s <| ttrTime := ttrTime s |> = s.
Proof. by destruct s. Qed.
Lemma delay_trigger_ok b now x s lm :
  core b s lm → live_lm (objs s) lm → is_Some (objs s !! x) →
  ∃ t, delay_trigger now x s = Some (s <| delayTime := t |>).
Proof.
  intros Hc Hl [it Hx]. unfold delay_trigger. rewrite Hx. simpl.
  destruct (_ <? _); [by eapply delay_loop_top_ok|].
  exists (delayTime s). by rewrite set_delayTime_id.
Qed.
Lemma ttr_trigger_ok b now x s lm :
  core b s lm → live_lm (objs s) lm → is_Some (objs s !! x) →
  ∃ t, ttr_trigger now x s = Some (s <| ttrTime := t |>).
Proof.
  intros Hc Hl [it Hx]. unfold ttr_trigger. rewrite Hx. simpl.
  destruct (_ <? _); [by eapply ttr_loop_top_ok|].
  exists (ttrTime s). by rewrite set_ttrTime_id.
Qed.

(** ** Operations that change one item in place or move it *)
Lemma inv_alter b s s' x it f lm' :
  core b s' lm' → Inv b s → objs s !! x = Some it → ist it ≠ SRemoved →
  objs s' = alter f x (objs s) →
  (∀ y, y ≠ x → lm' !! y = locs (objs s) !! y) → lm' !! x = loc_of (f it) →
  ikey (f it) = ikey it → ist (f it) ≠ SRemoved →
  items s' = items s → nextid s' = nextid s → closed s' = closed s →
  (∀ d m k y, dependants s' !! d = Some m → m !! k = Some y → is_Some (objs s !! y)) →
  Inv b s'.
Proof.
  intros Hc HI Hx Hr Ho Hlm Hlmx Hk Hr' Hi Hn Hcl Hd. split.
  - rewrite Hcl. apply (i_open HI).
  - eapply core_lm; [|exact Hc]. intros y. rewrite locs_lookup, Ho.
    destruct (decide (y = x)) as [->|Hne].
    + by rewrite lookup_alter, Hx, Hlmx.
    + by rewrite lookup_alter_ne, Hlm, locs_lookup.
  - intros k y. rewrite Hi, (i_items HI), Ho.
    destruct (decide (y = x)) as [->|Hne].
    + rewrite lookup_alter, Hx. simpl. naive_solver.
    + by rewrite lookup_alter_ne.
  - intros y. rewrite Hn, <- (i_ids HI), Ho. rewrite lookup_alter_is_Some. done.
  - intros d m k y Hdm Hky. rewrite Ho, lookup_alter_is_Some. by eapply Hd.
Qed.

(** the shape of a one-item step *)
Definition one_item (b : bool) (s s' : qstate) (x : nat) (f : item → item) : Prop :=
  Inv b s' ∧ objs s' = alter f x (objs s) ∧ rest_eq s s'.

Lemma q_touch_ok b now k x it s :
  Inv b s → items s !! k = Some x → objs s !! x = Some it → ist it = SRun →
  ∃ s', q_touch now k s = Some (s', ROk, []) ∧ one_item b s s' x (touch now).
Proof.
  intros HI Hk Hx Hst. unfold q_touch. rewrite (i_open HI), Hk, Hx. simpl. rewrite Hst.
  assert (Hlm : locs (objs s) !! x = Some LRun) by (by rewrite (locs_Some _ _ _ Hx); unfold loc_of; rewrite Hst).
  destruct (run_update_core b s _ x (touch now) (i_core HI) Hlm) as (q & -> & Hc). simpl.
  destruct (ttr_trigger_ok b now x _ _ Hc) as (t & ->).
  { intros y l Hl. simpl. rewrite lookup_alter_is_Some. by eapply live_locs. }
  { simpl. rewrite lookup_alter_is_Some. by eexists. }
  eexists. split; [done|]. split; [|split; [done|by split_and!]].
  eapply (inv_alter b s _ x it (touch now) (locs (objs s)) (core_tt _ _ _ _ Hc) HI Hx); try done.
  - by rewrite Hst.
  - by rewrite Hlm; unfold loc_of; simpl; rewrite Hst.
  - simpl. by rewrite Hst.
  - apply HI.
Qed.

Lemma q_release_ok b now k x it s :
  Inv b s → items s !! k = Some x → objs s !! x = Some it → ist it = SRun →
  ∃ s', q_release now k s =
      Some (s', ROk, [ev s' QRun (if idelay it =? 0 then QReady else QDelay) [x]]) ∧
    one_item b s s' x (λ it, if idelay it =? 0 then switch_run_ready it
                             else switch_run_delay false (restart now it)).
Proof.
  intros HI Hk Hx Hst. unfold q_release. rewrite (i_open HI), Hk, Hx. simpl. rewrite Hst.
  assert (Hlm : locs (objs s) !! x = Some LRun) by (by rewrite (locs_Some _ _ _ Hx); unfold loc_of; rewrite Hst).
  destruct (run_remove_core b s _ x (i_core HI) Hlm) as (q & -> & Hc). simpl.
  assert (Hd : delete x (locs (objs s)) !! x = None) by apply lookup_delete.
  destruct (idelay it =? 0) eqn:Hdl.
  - set (s1 := clr_run x (mod_obj switch_run_ready x (s <| runQ := q |>))).
    assert (Hc1 : core b s1 (delete x (locs (objs s)))).
    { apply core_clr_run; [|by rewrite Hd]. by apply core_mod_out. }
    destruct (ready_push_core b s1 _ x (switch_run_ready it) Hc1 Hd) as (r & -> & _ & Hc2).
    { simpl. by rewrite lookup_alter, Hx. }
    eexists. split; [done|]. split; [|split; [|by split_and!]].
    + eapply (inv_alter b s _ x it (λ it, switch_run_ready it) _ Hc2 HI Hx); try done.
      * by rewrite Hst.
      * intros y Hy. by rewrite lookup_insert_ne, lookup_delete_ne.
      * by rewrite lookup_insert.
      * apply HI.
    + simpl. apply alter_ext. intros ? H'. rewrite Hx in H'. injection H' as <-. by rewrite Hdl.
  - set (s1 := mod_obj (restart now) x (s <| runQ := q |>)).
    assert (Hc1 : core b s1 (delete x (locs (objs s)))) by (by apply core_mod_out).
    destruct (delay_push_core b s1 _ x Hc1 Hd) as (q2 & -> & Hc2). simpl.
    set (s2 := s1 <| delayQ := q2 |>) in *.
    assert (Hc3 : core b (clr_run x (mod_obj (switch_run_delay false) x s2))
                    (<[x:=LDelay]> (delete x (locs (objs s))))).
    { apply core_clr_run; [|by rewrite lookup_insert].
      apply core_mod; [done|]. intros it' l _. rewrite lookup_insert. by intros [= <-]. }
    destruct (delay_trigger_ok b now x _ _ Hc3) as (t & ->).
    { intros y l Hl. simpl. rewrite !lookup_alter_is_Some.
      destruct (decide (y = x)) as [->|Hne]; [by eexists|].
      rewrite lookup_insert_ne, lookup_delete_ne in Hl by done. by eapply live_locs. }
    { simpl. rewrite !lookup_alter_is_Some. by eexists. }
    eexists. split; [done|]. split; [|split; [|by split_and!]].
    + eapply (inv_alter b s _ x it (λ it, switch_run_delay false (restart now it)) _ (core_dt _ _ _ _ Hc3) HI Hx); try done.
      * by rewrite Hst.
      * simpl. by rewrite <- alter_compose.
      * intros y Hy. by rewrite lookup_insert_ne, lookup_delete_ne.
      * by rewrite lookup_insert.
      * apply HI.
    + simpl. rewrite <- alter_compose. apply alter_ext. intros ? H'. rewrite Hx in H'.
      injection H' as <-. by rewrite Hdl.
Qed.

Lemma q_bury_ok b k x it s :
  Inv b s → items s !! k = Some x → objs s !! x = Some it → ist it = SRun →
  ∃ s', q_bury k s = Some (s', ROk, [ev s' QRun QBury [x]]) ∧
    one_item b s s' x (switch_run_bury false).
Proof.
  intros HI Hk Hx Hst. unfold q_bury. rewrite (i_open HI), Hk, Hx. simpl. rewrite Hst.
  assert (Hlm : locs (objs s) !! x = Some LRun) by (by rewrite (locs_Some _ _ _ Hx); unfold loc_of; rewrite Hst).
  destruct (run_remove_core b s _ x (i_core HI) Hlm) as (q & -> & Hc). simpl.
  assert (Hd : delete x (locs (objs s)) !! x = None) by apply lookup_delete.
  apply (bury_push_core b _ _ x Hc) in Hd as Hc1.
  pose proof (core_fin_run _ _ _ _ _ (switch_run_bury false) Hc1 ltac:(done) ltac:(done)) as Hc9.
  eexists. split; [done|]. split; [|split; [done|by split_and!]].
  eapply (inv_alter b s _ x it (switch_run_bury false) _ Hc9 HI Hx); try done.
  - by rewrite Hst.
  - intros y Hy. by rewrite lookup_insert_ne, lookup_delete_ne.
  - by rewrite lookup_insert.
  - apply HI.
Qed.

Lemma q_kick_ok b k x it s :
  Inv b s → items s !! k = Some x → objs s !! x = Some it → ist it = SBury →
  ∃ s', q_kick k s = Some (s', ROk, [ev s' QBury (if item_has_deps x s then QDep else QReady) [x]]) ∧
    one_item b s s' x (if item_has_deps x s then switch_bury_dependent else switch_bury_ready).
Proof.
  intros HI Hk Hx Hst. unfold q_kick. rewrite (i_open HI), Hk, Hx. simpl. rewrite Hst.
  assert (Hlm : locs (objs s) !! x = Some LBury) by (by rewrite (locs_Some _ _ _ Hx); unfold loc_of; rewrite Hst).
  destruct (bury_remove_core b s _ x (i_core HI) Hlm) as (q & -> & Hc). simpl.
  assert (Hd : delete x (locs (objs s)) !! x = None) by apply lookup_delete.
  change (item_has_deps x (s <| buryQ := q |>)) with (item_has_deps x s).
  destruct (item_has_deps x s).
  - apply (dep_push_core b _ _ x Hc) in Hd as Hc1.
    pose proof (core_fin_bury _ _ _ _ _ switch_bury_dependent Hc1 ltac:(done) ltac:(done)) as Hc9.
    eexists. split; [done|]. split; [|split; [done|by split_and!]].
    eapply (inv_alter b s _ x it switch_bury_dependent _ Hc9 HI Hx); try done.
    + by rewrite Hst.
    + intros y Hy. by rewrite lookup_insert_ne, lookup_delete_ne.
    + by rewrite lookup_insert.
    + apply HI.
  - destruct (ready_push_core b _ _ x it Hc Hd) as (r & -> & _ & Hc1); [done|].
    pose proof (core_fin_bury _ _ _ _ _ switch_bury_ready Hc1 ltac:(done) ltac:(done)) as Hc9.
    eexists. split; [done|]. split; [|split; [done|by split_and!]].
    eapply (inv_alter b s _ x it switch_bury_ready _ Hc9 HI Hx); try done.
    + by rewrite Hst.
    + intros y Hy. by rewrite lookup_insert_ne, lookup_delete_ne.
    + by rewrite lookup_insert.
    + apply HI.
Qed.

Lemma q_set_delay_ok b now k x it delay s :
  Inv b s → items s !! k = Some x → objs s !! x = Some it →
  ∃ s', q_set_delay now k delay s = Some (s', ROk, []) ∧
    one_item b s s' x (λ it,
      if idelay it =? delay then it
      else match ist it with
           | SDelay => restart now (it <| idelay := delay |>)
           | _ => it <| idelay := delay |>
           end).
Proof.
  intros HI Hk Hx. unfold q_set_delay. rewrite (i_open HI), Hk, Hx. simpl.
  destruct (inv_get _ _ _ _ HI Hk) as (it' & Hx' & Hkey & Hr). rewrite Hx in Hx'. injection Hx' as <-.
  set (f := λ it : item, if idelay it =? delay then it
      else match ist it with
           | SDelay => restart now (it <| idelay := delay |>)
           | _ => it <| idelay := delay |>
           end).
  destruct (idelay it =? delay) eqn:Hdl.
  { eexists. split; [done|]. split; [done|]. split; [|by split_and!].
    symmetry. apply (alter_id _ _ _). intros y. rewrite Hx. intros [= <-]. unfold f; by rewrite Hdl. }
  assert (Hc1 : core b (mod_obj (λ it, it <| idelay := delay |>) x s) (locs (objs s))).
  { apply core_mod; [apply HI|]. intros it' l _ _. by destruct l. }
  assert (Hcase : ist it ≠ SDelay →
     one_item b s (mod_obj (λ it, it <| idelay := delay |>) x s) x f).
  { intros Hne. split; [|split; [|by split_and!]].
    - eapply (inv_alter b s _ x it (λ it, it <| idelay := delay |>) _ Hc1 HI Hx); try done.
      + by rewrite (locs_Some _ _ _ Hx).
      + apply HI.
    - simpl. apply alter_ext. intros ? H'. rewrite Hx in H'. injection H' as <-. unfold f. rewrite Hdl.
      by destruct (ist it). }
  destruct (ist it) eqn:Hst; try (eexists; split; [done|]; by apply Hcase).
  assert (Hlm : locs (objs s) !! x = Some LDelay) by (by rewrite (locs_Some _ _ _ Hx); unfold loc_of; rewrite Hst).
  destruct (delay_update_core b _ _ x (restart now) Hc1 Hlm) as (q & -> & Hc). simpl.
  destruct (delay_trigger_ok b now x _ _ Hc) as (t & ->).
  { intros y l Hl. simpl. rewrite !lookup_alter_is_Some. by eapply live_locs. }
  { simpl. rewrite !lookup_alter_is_Some. by eexists. }
  eexists. split; [done|]. split; [|split; [|by split_and!]].
  - eapply (inv_alter b s _ x it (λ it, restart now (it <| idelay := delay |>)) _ (core_dt _ _ _ _ Hc) HI Hx); try done.
    + by rewrite Hst.
    + simpl. by rewrite <- alter_compose.
    + by rewrite Hlm; unfold loc_of; simpl; rewrite Hst.
    + simpl. by rewrite Hst.
    + apply HI.
  - simpl. rewrite <- alter_compose. apply alter_ext. intros ? H'. rewrite Hx in H'.
    injection H' as <-. unfold f. by rewrite Hdl, Hst.
Qed.

(** ready_update with a changed group *)
Lemma ready_move_core b s lm x it old :
  core b s lm → objs s !! x = Some it → lm !! x = Some (LReady old) → old ≠ igroup it →
  ∃ r, ready_update x old s = Some (s <| readyQ := r |>) ∧
    core b (s <| readyQ := r |>) (<[x := LReady (igroup it)]> (delete x lm)).
Proof.
  intros Hc Hx Hl Hne. unfold ready_update. rewrite Hx. simpl.
  rewrite decide_False by done.
  destruct (rheap_remove_core b (set_rlast old s) lm x old) as (r & -> & Hr & Hc1);
    [by apply core_set_rlast|done|done|]. simpl.
  destruct (rheap_push_core b (set_rlast (igroup it) (set_rlast old s <| readyQ := r |>)) (delete x lm) x (igroup it))
    as (r2 & -> & Hr2 & Hc2); [by apply core_set_rlast|apply lookup_delete|done|].
  exists r2. split; [done|]. exact Hc2.
Qed.

Lemma q_set_group_ok b k x it g s :
  Inv b s → items s !! k = Some x → objs s !! x = Some it →
  ∃ s', q_set_reserve_group k g s = Some (s', ROk, []) ∧
    one_item b s s' x (λ it, it <| igroup := g |>).
Proof.
  intros HI Hk Hx. unfold q_set_reserve_group. rewrite (i_open HI), Hk, Hx. simpl.
  destruct (inv_get _ _ _ _ HI Hk) as (it' & Hx' & Hkey & Hr). rewrite Hx in Hx'. injection Hx' as <-.
  case_decide as Hg.
  { eexists. split; [done|]. split; [done|]. split; [|by split_and!].
    symmetry. apply (alter_id _ _ _). intros y. rewrite Hx. intros [= <-]. rewrite <- Hg. by destruct it. }
  assert (Hc1 : core b (mod_obj (λ it, it <| igroup := g |>) x s) (locs (objs s))).
  { apply core_mod; [apply HI|]. intros it' l _ _. by destruct l. }
  assert (Hcase : ist it ≠ SReady →
     one_item b s (mod_obj (λ it, it <| igroup := g |>) x s) x (λ it, it <| igroup := g |>)).
  { intros Hne. split; [|split; [done|by split_and!]].
    eapply (inv_alter b s _ x it (λ it, it <| igroup := g |>) _ Hc1 HI Hx); try done.
    - rewrite (locs_Some _ _ _ Hx). unfold loc_of; simpl. by destruct (ist it).
    - apply HI. }
  destruct (ist it) eqn:Hst; try (eexists; split; [done|]; by apply Hcase).
  assert (Hlm : locs (objs s) !! x = Some (LReady (igroup it))) by (by rewrite (locs_Some _ _ _ Hx); unfold loc_of; rewrite Hst).
  destruct (ready_move_core b _ _ x (it <| igroup := g |>) (igroup it) Hc1) as (r & -> & Hc);
    [simpl; by rewrite lookup_alter, Hx|done|done|]. simpl.
  eexists. split; [done|]. split; [|split; [done|by split_and!]].
  eapply (inv_alter b s _ x it (λ it, it <| igroup := g |>) _ Hc HI Hx); try done.
  - by rewrite Hst.
  - intros y Hy. by rewrite lookup_insert_ne, lookup_delete_ne.
  - rewrite lookup_insert. unfold loc_of; simpl. by rewrite Hst.
  - simpl. by rewrite Hst.
  - apply HI.
Qed.

Lemma q_reserve_ok b now g retry s :
  Inv b s →
  (∃ s', q_reserve now g retry s = Some (s', RErr ENothingReady, []) ∧ Inv b s' ∧
         objs s' = objs s ∧ rest_eq s s' ∧
         (∀ y it, objs s !! y = Some it → ist it = SReady → igroup it ≠ g)) ∨
  (∃ s' x it, q_reserve now g retry s = Some (s', RItem x, [ev s' QReady QRun [x]]) ∧
         objs s !! x = Some it ∧ ist it = SReady ∧ igroup it = g ∧
         (b = true → ∀ y it', objs s !! y = Some it' → ist it' = SReady → igroup it' = g →
                     item_before it' it = false) ∧
         one_item b s s' x (λ it, switch_ready_run (touch now it))).
Proof.
  intros HI. unfold q_reserve. rewrite (i_open HI). simpl.
  destruct (ready_pop_core b s _ g (i_core HI))
    as [(s1 & -> & Hs1 & He & Hc1)|(x & r & -> & Hr & Hlm & H0 & Hc1)]; simpl.
  - left. exists s1. split; [done|].
    assert (objs s1 = objs s ∧ rest_eq s s1) as [Hobj Hre].
    { destruct Hs1 as [->| ->]; [done|]. split; [done|]. by split_and!. }
    destruct Hre as (Hit & Hdp & Hnx & Hcl).
    split; [|split_and!; try done].
    + split.
      * rewrite Hcl. apply HI.
      * by rewrite Hobj.
      * rewrite Hit, Hobj. apply HI.
      * rewrite Hobj, Hnx. apply HI.
      * rewrite Hobj, Hdp. apply HI.
    + intros y it Hy Hst Hg.
      assert (Hin : y ∈ arr (cont s (LReady g))).
      { apply (c_in (i_core HI)). rewrite (locs_Some _ _ _ Hy). unfold loc_of. by rewrite Hst, Hg. }
      rewrite He in Hin. by apply elem_of_nil in Hin.
  - right.
    assert (∃ it, objs s !! x = Some it ∧ ist it = SReady ∧ igroup it = g) as (it & Hx & Hst & Hg).
    { rewrite locs_lookup in Hlm. destruct (objs s !! x) as [it|]; [|done]. exists it.
      simpl in Hlm. unfold loc_of in Hlm. split; [done|]. destruct (ist it); naive_solver. }
    assert (Hd : delete x (locs (objs s)) !! x = None) by apply lookup_delete.
    apply (core_mod_out _ _ (touch now) x _ Hc1) in Hd as Hc2.
    destruct (run_push_core b _ _ x Hc2 Hd) as (q & -> & Hc3). simpl.
    set (s3 := mod_obj (touch now) x (s <| readyQ := r |>) <| runQ := q |>) in *.
    assert (Hc4 : core b (clr_ready x (mod_obj switch_ready_run x s3))
                    (<[x:=LRun]> (delete x (locs (objs s))))).
    { apply core_clr_ready; [|intros; by rewrite lookup_insert].
      apply core_mod; [done|]. intros it' l _. rewrite lookup_insert. by intros [= <-]. }
    destruct (ttr_trigger_ok b now x _ _ Hc4) as (t & ->).
    { intros y l Hl. simpl. rewrite !lookup_alter_is_Some.
      destruct (decide (y = x)) as [->|Hne]; [by eexists|].
      rewrite lookup_insert_ne, lookup_delete_ne in Hl by done. by eapply live_locs. }
    { simpl. rewrite !lookup_alter_is_Some. by eexists. }
    eexists _, x, it. split; [done|]. split_and!; try done.
    + intros Hb y it' Hy Hst' Hg'.
      assert (Hin : y ∈ arr (cont s (LReady g))).
      { apply (c_in (i_core HI)). rewrite (locs_Some _ _ _ Hy). unfold loc_of. by rewrite Hst', Hg'. }
      pose proof (heap_min _ _ x y (c_ord (i_core HI) (LReady g) (λ _, Hb)) H0 Hin) as Hm.
      simpl in Hm. unfold less_ready in Hm.
      by rewrite (obj_Some _ _ _ Hx), (obj_Some _ _ _ Hy) in Hm.
    + split; [|split; [simpl; by rewrite <- alter_compose|by split_and!]].
      eapply (inv_alter b s _ x it (λ it, switch_ready_run (touch now it)) _ (core_tt _ _ _ _ Hc4) HI Hx); try done.
      * by rewrite Hst.
      * simpl. by rewrite <- alter_compose.
      * intros y Hy. by rewrite lookup_insert_ne, lookup_delete_ne.
      * by rewrite lookup_insert.
      * apply HI.
Qed.
