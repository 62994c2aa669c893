(** The TTR timer of the server's queue *)
From Coq Require Import ZArith Lia String.
From stdpp Require Import base option strings gmap list.
From RecordUpdate Require Import RecordSet.
From Verif Require Import GoHeap QueueModel QueueCore QueueInv QueueInvAdd QueueInvUpd QueueInvRem
  QueueInvTick QueueEff ServerModel ServerCore.
Import RecordSetNotations.
Open Scope Z_scope.

Lemma in_place b s s' x it f :
  Inv b s → objs s !! x = Some it → ist it ≠ SRemoved → core b s' (locs (objs s')) →
  objs s' = alter f x (objs s) → rest_eq s s' → ikey (f it) = ikey it → ist (f it) ≠ SRemoved → Inv b s'.
Proof.
  intros HI Hx Hr Hc Ho (Hi & Hd & Hn & Hcl) Hk Hr'.
  eapply (inv_alter b s s' x it f (locs (objs s')) Hc HI Hx Hr Ho); try done.
  - intros y Hy. rewrite Ho, !locs_lookup, lookup_alter_ne by done. done.
  - by rewrite Ho, locs_lookup, lookup_alter, Hx.
  - rewrite Hd. intros. by eapply (i_deps HI).
Qed.

Lemma core_time b s t1 t2 : Inv b s → Inv b (s <| delayTime := t1 |> <| ttrTime := t2 |>).
Proof.
  intros HI. split; cbn.
  - apply (i_open HI).
  - apply core_tt, core_dt, (i_core HI).
  - apply (i_items HI).
  - apply (i_ids HI).
  - apply (i_deps HI).
Qed.

(** what the callback's answer does to an item *)
Definition timed_out (now : Z) (k : key) (s s' : sstate) : Prop :=
  ∃ it p j, find_job k s = Some (it, p, j) ∧ ist it = SRun ∧ releasable now it = true ∧
    let '(j', dest, _) := ttr_callback now j in
    find_job k s' = Some (ttr_apply now dest it, p, j').
Definition ttr_calls (now : Z) (s : sstate) (k : key) : list lcall :=
  match look s k with Some (_, j) => (ttr_callback now j).2 | None => [] end.

Lemma callback_key now j : jkey (ttr_callback now j).1.1 = jkey j.
Proof. unfold ttr_callback, decrement_limits. repeat case_match; simplify_eq; done. Qed.
Lemma callback_dest now j : (ttr_callback now j).1.2 = ToRun ∨ (ttr_callback now j).1.2 = ToDelay.
Proof. unfold ttr_callback, decrement_limits. repeat case_match; simplify_eq; cbn; tauto. Qed.

Lemma ttr_iter now s k x it j q :
  SInv s → Found s k x it j → ist it = SRun →
  let '(j', dest, _) := ttr_callback now j in
  core false q (locs (objs q)) → objs q = alter (ttr_apply now dest) x (objs (sq s)) → rest_eq (sq s) q →
  let s' := s <| sq := q |> <| sjobs := <[idata it := j']> (sjobs s) |> in
  SInv s' ∧ Found s' k x (ttr_apply now dest it) j' ∧ (∀ k', k' ≠ k → find_job k' s' = find_job k' s).
Proof.
  intros HS HF Hst. pose proof (callback_key now j) as Hck. destruct (ttr_callback now j) as [[j' dest] l'].
  cbn in Hck. intros Hc Ho Hr s'.
  assert (HI : Inv false q).
  { eapply (in_place _ _ _ _ _ _ (si_q HS) (f_obj HF) (f_live HF) Hc Ho Hr); [by destruct dest|by destruct dest; cbn; try congruence]. }
  destruct (alter_look s q x it j k _ HS HI HF Ho Hr) as (A & B & C & _); [by destruct dest|by destruct dest|by destruct dest; cbn; try congruence|].
  assert (Hd : idata (ttr_apply now dest it) = idata it) by (by destruct dest).
  assert (Hs' : s' = set_job (idata (ttr_apply now dest it)) (λ _, j') (s <| sq := q |>)).
  { assert (Hins : <[idata it := j']> (sjobs s) = alter (λ _, j') (idata it) (sjobs s)).
    { apply map_eq. intros p. destruct (decide (p = idata it)) as [->|Hne].
      - by rewrite lookup_insert, lookup_alter, (f_job HF).
      - by rewrite lookup_insert_ne, lookup_alter_ne. }
    unfold s', set_job. rewrite Hd, Hins. done. }
  assert (HF' : Found s' k x (ttr_apply now dest it) j').
  { destruct B as [B1 B2 B3 B4 B5 B6]. split; try done.
    - cbn. by rewrite Hd, lookup_insert.
    - rewrite Hck. apply HF. }
  assert (HO : ∀ k', k' ≠ k → find_job k' s' = find_job k' s).
  { intros k' Hne. rewrite <- (C _ Hne), Hs'. eapply (set_job_other (s <| sq := q |>) k x _ j); done. }
  split; [|done].
  split.
  - done.
  - intros y ity Hy Hry. cbn in Hy. cbn. destruct (si_ptr A y ity Hy Hry) as (jy & Hjy & Hjk).
    destruct (decide (idata ity = idata it)) as [He|He].
    + rewrite He, lookup_insert. exists j'. split; [done|].
      assert (y = x) as ->.
      { eapply (si_inj A y x); [done|apply B|done|apply B|congruence]. }
      pose proof (f_obj B) as Hbx. cbn in Hbx. rewrite Hy in Hbx. injection Hbx as ->.
      rewrite Hck, (f_jkey HF). by rewrite (f_key B).
    + rewrite lookup_insert_ne by congruence. eauto.
  - apply (si_inj A).
  - intros p [jp Hp]. cbn in Hp. cbn. destruct (decide (p = idata it)) as [->|Hne].
    + apply (si_next HS). eexists. apply HF.
    + rewrite lookup_insert_ne in Hp by done. apply (si_next HS). by eexists.
Qed.

Lemma s_ttr_loop_facts now n s dl l q js dl' l' :
  SInv s → (∀ x, x ∈ dl → is_Some (objs (sq s) !! x)) →
  s_ttr_loop now n (sq s) (sjobs s) dl l = Some (q, js, dl', l') →
  let s' := s <| sq := q |> <| sjobs := js |> in
  SInv s' ∧ (∀ x, x ∈ dl' → is_Some (objs q !! x)) ∧
  ∃ ks, NoDup ks ∧ (∀ k, k ∈ ks → timed_out now k s s') ∧
    (∀ k, k ∉ ks → find_job k s' = find_job k s) ∧ l' = l ++ (ks ≫= ttr_calls now s).
Proof.
  revert s dl l. induction n as [|n IH]; intros s dl l HS Hdl; cbn [s_ttr_loop].
  { intros [= <- <- <- <-]. cbn. replace (s <| sq := sq s |> <| sjobs := sjobs s |>) with s by (by destruct s).
    split; [done|]. split; [done|]. exists []. split_and!; [constructor|by intros k ?%elem_of_nil|done|].
    cbn. by rewrite app_nil_r. }
  destruct (arr (runQ (sq s))) as [|x rest] eqn:Ha; [done|].
  assert (Hx : ∃ it, objs (sq s) !! x = Some it ∧ ist it = SRun).
  { apply (in_run false (sq s) x (i_core (si_q HS))). rewrite Ha. by left. }
  destruct Hx as (it & Hx & Hst). rewrite Hx. cbn beta iota zeta delta [mbind option_bind].
  destruct (obj_found s x it HS Hx) as (j & HF); [congruence|]. set (k := ikey it) in *.
  destruct (releasable now it) eqn:Hrel.
  2: { intros [= <- <- <- <-]. cbn. replace (s <| sq := sq s |> <| sjobs := sjobs s |>) with s by (by destruct s).
    split; [done|]. split; [done|]. exists []. split_and!; [constructor|by intros k' ?%elem_of_nil|done|].
    cbn. by rewrite app_nil_r. }
  rewrite (f_job HF). cbn beta iota zeta delta [mbind option_bind].
  pose proof (ttr_iter now s k x it j) as Hit. pose proof (callback_dest now j) as Hdest.
  destruct (ttr_callback now j) as [[j' dest] c] eqn:Hcb. cbn [fst snd] in Hdest.
  (* the rest of the loop *)
  assert (Hgo : ∀ q1 dl1, core false q1 (locs (objs q1)) → objs q1 = alter (ttr_apply now dest) x (objs (sq s)) →
     rest_eq (sq s) q1 → (∀ y, y ∈ dl1 → is_Some (objs (sq s) !! y)) →
     s_ttr_loop now n q1 (<[idata it := j']> (sjobs s)) dl1 (l ++ c) = Some (q, js, dl', l') →
     let s' := s <| sq := q |> <| sjobs := js |> in
     SInv s' ∧ (∀ x, x ∈ dl' → is_Some (objs q !! x)) ∧
     ∃ ks, NoDup ks ∧ (∀ k, k ∈ ks → timed_out now k s s') ∧
       (∀ k, k ∉ ks → find_job k s' = find_job k s) ∧ l' = l ++ (ks ≫= ttr_calls now s)).
  { intros q1 dl1 Hc Ho Hr Hdl1 Hloop. specialize (Hit q1 HS HF Hst Hc Ho Hr) as (S1 & F1 & O1).
    set (s1 := s <| sq := q1 |> <| sjobs := <[idata it:=j']> (sjobs s) |>) in *.
    change q1 with (sq s1) in Hloop. change (<[idata it:=j']> (sjobs s)) with (sjobs s1) in Hloop.
    destruct (IH s1 dl1 (l ++ c) S1) as (R1 & R2 & ks & R3 & R4 & R5 & R6); [|done|].
    { intros y Hy. cbn. rewrite Ho, lookup_alter_is_Some. by apply Hdl1. }
    assert (Es : s1 <| sq := q |> <| sjobs := js |> = s <| sq := q |> <| sjobs := js |>) by done.
    rewrite Es in *. cbv zeta. split; [done|]. split; [done|].
    set (s' := s <| sq := q |> <| sjobs := js |>) in *.
    assert (Hk : k ∉ ks).
    { intros Hk. destruct (R4 _ Hk) as (itk & p & jk & Hf & Hs & Hrl & _).
      rewrite (found_find _ _ _ _ _ F1) in Hf. injection Hf as <- _ _.
      by eapply (ttr_apply_dead now dest it). }
    exists (k :: ks). split_and!.
    - by constructor.
    - intros k' [->|Hk']%elem_of_cons.
      + exists it, (idata it), j. split; [by apply found_find with x|]. split; [done|]. split; [done|].
        rewrite Hcb. rewrite (R5 _ Hk). rewrite (found_find _ _ _ _ _ F1). by destruct dest.
      + destruct (R4 _ Hk') as (itk & p & jk & Hf & ?). exists itk, p, jk. split; [|done].
        rewrite <- (O1 k'); [done|congruence].
    - intros k' [Hne Hk']%not_elem_of_cons. rewrite (R5 _ Hk'). by apply O1.
    - rewrite R6, <- app_assoc. f_equal. cbn. f_equal.
      + unfold ttr_calls. rewrite (found_look _ _ _ _ _ HF). by rewrite Hcb.
      + clear R6 R3 R4 R5. induction ks as [|k' ks IHk]; [done|]. apply not_elem_of_cons in Hk as [Hne Hk]. cbn.
        f_equal; [|by apply IHk]. unfold ttr_calls. rewrite (find_look_eq s s1 k'); [done|]. by apply O1. }
  destruct Hdest as [->| ->].
  - destruct (ttr_one_run false now (sq s) x it (i_core (si_q HS)) Hx Hst) as (q1 & -> & Hc1 & Ho1 & Hr1).
    cbn beta iota zeta delta [mbind option_bind]. by apply Hgo.
  - destruct (ttr_one_delay false now (sq s) x it (i_core (si_q HS)) Hx Hst) as (q1 & q2 & -> & Hq2 & Hc1 & Ho1 & Hr1).
    cbn beta iota zeta delta [mbind option_bind]. rewrite Hq2. cbn beta iota zeta delta [mbind option_bind].
    apply Hgo; [done..|]. intros y [Hy| ->%elem_of_list_singleton]%elem_of_app; [by apply Hdl|by eexists].
Qed.

Lemma s_tick_ttr_facts now s s' r l :
  SInv s → s_tick_ttr now s = Some (s', r, l) →
  r = SOk ∧ SInv s' ∧ sdb s' = sdb s ∧ snext s' = snext s ∧
  ∃ ks, NoDup ks ∧ (∀ k, k ∈ ks → timed_out now k s s') ∧
    (∀ k, k ∉ ks → find_job k s' = find_job k s) ∧ l = ks ≫= ttr_calls now s.
Proof.
  intros HS. unfold s_tick_ttr.
  destruct (s_ttr_loop _ _ _ _ _ _) as [[[[q js] dl] l']|] eqn:Hloop; [|done].
  cbn beta iota zeta delta [mbind option_bind].
  destruct (s_ttr_loop_facts now (length (arr (runQ (sq s)))) s [] [] q js dl l' HS) as (R1 & R2 & ks & R3 & R4 & R5 & R6); [|done|].
  { by intros x ?%elem_of_nil. }
  destruct (trigger_all_ok false now dl q (i_core (si_q R1)) R2) as (t & ->).
  cbn beta iota zeta delta [mbind option_bind].
  destruct (ttr_loop_top_ok false now (q <| delayTime := t |>) _ (core_dt _ _ _ _ (i_core (si_q R1))) (live_locs _)) as (t2 & ->).
  cbn beta iota zeta delta [mbind option_bind]. intros [= <- <- <-].
  split; [done|]. split.
  { split; cbn.
    - apply core_time, (si_q R1).
    - apply (si_ptr R1).
    - apply (si_inj R1).
    - apply (si_next R1). }
  split; [done|]. split; [done|]. exists ks. split; [done|]. split; [done|]. split; [done|]. done.
Qed.
