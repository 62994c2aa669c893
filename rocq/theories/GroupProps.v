(** C35 and C36: counts of scheduler groups, and overlapping Schedule calls. *)
From Coq Require Import ZArith Lia String.
From stdpp Require Import base option strings gmap list.
From RecordUpdate Require Import RecordSet.
From Verif Require Import GroupModel GroupSpec GroupProofs.
Import RecordSetNotations.
Open Scope Z_scope.

(** Whatever is dropped from a group, in whatever order: first the skipped jobs go, then
    the count, and neither goes below zero. *)
Theorem C35_skipped_first drops c s : 0 ≤ c → 0 ≤ s →
  after drops (SGroup c s) = SGroup (Z.max 0 (c - Z.max 0 (total drops - s))) (Z.max 0 (s - total drops)).
Proof. exact (after_form drops c s). Qed.
Print Assumptions C35_skipped_first.

Theorem C35_any_order drops drops' g : 0 ≤ gcount g → 0 ≤ gskipped g → drops ≡ₚ drops' → after drops g = after drops' g.
Proof.
  destruct g as [c s]. cbn. intros Hc Hs Hp. rewrite !after_form by done.
  assert (total drops = total drops') as ->; [|done]. induction Hp; cbn; lia.
Qed.
Print Assumptions C35_any_order.

(** A decrement reports the new count when the count has changed, and -1 when it has not. *)
Theorem C35_reported drop g : 0 ≤ gcount g → 0 ≤ gskipped g →
  let n := (decrement drop g).1 in let c' := gcount (decrement drop g).2 in
  (c' = gcount g → n = -1) ∧ (c' ≠ gcount g → n = c' ∧ 0 ≤ n < gcount g).
Proof.
  destruct g as [c s]. cbn [gcount gskipped]. intros Hc Hs. destruct (decrement_form drop c s Hc Hs) as [H2 H1].
  cbv zeta in *. rewrite H1, H2. cbn [gcount]. clear H1 H2. case_decide as Hd; (split; intros ?; [done || lia|]); [done|split; [done|lia]].
Qed.
Print Assumptions C35_reported.

(** Calls of decrementGroupCount one after the other: each group loses what was dropped
    from it, the scheduler is told its count exactly when it changes, and is left with
    the right one. *)
Theorem C35_scheduled_when_changed calls name groups g e groups' :
  decrements true calls groups = (e, groups') → groups !! name = Some g → 0 ≤ gcount g → 0 ≤ gskipped g →
  groups' !! name = Some (after (drops_of name calls) g) ∧
  scheduled name e = news (gcount g) (counts (drops_of name calls) g) ∧
  last (gcount g :: scheduled name e) = Some (gcount (after (drops_of name calls) g)).
Proof.
  intros H E Hc Hs. destruct (decrements_group calls name groups g e groups' H E Hc Hs) as [H1 H2].
  split_and!; [done|done|]. rewrite H2, last_news. apply last_counts.
Qed.
Print Assumptions C35_scheduled_when_changed.

(** Calls at the same time can leave the scheduler with an old count: the first call
    decrements to 2, the second to 1 and tells 1, then the first tells 2. *)
Theorem told_count_stale_refuted : ∃ c, foldl (λ c s, gconc_step s c) (GConc (SGroup 3 0) [] None)
    [GDrop 1; GDrop 1; GTell 1; GTell 0] = c ∧ gwait c = [] ∧ gcount (ggroup c) = 1 ∧ gtold c = Some 2.
Proof. eexists. split; [reflexivity|]. by vm_compute. Qed.
Print Assumptions told_count_stale_refuted.

Example C35_case : after [2; -4; 3; 7] (SGroup 5 3) = SGroup 0 0 ∧ after [2; -4; 3] (SGroup 5 3) = SGroup 3 0 ∧
  total [2; -4; 3] = 5 ∧ (decrement 2 (SGroup 5 3)).1 = -1 ∧ (decrement 4 (SGroup 5 3)).1 = 4.
Proof. by vm_compute. Qed.
Example C35_server_case : ∃ groups',
  decrements true [("a"%string, None); ("b"%string, Some 4); ("a"%string, Some 2); ("a"%string, None)] {["a"%string := SGroup 4 1; "b"%string := SGroup 1 0]} =
  ([GTrigger; GSchedule "b" 0; GSchedule "a" 2; GSchedule "a" 1], groups').
Proof. eexists. by vm_compute. Qed.

(** Of the impl.schedule calls for one command at most one runs at any time. *)
Theorem C36_one_at_a_time es s cmd : sched_run es sched0 = Some s → (length (of_cmd cmd (running s)) ≤ 1)%nat.
Proof.
  intros Hr. pose proof (single_run es _ _ single0 Hr cmd) as H. destruct (limiter s !! cmd); [destruct H as [c ->]; done|]. rewrite H. cbn. lia.
Qed.
Print Assumptions C36_one_at_a_time.

(** Only counts somebody asked for, for that command, are ever passed on. *)
Theorem C36_counts_asked_for es s c : sched_run es sched0 = Some s → c ∈ told s →
  ∃ c', c' ∈ made es ∧ ccmd c' = ccmd c ∧ ccount c' = ccount c.
Proof.
  intros Hr Hc. assert (H0 : from [] sched0).
  { split; cbn; [|intros cmd n; by rewrite lookup_empty]. intros x [H|[H|H]]; by apply elem_of_nil in H. }
  apply (proj1 (from_run es [] _ _ Hr H0)). by right; right.
Qed.
Print Assumptions C36_counts_asked_for.

(** Once no further calls are made everything ends, after a bounded number of steps and
    however they are scheduled. *)
Theorem C36_comes_to_rest es s : sched_run es sched0 = Some s →
  (∃ n, ∀ es' s', made es' = [] → sched_run es' s = Some s' → (length es' ≤ n)%nat) ∧
  ∃ es' s', made es' = [] ∧ sched_run es' s = Some s' ∧ running s' = [] ∧ recalls s' = [].
Proof.
  intros Hr. pose proof (single_run es _ _ single0 Hr) as Hs. split; [|by apply comes_to_rest].
  exists (rank s). intros es' s' Hm Hr'. pose proof (rank_run es' s s' Hs Hr' Hm). lia.
Qed.
Print Assumptions C36_comes_to_rest.

(** When all is done the count passed on last is that of the latest call, if no call
    came between the end of an impl.schedule and the recall it led to. *)
Theorem C36_latest_count_partial es s cmd : sched_run es sched0 = Some s → no_overtaking cmd es sched0 → quiet cmd s →
  ccount <$> last (of_cmd cmd (told s)) = ccount <$> last (of_cmd cmd (made es)).
Proof. exact (latest_told cmd es s). Qed.
Print Assumptions C36_latest_count_partial.

(** What is missing, the full statement, is false: the recall with an older count can
    come after a later call. Count 5 is passed on, 3 is asked for meanwhile, then 7 is
    asked for and passed on before the recall passes on 3. *)
Theorem C36_overtaken_refuted : ∃ es s cmd, sched_run es sched0 = Some s ∧ quiet cmd s ∧
  ccount <$> last (of_cmd cmd (told s)) = Some 3 ∧ ccount <$> last (of_cmd cmd (made es)) = Some 7.
Proof.
  exists [SCall (Call "r" 0 5); SCall (Call "r" 0 3); SEnd 0; SCall (Call "r" 0 7); SEnd 0; SRecall 0; SEnd 0].
  eexists. exists "r"%string. split; [reflexivity|]. by vm_compute.
Qed.
Print Assumptions C36_overtaken_refuted.

(** The priority of the latest call can be lost: the recall uses that of the call before. *)
Theorem priority_lost_refuted : ∃ es s cmd, sched_run es sched0 = Some s ∧ no_overtaking cmd es sched0 ∧ quiet cmd s ∧
  last (of_cmd cmd (told s)) = Some (Call cmd 0 3) ∧ last (of_cmd cmd (made es)) = Some (Call cmd 9 3).
Proof.
  exists [SCall (Call "r" 0 5); SCall (Call "r" 9 3); SEnd 0; SRecall 0; SEnd 0].
  eexists. exists "r"%string. split; [reflexivity|]. split; [|by vm_compute].
  repeat (split; [by intros ? _ _|]; cbn [sched_step]; intros ? [= <-]). done.
Qed.
Print Assumptions priority_lost_refuted.

Definition three_calls : list sevent :=
  [SCall (Call "r" 0 5); SCall (Call "q" 0 1); SCall (Call "r" 0 3); SCall (Call "r" 0 2); SEnd 0; SEnd 0; SRecall 0; SEnd 0].
Example C36_case : no_overtaking "r" three_calls sched0 ∧ ∃ s, sched_run three_calls sched0 = Some s ∧ quiet "r" s ∧
  told s = [Call "r" 0 5; Call "q" 0 1; Call "r" 0 2].
Proof.
  split; [|eexists; split; [reflexivity|by vm_compute]]. unfold three_calls.
  repeat (split; [by intros ? _ _|]; cbn [sched_step]; intros ? [= <-]). done.
Qed.
