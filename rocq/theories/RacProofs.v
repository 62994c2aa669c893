From Coq Require Import ZArith Lia String.
From stdpp Require Import base option strings gmap list.
From RecordUpdate Require Import RecordSet.
From Verif Require Import RacModel RacSpec.
Import RecordSetNotations.
Open Scope Z_scope.

Lemma set_skipped c k p f : RGrp c k p <| rskipped ::= f |> = RGrp c (f k) p.
Proof. done. Qed.
Lemma set_count c k p f : RGrp c k p <| rcount ::= f |> = RGrp (f c) k p.
Proof. done. Qed.
Lemma set_prio c k p f : RGrp c k p <| rprio ::= f |> = RGrp c k (f p).
Proof. done. Qed.
Lemma max_prio_snoc l j : max_prio (l ++ [j]) = Z.max (max_prio l) (Z.max 0 (jprio j)).
Proof. induction l as [|x l IH]; cbn; [lia|]. rewrite IH. lia. Qed.
Lemma ready_in_snoc name l j : ready_in name (l ++ [j]) = ready_in name l ++ if decide (jgroup j = name) then [j] else [].
Proof. unfold ready_in. by rewrite filter_app. Qed.
Definition ready_group (remaining : list string → Z) (name : string) (ready : list rjob) : option rgrp :=
  let l := ready_in name ready in let s := startable (room remaining name) (Z.of_nat (length l)) in
  match l with [] => None | _ => Some (RGrp s (Z.of_nat (length l) - s) (max_prio (take (Z.to_nat s) l))) end.
Lemma startable_range limit n : 0 ≤ n → 0 ≤ startable limit n ≤ n.
Proof. intros Hn. unfold startable. case_decide; lia. Qed.
Lemma ready_spec remaining ready name : (∀ j, j ∈ ready → 0 ≤ jprio j) →
  fold_left (count_ready remaining) ready ∅ !! name = ready_group remaining name ready.
Proof.
  induction ready as [|j ready IH] using rev_ind; intros Hp; [by cbn; rewrite lookup_empty|].
  rewrite fold_left_app. cbn [fold_left]. set (gs := fold_left _ ready ∅) in *.
  assert (0 ≤ jprio j) as Hj by (apply Hp; apply elem_of_app; right; by apply elem_of_list_singleton).
  assert (∀ j, j ∈ ready → 0 ≤ jprio j) as Hp' by (intros j' H; apply Hp; apply elem_of_app; by left).
  specialize (IH Hp'). unfold count_ready. destruct (decide (jgroup j = name)) as [E|Hn].
  2: { transitivity (gs !! name); [by destruct (_ && _); rewrite lookup_insert_ne by done|]. rewrite IH.
       unfold ready_group. by rewrite ready_in_snoc, decide_False, app_nil_r by done. }
  rewrite E. rewrite IH. unfold ready_group. rewrite ready_in_snoc, decide_True by done.
  set (l := ready_in name ready) in *. set (limit := room remaining name) in *.
  rewrite app_length. cbn [length]. set (n := length l) in *.
  assert (default (RGrp 0 0 0) (match l with [] => None | _ => Some (RGrp (startable limit (Z.of_nat n)) (Z.of_nat n - startable limit (Z.of_nat n)) (max_prio (take (Z.to_nat (startable limit (Z.of_nat n))) l))) end)
    = RGrp (startable limit (Z.of_nat n)) (Z.of_nat n - startable limit (Z.of_nat n)) (max_prio (take (Z.to_nat (startable limit (Z.of_nat n))) l))) as ->.
  { unfold n. destruct l; [|done]. cbn [length default]. assert (startable limit (Z.of_nat 0) = 0) as -> by (unfold startable; case_decide; lia). done. }
  assert (∀ x : rgrp, match l ++ [j] with [] => None | _ => Some x end = Some x) as Hm by (intros x; by destruct l). rewrite Hm.
  pose proof (startable_range limit (Z.of_nat n) ltac:(lia)) as Hs. cbn [rcount rskipped rprio].
  destruct (decide (0 ≤ limit ∧ startable limit (Z.of_nat n) = limit)) as [[H1 H2]|Hc].
  - rewrite !bool_decide_true by done. cbn [andb]. rewrite lookup_insert. f_equal. rewrite set_skipped.
    assert (startable limit (Z.of_nat (n + 1)) = startable limit (Z.of_nat n)) as ->. { unfold startable in *. case_decide; lia. }
    f_equal; [lia|]. rewrite take_app_le; [done|]. fold n. lia.
  - assert (bool_decide (0 ≤ limit) && bool_decide (startable limit (Z.of_nat n) = limit) = false) as ->.
    { apply andb_false_iff. destruct (decide (0 ≤ limit)); [right|left]; apply bool_decide_false; naive_solver. }
    rewrite lookup_insert. f_equal. rewrite set_count, set_prio.
    assert (startable limit (Z.of_nat n) = Z.of_nat n) as E1 by (unfold startable in *; case_decide; lia).
    assert (startable limit (Z.of_nat (n + 1)) = Z.of_nat n + 1) as E2 by (unfold startable in *; case_decide; lia).
    rewrite E1, E2. f_equal; [lia|]. rewrite !take_ge by (rewrite ?app_length; cbn; fold n; lia). rewrite max_prio_snoc.
    case_bool_decide; [|lia]. 
    assert (0 ≤ max_prio l). { clear -Hp'. induction l; cbn; lia. } lia.
Qed.
Lemma max_prio_nonneg l : 0 ≤ max_prio l.
Proof. induction l; cbn; lia. Qed.

(** after the running jobs were counted too *)
Definition base_group (prev gs : gmap string rgrp) (name : string) : rgrp :=
  match gs !! name with Some g => g | None => match prev !! name with Some p => p <| rcount := 0 |> | None => RGrp 0 0 0 end end.
Lemma running_spec prev running gs name :
  fold_left (count_running prev) running gs !! name =
    if decide (num_running name running = 0) then gs !! name
    else Some (base_group prev gs name <| rcount ::= λ n, n + num_running name running |>).
Proof.
  induction running as [|r running IH] using rev_ind; [done|]. rewrite fold_left_app. cbn [fold_left].
  set (gs' := fold_left _ running gs) in *.
  assert (num_running name (running ++ [r]) = num_running name running + if decide (r = name) then 1 else 0) as E.
  { unfold num_running. rewrite filter_app, app_length, filter_cons, filter_nil. destruct (decide (r = name)); cbn; lia. }
  assert (0 ≤ num_running name running) as H0 by (unfold num_running; lia).
  rewrite E. unfold count_running. destruct (decide (r = name)) as [->|Hn].
  - rewrite lookup_insert, IH. rewrite (decide_False (P := num_running name running + 1 = 0)) by lia.
    destruct (decide (num_running name running = 0)) as [Hz|Hz].
    + rewrite Hz. fold (base_group prev gs name). f_equal.
    + f_equal. destruct (base_group prev gs name) as [c k p]. rewrite !set_count. f_equal. lia.
  - rewrite lookup_insert_ne by done. rewrite IH, Z.add_0_r. done.
Qed.
Global Instance has_jobs_dec p name : Decision (has_jobs p name).
Proof. unfold has_jobs. apply _. Defined.
Definition group_told (p : rpass) (prev : gmap string rgrp) (name : string) : option rgrp :=
  if decide (has_jobs p name) then
    Some (RGrp (wanted p name)
      (match ready_in name (pready p), prev !! name with [], Some g => rskipped g | _, _ => num_ready name (pready p) - startable (room (premaining p) name) (num_ready name (pready p)) end)
      (match ready_in name (pready p), prev !! name with [], Some g => rprio g | _, _ => max_prio (take (Z.to_nat (startable (room (premaining p) name) (num_ready name (pready p)))) (ready_in name (pready p))) end))
  else None.
Lemma needed_spec p prev name : (∀ j, j ∈ pready p → 0 ≤ jprio j) →
  needed (premaining p) (pready p) (prunning p) prev !! name = group_told p prev name.
Proof.
  intros Hp. unfold needed. rewrite running_spec. unfold base_group. rewrite ready_spec by done. unfold ready_group, group_told.
  assert (has_jobs p name ↔ 0 < num_running name (prunning p) + Z.of_nat (length (ready_in name (pready p)))) as Hj by done.
  unfold wanted, num_ready.
  assert (0 ≤ num_running name (prunning p)) as Hr by (unfold num_running; lia).
  destruct (decide (has_jobs p name)) as [H|H]; rewrite Hj in H; clear Hj;
    generalize dependent (num_running name (prunning p)); generalize (ready_in name (pready p)) as l; intros l r Hr H;
    (destruct (decide (r = 0)) as [Hz|Hz]; destruct l as [|x l]; cbn in H; try lia).
  - rewrite Hz. f_equal.
  - f_equal. cbn [length]. assert (startable (room (premaining p) name) (Z.of_nat 0) = 0) as -> by (unfold startable; case_decide; lia).
    destruct (prev !! name) as [[c k q]|]; [|rewrite set_count; f_equal; cbn; lia]. cbn [rskipped rprio].
    rewrite !set_count. f_equal. lia.
  - f_equal. rewrite set_count. f_equal. lia.
  - done.
Qed.
Lemma told_spec p prev name gs : (∀ j, j ∈ pready p → 0 ≤ jprio j) → gs = needed (premaining p) (pready p) (prunning p) prev →
  told gs prev !! name = if decide (has_jobs p name) then (λ g, (rcount g, rprio g)) <$> group_told p prev name
                         else (λ g, (0, rprio g)) <$> prev !! name.
Proof.
  intros Hp ->. unfold told. set (gs := needed _ _ _ _).
  assert (gs !! name = group_told p prev name) as Hn by (by apply needed_spec).
  destruct (decide (has_jobs p name)) as [Hj|Hj].
  - unfold group_told in *. rewrite decide_True in * by done. rewrite lookup_union, lookup_fmap, Hn. cbn.
    by destruct ((_ <$> filter _ prev) !! name).
  - assert (gs !! name = None) as Hn'. { rewrite Hn. unfold group_told. by rewrite decide_False. }
    rewrite lookup_union_r by (by rewrite lookup_fmap, Hn'). rewrite lookup_fmap. f_equal. rewrite map_filter_lookup.
    destruct (prev !! name) as [g|]; [|done]. cbn. by rewrite option_guard_True.
Qed.
Lemma wanted_none p name : ¬ has_jobs p name → wanted p name = 0.
Proof.
  unfold has_jobs, wanted. intros H. assert (0 ≤ num_running name (prunning p)) by (unfold num_running; lia).
  assert (0 ≤ num_ready name (pready p)) by (unfold num_ready; lia).
  pose proof (startable_range (room (premaining p) name) (num_ready name (pready p)) ltac:(lia)). lia.
Qed.

(** * Histories *)
Lemma rac_run_app ps ps' prev : rac_run (ps ++ ps') prev =
  let '(ts, g) := rac_run ps prev in let '(ts', g') := rac_run ps' g in (ts ++ ts', g').
Proof.
  revert prev. induction ps as [|p ps IH]; intros prev.
  - cbn. by destruct (rac_run ps' prev).
  - change ((p :: ps) ++ ps') with (p :: (ps ++ ps')). cbn [rac_run]. destruct (rac true _ _ _ prev) as [t g]. rewrite IH.
    destruct (rac_run ps g) as [ts g1]. by destruct (rac_run ps' g1).
Qed.
Lemma believed_app ts ts' was : believed (ts ++ ts') was = believed ts' (believed ts was).
Proof. revert was. induction ts as [|t ts IH]; intros was; [done|]. cbn. apply IH. Qed.
Lemma run_one p prev : rac_run [p] prev = ([told (needed (premaining p) (pready p) (prunning p) prev) prev], needed (premaining p) (pready p) (prunning p) prev).
Proof. done. Qed.
Lemma run_kept ps ts gs name : Forall usual ps → rac_run ps ∅ = (ts, gs) →
  gs !! name = None → in_mind (believed ts ∅) name = 0.
Proof.
  intros Hu. revert ts gs. induction ps as [|p ps IH] using rev_ind; intros ts gs.
  - cbn. intros E _. apply pair_equal_spec in E as [<- <-]. unfold in_mind. cbn. by rewrite lookup_empty.
  - apply Forall_app in Hu as [Hu Hp]. rewrite Forall_singleton in Hp. rewrite rac_run_app. destruct (rac_run ps ∅) as [ts0 g0] eqn:E0.
    rewrite run_one. intros E Hn. apply pair_equal_spec in E as [<- <-]. specialize (IH Hu ts0 g0 eq_refl).
    rewrite needed_spec in Hn by exact Hp. unfold group_told in Hn. destruct (decide (has_jobs p name)) as [|Hj]; [done|].
    rewrite believed_app. cbn [believed]. unfold in_mind in *. rewrite lookup_union.
    rewrite (told_spec p g0 name _ Hp eq_refl), decide_False by done. destruct (g0 !! name) as [g|].
    + cbn. by destruct (believed ts0 ∅ !! name).
    + cbn. rewrite left_id by apply _. by apply IH.
Qed.
Lemma run_wanted ps p ts gs name : Forall usual (ps ++ [p]) → rac_run (ps ++ [p]) ∅ = (ts, gs) → in_mind (believed ts ∅) name = wanted p name.
Proof.
  intros Hu. rewrite rac_run_app. destruct (rac_run ps ∅) as [ts0 g0] eqn:E0. rewrite run_one. intros E. apply pair_equal_spec in E as [<- <-].
  apply Forall_app in Hu as [Hu Hp]. rewrite Forall_singleton in Hp.
  rewrite believed_app. cbn [believed]. unfold in_mind. rewrite lookup_union, (told_spec p g0 name _ Hp eq_refl).
  destruct (decide (has_jobs p name)) as [Hj|Hj].
  - unfold group_told. rewrite decide_True by done. cbn. by destruct (believed ts0 ∅ !! name).
  - rewrite wanted_none by done. pose proof (run_kept ps ts0 g0 name Hu E0) as Hk. unfold in_mind in Hk. destruct (g0 !! name) as [g|].
    + cbn. by destruct (believed ts0 ∅ !! name).
    + cbn. rewrite left_id by apply _. by apply Hk.
Qed.
Lemma run_groups ps p ts gs name : Forall usual (ps ++ [p]) → rac_run (ps ++ [p]) ∅ = (ts, gs) → (is_Some (gs !! name) ↔ has_jobs p name).
Proof.
  intros Hu. rewrite rac_run_app. destruct (rac_run ps ∅) as [ts0 g0] eqn:E0. rewrite run_one. intros E. apply pair_equal_spec in E as [<- <-].
  apply Forall_app in Hu as [Hu Hp]. rewrite Forall_singleton in Hp. rewrite needed_spec by exact Hp. unfold group_told.
  destruct (decide (has_jobs p name)); [by split|]. split; [by intros [? ?]|done].
Qed.
Lemma run_last ps p p' ts gs name : Forall usual (ps ++ [p; p']) → rac_run (ps ++ [p; p']) ∅ = (ts, gs) →
  ∃ t, last ts = Some t ∧ (is_Some (t !! name) ↔ has_jobs p' name ∨ has_jobs p name).
Proof.
  change ([p; p']) with ([p] ++ [p']). rewrite app_assoc. intros Hu E.
  rewrite rac_run_app in E. destruct (rac_run (ps ++ [p]) ∅) as [ts0 g0] eqn:E0. rewrite run_one in E. apply pair_equal_spec in E as [<- <-].
  apply Forall_app in Hu as [Hu Hp]. rewrite Forall_singleton in Hp. pose proof (run_groups ps p ts0 g0 name Hu E0) as Hg.
  eexists. split; [apply last_snoc|]. rewrite (told_spec p' g0 name _ Hp eq_refl). destruct (decide (has_jobs p' name)) as [Hj|Hj].
  - unfold group_told. rewrite decide_True by done. cbn. split; [by left|done].
  - rewrite fmap_is_Some, Hg. naive_solver.
Qed.
Lemma run_group ps p ts gs name : Forall usual (ps ++ [p]) → rac_run (ps ++ [p]) ∅ = (ts, gs) → 0 < num_ready name (pready p) →
  let s := startable (room (premaining p) name) (num_ready name (pready p)) in
  gs !! name = Some (RGrp (wanted p name) (num_ready name (pready p) - s) (max_prio (take (Z.to_nat s) (ready_in name (pready p))))) ∧
  ∃ t, last ts = Some t ∧ t !! name = Some (wanted p name, max_prio (take (Z.to_nat s) (ready_in name (pready p)))).
Proof.
  intros Hu. rewrite rac_run_app. destruct (rac_run ps ∅) as [ts0 g0] eqn:E0. rewrite run_one. intros E Hn. apply pair_equal_spec in E as [<- <-].
  apply Forall_app in Hu as [Hu Hp]. rewrite Forall_singleton in Hp.
  assert (has_jobs p name) as Hj by (unfold has_jobs, num_running; lia).
  assert (∀ A (x y : A), match ready_in name (pready p) with [] => x | _ => y end = y) as Hm.
  { intros A x y. unfold num_ready in Hn. by destruct (ready_in name (pready p)). }
  cbv zeta. split.
  - rewrite needed_spec by exact Hp. unfold group_told. rewrite decide_True by done. unfold num_ready in Hn. by destruct (ready_in name (pready p)).
  - eexists. split; [apply last_snoc|]. rewrite (told_spec p g0 name _ Hp eq_refl), decide_True by done. unfold group_told. rewrite decide_True by done.
    cbn. unfold num_ready in Hn. by destruct (ready_in name (pready p)).
Qed.
