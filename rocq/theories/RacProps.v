(** C57: how many runners are asked for. *)
From Coq Require Import ZArith Lia String.
From stdpp Require Import base option strings gmap list.
From RecordUpdate Require Import RecordSet.
From Verif Require Import RacModel RacSpec RacProofs.
Import RecordSetNotations.
Open Scope Z_scope.

(** After any passes over the ready jobs the scheduler has in mind, for every scheduler
    group there is or was, exactly as many runners as the group has running jobs and
    ready jobs its limits leave room for; so none for a group without jobs. *)
Theorem C57_runners_wanted_partial ps p ts gs name : Forall usual (ps ++ [p]) → rac_run (ps ++ [p]) ∅ = (ts, gs) →
  in_mind (believed ts ∅) name = wanted p name.
Proof. exact (run_wanted ps p ts gs name). Qed.
Print Assumptions C57_runners_wanted_partial.
(** The scheduler hears of a group only if it has jobs or had in the pass before. *)
Theorem C57_told_partial ps p p' ts gs name : Forall usual (ps ++ [p; p']) → rac_run (ps ++ [p; p']) ∅ = (ts, gs) →
  ∃ t, last ts = Some t ∧ (is_Some (t !! name) ↔ has_jobs p' name ∨ has_jobs p name).
Proof. exact (run_last ps p p' ts gs name). Qed.
Print Assumptions C57_told_partial.
(** For a group with ready jobs: the jobs left out are remembered (for C35), and the
    priority is the highest of the jobs that are counted. *)
Theorem C57_group_partial ps p ts gs name : Forall usual (ps ++ [p]) → rac_run (ps ++ [p]) ∅ = (ts, gs) → 0 < num_ready name (pready p) →
  let s := startable (room (premaining p) name) (num_ready name (pready p)) in
  gs !! name = Some (RGrp (wanted p name) (num_ready name (pready p) - s) (max_prio (take (Z.to_nat s) (ready_in name (pready p))))) ∧
  ∃ t, last ts = Some t ∧ t !! name = Some (wanted p name, max_prio (take (Z.to_nat s) (ready_in name (pready p)))).
Proof. exact (run_group ps p ts gs name). Qed.
Print Assumptions C57_group_partial.

(** What is missing. Two groups that share a limit are both given all there is room for:
    two runners are asked for though only one job may start. *)
Theorem C57_shared_limit_refuted : ∃ p ts gs, rac_run [p] ∅ = (ts, gs) ∧ premaining p ["L"%string] = 1 ∧
  in_mind (believed ts ∅) "100:0:1:0~L" = 1 ∧ in_mind (believed ts ∅) "200:0:1:0~L" = 1.
Proof.
  exists (RPass (λ _, 1) [RJob "100:0:1:0~L" 0; RJob "200:0:1:0~L" 0] []). do 2 eexists. split; [reflexivity|]. by vm_compute.
Qed.
Print Assumptions C57_shared_limit_refuted.
(** Jobs come in the order of a heap, not of priority, and a job beyond the limit does not
    count for the priority: here the group's runners are asked for with priority 5
    though the first job they will get has priority 8. *)
Theorem C57_priority_refuted : ∃ p ts gs t, rac_run [p] ∅ = (ts, gs) ∧ last ts = Some t ∧
  pready p = [RJob "a" 10; RJob "b~L" 5; RJob "a" 9; RJob "b~L" 0; RJob "b~L" 1; RJob "b~L" 8] ∧ t !! "b~L"%string = Some (1, 5).
Proof.
  exists (RPass (λ _, 1) [RJob "a" 10; RJob "b~L" 5; RJob "a" 9; RJob "b~L" 0; RJob "b~L" 1; RJob "b~L" 8] []).
  do 3 eexists. split; [reflexivity|]. split; [reflexivity|]. by vm_compute.
Qed.
Print Assumptions C57_priority_refuted.
(** A group with only running jobs keeps the number of jobs left out from before: here two
    jobs were left out, which are gone in the second pass. *)
Theorem C57_old_skips_refuted : ∃ p p' ts gs, rac_run [p; p'] ∅ = (ts, gs) ∧ num_ready "b~L" (pready p') = 0 ∧
  gs !! "b~L"%string = Some (RGrp 1 2 0).
Proof.
  exists (RPass (λ _, 1) (repeat (RJob "b~L" 0) 3) []), (RPass (λ _, 0) [] ["b~L"%string]).
  do 2 eexists. split; [reflexivity|]. by vm_compute.
Qed.
Print Assumptions C57_old_skips_refuted.

(** Three passes over three groups, one with room for two jobs. *)
Definition c57_passes : list rpass :=
  [RPass (λ _, 2) [RJob "a" 3; RJob "b~L" 4; RJob "b~L" 2; RJob "a" 7; RJob "b~L" 9] ["c"%string];
   RPass (λ _, 0) [RJob "a" 3; RJob "b~L" 9] ["a"; "b~L"; "b~L"]%string;
   RPass (λ _, 1) [RJob "b~L" 9] ["b~L"%string]].
Example C57_case : Forall usual c57_passes ∧ ∃ ts gs, rac_run c57_passes ∅ = (ts, gs) ∧
  (λ t, (λ n : string, t !! n) <$> ["a"; "b~L"; "c"]%string) <$> ts =
    [[Some (2, 7); Some (2, 4); Some (1, 0)]; [Some (2, 3); Some (2, 0); Some (0, 0)]; [Some (0, 3); Some (2, 9); None]] ∧
  gs !! "b~L"%string = Some (RGrp 2 0 9) ∧ in_mind (believed ts ∅) "b~L" = 2 ∧ in_mind (believed ts ∅) "a" = 0.
Proof.
  split.
  - repeat constructor; intros j H; repeat (apply elem_of_cons in H as [->|H]; [cbn; lia|]); by apply elem_of_nil in H.
  - do 2 eexists. split; [reflexivity|]. by vm_compute.
Qed.
