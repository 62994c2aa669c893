(** C37, C52 and C54: the local scheduler. *)
From Coq Require Import ZArith Lia.
From stdpp Require Import base option list.
From RecordUpdate Require Import RecordSet.
From Verif Require Import LocalModel LocalSpec LocalProofs LocalPass.
Import RecordSetNotations.
Open Scope Z_scope.

(** At any time the claims kept are those of the commands that have claimed and not ended:
    all that is claimed is returned. This holds for every history. *)
Theorem C37_claims_returned maxram maxcores es s : local_run maxram maxcores es local0 = Some s →
  lram (lclaims s) = ram_of (started s) ∧ lcores (lclaims s) = cores_of (started s) ∧ lzero (lclaims s) = coreless (started s).
Proof. intros Hr. pose proof (run_claims maxram maxcores es _ _ Hr eq_refl) as H. rewrite H. done. Qed.
Print Assumptions C37_claims_returned.

(** The commands started, whether they have claimed yet or not, fit the machine, if no
    pass ever gave up waiting for a claim and no command was recovered. *)
Theorem C37_never_too_much_partial maxram maxcores es s : 0 ≤ maxram → 0 ≤ maxcores →
  local_run maxram maxcores es local0 = Some s → Forall ordinary es → fits maxram maxcores (starting s ++ started s).
Proof. intros H1 H2 Hr Ho. by destruct (local_ok_run maxram maxcores es _ _ Hr Ho (local_ok0 _ _ H1 H2)) as (_ & _ & _ & ? & _). Qed.
Print Assumptions C37_never_too_much_partial.

(** What is missing: a pass that gives up waiting after a minute counts as free what
    commands already started are about to claim. *)
Theorem C37_slow_start_refuted : ∃ es s, local_run 1000 4 es local0 = Some s ∧ ¬ fits 1000 4 (started s) ∧
  Forall (λ e, match e with LRecover _ => False | _ => True end) es.
Proof.
  exists [LAsk; LPick (LReq 600 1000) 1 0; LTimeout; LPick (LReq 600 1000) 1 0; LClaim 0; LClaim 0].
  eexists. split; [reflexivity|]. split; [|by repeat constructor]. intros (H & _ & _). vm_compute in H. by destruct H.
Qed.
Print Assumptions C37_slow_start_refuted.
(** Recovered commands claim what they need without a check: those found when the
    server starts again are added to commands started meanwhile. *)
Theorem C37_recovered_refuted : ∃ es s, local_run 1000 4 es local0 = Some s ∧ ¬ fits 1000 4 (started s) ∧
  Forall (λ e, match e with LTimeout => False | _ => True end) es.
Proof.
  exists [LAsk; LPick (LReq 600 1000) 1 0; LClaim 0; LReserved; LDone; LRecover (LReq 600 1000)].
  eexists. split; [reflexivity|]. split; [|by repeat constructor]. intros (H & _ & _). vm_compute in H. by destruct H.
Qed.
Print Assumptions C37_recovered_refuted.

(** Two kinds of command on a machine of 1000 MB and 2 cores. *)
Example C37_case : ∃ s, local_run 1000 2
    [LAsk; LPick (LReq 300 500) 9 0; LClaim 1; LAsk; LClaim 0; LFail 0; LReserved; LPick (LReq 100 0) 9 0; LClaim 0; LEnd 0] local0 = Some s ∧
  starting s = repeat (LReq 100 0) 3 ∧ started s = [LReq 300 500; LReq 100 0] ∧ lclaims s = Claims 400 500 1 ∧ lrecall s = true.
Proof. eexists. split; [vm_compute; reflexivity|]. by vm_compute. Qed.

(** After schedule was told a count, exactly as many further commands are started as are
    missing, never more, and the command leaves the queue only then and when none is
    running. Running commands are not cancelled by a count of 0 and all can be started. *)
Theorem C52_count_run_partial es1 es2 n s s' : krun es1 k0 = Some s → krun (KSchedule n :: es2) s = Some s' →
  Forall kcalm es1 → 0 < n → Forall kcalm es2 → Forall no_schedule es2 →
  let extra := Z.max 0 (n - Z.of_nat (length (kprocs s))) in
  Z.of_nat (kstarted s') ≤ Z.of_nat (kstarted s) + extra ∧
  (kitem s' = None → Z.of_nat (kstarted s') = Z.of_nat (kstarted s) + extra ∧ kprocs s' = []).
Proof. exact (exact_count es1 es2 n s s'). Qed.
Print Assumptions C52_count_run_partial.
(** While the command is in the queue one is running, or a pass that finds room starts one. *)
Theorem C52_goes_on_partial es s : krun es k0 = Some s → Forall kcalm es → kitem s ≠ None →
  kprocs s ≠ [] ∨ ∃ s', kstep (KProcess 1) s = Some s' ∧ kstarted s' = S (kstarted s).
Proof. exact (can_go_on es s). Qed.
Print Assumptions C52_goes_on_partial.

(** Also when commands cannot be started: once [n] are scheduled, at least as many as are
    running, exactly [n] come to an end, however many starts fail in between. *)
Theorem C52_failed_starts_partial es1 es2 n s s' : krun es1 k0 = Some s → Forall kcalm es1 →
  0 < n → Z.of_nat (length (kprocs s)) ≤ n → krun (KSchedule n :: es2) s = Some s' → Forall no_schedule es2 →
  Z.of_nat (length (kprocs s')) + Z.of_nat (ended es2) ≤ n ∧
  (kitem s' = None → Z.of_nat (ended es2) = n ∧ kprocs s' = []) ∧
  (kitem s' ≠ None → kprocs s' ≠ [] ∨ ∃ s2, kstep (KProcess 1) s' = Some s2 ∧ kstarted s2 = S (kstarted s')).
Proof. exact (failed_starts es1 es2 n s s'). Qed.
Print Assumptions C52_failed_starts_partial.

(** What is missing: with a cancelled command still running, a new count is lost when it
    ends. Three are running, 0 is scheduled, then 5: the end of one of the three takes
    the five out of the queue. *)
Theorem C52_lost_after_cancel_refuted : ∃ es s, krun es k0 = Some s ∧
  es = [KSchedule 3; KProcess 3; KSchedule 0; KSchedule 5; KEnd 0 false; KEnd 0 false; KEnd 0 false] ∧
  kitem s = None ∧ kprocs s = [] ∧ kstarted s = 3%nat.
Proof.
  exists [KSchedule 3; KProcess 3; KSchedule 0; KSchedule 5; KEnd 0 false; KEnd 0 false; KEnd 0 false].
  eexists. split; [vm_compute; reflexivity|]. split; [reflexivity|]. split_and!; reflexivity.
Qed.
Print Assumptions C52_lost_after_cancel_refuted.
(** With a command that could not be started, one too many is run: three are going, the
    count is set to 1, one turns out not to have started and the two others end; one
    more is started. *)
Theorem C52_failed_start_refuted : ∃ es s, krun es k0 = Some s ∧
  es = [KSchedule 3; KProcess 3; KSchedule 1; KEnd 0 true; KEnd 0 false; KEnd 0 false; KProcess 3] ∧ kprocs s ≠ [].
Proof.
  exists [KSchedule 3; KProcess 3; KSchedule 1; KEnd 0 true; KEnd 0 false; KEnd 0 false; KProcess 3].
  eexists. split; [vm_compute; reflexivity|]. split; [reflexivity|]. discriminate.
Qed.
Print Assumptions C52_failed_start_refuted.

Example C52_case : ∃ s, krun [KSchedule 4; KProcess 3; KEnd 1 false] k0 = Some s ∧ length (kprocs s) = 2%nat ∧ kstarted s = 3%nat ∧
  ∃ s', krun (KSchedule 3 :: [KEnd 0 false; KProcess 9; KEnd 0 false; KEnd 0 false]) s = Some s' ∧ kitem s' = None ∧ kstarted s' = 4%nat.
Proof. eexists. split; [vm_compute; reflexivity|]. split_and!; [by vm_compute..|]. eexists. split; [vm_compute; reflexivity|]. by vm_compute. Qed.
Example C52_failed_starts_case : ∃ s, krun [KSchedule 2; KProcess 3] k0 = Some s ∧ length (kprocs s) = 2%nat ∧
  let es := [KProcess 5; KEnd 1 true; KEnd 0 false; KEnd 0 true; KProcess 5; KEnd 0 false; KEnd 0 false] in
  ∃ s', krun (KSchedule 3 :: es) s = Some s' ∧ kitem s' = None ∧ kstarted s' = 5%nat ∧ ended es = 3%nat.
Proof. eexists. split; [vm_compute; reflexivity|]. split; [by vm_compute|]. eexists. split; [vm_compute; reflexivity|]. by vm_compute. Qed.

(** * C54 *)
(** Whenever processQueue is called, and no pass is going on or to be started in the end, a
    whole pass over the queue was started by that call or later, and ended. *)
Theorem C54_pass_made maxram maxcores a b s : local_run maxram maxcores (a ++ LAsk :: b) local0 = Some s → no_pass s →
  ∃ s1, local_run maxram maxcores a local0 = Some s1 ∧ whole_pass maxram maxcores s1 (LAsk :: b).
Proof. exact (asked_made maxram maxcores a b s). Qed.
Print Assumptions C54_pass_made.
(** A call during a pass that has gone past a command which now has room. *)
Example C54_case : ∃ s, local_run 1000 2
    ([LAsk; LPick (LReq 600 1000) 1 0; LClaim 0; LReserved; LPick (LReq 500 1000) 1 0; LEnd 0] ++ LAsk ::
     [LDone; LAgain; LPick (LReq 500 1000) 1 0; LClaim 0; LReserved; LDone]) local0 = Some s ∧
  no_pass s ∧ started s = [LReq 500 1000].
Proof. eexists. split; [vm_compute; reflexivity|]. by vm_compute. Qed.
