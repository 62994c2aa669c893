(** C33: listings with a limit. *)
From Coq Require Import ZArith Lia String Ascii.
From stdpp Require Import base option strings gmap list pretty.
From RecordUpdate Require Import RecordSet.
From Verif Require Import ListModel ListSpec ListProofs.
Import RecordSetNotations.
Open Scope Z_scope.

(** With a limit above 0 a listing never panics, whatever order the groups come in.
    Only jobs the filter lets through are shown. Of the jobs of one kind (state, exit
    code, fail reason) those after the offset are shown in order, at most the limit,
    and shown jobs plus the jobs they stand for add up to all of that kind past the offset. *)
Theorem C33_limited_listing order o jobs :
  any_order order → 0 < olimit o → Forall (λ j, similar j = 0%nat ∧ lstate j ∈ job_states) jobs →
  ∃ r, limit_jobs order o jobs = Some r ∧ Forall (listed o) r ∧
    ∀ k, let all := filter (λ j, listed o j ∧ kind j = k) jobs in
         let shown := filter (λ j, kind j = k) r in
         plain <$> shown = take (Z.to_nat (olimit o)) (drop (Z.to_nat (ooffset o)) all) ∧
         (length shown + sum_list (similar <$> shown) = length all - Z.to_nat (ooffset o))%nat.
Proof. exact (limited order o jobs). Qed.
Print Assumptions C33_limited_listing.

(** No job is shown twice. *)
Theorem C33_shown_once order o jobs r :
  any_order order → 0 < olimit o → Forall (λ j, similar j = 0%nat ∧ lstate j ∈ job_states) jobs → NoDup (lid <$> jobs) →
  limit_jobs order o jobs = Some r → NoDup (lid <$> r).
Proof. exact (limited_nodup order o jobs r). Qed.
Print Assumptions C33_shown_once.

(** Without a limit exactly the jobs the filter lets through are shown, in order, if
    the filter names a state, or output or environment are asked for, or there is no filter. *)
Theorem C33_unlimited_listing order o jobs :
  olimit o ≤ 0 → ostate o ≠ "" ∨ oextra o = true ∨ oreason o = "" →
  Forall (λ j, lstate j ∈ job_states) jobs → limit_jobs order o jobs = Some (filter (listed o) jobs).
Proof. exact (unlimited order o jobs). Qed.
Print Assumptions C33_unlimited_listing.

(** The other case: a filter on the fail reason alone is ignored when there is no limit. *)
Theorem reason_filter_refuted : ∃ o jobs, olimit o = 0 ∧ oreason o ≠ "" ∧
  Forall (λ j, lstate j ∈ job_states) jobs ∧
  ∀ order, limit_jobs order o jobs = Some jobs ∧ filter (listed o) jobs ≠ jobs.
Proof.
  exists (LOpts 0 0 "out of memory" 1 "" false), [LJob 1 "ready" 0 "" false 0].
  split_and!; [done|done|apply (bool_decide_unpack _); by vm_compute|].
  intros order. split; [by vm_compute|]. intros H. vm_compute in H. discriminate H.
Qed.
Print Assumptions reason_filter_refuted.

(** A listing of the "deletable" jobs, those "not running" (matchesStateFilter), shows running jobs:
    their state has by then become "reserved". *)
Theorem deletable_refuted : ∃ o jobs, ostate o = "deletable" ∧ Forall (λ j, lstate j = "running") jobs ∧
  ∀ order, ∃ j r, limit_jobs order o jobs = Some (j :: r) ∧ lstate j = "running".
Proof.
  exists (LOpts 0 0 "" 0 "deletable" false), [LJob 1 "running" 0 "" false 0].
  split_and!; [done|by repeat constructor|]. intros order. exists (LJob 1 "running" 0 "" false 0), []. by vm_compute.
Qed.
Print Assumptions deletable_refuted.

(** Six jobs of two kinds, limit 2 from offset 1. *)
Definition some_order (m : gmap string (list ljob)) : list (list ljob) := (map_to_list m).*2.
Definition six_jobs : list ljob :=
  [LJob 1 "buried" 1 "oom" false 0; LJob 2 "running" 0 "" false 0; LJob 3 "buried" 1 "oom" false 0;
   LJob 4 "buried" 1 "oom" false 0; LJob 5 "reserved" 0 "" false 0; LJob 6 "buried" 1 "oom" false 0].
Example C33_case : any_order some_order ∧ Forall (λ j, similar j = 0%nat ∧ lstate j ∈ job_states) six_jobs ∧
  NoDup (lid <$> six_jobs) ∧
  ∃ r, limit_jobs some_order (LOpts 2 1 "" 0 "" false) six_jobs = Some r ∧ length r = 3%nat ∧
       filter (λ j, kind j = ("buried"%string, 1, "oom"%string)) r = [LJob 3 "buried" 1 "oom" false 0; LJob 4 "buried" 1 "oom" false 1].
Proof.
  split_and!; [by intros m|apply (bool_decide_unpack _); by vm_compute..|].
  eexists. split; [by vm_compute|]. split; by vm_compute.
Qed.
Example C33_unlimited_case :
  limit_jobs some_order (LOpts 0 0 "" 0 "running" false) six_jobs = Some [LJob 2 "running" 0 "" false 0; LJob 5 "reserved" 0 "" false 0].
Proof. by vm_compute. Qed.
