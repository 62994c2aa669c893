(** Model of the limiting of job listings (jobqueue/server.go:2602-2793). *)
From Coq Require Import ZArith String Ascii.
From stdpp Require Import base option strings gmap list pretty.
From RecordUpdate Require Import RecordSet.
Import RecordSetNotations.
Open Scope Z_scope.

(** The parts of a job a listing looks at (job.go Job: State, Exitcode, FailReason,
    Lost, Similar); [lid] tells jobs apart. States are their strings (job.go:55-66). *)
Record ljob := LJob { lid : nat; lstate : string; lexit : Z; lreason : string; llost : bool; similar : nat }.
Global Instance eta_ljob : Settable _ := settable! LJob <lid; lstate; lexit; lreason; llost; similar>.
(** server.go:2602-2610 limitJobsOptions; [oextra] is GetStd or GetEnv, of which only
    the presence matters here *)
Record lopts := LOpts { olimit : Z; ooffset : Z; oreason : string; oexit : Z; ostate : string; oextra : bool }.
Global Instance eta_lopts : Settable _ := settable! LOpts <olimit; ooffset; oreason; oexit; ostate; oextra>.

(** 2629-2643 normalizeOptions *)
Definition normalize_options (o : lopts) : lopts :=
  let o := if bool_decide (olimit o < 0) then o <| olimit := 0 |> else o in
  let o := if bool_decide (ooffset o < 0) then o <| ooffset := 0 |> else o in
  if bool_decide (ostate o = "running") then o <| ostate := "reserved" |> else o.
(** 2684-2694 normalizeJobState *)
Definition normalize_state (s : string) (lost : bool) : string :=
  if bool_decide (s = "running") then if lost then "lost" else "reserved" else s.
(** 2697-2707 matchesStateFilter *)
Definition matches_state (s f : string) : bool :=
  if bool_decide (f = "") then true else
  if bool_decide (f = "deletable") then bool_decide (s ≠ "running" ∧ s ≠ "complete") else
  bool_decide (s = f).
(** 2711-2718 matchesFailureFilter *)
Definition matches_failure (r : string) (x : Z) (fr : string) (fx : Z) : bool :=
  if bool_decide (fr = "") then true else bool_decide (r = fr ∧ x = fx).
(** 2667-2674 jobMatchesFilters *)
Definition job_matches (o : lopts) (j : ljob) : bool :=
  matches_state (normalize_state (lstate j) (llost j)) (ostate o) &&
  matches_failure (lreason j) (lexit j) (oreason o) (oexit o).
(** 2741: the name of a job's group, fmt.Sprintf("%s.%d.%s", ...) *)
Definition group_name (j : ljob) : string :=
  (normalize_state (lstate j) (llost j) ++ "." ++ pretty (lexit j) ++ "." ++ lreason j)%string.
(** 2776-2792 addJobToGroup. (Offset+Limit beyond an int64 is left out.) jobs[lenj-1] panics ([None]) on an empty group. *)
Definition add_to_group (o : lopts) (j : ljob) (groups : gmap string (list ljob)) : option (gmap string (list ljob)) :=
  match groups !! group_name j with
  | None => Some (<[group_name j := [j]]> groups)
  | Some jobs =>
      let n := length jobs in
      if bool_decide (Z.of_nat n = ooffset o + olimit o)
      then match jobs !! (n - 1)%nat with
           | Some l => Some (<[group_name j := <[(n - 1)%nat := l <| similar ::= S |>]> jobs]> groups)
           | None => None
           end
      else Some (<[group_name j := jobs ++ [j]]> groups)
  end.
(** 2730-2746 groupJobsByCharacteristics *)
Fixpoint group_jobs (o : lopts) (jobs : list ljob) (groups : gmap string (list ljob)) : option (gmap string (list ljob)) :=
  match jobs with
  | [] => Some groups
  | j :: js => if job_matches o j then groups ← add_to_group o j groups; group_jobs o js groups else group_jobs o js groups
  end.
(** 2749-2763 applyOffsetToGroups *)
Definition apply_offset (groups : gmap string (list ljob)) (off : Z) : gmap string (list ljob) :=
  if bool_decide (off ≤ 0) then groups else
  omap (λ js, if bool_decide (off < Z.of_nat (length js)) then Some (drop (Z.to_nat off) js) else None) groups.
(** 2721-2726, 2766-2773 groupAndLimitJobs; [order] is the order in which the range
    loop of collectJobsFromGroups meets the groups *)
Definition group_and_limit (order : gmap string (list ljob) → list (list ljob)) (o : lopts) (jobs : list ljob) : option (list ljob) :=
  groups ← group_jobs o jobs ∅;
  Some (concat (order (apply_offset groups (ooffset o)))).
(** 2615-2664 limitJobs, without the filling in of output and environment *)
Definition limit_jobs (order : gmap string (list ljob) → list (list ljob)) (o : lopts) (jobs : list ljob) : option (list ljob) :=
  if bool_decide (0 < olimit o) || bool_decide (ostate o ≠ "") || oextra o then
    let o := normalize_options o in
    if bool_decide (olimit o = 0) then Some (filter (λ j, job_matches o j = true) jobs) else group_and_limit order o jobs
  else Some jobs.
