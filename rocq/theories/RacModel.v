(** Model of how a pass over the ready jobs asks the scheduler for runners: the counting of
    jobs by scheduler group in the ready added callback (jobqueue/server.go:1316-1330,
    1460-1576). What it does to the requirements of the jobs is in LearnModel. *)
From Coq Require Import ZArith String.
From stdpp Require Import base option strings gmap list.
From RecordUpdate Require Import RecordSet.
From Verif Require ServerModel.
Import RecordSetNotations.
Open Scope Z_scope.

(** server.go:263-270 sgroup, as one pass builds it; name and requirements are left out *)
Record rgrp := RGrp { rcount : Z; rskipped : Z; rprio : Z }.
Global Instance eta_rgrp : Settable _ := settable! RGrp <rcount; rskipped; rprio>.
(** a ready job: its scheduler group, as generated from its requirements and limit groups
    (server.go:1460-1461), and its priority *)
Record rjob := RJob { jgroup : string; jprio : Z }.
(** server.go:1487-1497: what the limits leave for a group; [remaining] is the limiter's
    GetRemainingCapacity at the time the group is first met *)
Definition room (remaining : list string → Z) (name : string) : Z :=
  match ServerModel.sched_limits name with [] => -1 | lgs => remaining lgs end.
(** server.go:1475-1509 for one ready job *)
Definition count_ready (remaining : list string → Z) (gs : gmap string rgrp) (j : rjob) : gmap string rgrp :=
  let g := default (RGrp 0 0 0) (gs !! jgroup j) in
  let limit := room remaining (jgroup j) in
  if bool_decide (0 ≤ limit) && bool_decide (rcount g = limit)
  then <[jgroup j := g <| rskipped ::= λ n, n + 1 |>]> gs
  else <[jgroup j := g <| rcount ::= λ n, n + 1 |> <| rprio ::= λ p, if bool_decide (p < jprio j) then jprio j else p |>]> gs.
(** server.go:1519-1541 for one running job, given the name of its scheduler group *)
Definition count_running (prev : gmap string rgrp) (gs : gmap string rgrp) (name : string) : gmap string rgrp :=
  let g := match gs !! name with
           | Some g => g
           | None => match prev !! name with Some p => p <| rcount := 0 |> | None => RGrp 0 0 0 end
           end in
  <[name := g <| rcount ::= λ n, n + 1 |>]> gs.
(** The groups with jobs. *)
Definition needed (remaining : list string → Z) (ready : list rjob) (running : list string) (prev : gmap string rgrp) : gmap string rgrp :=
  fold_left (count_running prev) running (fold_left (count_ready remaining) ready ∅).
(** server.go:1543-1575: scheduleRunners is called in goroutines of its own, once for each
    group; the result is the count and priority told for each. Groups scheduled before
    and not needed are told 0. *)
Definition told (groups prev : gmap string rgrp) : gmap string (Z * Z) :=
  ((λ g, (rcount g, rprio g)) <$> groups) ∪ ((λ g, (0, rprio g)) <$> filter (λ ng, groups !! ng.1 = None) prev).
(** server.go:1290-1576, from the counting on, with a runner command set ([runners]; without,
    nothing is counted). The result: what is told, and the groups remembered. *)
Definition rac (runners : bool) (remaining : list string → Z) (ready : list rjob) (running : list string) (prev : gmap string rgrp) :
    gmap string (Z * Z) * gmap string rgrp :=
  if negb runners then (∅, prev) else
  let gs := needed remaining ready running prev in (told gs prev, gs).
(** several passes: each with what was left by the limits, ready and running at its time *)
Record rpass := RPass { premaining : list string → Z; pready : list rjob; prunning : list string }.
Fixpoint rac_run (ps : list rpass) (prev : gmap string rgrp) : list (gmap string (Z * Z)) * gmap string rgrp :=
  match ps with
  | [] => ([], prev)
  | p :: ps => let '(t, prev) := rac true (premaining p) (pready p) (prunning p) prev in
               let '(ts, prev) := rac_run ps prev in (t :: ts, prev)
  end.
(** What the scheduler has in mind after it was told, if it takes the last count told for
    each group (scheduler.go:294-329, C36). *)
Fixpoint believed (ts : list (gmap string (Z * Z))) (was : gmap string (Z * Z)) : gmap string (Z * Z) :=
  match ts with [] => was | t :: ts => believed ts (t ∪ was) end.
