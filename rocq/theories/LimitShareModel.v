(** Model of what becomes of the limit groups that users give to jobs
    (jobqueue/server.go handleUserSpecifiedJobLimitGroups), whose slices jobs may share:
    Convert gives all jobs without their own the slice of the defaults (serverREST.go:351-355)
    and Modify gives all modified jobs that of the modifier (job.go:1370-1372).

    Simplification: a slice starts at the beginning of its array. *)
From Coq Require Import ZArith String.
From stdpp Require Import base option strings gmap list.
From Verif Require Import LimiterModel LimitNameModel UtilModel.

(** arrays of strings; and a slice: an array and a length (job.go:171) *)
Notation heap := (gmap nat (list string)).
Notation slice := (nat * nat)%type.
(** what a slice holds: job.go:171 *)
Definition read (h : heap) (sl : slice) : list string := take sl.2 (default [] (h !! sl.1)).
(** server.go:1949-1956 the limits of the groups; the last counts *)
Definition collect_in (local : zone) (lg : gmap string gdata) (raws : list string) : gmap string gdata :=
  fold_left (λ m s, match name_to_group local s with (n, Some d) => <[n := d]> m | _ => m end) raws lg.
(** server.go:1947-1963 handleUserSpecifiedJobLimitGroups: the job's slice after, the arrays
    and the limits *)
Definition handle_groups (local : zone) (h : heap) (lg : gmap string gdata) (sl : slice) : slice * heap * gmap string gdata :=
  let arr := default [] (h !! sl.1) in
  let raws := read h sl in
  let names := (λ raw, (name_to_group local raw).1) <$> raws in
  let lg := collect_in local lg raws in
  if Nat.ltb 1 (length names) then
    let '(r, held) := dedup_sort names in
    ((sl.1, length r), <[sl.1 := (held ++ drop sl.2 arr)%list]> h, lg)
  else (sl, <[sl.1 := (names ++ drop sl.2 arr)%list]> h, lg).
(** server.go:1871-1889 and serverCLI.go:531-534: one job after another *)
Fixpoint handle_all (local : zone) (h : heap) (lg : gmap string gdata) (sls : list slice) : list slice * heap * gmap string gdata :=
  match sls with
  | [] => ([], h, lg)
  | sl :: sls =>
      let '(sl', h, lg) := if Nat.ltb 0 sl.2 then handle_groups local h lg sl else (sl, h, lg) in
      let '(sls', h, lg) := handle_all local h lg sls in
      (sl' :: sls', h, lg)
  end.
