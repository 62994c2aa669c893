(** A runner (cmd/runner.go): the loop that reserves jobs and executes them, until there are none or time is up. *)
From Coq Require Import ZArith String Ascii.
From stdpp Require Import base option strings gmap list.
From Verif Require Import UtilModel.
Open Scope Z_scope.

(** strings.Contains, as called at cmd/runner.go:232 *)
Fixpoint has (sub s : string) : bool :=
  String.prefix sub s || match s with EmptyString => false | String _ s => has sub s end.

(** A job as the runner gets it (cmd/runner.go:186-199): its key, its time requirement (job.Requirements.Time,
    in nanoseconds), and what its environment is made of (jobqueue/job.go:441-515). *)
Record rjob := RJob { rj_key : string; rj_time : Z; rj_env : jobenv }.
(** What Reserve and ReserveScheduled return (cmd/runner.go:188-199): an error, no job, or a job. *)
Inductive reserve := ResErr | ResNone | ResJob (j : rjob).
(** How Execute returns (cmd/runner.go:252-267): fine, with some error, with one whose text has FailReasonSignal
    or with one whose text has ErrStopReserving. *)
Inductive outcome := XOk | XErr | XSignal | XStop.
(** All one turn of the loop learns from outside (cmd/runner.go:178-268): the clock at the top (line 181), the
    reply to Reserve, the clock at the second check (line 206), whether job.Env() fails (line 221), whether
    EnvAddOverride fails (line 240), the clock when Execute is called (line 252), and how Execute returns. *)
Record turn := Turn { t_top : Z; t_res : reserve; t_check : Z; t_badenv : bool; t_badadd : bool; t_start : Z; t_out : outcome }.

(** What does not change (cmd/runner.go:147-171): endTime, exePath, the runner's own environment, and the order
    in which a range over a map goes (envOverride, called at jobqueue/job.go:451 and 476). Durations do not overflow. *)
Record rcfg := RCfg { c_end : Z; c_exe : string; c_os : list string; c_order : gmap string string → list string }.
(** What one turn leaves to the next: jobTime and envOverrides (cmd/runner.go:147, 177). *)
Record rstate := RSt { jtime : Z; over : list string }.
(** What the runner does with a job: cmd/runner.go:189-191 (reserve), 207, 222 and 241 (release), 252 (execute,
    with the time and the environment the job has then). *)
Inductive rdone := EReserve (j : rjob) | ERelease (j : rjob) | EExec (start : Z) (env : list string) (j : rjob).

(** cmd/runner.go:147-163: the first overrides, for a server "host:port" and a domain. That osext.Executable()
    fails is left out: the runner dies before it reserves anything. *)
Definition start_over (server domain : string) : list string :=
  if bool_decide (server = "") then [] else
  match split ":" server with
  | [host; port] => [("WR_MANAGERHOST=" ++ host)%string; ("WR_MANAGERPORT=" ++ port)%string]
  | _ => []
  end ++ [("WR_MANAGERCERTDOMAIN=" ++ domain)%string].
(** cmd/runner.go:177: the state before the first turn *)
Definition start_state (server domain : string) : rstate := RSt 0 (start_over server domain).

(** cmd/runner.go:229-237: what the first entry for PATH adds to the overrides; [None] if pair[1] panics. *)
Fixpoint path_over (exe : string) (env : list string) : option (list string) :=
  match env with
  | [] => Some []
  | e :: env =>
      if bool_decide (env_name e = "PATH") then
        match split "=" e !! 1%nat with
        | None => None
        | Some v => Some (if has exe v then [] else [(e ++ ":" ++ exe)%string])
        end
      else path_over exe env
  end.

(** cmd/runner.go:252-267: execute, and go on or not *)
Definition exec_turn (c : rcfg) (t : turn) (j : rjob) (env : jobenv) (over' : list string) : option rstate * list rdone :=
  (match t_out t with XSignal | XStop => None | _ => Some (RSt (rj_time j) over') end,
   [EReserve j; EExec (t_start t) (job_env (c_order c) (c_os c) env) j]).
(** cmd/runner.go:207-213, 222-227, 241-247: release and stop *)
Definition release_turn (j : rjob) : option rstate * list rdone := (None, [EReserve j; ERelease j]).

(** cmd/runner.go:178-268: one turn: the state for the next, or [None] if the loop ends, and what was done.
    That a release fails is left out: the runner only warns. *)
Definition runner_turn (c : rcfg) (st : rstate) (t : turn) : option rstate * list rdone :=
  if bool_decide (c_end c < t_top t + jtime st) then (None, []) else
  match t_res t with
  | ResErr | ResNone => (None, [])
  | ResJob j =>
      if bool_decide (rj_time j ≠ jtime st) && bool_decide (c_end c < t_check t + rj_time j) then release_turn j else
      if bool_decide (over st = []) then exec_turn c t j (rj_env j) [] else
      if t_badenv t then release_turn j else
      match path_over (c_exe c) (job_env (c_order c) (c_os c) (rj_env j)) with
      | None => (None, [EReserve j])
      | Some o =>
          let over' := over st ++ o in
          if t_badadd t then release_turn j else
          exec_turn c t j (add_override (c_order c) over' (rj_env j)) over'
      end
  end.

(** cmd/runner.go:178-268: the loop: what is done in each turn, for what it learns in each *)
Fixpoint runner (c : rcfg) (st : rstate) (ts : list turn) : list (turn * list rdone) :=
  match ts with
  | [] => []
  | t :: ts =>
      (t, snd (runner_turn c st t)) ::
      match fst (runner_turn c st t) with None => [] | Some st' => runner c st' ts end
  end.
