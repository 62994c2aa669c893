(** What the statements about a runner speak of. *)
From Coq Require Import ZArith String Ascii.
From stdpp Require Import base option strings gmap list.
From Verif Require Import UtilModel UtilSpec RunnerModel.
Open Scope Z_scope.

(** [j] was executed in this turn, from [start] on and with [env] *)
Definition executed (evs : list rdone) (start : Z) (env : list string) (j : rjob) : Prop := EExec start env j ∈ evs.
(** the environment the job came with *)
Definition own_env (c : rcfg) (j : rjob) : list string := job_env (c_order c) (c_os c) (rj_env j).
(** The environment of a job is well formed: one entry for each variable in what was stored and in the
    overrides (as EnvAddOverride makes them), and stored or retrieved. *)
Definition env_ok (c : rcfg) (j : rjob) : Prop :=
  uniquely_named (base_env (c_os c) (rj_env j)) ∧ uniquely_named (overrides (rj_env j)) ∧
  (envc (rj_env j) = None → retrieved (rj_env j) = true).
(** the variables a runner sets *)
Definition wr_vars : list string := ["WR_MANAGERHOST"; "WR_MANAGERPORT"; "WR_MANAGERCERTDOMAIN"].
(** [sub] occurs in [s] *)
Definition occurs (sub s : string) : Prop := ∃ a b, s = (a ++ sub ++ b)%string.
(** [dir] is one of the directories of a PATH *)
Definition on_path (dir path : string) : Prop := dir ∈ split ":" path.
(** The jobs reserved in the first turns whose own PATH has the runner's directory in it *)
Definition no_path_lacks (c : rcfg) (tr : list (turn * list rdone)) : Prop :=
  ∀ t evs j v, (t, evs) ∈ tr → EReserve j ∈ evs → ("PATH=" ++ v)%string ∈ own_env c j → "="%char ∉ chars v ∧ occurs (c_exe c) v.
(** no entry for PATH lacks its "=" *)
Definition paths_set (c : rcfg) (ts : list turn) : Prop :=
  ∀ t j, t ∈ ts → t_res t = ResJob j → "PATH" ∉ own_env c j.
(** the clock does not go back *)
Fixpoint clock_from (now : Z) (ts : list turn) : Prop :=
  match ts with
  | [] => True
  | t :: ts => now ≤ t_top t ∧ t_top t ≤ t_check t ∧ t_check t ≤ t_start t ∧ clock_from (t_start t) ts
  end.
(** everything done, in order *)
Definition all_evs (tr : list (turn * list rdone)) : list rdone := concat tr.*2.
