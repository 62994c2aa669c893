(** Vocabulary of properties C61 to C64. *)
From Coq Require Import ZArith.
From stdpp Require Import base option list.
From Verif Require Import ExecModel.
Open Scope Z_scope.

Global Instance status_eq_dec : EqDecision status.
Proof. solve_decision. Defined.

Global Instance reason_eq_dec : EqDecision reason.
Proof. solve_decision. Defined.

(** ** C61 *)
(** The command ended with that exit code (-1: a signal, 255: it cannot be told). *)
Definition ended_with (ls : list xlabel) (code : Z) : Prop :=
  XWait (Exited code) ∈ ls ∨ code = -1 ∧ XWait Signalled ∈ ls ∨ code = 255 ∧ XWait Odd ∈ ls.
(** What a reason says of a command that ended with that code. *)
Definition holds (cf : econf) (ls : list xlabel) (code : Z) (r : reason) : Prop :=
  match r with
  | FUpload => code = 0 ∧ ∃ w, XMain true w ∈ ls
  | FCPerm => code = 126
  | FCFound => code = 127
  | FCExit => code = 128
  | FRAM => code ≠ 0 ∧ ∃ m, XTick false (Some m) ∈ ls ∧ e_ram cf < m
  | FDisk => code ≠ 0 ∧ ∃ m, XTick true m ∈ ls
  | FSignal => code ≠ 0 ∧ XSignal ∈ ls
  | FTime => code ≠ 0 ∧ XSignal ∈ ls ∧ XC true ∈ ls
  | FKilled => code ≠ 0 ∧ XTouch TouchKill ∈ ls
  | FExit => code ≠ 0
  | FAbnormal => code = 255 ∧ XWait Odd ∈ ls
  | _ => False
  end.
(** What a report says is so. *)
Definition truthful (cf : econf) (ls : list xlabel) (r : report) : Prop :=
  match r with
  | Archive code => code = 0 ∧ XWait (Exited 0) ∈ ls
  | Release (Some code) f | Bury (Some code) f => ended_with ls code ∧ holds cf ls code f
  | Release None f => (∀ st, XWait st ∉ ls) ∧ f = FStart
  | Bury None f => (∀ st, XWait st ∉ ls) ∧ f ∈ [FCwd; FMount; FEnv; FJson; FDocker]
  end.
(** What is to be reported of a command that ended so: success only of exit code 0;
    failures for good only if the code or the user says so, or it ran too long to retry. *)
Definition fitting (cf : econf) (ls : list xlabel) (st : status) (r : report) : Prop :=
  match st with
  | Exited 0 => r = Archive 0 ∧ (∃ w, XMain false w ∈ ls) ∨ r = Release (Some 0) FUpload ∧ ∃ w, XMain true w ∈ ls
  | Odd => r = Release (Some 255) FAbnormal
  | _ =>
      let code := match st with Exited n => n | _ => -1 end in
      if decide (126 ≤ code ≤ 128) then ∃ f, r = Bury (Some code) f
      else (∃ f, r = Release (Some code) f) ∨ r = Bury (Some code) FKilled ∨
           r = Bury (Some code) FExit ∧ 1 < e_until cf ∧ 0 < e_noretries cf ∧ ∃ u w, XMain u w ∈ ls ∧ e_noretries cf < w
  end.

(** Which of several reasons is given. *)
Definition too_much (cf : econf) (ls : list xlabel) : Prop := ∃ m, XTick false (Some m) ∈ ls ∧ e_ram cf < m.
Definition disk_full (ls : list xlabel) : Prop := ∃ m, XTick true m ∈ ls.
Definition given (cf : econf) (ls : list xlabel) (f : reason) : Prop :=
  match f with
  | FRAM => too_much cf ls
  | FDisk => ¬ too_much cf ls ∧ disk_full ls
  | FSignal | FTime => ¬ too_much cf ls ∧ ¬ disk_full ls ∧ XSignal ∈ ls
  | FKilled | FExit => ¬ too_much cf ls ∧ ¬ disk_full ls ∧ XSignal ∉ ls
  | _ => True
  end.
Definition reason_of (r : report) : option reason := match r with Archive _ => None | Release _ f | Bury _ f => Some f end.

(** ** C62 *)
(** The command has ended and the manager is not yet being told. *)
Definition finishing (s : exec) : Prop :=
  match x_main s with MStop _ | MFin _ | MLock _ | MKillDone _ | MEnd _ => True | _ => False end.
(** Steps of the goroutines that need nothing from elsewhere. *)
Definition own (l : xlabel) : Prop := match l with XMain _ _ | XT | XC _ | XStopCheck => True | _ => False end.
Inductive own_steps (cf : econf) : exec → nat → exec → Prop :=
| o_nil s : own_steps cf s 0 s
| o_step s l s' n s'' : own l → xstep cf s l = Some s' → own_steps cf s' n s'' → own_steps cf s (S n) s''.
(** The job is touched from before its file systems are mounted until the manager is told. *)
Definition to_be_touched (s : exec) : Prop :=
  match x_main s with
  | MSetup k => k ∈ [SLsf; SLinks; SMount; SEnv; SJson; SDocker; SContainers; SStart; SStarted]
  | MRun | MStop _ | MFin _ | MLock _ | MKillDone _ | MEnd _ => True
  | MReport _ _ _ | MRet _ => False
  end.
(** Preparations that fail, by name: those Execute leaves without telling the manager. *)
Definition fails_at (cf : econf) (ls : list xlabel) (k : setup) : Prop :=
  ∃ ls1 d ls2 s, ls = ls1 ++ XSetup false d :: ls2 ∧ xrun cf x_new ls1 = Some s ∧ x_main s = MSetup k.
(** What a runner must not see for an end to be the work of the one who killed the job. *)
Definition quiet (cf : econf) (ls : list xlabel) : Prop :=
  XSignal ∉ ls ∧ (∀ m, XTick true m ∉ ls) ∧ ∀ m, XTick false (Some m) ∈ ls → m ≤ e_ram cf.

(** ** C63 *)
(** The exit code of a command that was stopped: not 0 and none of those that mean that it could not be run. *)
Definition stopped_with (st : status) (code : Z) : Prop :=
  st = Signalled ∧ code = -1 ∨ st = Exited code ∧ code ≠ 0 ∧ ¬ 126 ≤ code ≤ 128.
(** What was seen since. *)
Definition since (s s' : exec) : list event := drop (length (x_log s)) (x_log s').

(** ** C64 *)
(** The behaviour does something on the side of the runner. *)
Definition acts (b : behaviour) : Prop := b_do b ≠ Remove ∧ b_do b ≠ Nothing.
(** It is meant for an end like that, before the others. *)
Definition meant_for (success : bool) (b : behaviour) : Prop := (if success then on_success (b_when b) else on_failure (b_when b)) = true.
