(** What the statements about the local scheduler speak of. *)
From Coq Require Import ZArith.
From stdpp Require Import base option list.
From Verif Require Import LocalModel.
Open Scope Z_scope.

(** all that commands need together: memory, cores, and how many need no core *)
Definition ram_of (l : list lreq) : Z := foldr (λ r n, rram r + n) 0 l.
Definition cores_of (l : list lreq) : Z := foldr (λ r n, rcores r + n) 0 l.
Definition coreless (l : list lreq) : Z := foldr (λ r n, (if decide (rcores r = 0) then 1 else 0) + n) 0 l.
(** commands fit a machine: twice as many coreless ones as it has cores *)
Definition fits (maxram maxcores : Z) (l : list lreq) : Prop :=
  ram_of l ≤ maxram ∧ cores_of l ≤ maxcores * 1000 ∧ coreless l ≤ 2 * maxcores.
(** events that need neither a wait of over a minute nor a command that ran before *)
Definition ordinary (e : levent) : Prop := match e with LTimeout | LRecover _ => False | _ => True end.

(** events of one command in which a running command is never cancelled and every
    command can be started *)
Definition kcalm (e : kevent) : Prop := match e with KSchedule n => 0 < n | KEnd _ err => err = false | _ => True end.
Definition no_schedule (e : kevent) : Prop := match e with KSchedule _ => False | _ => True end.
(** how many commands were started and came to their end *)
Fixpoint ended (es : list kevent) : nat :=
  match es with [] => 0%nat | KEnd _ false :: es => S (ended es) | _ :: es => ended es end.

(** A whole pass over the queue is made somewhere in the events [es] that follow [s]: it is
    started, by a caller or by a goroutine that was left to do so, when none was going on,
    and comes to its end. *)
Definition whole_pass (maxram maxcores : Z) (s : local) (es : list levent) : Prop :=
  ∃ a e b c s1, es = a ++ e :: b ++ LDone :: c ∧ local_run maxram maxcores a s = Some s1 ∧
    lphase_ s1 = LIdle ∧ (e = LAsk ∨ e = LAgain) ∧ LDone ∉ b.
(** No pass is going on and none is to be started. *)
Definition no_pass (s : local) : Prop := lphase_ s = LIdle ∧ lagain s = 0%nat.
