(** Vocabulary of properties C59 and C60. *)
From Coq Require Import ZArith.
From stdpp Require Import base option list.
From Verif Require Import CloudModel.
Open Scope Z_scope.

Global Instance need_eq_dec : EqDecision need.
Proof. solve_decision. Defined.
Global Instance phase_eq_dec : EqDecision phase.
Proof. solve_decision. Defined.

(** What commands need together. *)
Fixpoint total (f : need → Z) (A : list need) : Z := match A with [] => 0 | n :: A => f n + total f A end.
(** How many of them need no cores. *)
Definition coreless (n : need) : Z := if decide (n_cores n = 0) then 1 else 0.
(** So many of these may run on a server: twice its cores, or 4 if it has none. *)
Definition coreless_limit (f : flavor) : Z := if decide (f_cores f = 0) then 4 else 2 * f_cores f.
(** The commands [A] can run at the same time on a server of that flavor with that disk. *)
Definition fits (f : flavor) (disk : Z) (A : list need) : Prop :=
  total n_cores A ≤ 1000 * f_cores f ∧ total n_ram A ≤ f_ram f ∧ total n_disk A ≤ disk ∧ total coreless A ≤ coreless_limit f.
Definition not_negative (n : need) : Prop := 0 ≤ n_cores n ∧ 0 ≤ n_ram n ∧ 0 ≤ n_disk n.
Definition possible (f : flavor) (disk : Z) : Prop := 0 ≤ f_cores f ∧ 0 ≤ f_ram f ∧ 0 ≤ disk.

(** [A] is what has been allocated and not released. *)
Fixpoint without (n : need) (A : list need) : list need :=
  match A with [] => [] | m :: A => if decide (m = n) then A else m :: without n A end.
Definition held_after (A : list need) (s : cserver) (l : clabel) : list need :=
  match l with
  | LAllocate n => if (allocate n s).2 then n :: A else A
  | LRelease n => without n A
  | _ => A
  end.
(** The state [s], with [A] allocated, comes about by steps that [ok] allows. *)
Inductive reached (ok : list need → cserver → clabel → Prop) (s0 : cserver) : list need → cserver → Prop :=
| r_new : reached ok s0 [] s0
| r_step A s l s' : reached ok s0 A s → ok A s l → cstep s l = Some s' → reached ok s0 (held_after A s l) s'.
(** Callers release only what they have allocated. *)
Definition proper (A : list need) (s : cserver) (l : clabel) : Prop :=
  match l with LAllocate n => not_negative n | LRelease n => n ∈ A | _ => True end.

(** What goes on by itself. *)
Definition internal (l : clabel) : Prop := match l with LGo _ | LTimer _ | LRecv _ _ => True | _ => False end.
(** No goroutine has anything left to do. *)
Definition at_rest (s : cserver) : Prop := Forall (λ p, p = GEnd) (gor s).
(** Schedules without the races that are refuted in CloudProps.v: no command that needs
    neither cores nor memory is allocated while a goroutine started by Release has yet to
    begin; nothing is allocated between a countdown's end and the destruction; the
    countdown does not end while it is being cancelled, nor before the goroutines that other
    calls of Release started have begun; the last command does not end while a countdown is
    being cancelled; Destroy is not called by others. *)
Definition quiet (A : list need) (s : cserver) (l : clabel) : Prop :=
  proper A s l ∧
  match l with
  | LAllocate n => (0 < n_cores n ∨ 0 < n_ram n ∨ GNew ∉ gor s) ∧ Forall (λ p, p ≠ GTime ∧ p ≠ DNew) (gor s)
  | LRelease n => without n A = [] → cancels s = 0%nat
  | LTimer _ => cancels s = 0%nat ∧ GNew ∉ gor s
  | LDestroy => False
  | _ => True
  end.
(** Something was released. *)
Inductive released (ok : list need → cserver → clabel → Prop) (s0 : cserver) : list need → cserver → Prop :=
| rel_first A s n s' : reached ok s0 A s → ok A s (LRelease n) → cstep s (LRelease n) = Some s' → released ok s0 (without n A) s'
| rel_step A s l s' : released ok s0 A s → ok A s l → cstep s l = Some s' → released ok s0 (held_after A s l) s'.
(** Steps by itself that [quiet] allows. *)
Inductive by_itself (A : list need) : cserver → nat → cserver → Prop :=
| b_nil s : by_itself A s 0 s
| b_step s l s' n s'' : internal l → quiet A s l → cstep s l = Some s' → by_itself A s' n s'' → by_itself A s (S n) s''.
