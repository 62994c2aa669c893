(** Vocabulary of property C53. *)
From stdpp Require Import base option list.
From Verif Require Import WaitModel.

(** Nothing is going on in the server: every add and kick request has been dealt with, and
    no callback of the queue is running or to be run. (Reserve requests may be held.) *)
Definition at_rest (s : wstate) : Prop :=
  callers s = 0 ∧ cb s = CIdle ∧ changing s = 0 ∧ Forall (λ p, p = QDone) (gos s).
(** What the server does by itself: everything but new requests and other events. *)
Definition internal (l : wlabel) : Prop :=
  match l with WReserve | WAdd _ | WKick _ | WEvent _ | WPause | WResume => False | _ => True end.
(** No call of an add or kick request to the queue fails, and every add request puts at
    least one job in the queue that was not there. *)
Definition fruitful (s : wstate) (l : wlabel) : Prop :=
  match l with
  | WGo i o => o_err o = false ∧ (gos s !! i = Some QMany → o_ready o = true ∨ o_other o = true)
  | _ => True
  end.
(** A schedule all of whose steps are of that kind. *)
Inductive steps (P : wstate → wlabel → Prop) : wstate → list wlabel → wstate → Prop :=
| steps_nil s : steps P s [] s
| steps_cons s l s' ls s'' : P s l → wstep s l = Some s' → steps P s' ls s'' → steps P s (l :: ls) s''.
(** Jobs are announced: the last of these was a request saying that jobs are to come, and
    not the end of a callback (of either kind) or a request finding that they do not. *)
Definition announces (s : wstate) (l : wlabel) : option bool :=
  match l with
  | WGo i _ =>
      match gos s !! i with
      | Some (QDeps _) | Some QEnq | Some (KNext (S _)) => Some true
      | Some QFail | Some (KFail _) => Some false
      | _ => None
      end
  | WEnd | WChanged => Some false
  | _ => None
  end.
Fixpoint announced (b : bool) (s : wstate) (ls : list wlabel) : bool :=
  match ls with
  | [] => b
  | l :: ls => match wstep s l with Some s' => announced (default b (announces s l)) s' ls | None => b end
  end.
