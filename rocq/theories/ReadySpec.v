(** Vocabulary of the ready-added callback property. *)
From stdpp Require Import base option gmap list.
From Verif Require Import ReadyModel.

(** A goroutine inside the user's callback. *)
Definition in_callback (p : phase) : bool :=
  match p with Calling _ => true | _ => false end.
(** Nothing is left to happen by itself: no caller is about to enter readyAdded
    and every goroutine has ended. *)
Definition settled (s : rstate) : Prop :=
  pending s = 0 ∧ Forall (λ p, p = Finished) (threads s).
(** Steps made by the machinery, not by users of the queue. *)
Definition internal (l : rlabel) : Prop :=
  match l with LPush _ | LTake _ | LTrigger => False | _ => True end.
