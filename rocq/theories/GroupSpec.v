(** What the statements about scheduler groups and Schedule calls speak of. *)
From Coq Require Import ZArith String.
From stdpp Require Import base option strings gmap list.
From Verif Require Import GroupModel.
Open Scope Z_scope.

(** all that a sequence of drops takes away: drops below 1 take nothing *)
Fixpoint total (drops : list Z) : Z := match drops with [] => 0 | d :: ds => Z.max 0 d + total ds end.
(** a group after a sequence of drops *)
Definition after (drops : list Z) (g : sgroup) : sgroup := foldl (λ g d, (decrement d g).2) g drops.
(** the counts of a group that were scheduled, in order *)
Definition scheduled (name : string) (es : list geffect) : list Z :=
  omap (λ e, match e with GSchedule n c => if decide (n = name) then Some c else None | GTrigger => None end) es.
(** the drops of the calls for a group *)
Definition drops_of (name : string) (calls : list (string * option Z)) : list Z :=
  omap (λ c, if decide (c.1 = name) then Some (default 1 c.2) else None) calls.

(** the counts of a group after each of a sequence of drops *)
Definition counts (drops : list Z) (g : sgroup) : list Z := (λ k, gcount (after (take (S k) drops) g)) <$> seq 0 (length drops).
(** the numbers of a list that differ from the one before, the first being compared with [c] *)
Fixpoint news (c : Z) (l : list Z) : list Z :=
  match l with [] => [] | x :: l => if decide (x = c) then news c l else x :: news x l end.

(** The calls users made, and those for one command. *)
Definition made (es : list sevent) : list call := omap (λ e, match e with SCall c => Some c | _ => None end) es.
Definition of_cmd (cmd : string) (cs : list call) : list call := filter (λ c, ccmd c = cmd) cs.
(** Every call of Schedule for a command finds no goroutine that is yet to call it again. *)
Fixpoint no_overtaking (cmd : string) (es : list sevent) (s : sched) : Prop :=
  match es with
  | [] => True
  | e :: es => (∀ c, e = SCall c → ccmd c = cmd → of_cmd cmd (recalls s) = []) ∧
               ∀ s', sched_step e s = Some s' → no_overtaking cmd es s'
  end.
(** Nothing is going on for a command. *)
Definition quiet (cmd : string) (s : sched) : Prop := of_cmd cmd (running s) = [] ∧ of_cmd cmd (recalls s) = [].
