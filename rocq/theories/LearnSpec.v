(** What C55 and C56 speak of. *)
From Coq Require Import ZArith String.
From stdpp Require Import base option strings list sorting.
From Verif Require Import LearnModel.
Open Scope Z_scope.

(** ** C55 *)
(** the different values stored for a group, in ascending order *)
Definition ascending (l : list Z) : Prop := ∀ i j x y, (i < j)%nat → l !! i = Some x → l !! j = Some y → x < y.
Definition values_of (log : list (string * Z)) (g : string) (vs : list Z) : Prop :=
  ascending vs ∧ ∀ v, v ∈ vs ↔ (g, v) ∈ log.
(** no other group with values has a name that can be taken for [g] or for what begins
    with [g] *)
Definition alone (log : list (string * Z)) (g : string) : Prop :=
  ∀ g' v text rest, (g', v) ∈ log → g' +:+ "_::_" +:+ text = g +:+ rest → g' = g.
(** PeakRAM, PeakDisk and seconds: int64 and not below zero *)
Definition usual (log : list (string * Z)) : Prop := ∀ g v, (g, v) ∈ log → 0 ≤ v < 2 ^ 63.
(** [n] is [x] rounded up to a multiple of [by_] *)
Definition rounded_up (by_ x n : Z) : Prop := (by_ | n) ∧ x ≤ n < x + by_.
(** [above] out of [all] is a twentieth, but not less than five. The little that is left
    open beyond a million values is the precision of float32. *)
Definition twentieth (above all : Z) : Prop :=
  5 ≤ above ∧ (above = 5 ∨ 20 * above ≤ all + all / 2 ^ 20) ∧ all - all / 2 ^ 20 ≤ 20 * (above + 1).

(** ** C56 *)
(** the requirements the user gave *)
Definition fresh (n : need) (over : Z) : learner := Learner n None over FOther 0 0 0.
(** passes that got recommendations from the database *)
Definition good_pass (e : levent) : Prop := match e with LPass None => False | _ => True end.
