(** Vocabulary of the container/heap property: what a heap is. *)
From Coq Require Import ZArith.
From stdpp Require Import base option gmap list.
From Verif Require Import GoHeap.

(** Less is a strict weak order. *)
Definition weak_order (less : nat → nat → bool) : Prop :=
  (∀ a b, less a b = true → less b a = false) ∧
  (∀ a b c, less a b = false → less b c = false → less a c = false).
(** No duplicates, and every element knows its position. *)
Definition indexed (q : arrq) : Prop :=
  NoDup (arr q) ∧ ∀ i x, arr q !! i = Some x → aix q !! x = Some (Z.of_nat i).
(** No child precedes its parent. *)
Definition ordered (less : nat → nat → bool) (l : list nat) : Prop :=
  ∀ i j x y, (j = 2 * i + 1 ∨ j = 2 * i + 2) → l !! i = Some x → l !! j = Some y → less y x = false.
