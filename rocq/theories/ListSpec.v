(** What the statements about job listings speak of. *)
From Coq Require Import ZArith String Ascii.
From stdpp Require Import base option strings gmap list.
From RecordUpdate Require Import RecordSet.
From Verif Require Import ListModel.
Import RecordSetNotations.
Open Scope Z_scope.

(** the states a job can be in (job.go:55-66) *)
Definition job_states : list string :=
  ["new"; "delayed"; "ready"; "reserved"; "running"; "lost"; "buried"; "dependent"; "complete"; "deleted"; "unknown"]%string.
(** the state a job is listed under: running jobs as reserved, or as lost *)
Definition shown_state (j : ljob) : string :=
  if decide (lstate j = "running") then if llost j then "lost" else "reserved" else lstate j.
(** what sets a group apart *)
Definition kind (j : ljob) : string * Z * string := (shown_state j, lexit j, lreason j).
(** the filter asked for lets a job through *)
Definition listed (o : lopts) (j : ljob) : Prop :=
  (ostate o = "" ∨ ostate o = "deletable" ∧ shown_state j ≠ "complete" ∨ shown_state j = ostate o ∨
   ostate o = "running" ∧ shown_state j = "reserved") ∧
  (oreason o = "" ∨ lreason j = oreason o ∧ lexit j = oexit o).
Global Instance listed_dec o j : Decision (listed o j).
Proof. unfold listed. apply _. Defined.
(** the job as it was before it stood for others *)
Definition plain (j : ljob) : ljob := j <| similar := 0%nat |>.
(** a range loop over the groups meets each once, in whatever order *)
Definition any_order (order : gmap string (list ljob) → list (list ljob)) : Prop := ∀ m, order m ≡ₚ (map_to_list m).*2.
