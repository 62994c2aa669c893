(** What the statements about the status web page speak of. *)
From Coq Require Import ZArith String Ascii.
From stdpp Require Import base option strings gmap list.
From RecordUpdate Require Import RecordSet.
From Verif Require Import GoHeap QueueModel ServerModel ServerSpec RestModel RestSpec WebModel.
Import RecordSetNotations.
Open Scope Z_scope.

(** The request is about the job: it is in one of these states, and the request names
    its rep group, its exit code and why it failed, or no rep group and its key. *)
Definition asked (la : labels) (sts : list istate) (r : web_request) (s : sstate) (k : key) : Prop :=
  ∃ i j, seen s k = Some (i, j) ∧ i ∈ sts ∧
    (w_group r ≠ ""%string ∧ l_group la k = w_group r ∧ jexit j = w_exit r ∧ l_reason la k = w_reason r ∨
     w_group r = ""%string ∧ w_key r ≠ ""%string ∧ w_key r = k).
(** The job has been told to stop, or, if it was lost, runs no more. *)
Definition stopping (s s' : sstate) (k : key) : Prop :=
  ∃ j, seen s k = Some (SRun, j) ∧
    (jlost j = false → seen s' k = Some (SRun, j <| jkilled := true |>)) ∧
    (jlost j = true → ∃ i j', seen s' k = Some (i, j') ∧ i ≠ SRun).
(** The job is in the queue again, with all of its tries. *)
Definition retried (s s' : sstate) (k : key) : Prop :=
  ∃ j i j', seen s k = Some (SBury, j) ∧ seen s' k = Some (i, j') ∧ (i = SReady ∨ i = SDep) ∧
    juntil j' = ((jretries j + 1) mod 256)%N ∧ jretries j' = jretries j.
(** the state of a job on the page *)
Definition on_page (s : sstate) (k : key) (st : string) : Prop :=
  ∃ i j, seen s k = Some (i, j) ∧
    match i with
    | SDelay => st = "delayed" | SReady => st = "ready" | SBury => st = "buried" | SDep => st = "dependent" | SRemoved => False
    | SRun => st = if jlost j then "lost" else "running"
    end%string.
