(** What C57 speaks of. *)
From Coq Require Import ZArith String.
From stdpp Require Import base option strings gmap list.
From Verif Require Import RacModel.
Open Scope Z_scope.

(** how many ready and running jobs a group has *)
Definition ready_in (name : string) (ready : list rjob) : list rjob := filter (λ j, jgroup j = name) ready.
Definition num_ready (name : string) (ready : list rjob) : Z := Z.of_nat (length (ready_in name ready)).
Definition num_running (name : string) (running : list string) : Z := Z.of_nat (length (filter (λ n, n = name) running)).
(** how many of the ready jobs the limits leave room for; below 0 means no limit *)
Definition startable (limit ready : Z) : Z := if decide (limit < 0) then ready else Z.min limit ready.
(** the number of runners a group should have *)
Definition wanted (p : rpass) (name : string) : Z :=
  num_running name (prunning p) + startable (room (premaining p) name) (num_ready name (pready p)).
Definition has_jobs (p : rpass) (name : string) : Prop := 0 < num_running name (prunning p) + num_ready name (pready p).
Fixpoint max_prio (l : list rjob) : Z := match l with [] => 0 | j :: l => Z.max (jprio j) (max_prio l) end.
(** the number of runners the scheduler has in mind for a group *)
Definition in_mind (b : gmap string (Z * Z)) (name : string) : Z := default 0 (fst <$> b !! name).
(** priorities are a uint8 *)
Definition usual (p : rpass) : Prop := ∀ j, j ∈ pready p → 0 ≤ jprio j.
