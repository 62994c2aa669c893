(** What is said about pausing. *)
From Coq Require Import ZArith.
From stdpp Require Import base option list.
From Verif Require Import PauseModel.

(** a reserve that arrives now may get a job *)
Definition reservable (s : sstate) : Prop := up s = true ∧ drain s = false.
(** how many pauses are to be undone after these calls: a resume undoes one if there is one *)
Definition depth (cs : list call) : nat :=
  foldl (λ d c, match c with CPause => S d | CResume => pred d | _ => d end) 0%nat cs.
(** the requests to pause, resume and modify as users see them: one resume undoes all pauses *)
Definition wanted_paused (qs : list request) : bool :=
  foldl (λ b q, match q with QPause => true | QResume => false | _ => b end) false qs.
(** the requests of an interleaving *)
Definition requests (es : list event) : list request :=
  omap (λ e, match e with ERequest q => Some q | _ => None end) es.
(** all requests have been answered *)
Definition quiet (y : system) : Prop := Forall (λ p, ∃ r, p = PEnd r) (gos y).
(** a request arrives only when all before it have been answered *)
Definition one_at_a_time (es : list event) : Prop :=
  ∀ es1 q es2 y, es = es1 ++ ERequest q :: es2 → run started es1 = Some y → quiet y.
