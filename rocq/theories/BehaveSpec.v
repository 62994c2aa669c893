(** What the theorems on behaviours speak of. *)
From Coq Require Import NArith String.
From stdpp Require Import base option strings list.
From Verif Require Import BehaveModel.
Open Scope N_scope.

(** A behaviour as documented: for one of the ends that can be asked for, with an action
    that exists and the argument it takes. *)
Definition documented_when (b : beh) : Prop := bwhen b = OnFailure ∨ bwhen b = OnSuccess ∨ bwhen b = N.lor OnFailure OnSuccess ∨ bwhen b = OnExit.
Definition documented_do (b : beh) : Prop :=
  (bdo b = Run ∧ ∃ s, s ≠ ""%string ∧ barg_of b = AStr s) ∨
  (bdo b = CopyToManager ∧ ∃ l, l ≠ [] ∧ barg_of b = AList l) ∨
  (bdo b ∈ [Cleanup; CleanupAll; Remove; Nothing] ∧ barg_of b = ANil).
Definition documented (b : beh) : Prop := documented_when b ∧ documented_do b.

(** What a BehaviourViaJSON that specifies one of its properties asks for. *)
Inductive asks : bvj → list deed → Prop :=
| asks_run s : s ≠ ""%string → asks (Bvj s [] false false false false) [DRun s]
| asks_copy l : l ≠ [] → asks (Bvj "" l false false false false) [DCopy l]
| asks_cleanup : asks (Bvj "" [] true false false false) [DCleanup]
| asks_cleanup_all : asks (Bvj "" [] false true false false) [DCleanupAll]
| asks_remove : asks (Bvj "" [] false false true false) []
| asks_nothing : asks (Bvj "" [] false false false true) [].
(** A list of them asks for all of it, in order. *)
Inductive ask_all : list bvj → list deed → Prop :=
| ask_nil : ask_all [] []
| ask_cons j js d ds : asks j d → ask_all js ds → ask_all (j :: js) (d ++ ds).
(** The behaviours of a list that are for the end [w]. *)
Definition those_for (w : N) (bs : list beh) : list beh := filter (λ b, bwhen b = w) bs.
