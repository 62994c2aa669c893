(** What the statements about the counts of the status web page speak of. *)
From Coq Require Import ZArith String Ascii.
From stdpp Require Import base option strings gmap list.
From Verif Require Import GoHeap QueueModel PageModel.
Open Scope Z_scope.

(** the states of jobs in the queue *)
Definition queued_state (st : string) : Prop :=
  (st = "delayed" ∨ st = "dependent" ∨ st = "ready" ∨ st = "running" ∨ st = "lost" ∨ st = "buried")%string.
(** By how much a message says the number of jobs of a group in a state rises. *)
Definition rise (g st : string) (m : message) : Z :=
  if decide (m_group m = g) then
    (if decide (m_to m = st) then m_count m else 0) - (if decide (m_from m = st) then m_count m else 0)
  else 0.
Fixpoint risen (g st : string) (ms : list message) : Z :=
  match ms with [] => 0 | m :: ms => rise g st m + risen g st ms end.
(** the count the page shows *)
Definition shows (p : page) (g st : string) (n : Z) : Prop := default 0 (p_count p !! (g, st)) = n.
(** how many of the jobs have the property *)
Definition how_many (P : N → Prop) `{∀ d, Decision (P d)} (data : list N) : Z := Z.of_nat (length (filter P data)).
(** the state jobs in a sub-queue are in, if they are not lost *)
Definition called (q : subq) (st : string) : Prop :=
  match q with
  | QNew => st = "new" | QDelay => st = "delayed" | QReady => st = "ready" | QRun => st = "running" | QBury => st = "buried"
  | QDep => st = "dependent" | QRemoved => False
  end%string.
(** The job was in that state, as far as the callback could see. *)
Definition left_state (lost : N → bool) (from : subq) (st : string) (d : N) : Prop :=
  if decide (from = QRun ∧ lost d = true) then st = "lost"%string else called from st.
Global Instance called_dec q st : Decision (called q st).
Proof. destruct q; cbn [called]; apply _. Defined.
Global Instance left_state_dec lost from st d : Decision (left_state lost from st d).
Proof. unfold left_state. destruct (decide _); apply _. Defined.
(** All the messages sent in the course of these notifications: those of the notifications,
    whatever the callback sees, and those of jobs that get lost or turn up again
    (server.go:1827-1828, serverCLI.go:338-339). *)
Inductive told : list event → list message → Prop :=
| told_none : told [] []
| told_event group fin lost e es ms : (∀ d, group d ≠ "+all+"%string) → told es ms → told (e :: es) (messages group fin lost e ++ ms)
| told_lost g es ms : g ≠ "+all+"%string → told es ms →
    told es (Message "+all+" "running" "lost" 1 :: Message g "running" "lost" 1 :: ms)
| told_back g es ms : g ≠ "+all+"%string → told es ms →
    told es (Message "+all+" "lost" "running" 1 :: Message g "lost" "running" 1 :: ms).
