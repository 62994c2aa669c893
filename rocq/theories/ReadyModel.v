(** Model of the ready-added callback machinery of the queue
    (/repo/queue/queue.go:241-312): goroutines interleaving at the granularity
    of the two mutexes. *)
From stdpp Require Import base option gmap list.
From RecordUpdate Require Import RecordSet.
Import RecordSetNotations.

(** Where a goroutine started by readyAdded (queue.go:276-310) is. *)
Inductive phase :=
| Spawned                 (** started, queue.mutex.RLock (277) not yet taken *)
| Calling (d : gset nat)  (** in readyAddedCb with this data (286) *)
| Returned                (** callback returned, mutex (289) not yet taken *)
| Pausing                 (** decided to recall: in <-time.After (301) *)
| Finished.               (** returned *)

(** The fields of Queue concerned (queue.go:160-189) and the threads.
    [pending] counts the callers that have come to readyAdded but not taken
    readyAddedCbMutex (267) yet; each pushed its item to the ready sub-queue
    before (queue.go:472, 605, 794, 1043, 1125, 1202, 1265, 1357), was
    TriggerReadyAddedCallback (258), or is the deferred recall (305).
    [ready] is what the ready sub-queue holds (items by identity), [shown] the
    data last handed to the callback. *)
Record rstate := RState {
  ready : gset nat; pending : nat; running : bool; recall : bool;
  threads : list phase; shown : gset nat }.
Global Instance eta_rstate : Settable _ :=
  settable! RState <ready; pending; running; recall; threads; shown>.

(** queue.go:215-240 New: nothing ready, no callback running *)
Definition r_new : rstate := RState ∅ 0 false false [] ∅.

(** Atomic steps. *)
Inductive rlabel :=
| LPush (xs : gset nat)  (** items become ready; the operation then calls readyAdded *)
| LTake (xs : gset nat)  (** items leave ready (Reserve, Remove, Update, Destroy) *)
| LTrigger               (** TriggerReadyAddedCallback, queue.go:257-259 *)
| LEnter                 (** some caller's critical section, queue.go:267-276 *)
| LSnap (i : nat)        (** goroutine i reads the ready data and calls back, 277-286 *)
| LReturn (i : nat)      (** goroutine i's callback returns, 286 *)
| LDecide (i : nat)      (** goroutine i's critical section after the callback, 289-296 *)
| LRecall (i : nat).     (** goroutine i's critical section after the pause, 302-306;
                             its deferred readyAdded is then a pending caller *)

(** queue.go:265-312 readyAdded, callback set. None: not enabled. *)
Definition rstep (s : rstate) (l : rlabel) : option rstate :=
  match l with
  | LPush xs => Some (s <| ready ::= λ r, r ∪ xs |> <| pending ::= S |>)
  | LTake xs => Some (s <| ready ::= λ r, r ∖ xs |>)
  | LTrigger => Some (s <| pending ::= S |>)
  | LEnter =>
      match pending s with
      | O => None
      | S n =>
          if running s then Some (s <| pending := n |> <| recall := true |>)
          else Some (s <| pending := n |> <| running := true |>
                       <| threads ::= λ ts, ts ++ [Spawned] |>)
      end
  | LSnap i =>
      match threads s !! i with
      | Some Spawned => Some (s <| threads ::= <[i := Calling (ready s)]> |> <| shown := ready s |>)
      | _ => None
      end
  | LReturn i =>
      match threads s !! i with
      | Some (Calling _) => Some (s <| threads ::= <[i := Returned]> |>)
      | _ => None
      end
  | LDecide i =>
      match threads s !! i with
      | Some Returned =>
          if recall s then Some (s <| threads ::= <[i := Pausing]> |>)
          else Some (s <| running := false |> <| threads ::= <[i := Finished]> |>)
      | _ => None
      end
  | LRecall i =>
      match threads s !! i with
      | Some Pausing =>
          Some (s <| running := false |> <| recall := false |> <| pending ::= S |>
                  <| threads ::= <[i := Finished]> |>)
      | _ => None
      end
  end.
(** A schedule: any interleaving of enabled steps. *)
Fixpoint rrun (s : rstate) (ls : list rlabel) : option rstate :=
  match ls with
  | [] => Some s
  | l :: ls => s ← rstep s l; rrun s ls
  end.
