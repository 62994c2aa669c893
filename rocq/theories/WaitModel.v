(** Model of the holding back of reserve requests while jobs are added or kicked:
    racPending, racRunning and waitingReserves of jobqueue/server.go and serverCLI.go,
    with the goroutines that set and clear them, interleaved at rpmutex, ssmutex and the
    mutexes of the queue. *)
From stdpp Require Import base option list.
From RecordUpdate Require Import RecordSet.
Import RecordSetNotations.

(** Where the goroutine of queue/queue.go:276-310 that calls the ready added callback of
    server.go:1290-1616 is. There is never more than one that has not finished (C16), so
    it is a value and not a list; [CIdle]: readyAddedCbRunning is false. *)
Inductive cbphase :=
| CIdle
| CSpawned     (* started, drain and up not looked at yet, server.go:1296-1301 *)
| CChecked     (* neither paused nor stopped, racRunning not set yet, 1303-1305 *)
| CBody        (* until the deferred function, 1306-1316 *)
| CReturned    (* the callback has returned, queue.go:289 *)
| CPausing.    (* in the pause before a recall, queue.go:301 *)
Global Instance cbphase_eq_dec : EqDecision cbphase.
Proof. solve_decision. Defined.

(** Where the goroutine of an add request (createJobs, server.go:1918-1937) or a kick
    request (kickJobs, 2315-2334) is. The rest of these requests does not concern the
    fields. *)
Inductive pc :=
| QDeps (n : nat)     (* about to set racPending in updateJobDependencies, 1986-1988 *)
| QUpdates (n : nat)  (* that many Updates to come, 1989-2003 *)
| QEnq                (* about to set racPending in enqueueItems, 1841-1843 *)
| QMany               (* about to AddMany, 1844 *)
| QFail               (* about to clear racPending, 1846-1848 *)
| KNext (n : nat)     (* that many jobs to kick: about to set racPending, 2316-2318 *)
| KKick (n : nat)     (* about to Kick, 2319; [n] jobs to kick after this one *)
| KFail (n : nat)     (* about to clear racPending, 2330-2332 *)
| QDone.

(** racPending, racRunning and waitingReserves (server.go:379-381; the channels by
    number), whether the server is paused (drain), the callback goroutine and
    readyAddedCbRecall, callers of readyAdded that have not entered it, goroutines of the
    changed callback for a sub-queue other than ready (queue.go:334) that have not come
    to their deferred function, the requests, and the number of the next channel. *)
Record wstate := WState {
  racPending : bool; racRunning : bool; waiting : list nat; paused : bool;
  cb : cbphase; recall : bool; callers : nat; changing : nat; gos : list pc; next : nat }.
Global Instance eta_wstate : Settable _ :=
  settable! WState <racPending; racRunning; waiting; paused; cb; recall; callers; changing; gos; next>.
(** a server just started *)
Definition w_new : wstate := WState false false [] false CIdle false 0 0 [] 0.

(** What a call to the queue did: whether an item came into the ready sub-queue, so that
    readyAdded is called; whether one came into another, so that the changed callback is
    called for that; whether it failed. Neither: nothing changed. *)
Record outcome := Outcome { o_ready : bool; o_other : bool; o_err : bool }.
(** The calls of queue.go:324-336 changed and 265 readyAdded at the end of an operation *)
Definition after (o : outcome) (s : wstate) : wstate :=
  s <| callers ::= λ n, if o_ready o then S n else n |> <| changing ::= λ n, if o_other o then S n else n |>.
(** server.go:1307-1315, 1628-1634: the flags down, the channels closed *)
Definition let_go (s : wstate) : wstate := s <| racPending := false |> <| waiting := [] |>.

(** One step of a request; [o] is what the queue does, if it is called. The calls of an
    AddMany that fails (the queue is closed) and of a Kick that fails do nothing. *)
Definition go (p : pc) (o : outcome) (s : wstate) : option (wstate * pc) :=
  match p with
  | QDeps n => Some (s <| racPending := true |>, QUpdates n)
  | QUpdates O => Some (s, QEnq)
  | QUpdates (S n) => if o_err o then Some (s, QDone) else Some (after o s, QUpdates n)
  | QEnq => Some (s <| racPending := true |>, QMany)
  | QMany => if o_err o then Some (s, QFail) else Some (after o s, QDone)
  | QFail => Some (s <| racPending := false |>, QDone)
  | KNext O => Some (s, QDone)
  | KNext (S n) => Some (s <| racPending := true |>, KKick n)
  | KKick n => if o_err o then Some (s, KFail n)
               else Some (after (if o_ready o then Outcome true false false else Outcome false true false) s, KNext n)
  | KFail n => Some (s <| racPending := false |>, KNext n)
  | QDone => None
  end.

Inductive wlabel :=
| WReserve               (* a reserve request comes to serverCLI.go:200-208 *)
| WAdd (n : nat)         (* an add request that updates [n] jobs comes to server.go:1927 *)
| WKick (n : nat)        (* a request to kick [n] jobs comes to server.go:2315 *)
| WGo (i : nat) (o : outcome)   (* the next step of such a request *)
| WEvent (o : outcome)   (* anything else is done to the queue *)
| WPause | WResume       (* server.go:1088-1131, by the outermost callers *)
| WEnter                 (* a caller's critical section in readyAdded, queue.go:267-276 *)
| WCheck                 (* the callback looks at drain, server.go:1296-1301 *)
| WBegin                 (* server.go:1303-1305 *)
| WEnd                   (* server.go:1306-1316 *)
| WDecide                (* queue.go:289-296 *)
| WRecall                (* queue.go:302-306 *)
| WChanged.              (* server.go:1626-1636 *)

(** One step; None: not enabled. *)
Definition wstep (s : wstate) (l : wlabel) : option wstate :=
  match l with
  | WReserve => Some ((if racPending s || racRunning s then s <| waiting ::= λ w, w ++ [next s] |> else s) <| next ::= S |>)
  | WAdd n => Some (s <| gos ::= λ g, g ++ [QDeps n] |>)
  | WKick n => Some (s <| gos ::= λ g, g ++ [KNext n] |>)
  | WGo i o => p ← gos s !! i; '(s, p) ← go p o s; Some (s <| gos ::= <[i := p]> |>)
  | WEvent o => Some (after o s)
  | WPause => Some (s <| paused := true |>)
  | WResume => if paused s then Some (s <| paused := false |> <| callers ::= S |>) else Some s
  | WEnter =>
      match callers s with
      | O => None
      | S n => if decide (cb s = CIdle) then Some (s <| callers := n |> <| cb := CSpawned |>)
               else Some (s <| callers := n |> <| recall := true |>)
      end
  | WCheck => match cb s with CSpawned => Some (s <| cb := if paused s then CReturned else CChecked |>) | _ => None end
  | WBegin => match cb s with CChecked => Some (s <| cb := CBody |> <| racRunning := true |>) | _ => None end
  | WEnd => match cb s with CBody => Some (let_go s <| racRunning := false |> <| cb := CReturned |>) | _ => None end
  | WDecide => match cb s with CReturned => Some (s <| cb := if recall s then CPausing else CIdle |>) | _ => None end
  | WRecall => match cb s with CPausing => Some (s <| cb := CIdle |> <| recall := false |> <| callers ::= S |>) | _ => None end
  | WChanged =>
      match changing s with
      | O => None
      | S n => Some ((if racPending s then let_go s else s) <| changing := n |>)
      end
  end.
(** A schedule *)
Fixpoint wrun (s : wstate) (ls : list wlabel) : option wstate :=
  match ls with
  | [] => Some s
  | l :: ls => s ← wstep s l; wrun s ls
  end.
