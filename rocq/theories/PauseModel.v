(** Model of pausing, resuming, draining and stopping the server: jobqueue/server.go
    Drain, Pause, Resume and shutdown, and the requests of jobqueue/serverCLI.go that use
    them, interleaved at the lock of the server's state (ssmutex). *)
From Coq Require Import ZArith.
From stdpp Require Import base option list.
From RecordUpdate Require Import RecordSet.
Import RecordSetNotations.
Open Scope Z_scope.

(** server.go:85-87 ServerInfo.Mode *)
Inductive smode := MNormal | MPause | MDrain.
Global Instance smode_eq_dec : EqDecision smode.
Proof. solve_decision. Defined.
(** server.go:368-390: the fields up, drain, ServerInfo.Mode and pauseRequests of Server *)
Record sstate := SState { up : bool; drain : bool; mode : smode; pauses : Z }.
Global Instance eta_sstate : Settable _ := settable! SState <up; drain; mode; pauses>.
(** What a method answers: a bool, or ErrNoServer or ErrBeingDrained (errors.go) *)
Inductive answer := AOk (b : bool) | ANoServer | ABeingDrained.

(** server.go:722 and after: a server just started *)
Definition fresh : sstate := SState true false MNormal 0.
(** server.go:1088-1103 Pause *)
Definition pause (s : sstate) : sstate * answer :=
  if negb (up s) then (s, ANoServer) else
  if drain s && bool_decide (mode s = MDrain) then (s, ABeingDrained) else
  let s := s <| drain := true |> <| mode := MPause |> <| pauses := pauses s + 1 |> in
  (s, AOk (bool_decide (pauses s = 1))).
(** server.go:1109-1131 Resume; the ready added callback it triggers is in ReadyModel.v *)
Definition resume (s : sstate) : sstate * answer :=
  if negb (up s) then (s, ANoServer) else
  if negb (drain s) then (s, AOk false) else
  if bool_decide (mode s = MDrain) then (s, ABeingDrained) else
  let s := s <| pauses := pauses s - 1 |> in
  if bool_decide (pauses s > 0) then (s, AOk false) else
  let s := if bool_decide (pauses s < 0) then s <| pauses := 0 |> else s in
  (s <| drain := false |> <| mode := MNormal |>, AOk true).
(** server.go:1051-1062 Drain, without its goroutine; the bool says whether that is started *)
Definition set_drain (s : sstate) : sstate * answer :=
  if negb (up s) then (s, ANoServer) else
  if drain s && bool_decide (mode s = MDrain) then (s, AOk false) else
  (s <| drain := true |> <| mode := MDrain |>, AOk true).
(** server.go:3136-3158: the first part of shutdown; false: it was not up *)
Definition shut (s : sstate) : sstate * bool :=
  if negb (up s) then (s, false) else (s <| up := false |> <| drain := true |> <| mode := MDrain |>, true).
(** server.go:3273-3277: the last part of shutdown *)
Definition shut_end (s : sstate) : sstate := s <| drain := false |>.

(** The methods called one at a time *)
Inductive call := CPause | CResume | CDrain | CStop.
(** one call; Stop (server.go:1045) calls shutdown and answers nothing *)
Definition do_call (s : sstate) (c : call) : sstate * answer :=
  match c with
  | CPause => pause s
  | CResume => resume s
  | CDrain => set_drain s
  | CStop => let '(s, b) := shut s in (if b then shut_end s else s, AOk b)
  end.
(** a sequence of them, with the answers *)
Fixpoint do_calls (s : sstate) (cs : list call) : sstate * list answer :=
  match cs with
  | [] => (s, [])
  | c :: cs => let '(s, a) := do_call s c in let '(s, l) := do_calls s cs in (s, a :: l)
  end.

(** The requests of clients that look at or change this state *)
Inductive request := QPause | QResume | QDrain | QStop | QMod | QReserve.
Global Instance request_eq_dec : EqDecision request.
Proof. solve_decision. Defined.
(** How a request was answered: not at all (the server had been stopped), with an error,
    without one, with a job *)
Inductive reply := RClosed | RError | ROk | RJob.
Global Instance reply_eq_dec : EqDecision reply.
Proof. solve_decision. Defined.
(** Where a goroutine is; each step ends with the release of ssmutex *)
Inductive pc :=
  | PNew (q : request)      (* about to look at up and drain, serverCLI.go:52-55 *)
  | PPause                  (* about to Pause, serverCLI.go:90 *)
  | PPauseBack              (* about to undo a further Pause, serverCLI.go:105 *)
  | PResume                 (* about to Resume, serverCLI.go:116 *)
  | PDrain                  (* about to Drain, serverCLI.go:129 *)
  | PMod                    (* about to Pause, serverCLI.go:480 *)
  | PModifying              (* changing jobs, serverCLI.go:494-589, then to Resume at 592 *)
  | PTake                   (* about to reserve, serverCLI.go:197-231: may wait for long *)
  | PDraining               (* the goroutine of Drain, server.go:1063-1082, waiting *)
  | PStop                   (* about to shut down, serverCLI.go:138 or server.go:1079 *)
  | PStopping               (* shutting down, server.go:3159-3272 *)
  | PEnd (r : reply).
Global Instance pc_eq_dec : EqDecision pc.
Proof. solve_decision. Defined.
(** the server, its goroutines (numbered by when they started), how many jobs are running *)
Record system := System { srv : sstate; gos : list pc; running : nat }.
Global Instance eta_system : Settable _ := settable! System <srv; gos; running>.
Definition started : system := System fresh [] 0.
(** serverCLI.go:57-66: what is next for a request, knowing up and drain as they were *)
Definition dispatch (s : sstate) (q : request) : pc :=
  if negb (up s) && negb (drain s) then PEnd RClosed else
  match q with
  | QPause => PPause
  | QResume => PResume
  | QDrain => PDrain
  | QStop => PStop
  | QMod => PMod
  | QReserve => if drain s then PEnd ROk else PTake
  end.
(** an error is told to the client *)
Definition reply_of (a : answer) : reply := match a with AOk _ => ROk | _ => RError end.
(** One step of the goroutine at [p]: the new state, where it is then, a goroutine it
    started, and what is done to the number of running jobs. [found]: the queue gives a
    job to a reserve. The answers of shutdown requests (at once, serverCLI.go:138) and of
    drain requests (whose goroutine goes on) are left out. *)
Definition go (s : sstate) (running : nat) (p : pc) (found : bool) : option (sstate * pc * nat) :=
  match p with
  | PNew q => Some (s, dispatch s q, running)
  | PPause => let '(s, a) := pause s in
      Some (s, match a with AOk false => PPauseBack | a => PEnd (reply_of a) end, running)
  | PPauseBack => let '(s, _) := resume s in Some (s, PEnd ROk, running)
  | PResume => let '(s, a) := resume s in Some (s, PEnd (reply_of a), running)
  | PDrain => let '(s, a) := set_drain s in
      Some (s, match a with AOk true => PDraining | a => PEnd (reply_of a) end, running)
  | PMod => let '(s, a) := pause s in
      Some (s, match a with AOk _ => PModifying | a => PEnd (reply_of a) end, running)
  | PModifying => let '(s, _) := resume s in Some (s, PEnd ROk, running)
  | PTake => Some (s, if found then PEnd RJob else PEnd ROk, if found then S running else running)
  | PDraining => if bool_decide (running = O) then Some (s, PStop, running) else None
  | PStop => let '(s, b) := shut s in Some (s, if b then PStopping else PEnd ROk, running)
  | PStopping => Some (shut_end s, PEnd ROk, running)
  | PEnd _ => None
  end.
(** A request arrives; a goroutine makes a step; a running job ends *)
Inductive event := ERequest (q : request) | EGo (i : nat) (found : bool) | EJobEnds.
Definition step (y : system) (e : event) : option system :=
  match e with
  | ERequest q => Some (y <| gos := gos y ++ [PNew q] |>)
  | EGo i found => p ← gos y !! i; '(s, p', n) ← go (srv y) (running y) p found;
      Some (System s (<[i := p']> (gos y)) n)
  | EJobEnds => match running y with O => None | S n => Some (y <| running := n |>) end
  end.
(** an interleaving *)
Fixpoint run (y : system) (es : list event) : option system :=
  match es with [] => Some y | e :: es => y ← step y e; run y es end.
