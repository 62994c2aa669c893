(** Model of Client.Execute (jobqueue/client.go:563-1534) and of Behaviours.Trigger
    (jobqueue/behaviours.go): the calling goroutine, the goroutine that touches the job and
    the one that watches the command, interleaved at their mutexes and channels; what the
    machine, the command and the manager do is given by the labels of the steps.

    Simplifications: the preparations are steps that work or fail; that cmd.Wait returns
    (with the pipes at their end) is one step; killing the command and its children is one
    step; peaks of memory found after the end, disk usage, output and the messages of
    errors are left out (of myerr it is kept whether it is nil when behaviours are
    triggered, and what it is at the end as far as the runner looks at it). *)
From Coq Require Import ZArith.
From stdpp Require Import base option list.
From RecordUpdate Require Import RecordSet.
Import RecordSetNotations.
Open Scope Z_scope.

(** ** Behaviours *)
(** behaviours.go:39-54: OnExit, OnSuccess and OnFailure are bits; When is any combination *)
Record trigger := Trigger { on_exit : bool; on_success : bool; on_failure : bool }.
(** behaviours.go:61-101; the arguments are left out *)
Inductive action := CleanupAll | Cleanup | Run | CopyToManager | Nothing | Remove.
(** behaviours.go:104-108 *)
Record behaviour := Behaviour { b_when : trigger; b_do : action; b_id : nat }.
(** behaviours.go:112-131: what is carried out when triggered with that status *)
Definition b_trigger (bit : trigger → bool) (b : behaviour) : list nat :=
  if bit (b_when b) then match b_do b with Remove | Nothing => [] | _ => [b_id b] end else [].
(** behaviours.go:319-348 Behaviours.Trigger *)
Definition bs_trigger (success : bool) (bs : list behaviour) : list nat :=
  flat_map (b_trigger (if success then on_success else on_failure)) bs ++ flat_map (b_trigger on_exit) bs.
(** behaviours.go:351-359 RemovalRequested *)
Definition removal_requested (bs : list behaviour) : bool :=
  existsb (λ b, match b_do b with Remove => true | _ => false end) bs.

(** ** Execute *)
(** client.go:56-78: the reasons *)
Inductive reason := FCwd | FMount | FEnv | FJson | FDocker | FStart | FUpload | FCPerm | FCFound | FCExit | FRAM | FDisk | FTime | FSignal | FKilled | FExit | FAbnormal.
(** what the manager is told, with the exit code if the command ran *)
Inductive report := Archive (code : Z) | Release (code : option Z) (r : reason) | Bury (code : option Z) (r : reason).
(** what Execute returns: nil; an Error with that reason, or with ErrStopReserving; another error *)
Inductive result := RNil | RReason (r : reason) | RStop | ROther.
(** how the command ended: it exited, it was ended by a signal, cmd.Wait failed otherwise *)
Inductive status := Exited (n : Z) | Signalled | Odd.

(** The preparations, in order *)
Inductive setup :=
| SPrepare      (* 575-613: the command line, the pipes *)
| SCwd          (* 618-629 *)
| SDir          (* 631-649 *)
| STouch        (* 654-691: the goroutine that touches is started *)
| SLsf          (* 697-709 *)
| SLinks        (* 720-723 *)
| SMount        (* 746-764 *)
| SEnv          (* 813-826 *)
| SJson         (* 871-879 *)
| SDocker       (* 902-912 *)
| SContainers   (* 920-929 *)
| SStart        (* 942-956 *)
| SStarted.     (* 961-979 *)
Definition next_setup (k : setup) : option setup :=
  match k with
  | SPrepare => Some SCwd | SCwd => Some SDir | SDir => Some STouch | STouch => Some SLsf | SLsf => Some SLinks
  | SLinks => Some SMount | SMount => Some SEnv | SEnv => Some SJson | SJson => Some SDocker
  | SDocker => Some SContainers | SContainers => Some SStart | SStart => Some SStarted | SStarted => None
  end.

(** What happens that others see. *)
Inductive event :=
| EMount | EUnmount
| EStarted             (* the command was started *)
| EKill                (* killCmd, or cmd.Process.Kill *)
| EBehave (success : bool) (ran : list nat)
| ETouch               (* the manager was told that the job is alive *)
| EReport (r : report) (did : bool). (* the manager was told; whether it did it *)

(** The calling goroutine *)
Inductive mpc :=
| MSetup (k : setup)
| MRun                    (* 1222-1224: waiting for the command *)
| MStop (st : status)     (* 1226 *)
| MFin (st : status)      (* 1227 *)
| MLock (st : status)     (* 1228 *)
| MKillDone (st : status) (* 1232-1234 *)
| MEnd (st : status)      (* 1236-1431 *)
| MReport (r : report) (e : result) (problems : bool) (* the loop 1454-1514 *)
| MRet (e : result).
(** The one that touches *)
Inductive tpc :=
| TNone | TLoop
| TKill        (* 669: about to RLock *)
| TOld         (* 658-660: about to send to killDoneCh *)
| TNew         (* 1085: about to lock stateMutex *)
| TNew2        (* 1088: about to kill *)
| TNew3        (* 1089: about to send to killDoneCh *)
| TStopC       (* 674: about to send to stopChecking *)
| TEnd.
(** The one that watches *)
Inductive cpc :=
| CNone
| CNew         (* about to lock wkbsMutex, 1083 *)
| CLoop        (* 1096-1098 *)
| CSig         (* killed the command for a signal, about to lock, 1102 *)
| CDisk        (* killed it for want of disk space, about to lock, 1118 *)
| CDone        (* about to send to finishedChecking, 1218 *)
| CEnd.

(** What of the job matters here. *)
Record econf := EConf {
  e_ram : Z;                   (* Requirements.RAM *)
  e_machine : Z;               (* the memory of the machine; 0: not known *)
  e_behaviours : list behaviour;
  e_until : Z;                 (* UntilBuried *)
  e_noretries : Z;             (* NoRetriesOverWalltime *)
}.
Record exec := Exec {
  x_main : mpc; x_touch : tpc; x_check : cpc;
  x_smutex : bool;             (* the calling goroutine has stateMutex *)
  x_installed : bool;          (* whenKilledByServer is the one of 1084-1090 *)
  x_killdone : nat;            (* what is in killDoneCh, stopChecking and stopTouching *)
  x_stopc : nat; x_stopt : nat;
  x_peak : Z;
  x_ranMem : bool; x_ranTime : bool; x_ranDisk : bool; x_signalled : bool; x_killCalled : bool;
  x_running : bool;            (* the command runs *)
  x_err : bool;                (* myerr is not nil, before behaviours are triggered *)
  x_log : list event }.        (* the latest last *)
Global Instance eta_exec : Settable _ :=
  settable! Exec <x_main; x_touch; x_check; x_smutex; x_installed; x_killdone; x_stopc; x_stopt; x_peak;
                  x_ranMem; x_ranTime; x_ranDisk; x_signalled; x_killCalled; x_running; x_err; x_log>.
Definition x_new : exec := Exec (MSetup SPrepare) TNone CNone false false 0 0 0 0 false false false false false false false [].

Inductive touched := TouchOk | TouchErr | TouchKill.
Inductive reply := Worked | Permanent | Lost | GaveUp.
Inductive xlabel :=
| XSetup (ok : bool) (did : bool)   (* the next preparation works or fails; if it fails and the manager is told, whether that works *)
| XWait (st : status)               (* cmd.Wait returns *)
| XMain (upload : bool) (wall : Z)  (* the next step of the calling goroutine; whether unmounting fails to upload; the wall time *)
| XReply (r : reply) (did : bool)   (* a try to tell the manager *)
| XTouch (r : touched)              (* the touch ticker; what the manager answers *)
| XStopTouch                        (* the touching goroutine receives from stopTouching *)
| XT                                (* its next step after it was told to kill *)
| XSignal                           (* the watching goroutine receives a signal *)
| XTick (nospace : bool) (mem : option Z) (* resourceTicker: whether the disk is full; the memory used, if that is known *)
| XStopCheck                        (* it receives from stopChecking *)
| XC (late : bool)                  (* its next step; whether the time is over *)
| XTrouble.                         (* one of the errors that are kept in myerr while the command runs *)

Definition logged (e : event) (s : exec) : exec := s <| x_log ::= λ l, l ++ [e] |>.
(** The deferred functions; 689-691, 1229 *)
Definition returned (e : result) (s : exec) : exec :=
  s <| x_stopt ::= λ n, match x_touch s with TNone => n | _ => S n end |> <| x_main := MRet e |> <| x_smutex := false |>.
(** What a failed preparation does. Burying and releasing are tried once. *)
Definition setup_failed (k : setup) (did : bool) (bs : list behaviour) (s : exec) : exec :=
  let tell r s := logged (EReport r did) s in
  let stop s := s <| x_stopt ::= S |> in
  returned ROther
    match k with
    | SPrepare | STouch | SLinks => s
    | SCwd | SDir => tell (Bury None FCwd) s
    | SLsf => tell (Bury None FCwd) (stop s)
    | SMount => tell (Bury None FMount) (stop s)
    | SEnv => logged EUnmount (tell (Bury None FEnv) (stop s))
    | SJson => tell (Bury None FJson) s
    | SDocker | SContainers => tell (Bury None FDocker) (stop s)
    | SStart => logged EUnmount (tell (Release None FStart) (stop s))
    | SStarted => logged EUnmount (logged (EBehave false (bs_trigger false bs)) (logged EKill (s <| x_running := false |>)))
    end.
(** What a preparation does that works. *)
Definition setup_done (k : setup) (s : exec) : exec :=
  match k with
  | STouch => s <| x_touch := TLoop |>
  | SMount => logged EMount s
  | SStart => logged EStarted (s <| x_running := true |>)
  | SStarted => s <| x_check := CNew |>
  | _ => s
  end.

(** 1271-1428: what to tell the manager *)
Definition decide_end (cf : econf) (st : status) (upload : bool) (wall : Z) (s : exec) : report :=
  match st with
  | Odd => Release (Some 255) FAbnormal
  | Exited 0 => if upload then Release (Some 0) FUpload else Archive 0
  | _ =>
      let code := match st with Exited n => n | _ => -1 end in
      if decide (code = 126) then Bury (Some code) FCPerm
      else if decide (code = 127) then Bury (Some code) FCFound
      else if decide (code = 128) then Bury (Some code) FCExit
      else if x_ranMem s then Release (Some code) FRAM
      else if x_ranDisk s then Release (Some code) FDisk
      else if x_signalled s then Release (Some code) (if x_ranTime s then FTime else FSignal)
      else if x_killCalled s then Bury (Some code) FKilled
      else if (1 <? e_until cf) && (0 <? e_noretries cf) && (e_noretries cf <? wall) then Bury (Some code) FExit
      else Release (Some code) FExit
  end.
(** myerr after that *)
Definition error_end (st : status) (s : exec) : result :=
  match st with
  | Odd => ROther
  | Exited 0 => RNil
  | _ =>
      let code := match st with Exited n => n | _ => -1 end in
      if decide (126 ≤ code ≤ 128) then ROther
      else if x_ranMem s then RReason FRAM
      else if x_ranDisk s then RReason FDisk
      else if x_signalled s then RReason (if x_ranTime s then FTime else FSignal)
      else if x_killCalled s then RReason FKilled
      else ROther
  end.
(** 1191-1203; ClientPercentMemoryKill is 90 (98) *)
Definition kill_for_memory (cf : econf) (peak : Z) : bool := (0 <? e_machine cf) && (e_machine cf / 100 * 90 <=? peak).

(** One step; None: not enabled. Lines as given above; the retry loop 1454-1523. *)
Definition xstep (cf : econf) (s : exec) (l : xlabel) : option exec :=
  match l with
  | XSetup ok did =>
      match x_main s with
      | MSetup k =>
          if ok then Some (setup_done k s <| x_main := match next_setup k with Some k => MSetup k | None => MRun end |>)
          else match k with STouch => None (* cannot fail *) | _ => Some (setup_failed k did (e_behaviours cf) s) end
      | _ => None
      end
  | XTrouble => match x_main s with MRun => Some (s <| x_err := true |>) | _ => None end
  | XWait st => match x_main s with MRun => Some (s <| x_main := MStop st |> <| x_running := false |>) | _ => None end
  | XMain upload wall =>
      match x_main s with
      | MStop st => if decide (x_stopc s < 2)%nat then Some (s <| x_main := MFin st |> <| x_stopc ::= S |>) else None
      | MFin st => match x_check s with CDone => Some (s <| x_main := MLock st |> <| x_check := CEnd |>) | _ => None end
      | MLock st => Some (s <| x_main := if x_killCalled s then MKillDone st else MEnd st |> <| x_smutex := true |>)
      | MKillDone st => match x_killdone s with S n => Some (s <| x_main := MEnd st |> <| x_killdone := n |>) | O => None end
      | MEnd st =>
          if decide (x_stopt s < 2)%nat then
            let success := match st with Exited 0 => negb (x_err s) | _ => false end in
            let s := logged EUnmount (logged (EBehave success (bs_trigger success (e_behaviours cf))) s) in
            Some (s <| x_main := MReport (decide_end cf st upload wall s) (error_end st s) false |> <| x_stopt ::= S |>)
          else None
      | _ => None
      end
  | XReply r did =>
      match x_main s with
      | MReport rep e problems =>
          match r with
          | Worked => Some (returned (if problems then match e with RNil => RStop | _ => ROther end else e) (logged (EReport rep true) s))
          | Permanent => Some (returned ROther (logged (EBehave false (bs_trigger false (e_behaviours cf))) (logged (EReport rep false) s)))
          | Lost => Some (logged (EReport rep did) s <| x_main := MReport rep e true |>)
          | GaveUp => Some (returned ROther (logged (EBehave false (bs_trigger false (e_behaviours cf))) s))
          end
      | _ => None
      end
  | XTouch r =>
      match x_touch s with
      | TLoop => match r with TouchOk => Some (logged ETouch s) | TouchErr => Some s | TouchKill => Some (s <| x_touch := TKill |>) end
      | _ => None
      end
  | XStopTouch =>
      match x_touch s, x_stopt s with TLoop, S n => Some (s <| x_touch := TEnd |> <| x_stopt := n |>) | _, _ => None end
  | XT =>
      match x_touch s with
      | TKill => Some (s <| x_touch := if x_installed s then TNew else TOld |>)
      | TOld => if decide (x_killdone s < 1)%nat then Some (s <| x_touch := TStopC |> <| x_killdone ::= S |>) else None
      | TNew => if x_smutex s then None else Some (s <| x_touch := TNew2 |> <| x_killCalled := true |>)
      | TNew2 => Some (logged EKill s <| x_touch := TNew3 |>)
      | TNew3 => if decide (x_killdone s < 1)%nat then Some (s <| x_touch := TStopC |> <| x_killdone ::= S |>) else None
      | TStopC => if decide (x_stopc s < 2)%nat then Some (s <| x_touch := TEnd |> <| x_stopc ::= S |>) else None
      | _ => None
      end
  | XSignal => match x_check s with CLoop => Some (logged EKill s <| x_check := CSig |>) | _ => None end
  | XTick nospace mem =>
      match x_check s with
      | CLoop =>
          if nospace then Some (logged EKill s <| x_check := CDisk |>)
          else if x_smutex s then None
          else match mem with
               | Some mem =>
                   if x_peak s <? mem then
                     let s := s <| x_peak := mem |> in
                     if e_ram cf <? mem then
                       let s := s <| x_ranMem := true |> in
                       if kill_for_memory cf mem then Some (logged EKill s <| x_check := CDone |>) else Some s
                     else Some s
                   else Some s
               | None => Some s
               end
      | _ => None
      end
  | XStopCheck => match x_check s, x_stopc s with CLoop, S n => Some (s <| x_check := CDone |> <| x_stopc := n |>) | _, _ => None end
  | XC late =>
      match x_check s with
      | CNew => (* Lock waits for the reader *)
          match x_touch s with
          | TOld | TNew | TNew2 | TNew3 | TStopC => None
          | _ => Some (s <| x_check := CLoop |> <| x_installed := true |>)
          end
      | CSig => if x_smutex s then None else Some (s <| x_check := CDone |> <| x_ranTime ::= orb late |> <| x_signalled := true |>)
      | CDisk => if x_smutex s then None else Some (s <| x_check := CDone |> <| x_ranDisk := true |>)
      | _ => None
      end
  end.
Fixpoint xrun (cf : econf) (s : exec) (ls : list xlabel) : option exec :=
  match ls with
  | [] => Some s
  | l :: ls => s ← xstep cf s l; xrun cf s ls
  end.

(** cmd/runner.go:249-266: after Execute has returned that, the runner reserves no more *)
Definition runner_stops (e : result) : bool :=
  match e with RReason FSignal | RStop => true | _ => false end.
