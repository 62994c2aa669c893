(** Model of the local scheduler (jobqueue/scheduler/local.go): what running commands
    claim of the machine, and how many of a command are run. *)
From Coq Require Import ZArith.
From stdpp Require Import base option list.
From RecordUpdate Require Import RecordSet.
Import RecordSetNotations.
Open Scope Z_scope.

(** scheduler.go Requirements, the parts local uses: memory in MB and cores in
    thousandths. The code has cores as float64; here the arithmetic is exact. *)
Record lreq := LReq { rram : Z; rcores : Z }.
(** local.go:108-139: what is claimed now, against the maxima (cores in thousandths). *)
Record claims := Claims { lram : Z; lcores : Z; lzero : Z }.
Global Instance eta_claims : Settable _ := settable! Claims <lram; lcores; lzero>.
(** where the one pass of processQueue is: none going on, going through the queue, or
    waiting for the commands it started to claim their resources (local.go:541-736) *)
Inductive lphase := LIdle | LLooping | LWaiting (n : nat).
(** the machine: the claims, commands started whose runCmd has not claimed yet, commands
    that have claimed, the pass, whether it is to be followed by another (s.recall), and
    how many goroutines are about to call processQueue again *)
Record local := Local { lclaims : claims; starting : list lreq; started : list lreq; lphase_ : lphase; lrecall : bool; lagain : nat }.
Global Instance eta_local : Settable _ := settable! Local <lclaims; starting; started; lphase_; lrecall; lagain>.

(** local.go:740-777 canCount. [inf] is what int() makes of an infinite float, from a
    memory requirement of 0; the quotients are exact for numbers below 2^53.
    internal/utils.go:49: ZeroCoreMultiplier is 2. *)
Definition can_count (maxram maxcores inf : Z) (r : lreq) (c : claims) : Z :=
  let n := if bool_decide (rram r = 0) then inf else (maxram - lram c) / rram r in
  let n := if bool_decide (n < 0) then 0 else n in
  if bool_decide (1 ≤ n) then
    let n2 := if bool_decide (rcores r = 0) then maxcores * 2 - lzero c else (maxcores * 1000 - lcores c) / rcores r in
    if bool_decide (n2 < n) then (if bool_decide (n2 < 0) then 0 else n2) else n
  else n.
(** local.go:826-834 (and 437-444 in recover) *)
Definition claim (r : lreq) (c : claims) : claims :=
  let c := c <| lram ::= λ m, m + rram r |> in
  if bool_decide (rcores r = 0) then c <| lzero ::= λ z, z + 1 |> else c <| lcores ::= λ x, x + rcores r |>.
(** local.go:851-858 (and 469-476 in recover) *)
Definition unclaim (r : lreq) (c : claims) : claims :=
  let c := c <| lram ::= λ m, m - rram r |> in
  if bool_decide (rcores r = 0) then c <| lzero ::= λ z, z - 1 |> else c <| lcores ::= λ x, x - rcores r |>.

Inductive levent :=
| LAsk                               (* processQueue is called *)
| LPick (r : lreq) (should inf : Z)  (* the pass comes to a command of which that many should run *)
| LClaim (i : nat)                   (* a started command claims its resources *)
| LFail (i : nat)                    (* a command could not be started *)
| LEnd (i : nat)                     (* a command ends *)
| LReserved                          (* all commands started by the pass have reserved or failed *)
| LTimeout                           (* the pass has waited for that for a minute *)
| LDone                              (* the pass is through the queue *)
| LAgain                             (* a goroutine calls processQueue again *)
| LRecover (r : lreq).               (* recover: a command found running claims *)
(** local.go:541-556 the start of processQueue *)
Definition ask (s : local) : local :=
  match lphase_ s with LIdle => s <| lphase_ := LLooping |> | _ => s <| lrecall := true |> end.
(** local.go:415-497 recover, 541-736 processQueue, 787-862 runCmd, one step of one of
    the goroutines; None: there is no such step now. A recovered command is treated
    as one that has claimed, and ends like it. *)
Definition local_step (maxram maxcores : Z) (e : levent) (s : local) : option local :=
  match e with
  | LAsk => Some (ask s)
  | LPick r should inf =>
      match lphase_ s with
      | LLooping =>
          if bool_decide (should ≤ 0) then Some s else
          let can := can_count maxram maxcores inf r (lclaims s) in
          let can := if bool_decide (should < can) then should else can in
          if bool_decide (can ≤ 0) then Some s else
          let n := Z.to_nat can in
          Some (s <| starting ::= λ l, l ++ repeat r n |> <| lphase_ := LWaiting n |>)
      | _ => None
      end
  | LClaim i =>
      r ← starting s !! i;
      Some (s <| starting ::= delete i |> <| started ::= λ l, l ++ [r] |> <| lclaims ::= claim r |>
              <| lphase_ ::= λ p, match p with LWaiting (S n) => LWaiting n | _ => p end |>)
  | LFail i =>
      r ← starting s !! i;
      Some (s <| starting ::= delete i |> <| lphase_ ::= λ p, match p with LWaiting (S n) => LWaiting n | _ => p end |>)
  | LEnd i => r ← started s !! i; Some (s <| started ::= delete i |> <| lclaims ::= unclaim r |>)
  | LReserved => match lphase_ s with LWaiting O => Some (s <| lphase_ := LLooping |>) | _ => None end
  | LTimeout => match lphase_ s with LWaiting _ => Some (s <| lphase_ := LLooping |>) | _ => None end
  | LDone => match lphase_ s with
             | LLooping => Some (s <| lphase_ := LIdle |> <| lrecall := false |> <| lagain ::= λ n, if lrecall s then S n else n |>)
             | _ => None
             end
  | LAgain => match lagain s with S n => Some (ask (s <| lagain := n |>)) | O => None end
  | LRecover r => Some (s <| started ::= λ l, l ++ [r] |> <| lclaims ::= claim r |>)
  end.
Fixpoint local_run (maxram maxcores : Z) (es : list levent) (s : local) : option local :=
  match es with [] => Some s | e :: es => s ← local_step maxram maxcores e s; local_run maxram maxcores es s end.
(** local.go:179-226 initialize *)
Definition local0 : local := Local (Claims 0 0 0) [] [] LIdle false 0.

(** One command (one key of the queue). local.go:168-175 job: how many are wanted, and
    how many ends are already accounted for by a lower count given to schedule *)
Record kjob := KJob { kcount : Z; kdecs : Z }.
Global Instance eta_kjob : Settable _ := settable! KJob <kcount; kdecs>.
(** the job objects made for the key, the one in the queue, s.running[key], the goroutines
    running the command (each holds on to its job object), and how many were started *)
Record kstate := KState { kjobs : list kjob; kitem : option nat; krunning : Z; kprocs : list nat; kstarted : nat }.
Global Instance eta_kstate : Settable _ := settable! KState <kjobs; kitem; krunning; kprocs; kstarted>.
Inductive kevent := KSchedule (n : Z) | KProcess (can : Z) | KEnd (i : nat) (err : bool).
(** local.go:248-345 schedule, once the requirements were found possible; its priority
    and the pass of processQueue it asks for are left out *)
Definition kschedule (n : Z) (s : kstate) : kstate :=
  match kitem s with
  | None => s <| kjobs ::= λ l, l ++ [KJob n 0] |> <| kitem := Some (length (kjobs s)) |>
  | Some j =>
      let s' := s <| kjobs ::= alter (λ _, KJob n (if bool_decide (n < krunning s) then krunning s - n else 0)) j |> in
      if bool_decide (n = 0) then s' <| kitem := None |> else s'
  end.
(** local.go:604-658 what a pass of processQueue does when it comes to the key; [can] is
    what canCount said *)
Definition kprocess (can : Z) (s : kstate) : kstate :=
  match kitem s with
  | None => s
  | Some j =>
      match kjobs s !! j with
      | None => s
      | Some b =>
          if bool_decide (kcount b = 0 ∧ krunning s = 0) then s <| kitem := None |> else
          let should := kcount b - krunning s in
          if bool_decide (should ≤ 0) then s else
          let can := if bool_decide (should < can) then should else can in
          if bool_decide (can ≤ 0) then s else
          s <| krunning ::= λ r, r + can |> <| kprocs ::= λ l, l ++ repeat j (Z.to_nat can) |> <| kstarted ::= λ n, (n + Z.to_nat can)%nat |>
      end
  end.
(** local.go:668-690 the end of a goroutine; [err]: the command could not be started *)
Definition kend (i : nat) (err : bool) (s : kstate) : option kstate :=
  j ← kprocs s !! i;
  b ← kjobs s !! j;
  let s := s <| kprocs ::= delete i |> <| krunning ::= λ r, if bool_decide (r - 1 ≤ 0) then 0 else r - 1 |> in
  if err then Some s else
  let b := if bool_decide (0 < kdecs b) then b <| kdecs ::= λ d, d - 1 |> else b <| kcount ::= λ c, c - 1 |> in
  let s := s <| kjobs ::= <[j := b]> |> in
  Some (if bool_decide (kcount b ≤ 0) then s <| kitem := None |> else s).
(** local.go:248-345, 541-736: one event for the key *)
Definition kstep (e : kevent) (s : kstate) : option kstate :=
  match e with KSchedule n => Some (kschedule n s) | KProcess can => Some (kprocess can s) | KEnd i err => kend i err s end.
Fixpoint krun (es : list kevent) (s : kstate) : option kstate :=
  match es with [] => Some s | e :: es => s ← kstep e s; krun es s end.
(** local.go:179-226 initialize: nothing known of the command *)
Definition k0 : kstate := KState [] None 0 [] 0.
