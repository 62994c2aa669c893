(** Model of /repo/rp: protector.go and request.go.

    A step is what a goroutine does between two points where it may be overtaken:
    everything under one hold of p.mu or r.mu, or one receive. The goroutines
    started but not yet at their first lock, those sleeping in reprocess(), the
    one per granted request (protector.go:307-338) and the time-out goroutines of
    WaitUntilGranted (160-177) are part of the state. Receipts (uuid, 110) are
    numbered in order of creation and taken to be unique; the error of uuid.NewV4
    is left out. Int arithmetic is unbounded. *)
From Coq Require Import ZArith.
From stdpp Require Import base option gmap list.
From RecordUpdate Require Import RecordSet.
Import RecordSetNotations.
Open Scope Z_scope.

(** request.go:32-44 request. The four channels have capacity 1
    (protector.go:116-119); the field says whether one holds a value.
    [rblocked]: a touch() is blocked in its send (84) and so holds r.mu.
    [rselect]: a caller of waitUntilGranted is in its select (63). *)
Record req := Req {
  rtokens : Z; ractive : bool; rdone : bool; rwaiting : bool; rselect : bool;
  rgranted_ch : bool; rcancel_ch : bool; rrelease_ch : bool; rtouch_ch : bool; rblocked : bool }.
Global Instance eta_req : Settable _ :=
  settable! Req <rtokens; ractive; rdone; rwaiting; rselect; rgranted_ch; rcancel_ch; rrelease_ch; rtouch_ch; rblocked>.

(** Where the goroutine of a granted request is: in the select of
    protector.go:310 with the time its limit channel fires, about to call
    r.finish() (315), or about to lock p.mu (322). *)
Inductive wat := WSelect (deadline : Z) | WFinish | WOut.

(** protector.go:31-44 Protector, and the goroutines. [now] the clock; [store]
    all requests made; [nproc] process() calls not yet begun; [nre] reprocess()
    calls not yet begun; [sleepers] when the sleeping reprocess() calls wake;
    [timers] the time-out goroutines; [held] receipts looked up successfully by
    some caller who may still act on them (155, 194, 218, 234); [stuck] a
    goroutine is blocked while holding p.mu. *)
Record pstate := PState {
  pmax : Z; pdelay : Z; ptimeout : Z; now : Z;
  store : gmap nat req; nextid : nat; pending : list nat; reqs : gset nat; used : Z; lastp : option Z;
  reproc : bool; disabled : bool;
  nproc : nat; nre : nat; sleepers : list Z; watch : gmap nat wat; timers : list (nat * Z);
  held : gset nat; stuck : bool }.
Global Instance eta_pstate : Settable _ :=
  settable! PState <pmax; pdelay; ptimeout; now; store; nextid; pending; reqs; used; lastp; reproc; disabled;
                    nproc; nre; sleepers; watch; timers; held; stuck>.

(** protector.go:62-70 New *)
Definition p_new (delay max timeout : Z) : pstate :=
  PState max delay timeout 0 ∅ 0 [] ∅ 0 None false false 0 0 [] ∅ [] ∅ false.

(** What can be seen, with the time where it matters. *)
Inductive event :=
| EReceipt (id : nat) (tokens : Z)       (** Request returned this receipt *)
| EError                                 (** Request returned an error *)
| EGrant (id : nat) (t : Z)              (** process() granted the request *)
| EReturned (id : nat) (t : Z)           (** its tokens went back to the pool *)
| ERelease (id : nat)                    (** a release() that has effect *)
| ETouch (id : nat)                      (** a touch() that has effect *)
| ENoted (id : nat) (t : Z)              (** the request's goroutine receives a touch *)
| EWaited (id : nat) (ok : bool)         (** WaitUntilGranted returned *)
| EChecked (id : nat) (ok more : bool)   (** Granted returned *)
| EShutdown.

(** The steps; the second result of [pstep] is what was seen. A step that is not
    possible does nothing. *)
Inductive pop :=
| PAdvance (d : Z)                       (** time passes *)
| PRequest (n : Z)                       (** protector.go:104-138 *)
| PFind (id : nat)                       (** the lookups at 155-157, 194-196, 217-223, 234-236 *)
| PWait (id : nat) (timeout : option Z)  (** 158-178, request.go:52-62 *)
| PWaitTrue (id : nat)                   (** request.go:64-65 *)
| PWaitFalse (id : nat)                  (** request.go:66-71 *)
| PGranted (id : nat)                    (** 198-204 *)
| PTouch (id : nat)                      (** request.go:77-84 *)
| PRelease (id : nat)                    (** request.go:88-96 *)
| PTimer (i : nat)                       (** 161-176, goroutine [i] of [timers] *)
| PShutdown                              (** 259-268 *)
| PProcess (avail : option Z)            (** 273-341; [avail]: what the callback says, if one is set *)
| PReprocess                             (** 344-364 up to the sleep, or all of it *)
| PWake (i : nat)                        (** 353, 360, 364-366, sleeper [i] *)
| PReadRelease (id : nat)                (** 311 *)
| PReadTouch (id : nat)                  (** 316-318 *)
| PLimit (id : nat)                      (** 313 *)
| PFinish (id : nat)                     (** 315, request.go:111-115 *)
| PReturn (id : nat).                    (** 322-336 *)

(** A change to the request [id] *)
Definition upd (id : nat) (f : req → req) (s : pstate) : pstate := s <| store ::= alter f id |>.

(** request.go:88-96 release, when r.mu is free *)
Definition release (r : req) : req :=
  if negb (ractive r) || rdone r then r else r <| rdone := true |> <| rrelease_ch := true |>.
(** request.go:99-107 grant *)
Definition grant (r : req) : req :=
  let r := r <| ractive := true |> in
  if rwaiting r then r <| rwaiting := false |> <| rgranted_ch := true |> else r.

(** protector.go:104-138 Request *)
Definition request (n : Z) (s : pstate) : pstate * list event :=
  if pmax s <? n then (s, [EError])
  else if stuck s then (s, [])
  else if disabled s then (s, [EError])
  else
    let id := nextid s in
    let s := s <| store ::= <[id := Req n false false false false false false false false false]> |>
               <| nextid ::= S |> <| pending ::= λ l, l ++ [id] |> <| reqs ::= λ m, {[id]} ∪ m |> in
    (match lastp s, pending s with
     | None, [_] => s <| nproc ::= S |>
     | _, _ => s <| nre ::= S |>
     end, [EReceipt id n]).

(** protector.go:158-178 after the lookup, and request.go:52-62 *)
Definition wait (id : nat) (timeout : option Z) (s : pstate) : pstate * list event :=
  match store s !! id with
  | Some r =>
      if rblocked r then (s, []) else
      let s := match timeout with
               | Some t => if 0 <? t then s <| timers ::= λ l, l ++ [(id, now s + t)] |> else s
               | None => s
               end in
      if rdone r || rwaiting r then (s, [EWaited id false])
      else if ractive r then (s, [EWaited id true])
      else (upd id (λ r, r <| rwaiting := true |> <| rselect := true |>) s, [])
  | None => (s, [])
  end.

(** protector.go:161-176, the time-out goroutine. Simplification: if r.mu is not
    free (a blocked touch()), or cancelCh is full but has a reader or will have
    one (every time-out goroutine belongs to a caller on the way to the select),
    the step waits before taking p.mu. Otherwise a send on a full cancelCh blocks
    for ever with p.mu held: of a request that is active or done no caller enters
    the select any more. [filter] stands for the removal of
    the one entry with that id (167-172). *)
Definition timer (i : nat) (s : pstate) : pstate * list event :=
  match timers s !! i with
  | Some (id, t) =>
      match store s !! id with
      | Some r =>
          if stuck s || (now s <? t) || rblocked r || (rcancel_ch r && (rselect r || negb (ractive r || rdone r))) then (s, [])
          else
            let s := s <| timers ::= delete i |> in
            if ractive r && negb (rdone r) then (s, [])
            else
              let s := s <| pending ::= filter (λ j, j ≠ id) |> <| reqs ::= λ m, m ∖ {[id]} |> in
              if rcancel_ch r then (s <| stuck := true |>, [])
              else (upd id (λ r, r <| rcancel_ch := true |>) s, [])
      | None => (s, [])
      end
  | None => (s, [])
  end.

(** protector.go:259-268 Shutdown. Simplification: waits until no request's r.mu
    is held before taking p.mu. *)
Definition shutdown (s : pstate) : pstate * list event :=
  if stuck s || existsb (λ id, match store s !! id with Some r => rblocked r | None => false end) (elements (reqs s)) then (s, [])
  else (s <| disabled := true |>
          <| store ::= map_imap (λ id r, Some (if decide (id ∈ reqs s) then release r else r)) |>
          <| reqs := ∅ |> <| used := 0 |>, [EShutdown]).

(** protector.go:273-341 process; 370-380 availableTokens *)
Definition process (avail : option Z) (s : pstate) : pstate * list event :=
  match nproc s with
  | S np =>
      if stuck s then (s, []) else
      let s := s <| nproc := np |> in
      match pending s with
      | [] => (s, [])
      | id :: rest =>
          if used s =? pmax s then (s, []) else
          match store s !! id with
          | Some r =>
              if match avail with Some a => Z.min a (pmax s) <? rtokens r | None => false end
              then (s <| lastp := Some (now s) |> <| nre ::= S |>, [])
              else if (1 <? rtokens r) && (pmax s - used s <? rtokens r) then (s, [])
              else
                let s := upd id grant s <| pending := rest |> <| used ::= Z.add (rtokens r) |>
                         <| lastp := Some (now s) |> <| watch ::= <[id := WSelect (now s + ptimeout s)]> |> in
                (match rest with [] => s | _ => s <| nre ::= S |> end, [EGrant id (now s)])
          | None => (s, [])
          end
      end
  | O => (s, [])
  end.

(** protector.go:344-364 *)
Definition reprocess (s : pstate) : pstate :=
  match nre s with
  | S n =>
      if stuck s then s else
      let s := s <| nre := n |> in
      if reproc s then s
      else match lastp s with
           | None => s <| reproc := true |> <| sleepers ::= cons (now s + pdelay s) |>
           | Some t =>
               if now s - t <? pdelay s then s <| reproc := true |> <| sleepers ::= cons (t + pdelay s) |>
               else s <| nproc ::= S |>
           end
  | O => s
  end.

(** protector.go:322-336 *)
Definition return_tokens (id : nat) (s : pstate) : pstate * list event :=
  match watch s !! id, store s !! id with
  | Some WOut, Some r =>
      if stuck s then (s, []) else
      let s := s <| used ::= λ u, u - rtokens r |> <| reqs ::= λ m, m ∖ {[id]} |> <| watch ::= delete id |> in
      (match pending s with [] => s | _ => s <| nre ::= S |> end, [EReturned id (now s)])
  | _, _ => (s, [])
  end.

Definition pstep (s : pstate) (o : pop) : pstate * list event :=
  match o with
  | PAdvance d => if d <? 0 then (s, []) else (s <| now ::= Z.add d |>, [])
  | PRequest n => request n s
  | PFind id => if stuck s then (s, []) else if decide (id ∈ reqs s) then (s <| held ::= λ m, {[id]} ∪ m |>, []) else (s, [])
  | PWait id timeout => if decide (id ∈ held s) then wait id timeout s else (s, [])
  | PWaitTrue id =>
      match store s !! id with
      | Some r =>
          if rselect r && rgranted_ch r
          then (upd id (λ r, r <| rselect := false |> <| rgranted_ch := false |>) s, [EWaited id true]) else (s, [])
      | None => (s, [])
      end
  | PWaitFalse id =>
      match store s !! id with
      | Some r =>
          if rselect r && rcancel_ch r && negb (rblocked r)
          then (upd id (λ r, r <| rselect := false |> <| rcancel_ch := false |> <| rdone := true |> <| rwaiting := false |>) s,
                [EWaited id false])
          else (s, [])
      | None => (s, [])
      end
  | PGranted id =>
      if decide (id ∈ held s) then
        match store s !! id with
        | Some r =>
            if rblocked r then (s, [])
            else let ok := ractive r && negb (rdone r) in (s, [EChecked id ok (negb ok && negb (rdone r))])
        | None => (s, [])
        end
      else (s, [])
  | PTouch id =>
      if decide (id ∈ held s) then
        match store s !! id with
        | Some r =>
            if rblocked r || negb (ractive r) || rdone r then (s, [])
            else if rtouch_ch r then (upd id (λ r, r <| rblocked := true |>) s, [ETouch id])
            else (upd id (λ r, r <| rtouch_ch := true |>) s, [ETouch id])
        | None => (s, [])
        end
      else (s, [])
  | PRelease id =>
      if decide (id ∈ held s) then
        match store s !! id with
        | Some r =>
            if rblocked r || negb (ractive r) || rdone r then (s, [])
            else (upd id release s, [ERelease id])
        | None => (s, [])
        end
      else (s, [])
  | PTimer i => timer i s
  | PShutdown => shutdown s
  | PProcess avail => process avail s
  | PReprocess => (reprocess s, [])
  | PWake i =>
      match sleepers s !! i with
      | Some t =>
          if stuck s || (now s <? t) then (s, [])
          else (s <| sleepers ::= delete i |> <| reproc := false |> <| nproc ::= S |>, [])
      | None => (s, [])
      end
  | PReadRelease id =>
      match watch s !! id, store s !! id with
      | Some (WSelect _), Some r =>
          if rrelease_ch r
          then (upd id (λ r, r <| rrelease_ch := false |>) s <| watch ::= <[id := WOut]> |>, []) else (s, [])
      | _, _ => (s, [])
      end
  | PReadTouch id =>
      match watch s !! id, store s !! id with
      | Some (WSelect _), Some r =>
          if rtouch_ch r
          then (upd id (λ r, if rblocked r then r <| rblocked := false |> else r <| rtouch_ch := false |>) s
                  <| watch ::= <[id := WSelect (now s + ptimeout s)]> |>, [ENoted id (now s)]) else (s, [])
      | _, _ => (s, [])
      end
  | PLimit id =>
      match watch s !! id with
      | Some (WSelect t) => if now s <? t then (s, []) else (s <| watch ::= <[id := WFinish]> |>, [])
      | _ => (s, [])
      end
  | PFinish id =>
      match watch s !! id, store s !! id with
      | Some WFinish, Some r =>
          if rblocked r then (s, [])
          else (upd id (λ r, r <| rdone := true |>) s <| watch ::= <[id := WOut]> |>, [])
      | _, _ => (s, [])
      end
  | PReturn id => return_tokens id s
  end.

(** Any interleaving of the goroutines *)
Fixpoint prun (s : pstate) (ops : list pop) : pstate * list event :=
  match ops with
  | [] => (s, [])
  | o :: ops => let '(s, e) := pstep s o in let '(s, es) := prun s ops in (s, e ++ es)
  end.
