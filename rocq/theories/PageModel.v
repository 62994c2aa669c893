(** Model of the messages about changes of state the server sends to the status web page
    (jobqueue/server.go:232-239, 1639-1692) and of what the page makes of them
    (jobqueue/static/js/wr/websocket-handler.js:63-154). *)
From Coq Require Import ZArith String Ascii.
From stdpp Require Import base option strings gmap list.
From Verif Require Import GoHeap QueueModel.
Open Scope Z_scope.

(** server.go:234-239 jstateCount *)
Record message := Message { m_group : string; m_from : string; m_to : string; m_count : Z }.
(** job.go:78-86 subqueueToJobState *)
Definition state_of (q : subq) : string :=
  match q with
  | QNew => "new" | QDelay => "delayed" | QReady => "ready" | QRun => "running" | QBury => "buried" | QDep => "dependent"
  | QRemoved => "complete"
  end%string.
(** server.go:1639-1656: where the jobs of a notification are said to go; [fin] is which
    jobs are complete *)
Definition going_to (fin : N → bool) (to : subq) (data : list N) : string :=
  match to with
  | QRemoved => if existsb fin data then "complete" else "deleted"
  | _ => state_of to
  end%string.
(** server.go:1666-1676: the job is taken for a lost one; [lost] is its Lost at the time the
    callback looks *)
Definition as_lost (lost : N → bool) (from : subq) (d : N) : bool :=
  match from with QRun => lost d | _ => false end.
(** server.go:1660-1679, 1683-1685, 1689-1691: a message for each rep group among these jobs.
    Go goes through the groups in any order, which makes no difference to what is stated. *)
Definition by_group (group : N → string) (from to : string) (data : list N) : list message :=
  (λ g, Message g from to (Z.of_nat (length (filter (λ d, group d = g) data)))) <$> remove_dups (group <$> data).
(** server.go:1623-1692 the changed callback, without the waiting reserve requests (C53) and
    the details of jobs sent to subscribers *)
Definition messages (group : N → string) (fin lost : N → bool) (e : event) : list message :=
  let '(from, to, data) := e in
  let t := going_to fin to data in
  let l := filter (λ d, as_lost lost from d = true) data in
  let nl := filter (λ d, as_lost lost from d = false) data in
  (Message "+all+" (state_of from) t (Z.of_nat (length data) - Z.of_nat (length l)) :: by_group group (state_of from) t nl ++
   match l with
   | [] => []
   | _ => Message "+all+" "lost" t (Z.of_nat (length l)) :: by_group group "lost" t l
   end)%list.

(** websocket-handler.js:67-78, 93-105: the counts of the page, by group and state, and the
    counts it is going to ignore *)
Record page := Page { p_count : gmap (string * string) Z; p_ignore : gmap (string * string) Z }.
(** websocket-handler.js:83-90 *)
Definition from_states : list string := ["delayed"; "dependent"; "ready"; "running"; "lost"; "buried"]%string.
(** websocket-handler.js:108-125: the page has a count for the state *)
Definition has_to (g st : string) : bool :=
  bool_decide (st ∈ from_states) || (bool_decide (st ∈ ["complete"; "deleted"]%string) && negb (String.eqb g "+all+")).
(** websocket-handler.js:93-105: whether the message's count is ignored, and what is ignored
    from then on *)
Definition ignoring (p : page) (m : message) : bool * gmap (string * string) Z :=
  let t := (m_group m, m_to m) in
  match p_ignore p !! t with
  | Some n => if m_count m <=? n then (true, if n - m_count m =? 0 then delete t (p_ignore p) else <[t := n - m_count m]> (p_ignore p))
              else (false, p_ignore p)
  | None => (false, p_ignore p)
  end.
(** websocket-handler.js:63-154 handleStateChangeMessage *)
Definition handle (p : page) (m : message) : page :=
  let f := (m_group m, m_from m) in
  let t := (m_group m, m_to m) in
  let '(ign, i) := ignoring p m in
  let '(c, i) :=
    if bool_decide (m_from m ∈ from_states) then
      let n := default 0 (p_count p !! f) - m_count m in
      if 0 <=? n then (<[f := n]> (p_count p), i)
      else (<[f := 0]> (p_count p), <[f := default 0 (i !! f) + m_count m]> i)
    else (p_count p, i) in
  Page (if negb ign && has_to (m_group m) (m_to m) then <[t := default 0 (c !! t) + m_count m]> c else c) i.
(** websocket-handler.js:35-52: the page after these messages *)
Definition after_messages (ms : list message) : page := fold_left handle ms (Page ∅ ∅).
