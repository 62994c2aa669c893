(** Model of what the status web page can do to jobs (jobqueue/serverWebI.go:253-257,
    356-370, 469-534) and of killing the jobs of hosts (jobqueue/server.go:2276-2311). Jobs are
    those of ServerModel.v; rep groups and fail reasons are inputs, as in RestModel.v. *)
From Coq Require Import ZArith String Ascii.
From stdpp Require Import base option strings gmap list.
From RecordUpdate Require Import RecordSet.
From Verif Require Import GoHeap QueueModel ServerModel ListModel RestModel.
Import RecordSetNotations.
Open Scope Z_scope.

(** serverWebI.go:40-72 jstatusReq, the fields reqToJobs looks at *)
Record web_request := WebRequest { w_group : string; w_key : string; w_exit : Z; w_reason : string }.
(** serverWebI.go:478-483, 496-501: the job with key [k] is in the queue, in one of the
    states allowed, and passes [f] *)
Definition may (allowed : list istate) (s : sstate) (f : job → bool) (k : key) : bool :=
  match find_job k s with
  | Some (it, _, j) => bool_decide (ist it ∈ allowed) && f j
  | None => false
  end.
(** serverWebI.go:469-508 reqToJobs; that the lookup of the rep group has exactly the
    queued jobs of the group is C81. That it sets the jobs' State is left out. *)
Definition req_keys (od : orders) (la : labels) (allowed : list istate) (r : web_request) (s : sstate) : list key :=
  if negb (String.eqb (w_group r) "") then
    filter (λ k, may allowed s (λ j, (jexit j =? w_exit r) && String.eqb (l_reason la k) (w_reason r)) k = true) (group_keys od la s (w_group r))
  else if negb (String.eqb (w_key r) "") then
    filter (λ k, may allowed s (λ _, true) k = true) [w_key r]
  else [].
(** serverWebI.go:365-370, server.go:2286-2306: errors are logged, and the next job is
    killed. The second result is the jobs that were told. *)
Fixpoint kill_each (now : Z) (ks : list key) (s : sstate) : option (sstate * list key * list lcall) :=
  match ks with
  | [] => Some (s, [], [])
  | k :: ks =>
      '(s, r, l) ← s_kill now k s;
      '(s, h, l') ← kill_each now ks s;
      Some (s, match r with SCount (S _) => k :: h | _ => h end, l ++ l')
  end.
(** serverWebI.go:356-370: the requests retry, remove and kill *)
Inductive web_op := WRetry | WRemove | WKill.
(** serverWebI.go:356-370: what they do; server.go:2201-2264 deleteJobs, 2314-2337 kickJobs *)
Definition web_act (now : Z) (od : orders) (la : labels) (o : web_op) (r : web_request) (s : sstate) : option (sstate * list lcall) :=
  match o with
  | WRetry => '(s, _, l) ← s_kick (req_keys od la [SBury] r s) s; Some (s, l)
  | WRemove =>
      let ks := req_keys od la [SBury; SDelay; SDep; SReady] r s in
      '(s, _) ← delete_rounds (S (length ks)) (o_deps od) ks s; Some (s, [])
  | WKill => '(s, _, l) ← kill_each now (req_keys od la [SRun] r s) s; Some (s, l)
  end.

(** server.go:2276-2311 killJobsOnServers; [host] is the jobs' HostID. The state and the
    number of tries of the jobs returned are left out. *)
Definition kill_on (now : Z) (od : orders) (la : labels) (host : key → string) (ids : list string) (s : sstate)
  : option (sstate * list key * list lcall) :=
  match ids with
  | [] => Some (s, [], [])
  | _ =>
      running ← limit_keys od la (LOpts 0 0 "" 0 "running" false) s (current_keys od s);
      lost ← limit_keys od la (LOpts 0 0 "" 0 "lost" false) s (current_keys od s);
      kill_each now (filter (λ k, host k ∈ ids) (running ++ lost)) s
  end.

(** serverWebI.go:516-521: reserved jobs are shown as running ones *)
Definition shown_state (st : string) : string := if String.eqb st "reserved" then "running"%string else st.
(** serverWebI.go:514-523: one job is counted *)
Definition count_one (m : gmap string nat) (st : string) : gmap string nat :=
  <[shown_state st := S (default 0%nat (m !! shown_state st))]> m.
(** serverWebI.go:512-534 webInterfaceStatusSendGroupStateCount: the counts sent for jobs
    in these states *)
Definition state_counts (sts : list string) : gmap string nat := fold_left count_one sts ∅.
(** serverWebI.go:253-257 "current": those of all jobs of the queue *)
Definition all_counts (od : orders) (s : sstate) : gmap string nat :=
  state_counts (omap (λ k, '(it, _, j) ← find_job k s; Some (item_state it j)) (current_keys od s)).
