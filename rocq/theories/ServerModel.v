(** Model of the jobqueue server's job life cycle: the client requests of
    jobqueue/serverCLI.go, the functions of jobqueue/server.go they call, and the
    buckets of jobqueue/db.go that decide what is recovered after a crash. The
    queue is the model of QueueModel.v, called through [step].

    Simplifications: a request is one step (interleavings inside a handler are
    not modelled, except that background database writes land later, in any
    order or not at all, and that a crash can happen between the durable writes
    of a request); the limiter's answer is an input of the reserving step and the
    calls made to the limiter are an output; job requirements, behaviours, rep
    groups, std output, scheduler counts, jmod and the web interface are left
    out; the queue is not destroyed while requests are served. *)
From Coq Require Import ZArith String Ascii.
From stdpp Require Import base option strings gmap list.
From RecordUpdate Require Import RecordSet.
From Verif Require Import GoHeap QueueModel.
Import RecordSetNotations.
Open Scope Z_scope.

(** jobqueue/dependency.go:92-95 Dependency: a dep group or (the key of) a job *)
Inductive dependency := DGroup (g : string) | DJob (k : key).

(** jobqueue/job.go:54-67, the values that Job.State takes in the server
    ([JNew] also stands for the empty string of a job never given one) *)
Inductive jstate := JNew | JReady | JDelayed | JRunning | JBuried | JComplete.
Global Instance jstate_eq_dec : EqDecision jstate.
Proof. solve_decision. Defined.

(** jobqueue/job.go:102-345 Job, the fields that decide its life cycle. Times are
    nanoseconds with 0 Go's zero time; client ids are numbers with 0 the zero
    UUID; Retries and UntilBuried are uint8. Key() (job.go:857-880) is a function
    of fields that do not change here, and is a field. *)
Record job := Job {
  jkey : key;
  jretries : N;
  juntil : N;
  jreserved : N;
  jstart : Z;
  jend : Z;
  jexited : bool;
  jexit : Z;
  jkilled : bool;
  jlost : bool;
  jst : jstate;
  jattempts : N;
  jprio : N;
  jlimits : list string;
  jsched : string;
  jincr : list string;
  jdepgroups : list string;
  jdeps : list dependency;
}.
Global Instance eta_job : Settable _ :=
  settable! Job <jkey; jretries; juntil; jreserved; jstart; jend; jexited; jexit; jkilled;
                 jlost; jst; jattempts; jprio; jlimits; jsched; jincr; jdepgroups; jdeps>.

(** What the codec stores (db.go:489-495 and others): unexported fields
    (schedulerGroup, killCalled, incrementedLimitGroups, job.go:331-342) are left
    out and are zero when read back. *)
Definition encode (j : job) : job :=
  j <| jsched := "" |> <| jkilled := false |> <| jincr := [] |>.

(** jobqueue/db.go buckets: jobslive, jobscomplete, the dep group lookups
    (bucketDTK, group and key of its members) and the reverse ones (bucketRDTK,
    group and key of the jobs that depend on it), and the writes started in
    goroutines (updateJobAfterExit, updateJobAfterChange) that have not landed. *)
Record db := Db {
  live : gmap key job;
  complete : gmap key job;
  dtk : gset (string * key);
  rdtk : gset (string * key);
  pend : list (key * job);
}.
Global Instance eta_db : Settable _ := settable! Db <live; complete; dtk; rdtk; pend>.

(** jobqueue/server.go:395-450 Server: queue, the *Job values that item data
    points to, the next pointer, and the database. *)
Record sstate := SState { sq : qstate; sjobs : gmap N job; snext : N; sdb : db }.
Global Instance eta_sstate : Settable _ := settable! SState <sq; sjobs; snext; sdb>.

(** A call to the limiter: a granted Increment, a Decrement. *)
Inductive lcall := CInc (gs : list string) | CDec (gs : list string).

(** The Err* constants of the answers (client.go, server.go) *)
Inductive serr := EBadRequest | EBadJob | EMustReserve | EInternal | EQueueClosed.
Inductive sres :=
| SOk
| SErr (e : serr)
| SNothing                        (* reserve: no job *)
| SReserved (k : key)
| SKillCalled (b : bool)          (* touch *)
| SAdded (added dups already : nat)
| SCount (n : nat).               (* kick, delete: jobs affected; kill: 0 or 1 *)
Definition soutcome : Type := sstate * sres * list lcall.

(** server.go:106 ServerItemTTR (a variable; its initial value) *)
Definition item_ttr : Z := 60 * 1000000000.

(** A queue call made by the server. *)
Definition qdo (o : op) (s : sstate) : option (sstate * qres) :=
  '(q, r, _) ← step (sq s) o; Some (s <| sq := q |>, r).
(** Mutation through a *Job. *)
Definition set_job (p : N) (f : job → job) (s : sstate) : sstate :=
  s <| sjobs ::= alter f p |>.
(** A new *Job. *)
Definition new_job (j : job) (s : sstate) : N * sstate :=
  (snext s, s <| sjobs ::= <[snext s := j]> |> <| snext ::= N.succ |>).
(** s.q.Get(key) and item.Data().( *Job): item, pointer to the job, job *)
Definition find_job (k : key) (s : sstate) : option (item * N * job) :=
  x ← items (sq s) !! k;
  it ← objs (sq s) !! x;
  j ← sjobs s !! idata it;
  Some (it, idata it, j).

(** serverCLI.go:753-770 getij *)
Definition getij (c : N) (k : key) (checkRunning : bool) (s : sstate) : serr + (item * N * job) :=
  match find_job k s with
  | None => inl EBadJob
  | Some (it, p, j) =>
      if checkRunning && bool_decide (ist it ≠ SRun) then inl EBadJob
      else if (c =? jreserved j)%N then inr (it, p, j) else inl EMustReserve
  end.

(** db.go:1048-1131 updateJobAfterExit, 1136-1180 updateJobAfterChange: the job
    as it is now will be written. *)
Definition write_behind (k : key) (j : job) (s : sstate) : sstate :=
  s <| sdb ::= λ d, d <| pend ::= λ l, l ++ [(k, encode j)] |> |>.

(** strings.Split(s, sep) for a one byte separator *)
Fixpoint split_on (c : ascii) (s : string) : list string :=
  match s with
  | EmptyString => [""%string]
  | String a s =>
      if (a =? c)%char then ""%string :: split_on c s
      else match split_on c s with
           | [] => [String a ""]
           | w :: ws => String a w :: ws
           end
  end.
(** serverCLI.go:929-935 schedGroupToLimitGroups; none for the empty group (899) *)
Definition sched_limits (g : group) : list string :=
  if decide (g = ""%string) then []
  else match split_on "~" g with
       | [_; lgs] => split_on "," lgs
       | _ => []
       end.
(** strings.Join(l, sep) *)
Fixpoint join_with (sep : string) (l : list string) : string :=
  match l with
  | [] => ""
  | [w] => w
  | w :: ws => w ++ sep ++ join_with sep ws
  end%string.
(** job.go:878-884 generateSchedulerGroup; [req] is the stringified requirements *)
Definition sched_group (req : string) (lgs : list string) : string :=
  (req ++ match lgs with [] => "" | _ => "~" ++ join_with "," lgs end)%string.

(** serverCLI.go:244-263 the job is made fresh for the client *)
Definition reserve_for (c : N) (j : job) : job :=
  j <| jreserved := c |> <| jexited := false |> <| jstart := 0 |> <| jend := 0 |> <| jexit := -1 |>.

(** serverCLI.go:191-273 "reserve" with reserveWithLimits (893-924). [granted] is
    the answer of limiter.Increment, [delay] the result of calculateItemDelay
    (784-794). A waiting Reserve is a later request. *)
Definition s_reserve (now : Z) (c : N) (g : group) (granted : bool) (delay : Z) (s : sstate) : option soutcome :=
  if (c =? 0)%N then Some (s, SErr EBadRequest, [])
  else
    let lims := sched_limits g in
    if bool_decide (lims ≠ []) && negb granted then Some (s, SNothing, [])
    else
      let inc := match lims with [] => [] | _ => [CInc lims] end in
      let dec := match lims with [] => [] | _ => [CDec lims] end in
      '(s, r) ← qdo (OReserve now g false) s;
      match r with
      | RItem x =>
          it ← objs (sq s) !! x;
          let s := match lims with [] => s | _ => set_job (idata it) (λ j, j <| jincr := lims |>) s end in
          let s := set_job (idata it) (reserve_for c) s in
          '(s, _) ← qdo (OSetDelay now (ikey it) delay) s;
          Some (s, SReserved (ikey it), inc)
      | RErr ENothingReady => Some (s, SNothing, inc ++ dec)
      | _ => Some (s, SErr EQueueClosed, inc ++ dec)
      end.

(** serverCLI.go:274-304 "jstart"; [ok]: the request has a pid and a host *)
Definition s_start (now : Z) (c : N) (k : key) (ok : bool) (s : sstate) : option soutcome :=
  match getij c k true s with
  | inl e => Some (s, SErr e, [])
  | inr (it, p, j) =>
      if negb ok then Some (s, SErr EBadRequest, [])
      else
        let j := j <| jstart := now |> <| jend := 0 |> <| jattempts ::= N.succ |> <| jkilled := false |>
                   <| jlost := false |> <| jst := JRunning |> in
        Some (write_behind k j (set_job p (λ _, j) s), SOk, [])
  end.

(** serverCLI.go:305-343 "jtouch" (until the server is shut down: killRunners is
    false) *)
Definition s_touch (now : Z) (c : N) (k : key) (s : sstate) : option soutcome :=
  match getij c k true s with
  | inl e => Some (s, SErr e, [])
  | inr (it, p, j) =>
      if jkilled j then Some (s, SKillCalled true, [])
      else
        '(s, r) ← qdo (OTouch now (ikey it)) s;
        match r with
        | ROk => Some (if jlost j then set_job p (λ j, j <| jlost := false |> <| jend := 0 |>) s else s,
                       SKillCalled false, [])
        | _ => Some (s, SErr EInternal, [])
        end
  end.

(** client.go JobEndState: Exited, Exitcode, EndTime *)
Record endstate := EndState { e_exited : bool; e_exit : Z; e_end : Z }.

(** job.go:845-853 decrementLimitGroups *)
Definition decrement_limits (j : job) : job * list lcall :=
  match jincr j with
  | [] => (j, [])
  | gs => (j <| jincr := [] |>, [CDec gs])
  end.
(** job.go:813-838 updateAfterExit *)
Definition update_after_exit (jes : option endstate) (j : job) : job * list lcall :=
  if jexited j then (j, [])
  else
    let '(j, l) := decrement_limits j in
    match jes with
    | Some e => if e_exited e
                then (j <| jexited := true |> <| jexit := e_exit e |> <| jend := e_end e |>, l)
                else (j, l)
    | None => (j, l)
    end.

(** db.go:660-736 archiveJob: one transaction *)
Definition db_archive (k : key) (j : job) (d : db) : db :=
  d <| live ::= delete k |> <| complete ::= <[k := encode j]> |>.

(** serverCLI.go:344-390 "jarchive"; [ord] is the order in which Remove visits
    the dependants *)
Definition s_archive (c : N) (k : key) (jes : option endstate) (ord : list key) (s : sstate) : option soutcome :=
  match getij c k true s with
  | inl e => Some (s, SErr e, [])
  | inr (it, p, j) =>
      let '(j, l) := update_after_exit jes j in
      let s := set_job p (λ _, j) s in
      if negb (jexited j) || negb (jexit j =? 0) || (jstart j =? 0) || (jend j =? 0)
      then Some (s, SErr EBadRequest, l)
      else
        let j := j <| jst := JComplete |> in
        let s := set_job p (λ _, j) s in
        let s := s <| sdb ::= db_archive (jkey j) j |> in
        '(s, r) ← qdo (ORemove (jkey j) ord) s;
        match r with
        | ROk => Some (s, SOk, l)
        | _ => Some (s, SErr EInternal, l)
        end
  end.

(** server.go:2077-2145 releaseJob, from 2118 on *)
Definition after_release (p : N) (jes : option endstate) (force : bool) (s : sstate) : option soutcome :=
  j ← sjobs s !! p;
  let '(j, l) := update_after_exit jes j in
  let j := if force then j <| juntil := 0%N |>
           else if jstart j =? 0 then j
           else j <| juntil ::= λ n, ((n + 255) mod 256)%N |> in
  let j := j <| jst := if (juntil j =? 0)%N then JBuried else JDelayed |> in
  Some (write_behind (jkey j) j (set_job p (λ _, j) s), SOk, l).
(** server.go:2077-2145 releaseJob. Not modelled: deleteJobIfRequested (2108). *)
Definition release_job (now : Z) (p : N) (jes : option endstate) (force : bool) (s : sstate) : option soutcome :=
  j ← sjobs s !! p;
  let bury := force || (negb (jstart j =? 0) && (juntil j =? 1)%N) in
  let k := jkey j in
  match items (sq s) !! k with
  | None => Some (s, SErr EInternal, [])
  | Some x =>
      it ← objs (sq s) !! x;
      if bury then
        if decide (ist it = SBury) then
          if decide (jst j = JBuried) then Some (s, SOk, []) else after_release p jes force s
        else
          '(s, r) ← qdo (OBury k) s;
          match r with ROk => after_release p jes force s | _ => Some (s, SErr EInternal, []) end
      else if decide (ist it = SDelay) then
        if decide (jst j = JDelayed) then Some (s, SOk, []) else after_release p jes force s
      else
        '(s, r) ← qdo (ORelease now k) s;
        match r with ROk => after_release p jes force s | _ => Some (s, SErr EInternal, []) end
  end.
(** serverCLI.go:391-407 "jrelease" ([force] false), 408-424 "jbury" ([force]
    true); a missing JobEndState is an empty one *)
Definition s_release (now : Z) (c : N) (k : key) (jes : option endstate) (force : bool) (s : sstate) : option soutcome :=
  match getij c k false s with
  | inl e => Some (s, SErr e, [])
  | inr (it, p, j) => release_job now p jes force s
  end.

(** server.go:2316-2337, one iteration of kickJobs *)
Definition kick_one (acc : option (sstate * nat)) (p : N) : option (sstate * nat) :=
  '(s, n) ← acc;
  j ← sjobs s !! p;
  '(s, r) ← qdo (OKick (jkey j)) s;
  match r with
  | ROk =>
      let j := j <| juntil := ((jretries j + 1) mod 256)%N |> <| jst := JReady |> in
      Some (write_behind (jkey j) j (set_job p (λ _, j) s), S n)
  | _ => Some (s, n)
  end.
(** serverCLI.go:425-444 "jkick" *)
Definition s_kick (ks : list key) (s : sstate) : option soutcome :=
  let ps := omap (λ k, '(it, p, _) ← find_job k s; if decide (ist it = SBury) then Some p else None) ks in
  '(s, n) ← fold_left kick_one ps (Some (s, 0%nat));
  Some (s, SCount n, []).

(** server.go:2208-2235, one job of a round of deleteJobs: (state, deleted,
    skipped) *)
Definition delete_one (ord : list key) (acc : option (sstate * list key * list key)) (k : key)
  : option (sstate * list key * list key) :=
  '(s, del, skip) ← acc;
  '(s, r) ← qdo (OHasDependents k) s;
  match r with
  | RBool true => Some (s, del, skip ++ [k])
  | RBool false =>
      '(s, r) ← qdo (ORemove k ord) s;
      match r with ROk => Some (s, del ++ [k], skip) | _ => Some (s, del, skip) end
  | _ => Some (s, del, skip)
  end.
(** server.go:2201-2264 deleteJobs on the jobs' keys; every repetition has
    removed something, so their number is at most that of the jobs. The first
    result but one is what deleteLiveJobs (db.go:739-760) was given, per round. *)
Fixpoint delete_rounds (fuel : nat) (ord : list key) (ks : list key) (s : sstate)
  : option (sstate * list (list key)) :=
  match fuel with
  | O => Some (s, [])
  | S fuel =>
      '(s, del, skip) ← fold_left (delete_one ord) ks (Some (s, [], []));
      match del with
      | [] => Some (s, [])
      | _ =>
          let s := s <| sdb ::= λ d, d <| live ::= λ m, foldr delete m del |> |> in
          match skip with
          | [] => Some (s, [del])
          | _ => '(s, dels) ← delete_rounds fuel ord skip s; Some (s, del :: dels)
          end
      end
  end.
(** serverCLI.go:445-469 "jdel" *)
Definition s_delete (ks : list key) (ord : list key) (s : sstate) : option soutcome :=
  let ks := omap (λ k, '(it, p, j) ← find_job k s; if decide (ist it = SRun) then None else Some (jkey j)) ks in
  '(s, dels) ← delete_rounds (S (length ks)) ord ks s;
  Some (s, SCount (length (concat dels)), []).

(** The end state of a lost job (server.go:1825, 2191) *)
Definition lost_end : endstate := EndState true (-1) 0.
(** server.go:2177-2198 killJob, serverCLI.go:602-626 "jkill" *)
Definition s_kill (now : Z) (k : key) (s : sstate) : option soutcome :=
  match find_job k s with
  | None => Some (s, SCount 0, [])
  | Some (it, p, j) =>
      if decide (ist it = SRun) then
        let s := set_job p (λ j, j <| jkilled := true |>) s in
        if jlost j then
          '(s, r, l) ← release_job now p (Some lost_end) false s;
          match r with SOk => Some (s, SCount 1, l) | _ => Some (s, SCount 0, l) end
        else Some (s, SCount 1, [])
      else Some (s, SCount 0, [])
  end.
(** server.go:1817-1829: the goroutine started by the TTR callback for a job on
    which kill had been called. That it acts on the job which is the item's data
    by then is a simplification. *)
Definition s_lost_release (now : Z) (k : key) (s : sstate) : option soutcome :=
  match find_job k s with
  | Some (it, p, j) =>
      if jlost j && jkilled j then
        '(s, r, l) ← release_job now p (Some lost_end) false s; Some (s, r, l)
      else Some (s, SOk, [])
  | None => Some (s, SOk, [])
  end.

(** server.go:1793-1835 the TTR callback: the job, where the item goes, and the
    limiter calls *)
Definition ttr_callback (now : Z) (j : job) : job * ttrdest * list lcall :=
  if negb (jstart j =? 0) && negb (jexited j) then
    (j <| jlost := true |> <| jend := now |>, ToRun, [])
  else let '(j, l) := decrement_limits j in (j, ToDelay, l).
(** queue/queue.go:1310-1343 the TTR goroutine's loop with that callback (see
    ttr_loop of QueueModel.v, which has the answers of the callback as input) *)
Fixpoint s_ttr_loop (now : Z) (n : nat) (q : qstate) (js : gmap N job) (dl : list nat) (l : list lcall)
  : option (qstate * gmap N job * list nat * list lcall) :=
  match n with
  | O => Some (q, js, dl, l)
  | S n =>
      match arr (runQ q) with
      | [] => None
      | x :: _ =>
          it ← objs q !! x;
          if releasable now it then
            j ← js !! idata it;
            let '(j, dest, l') := ttr_callback now j in
            let js := <[idata it := j]> js in
            match dest with
            | ToRun =>
                q ← run_update x (mod_obj (temp_disable_ttr now) x q);
                s_ttr_loop now n q js dl (l ++ l')
            | _ =>
                q ← run_remove x q;
                q ← delay_push x (mod_obj (restart now) x q);
                s_ttr_loop now n (clr_run x (mod_obj (switch_run_delay true) x q)) js (dl ++ [x]) (l ++ l')
            end
          else Some (q, js, dl, l)
      end
  end.
(** queue/queue.go:1306-1359 one firing of the TTR timer *)
Definition s_tick_ttr (now : Z) (s : sstate) : option soutcome :=
  '(q, js, dl, l) ← s_ttr_loop now (length (arr (runQ (sq s)))) (sq s) (sjobs s) [] [];
  q ← trigger_all now dl q;
  q ← ttr_loop_top now q;
  Some (s <| sq := q |> <| sjobs := js |>, SOk, l).

(** server.go:1455-1472, the part of the ready added callback that gives a job
    its scheduler group *)
Definition s_regroup (k : key) (g : group) (s : sstate) : option soutcome :=
  match find_job k s with
  | None => Some (s, SOk, [])
  | Some (it, p, j) =>
      '(s, _) ← qdo (OSetGroup k g) (set_job p (λ j, j <| jsched := g |>) s);
      Some (s, SOk, [])
  end.

(** ** Adding *)

(** dependency.go:98-115 and db.go:987-1005 incompleteJobKeys of one dependency:
    the live keys it stands for *)
Definition dep_keys (d : db) (dp : dependency) : gset key :=
  match dp with
  | DGroup g => set_map snd (filter (λ gk : string * key, gk.1 = g ∧ is_Some (live d !! gk.2)) (dtk d))
  | DJob k => if decide (is_Some (live d !! k)) then {[k]} else ∅
  end.
(** dependency.go:35-57 incompleteJobKeys. The order is that of a Go map. *)
Definition incomplete_keys (d : db) (j : job) : list key :=
  elements (⋃ (dep_keys d <$> jdeps j)).

(** dependency.go:60-68 DepGroups; a group dependency with an empty name is not
    one (a Dependency with an empty DepGroup and no Essence) *)
Definition dep_groups_of (j : job) : list string :=
  omap (λ dp, match dp with DGroup g => Some g | DJob _ => None end) (jdeps j).

(** db.go:912-965, one pass over the prefixes in retrieveDependentJobs:
    (done keys, jobs to queue, jobs to update, new dep groups). The keys are
    visited in the order of the set rather than that of their bytes. *)
Definition dependents_pass (d : db) (newkeys : gset key) (groups prefixes : gset string)
    (acc : gset key * list job * list job) : gset key * list job * list job * gset string :=
  fold_left (λ '(done, toq, upd, newg) (gk : string * key),
      let k := gk.2 in
      if decide (gk.1 ∈ prefixes ∧ k ∉ done) then
        let found := match live d !! k with
                     | Some j => Some (j, true)
                     | None => if decide (k ∈ newkeys) then None
                               else (λ j, (j, false)) <$> complete d !! k
                     end in
        match found with
        | None => ({[k]} ∪ done, toq, upd, newg)
        | Some (j, isl) =>
            ({[k]} ∪ done,
             (if isl : bool then toq else toq ++ [j]),
             (if isl : bool then upd ++ [j] else upd),
             newg ∪ filter (λ g, g ≠ ""%string ∧ g ∉ groups) (list_to_set (jdepgroups j)))
        end
      else (done, toq, upd, newg))
    (elements (rdtk d)) (acc, ∅).
(** db.go:893-982 retrieveDependentJobs: (jobsToQueue, jobsToUpdate). A pass that
    finds new groups has found a key not done before, so there are at most as
    many as reverse lookups, plus one. *)
Fixpoint dependents (fuel : nat) (d : db) (newkeys : gset key) (groups prefixes : gset string)
    (acc : gset key * list job * list job) : list job * list job :=
  match fuel with
  | O => (acc.1.2, acc.2)
  | S fuel =>
      let '(done, toq, upd, newg) := dependents_pass d newkeys groups prefixes acc in
      if decide (newg = ∅) then (toq, upd)
      else dependents fuel d newkeys (groups ∪ newg) newg (done, toq, upd)
  end.

(** The dep groups of jobs, without empty names (db.go:478-483) *)
Definition member_groups (js : list job) : gset string :=
  filter (λ g, g ≠ ""%string) (list_to_set (js ≫= jdepgroups)).
(** db.go:455-467: with ignoreAdded, jobs in the live or complete bucket are left
    out *)
Definition kept_of (js : list job) (ignore : bool) (d : db) : list job :=
  if ignore then filter (λ j, live d !! jkey j = None ∧ complete d !! jkey j = None) js else js.
(** What db.go:441-560 prepareNewJobs and storeNewJobs decide for the jobs:
    those to store in the live bucket, those to queue, those to update, and how
    many were already added. *)
Definition prepare (js : list job) (ignore : bool) (d : db)
  : list job * list job * list job * nat :=
  let kept := kept_of js ignore d in
  let already := (length js - length kept)%nat in
  match kept with
  | [] => ([], [], [], already)
  | _ =>
      let groups := member_groups kept in
      let '(toq, upd) :=
        if decide (groups = ∅) then ([], [])
        else dependents (S (size (rdtk d))) d (list_to_set (jkey <$> kept)) groups groups (∅, [], []) in
      (kept ++ toq, match toq with [] => kept | _ => toq ++ js end, upd, already)
  end.
(** db.go:473-486: the lookups of the new jobs *)
Definition new_dtk (kept : list job) : list (string * key) :=
  kept ≫= λ j, (λ g, (g, jkey j)) <$> filter (λ g, g ≠ ""%string) (jdepgroups j).
Definition new_rdtk (kept : list job) : list (string * key) :=
  kept ≫= λ j, (λ g, (g, jkey j)) <$> dep_groups_of j.
(** db.go:441-459, 390-435: jobs and lookups are stored. The jobs put are those
    kept (the lookups are for them only) and those resurrected; the batches are
    sorted by key, so of two jobs with the same key either may stay: here the
    later one. *)
Definition db_store (stored : list job) (ms rs : list (string * key)) (d : db) : db :=
  d <| live ::= λ m, fold_left (λ m j, <[jkey j := encode j]> m) stored m |>
    <| dtk ::= λ m, list_to_set ms ∪ m |> <| rdtk ::= λ m, list_to_set rs ∪ m |>.
(** server.go:1872-1887: a job of an add request. It was decoded from the request
    (serverCLI.go:38-47), so its unexported fields are zero; the scheduler group is
    set if the server has a runner command (1876-1878), here by being the [jsched]
    of the input. *)
Definition init_job (j : job) : job :=
  encode j <| jsched := jsched j |> <| juntil := ((jretries j + 1) mod 256)%N |>.

(** server.go:1985-2005 updateJobDependencies: false if an Update failed *)
Fixpoint update_deps_of (now : Z) (js : list job) (s : sstate) : option (sstate * bool) :=
  match js with
  | [] => Some (s, true)
  | j :: js =>
      let deps := incomplete_keys (sdb s) j in
      let '(p, s) := new_job j s in
      '(s, r) ← qdo (OUpdate now (jkey j) (jsched j) p (jprio j) 0 item_ttr (Some deps)) s;
      match r with ROk => update_deps_of now js s | _ => Some (s, false) end
  end.
(** server.go:1918-1925 the item definitions *)
Fixpoint itemdefs (start : job → startq) (js : list job) (s : sstate) : list itemdef * sstate :=
  match js with
  | [] => ([], s)
  | j :: js =>
      let '(p, s1) := new_job j s in
      let '(ds, s2) := itemdefs start js s1 in
      (ItemDef (jkey j) (jsched j) p (jprio j) 0 item_ttr (start j) (incomplete_keys (sdb s) j) :: ds, s2)
  end.
(** server.go:1866-1940 createJobs, 1840-1862 enqueueItems, serverCLI.go:150-190
    "add" *)
Definition s_add (now : Z) (js : list job) (ignore : bool) (s : sstate) : option soutcome :=
  let js := init_job <$> js in
  let '(stored, toq, upd, already) := prepare js ignore (sdb s) in
  let kept := kept_of js ignore (sdb s) in
  let s := s <| sdb ::= db_store stored (new_dtk kept) (new_rdtk kept) |> in
  let '(defs, s) := itemdefs (λ _, StartDefault) toq s in
  '(s, ok) ← update_deps_of now upd s;
  if ok : bool then
    '(s, r) ← qdo (OAddMany now defs) s;
    match r with
    | RAdded a d => Some (s, SAdded a d already, [])
    | _ => Some (s, SErr EInternal, [])
    end
  else Some (s, SErr EInternal, []).

(** ** The database lives on *)

(** db.go:1095-1099, 1157-1170: a background write lands, unless the job is no
    longer live *)
Definition s_land (i : nat) (s : sstate) : sstate :=
  match pend (sdb s) !! i with
  | None => s
  | Some (k, j) =>
      s <| sdb ::= λ d, d <| pend ::= delete i |>
                          <| live ::= λ m, if decide (is_Some (m !! k)) then <[k := j]> m else m |> |>
  end.

(** server.go:783-808, where a recovered job starts *)
Definition recover_start (j : job) : startq :=
  match jst j with JRunning => StartRun | JBuried => StartBury | _ => StartDefault end.
(** server.go:783-794: the limit groups of a running job are incremented;
    [granted] says which Increments succeed *)
Definition recover_limits (granted : key → bool) (j : job) : job * list lcall :=
  match jst j, jlimits j with
  | JRunning, gs => match gs with
                    | [] => (j, [])
                    | _ => if granted (jkey j) then (j <| jincr := gs |>, [CInc gs]) else (j, [])
                    end
  | _, _ => (j, [])
  end.
(** server.go:748-815 the server starts on a database (scheduler.Recover is left
    out) *)
Definition s_recover (now : Z) (granted : key → bool) (d : db) : option soutcome :=
  let s := SState (q_new now) ∅ 1%N (d <| pend := [] |>) in
  let jl := (λ kj : key * job, recover_limits granted kj.2) <$> map_to_list (live d) in
  let '(defs, s) := itemdefs recover_start (fst <$> jl) s in
  '(s, r) ← qdo (OAddMany now defs) s;
  Some (s, SOk, concat (snd <$> jl)).

(** The durable writes of the request being served when the server dies. *)
Inductive cut :=
| CutNone                                  (* no write of an unfinished request *)
| CutAdd (js : list job) (ignore : bool) (keepj keepm keepr : nat → bool)
    (* storeNewJobs: jobs, lookups and reverse lookups are stored by concurrent
       batches; any of the entries may have been stored (db.go:390-435) *)
| CutArchive (c : N) (k : key) (jes : option endstate)
    (* after the transaction of archiveJob *)
| CutDelete (ks ord : list key) (rounds : nat).
    (* after that many transactions of deleteLiveJobs *)
(** The entries of [l] at the positions chosen. *)
Definition pick {A} (f : nat → bool) (l : list A) : list A :=
  snd <$> filter (λ p : nat * A, f p.1 = true) (imap pair l).
(** The database that the next server will find. *)
Definition cut_db (s : sstate) (c : cut) : db :=
  match c with
  | CutNone => sdb s
  | CutAdd js ignore kj km kr =>
      let js := init_job <$> js in
      let '(stored, _, _, _) := prepare js ignore (sdb s) in
      let kept := kept_of js ignore (sdb s) in
      db_store (pick kj stored) (pick km (new_dtk kept)) (pick kr (new_rdtk kept)) (sdb s)
  | CutArchive c k jes =>
      match s_archive c k jes [] s with
      | Some (s', SOk, _) => sdb s'
      | _ => sdb s
      end
  | CutDelete ks ord n =>
      let ks := omap (λ k, '(it, p, j) ← find_job k s; if decide (ist it = SRun) then None else Some (jkey j)) ks in
      match delete_rounds n ord ks s with
      | Some (s', _) => sdb s'
      | None => sdb s
      end
  end.

(** Everything that can happen to a server. *)
Inductive sop :=
| AAdd (now : Z) (js : list job) (ignore : bool)
| AReserve (now : Z) (c : N) (g : group) (granted : bool) (delay : Z)
| AStart (now : Z) (c : N) (k : key) (ok : bool)
| ATouch (now : Z) (c : N) (k : key)
| AArchive (c : N) (k : key) (jes : option endstate) (ord : list key)
| ARelease (now : Z) (c : N) (k : key) (jes : option endstate)
| ABury (now : Z) (c : N) (k : key) (jes : option endstate)
| AKick (ks : list key)
| ADelete (ks ord : list key)
| AKill (now : Z) (k : key)
| ALostRelease (now : Z) (k : key)
| ATickDelay (now : Z)
| ATickTTR (now : Z)
| ARegroup (k : key) (g : group)
| ALand (i : nat)
| ACrash (c : cut) (now : Z) (granted : key → bool).

(** Dispatch; the citation for each case is at the function called. *)
Definition sstep (s : sstate) (o : sop) : option soutcome :=
  match o with
  | AAdd now js ignore => s_add now js ignore s
  | AReserve now c g granted delay => s_reserve now c g granted delay s
  | AStart now c k ok => s_start now c k ok s
  | ATouch now c k => s_touch now c k s
  | AArchive c k jes ord => s_archive c k jes ord s
  | ARelease now c k jes => s_release now c k jes false s
  | ABury now c k jes => s_release now c k jes true s
  | AKick ks => s_kick ks s
  | ADelete ks ord => s_delete ks ord s
  | AKill now k => s_kill now k s
  | ALostRelease now k => s_lost_release now k s
  | ATickDelay now => '(s, _) ← qdo (OTickDelay now) s; Some (s, SOk, [])
  | ATickTTR now => s_tick_ttr now s
  | ARegroup k g => s_regroup k g s
  | ALand i => Some (s_land i s, SOk, [])
  | ACrash c now granted => s_recover now granted (cut_db s c)
  end.

(** A server started on an empty database. *)
Definition s_new (now : Z) : sstate := SState (q_new now) ∅ 1%N (Db ∅ ∅ ∅ ∅ []).

(** A history: answers and limiter calls of each step. *)
Fixpoint srun (s : sstate) (ops : list sop) : option (sstate * list (sres * list lcall)) :=
  match ops with
  | [] => Some (s, [])
  | o :: ops =>
      '(s, r, l) ← sstep s o;
      '(s, rs) ← srun s ops;
      Some (s, (r, l) :: rs)
  end.
