(** Model of the DELETE requests of the REST interface on jobs
    (jobqueue/serverREST.go:584-634, 643-727, 888-937) and of the token checks in
    front of the interfaces (serverREST.go:551-581, serverCLI.go:57-61). Jobs are
    those of ServerModel.v, which has neither rep groups nor fail reasons: both
    are inputs here. *)
From Coq Require Import ZArith String Ascii.
From stdpp Require Import base option strings gmap list.
From RecordUpdate Require Import RecordSet.
From Verif Require Import GoHeap QueueModel ServerModel ListModel.
Import RecordSetNotations.
Open Scope Z_scope.

(** job.go Job: RepGroup and FailReason *)
Record labels := Labels { l_group : key → string; l_reason : key → string }.
(** The orders in which Go's range loops over maps go: the groups of a limited
    listing (server.go:2766-2773), the jobs of the queue or of a rep group
    (server.go:2465-2477, 2561-2570), the dependants of a removed job
    (queue.go:1150); and the rep groups a search finds (server.go:2441-2463),
    see RepModel.v. *)
Record orders := Orders {
  o_groups : gmap string (list ljob) → list (list ljob);
  o_jobs : list key → list key;
  o_deps : list key;
  o_search : string → list string }.
(** The request: form values state, search, limit (0 without, [None] if not a
    number), std or env, and the path behind the endpoint ([None] if empty) *)
Record rest_request := RestRequest {
  r_state : string; r_search : bool; r_limit : option Z; r_extra : bool; r_ids : option string }.

(** job.go:89-96, serverCLI.go:772-780, 856-858: the state itemToJob gives *)
Definition item_state (it : item) (j : job) : string :=
  match ist it with
  | SDelay => "delayed"
  | SReady => "ready"
  | SRun => if jlost j then "lost" else if (jstart j =? 0)%Z then "reserved" else "running"
  | SBury => "buried"
  | SDep => "dependent"
  | SRemoved => "complete"
  end%string.
(** serverCLI.go:797-861 itemToJob, what a listing looks at; Lost is not copied.
    [n] tells the jobs of a listing apart. *)
Definition as_listed (la : labels) (s : sstate) (nk : nat * key) : option ljob :=
  '(it, _, j) ← find_job nk.2 s;
  Some (LJob nk.1 (item_state it j) (jexit j) (l_reason la nk.2) false 0).
(** server.go:2615-2664 limitJobs on the jobs with these keys ([None] is a panic) *)
Definition limit_keys (od : orders) (la : labels) (o : lopts) (s : sstate) (ks : list key) : option (list key) :=
  match limit_jobs (o_groups od) o (omap (as_listed la s) (imap pair ks)) with
  | Some js => Some (omap (λ j, ks !! lid j) js)
  | None => None
  end.
(** server.go:2549-2570 getQueueJobsCurrent of all jobs *)
Definition current_keys (od : orders) (s : sstate) : list key := o_jobs od (map_to_list (items (sq s))).*1.
(** server.go:2465-2477 getQueueJobsByRepGroup (that the lookup has exactly the
    queued jobs of the group is C81) *)
Definition group_keys (od : orders) (la : labels) (s : sstate) (g : string) : list key :=
  filter (λ k, l_group la k = g) (current_keys od s).
(** serverREST.go:692-720, one id. Errors of the database are left out; no
    complete jobs are looked for, as a state is given (server.go:2481). *)
Definition find_id (od : orders) (la : labels) (o : lopts) (search : bool) (s : sstate) (id : string) : option (list key) :=
  if bool_decide (String.length id = 32%nat) &&
     (bool_decide (is_Some (find_job id s)) || bool_decide (is_Some (complete (sdb s) !! id)))
  then Some [id]
  else limit_keys od la o s (concat (group_keys od la s <$> (if search then o_search od id else [id]))).
(** serverREST.go:692 *)
Fixpoint find_ids (od : orders) (la : labels) (o : lopts) (search : bool) (s : sstate) (ids : list string) : option (list key) :=
  match ids with
  | [] => Some []
  | id :: ids => ks ← find_id od la o search s id; ks' ← find_ids od la o search s ids; Some (ks ++ ks')
  end.
(** serverREST.go:643-727 restJobsStatus for a limit that is a number, and a state *)
Definition rest_find (od : orders) (la : labels) (r : rest_request) (limit : Z) (s : sstate) : option (list key) :=
  let o := LOpts limit 0 "" 0 (r_state r) (r_extra r) in
  match r_ids r with
  | Some ids => find_ids od la o (r_search r) s (split_on "," ids)
  | None => limit_keys od la o s (current_keys od s)
  end.

(** The answer: 400, 500, or the affected jobs (the handled jobs are not shown
    when there was an error, serverREST.go:609-612) *)
Inductive rest_answer := RBad | RFailed | RHandled (ks : list key).
(** serverREST.go:926-934 *)
Fixpoint rest_kill (now : Z) (ks : list key) (s : sstate) : option (sstate * rest_answer * list lcall) :=
  match ks with
  | [] => Some (s, RHandled [], [])
  | k :: ks =>
      if bool_decide (find_job k s = None) then Some (s, RFailed, []) else
      '(s, r, l) ← s_kill now k s;
      '(s, a, l') ← rest_kill now ks s;
      Some (s, match a, r with RHandled h, SCount (S _) => RHandled (k :: h) | _, _ => a end, l ++ l')
  end.
(** serverREST.go:911-924 *)
Definition rest_delete (od : orders) (ks : list key) (s : sstate) : option (sstate * rest_answer * list lcall) :=
  '(s, dels) ← delete_rounds (S (length ks)) (o_deps od) ks s;
  Some (s, RHandled (filter (λ k, k ∈ concat dels) ks), []).
(** serverREST.go:888-937 restJobsCancel. One step, like all requests of
    ServerModel.v; an error of releaseJob inside killJob is left out. *)
Definition rest_cancel (now : Z) (od : orders) (la : labels) (r : rest_request) (s : sstate)
  : option (sstate * rest_answer * list lcall) :=
  if bool_decide (r_state r ∈ ["running"; "lost"; "deletable"]%string) then
    match r_limit r with
    | None => Some (s, RBad, [])
    | Some limit =>
        ks ← rest_find od la r limit s;
        if bool_decide (r_state r = "deletable"%string) then rest_delete od ks s else rest_kill now ks s
    end
  else Some (s, RBad, []).

(** ** Tokens *)
(** What httpAuthorized looks at: whether the form could be parsed, its value of
    token, and the Authorization header ("" for none) *)
Record http_request := HttpRequest { h_form : bool; h_token : string; h_auth : string }.
Inductive auth := ABadForm | ANoHeader | ANoBearer | AInvalid | AAllowed.
Global Instance auth_eq_dec : EqDecision auth.
Proof. solve_decision. Defined.
(** serverREST.go:53 bearerSchema *)
Definition bearer : string := "Bearer ".
(** serverREST.go:551-581 httpAuthorized; utils.go:96-99 tokenMatches is equality
    (the time it takes is not modelled) *)
Definition http_authorized (token : string) (h : http_request) : auth :=
  if negb (h_form h) then ABadForm else
  let check t := if bool_decide (t = token) then AAllowed else AInvalid in
  if bool_decide (h_token h = ""%string) then
    if bool_decide (h_auth h = ""%string) then ANoHeader else
    if negb (String.prefix bearer (h_auth h)) then ANoBearer else
    check (String.substring (String.length bearer) (String.length (h_auth h) - String.length bearer)%nat (h_auth h))
  else check (h_token h).
(** server.go:850-857 the handlers; the path of a page *)
Inductive endpoint := EPage (path : string) | EStatusWS | EJobs | EWarnings | EBadServers | EUpload | EInfo | EVersion.
(** strings.TrimPrefix(path, "/") (serverWebI.go:126) *)
Definition trim_slash (p : string) : string := if String.prefix "/" p then String.substring 1 (String.length p - 1) p else p.
(** Which handlers call httpAuthorized before anything else (serverWebI.go:125-136,
    202-205, serverREST.go:588, 945, 984, 1041, 1075; 1099-1117 does not) *)
Definition asks_token (e : endpoint) : bool :=
  match e with
  | EPage p => bool_decide (trim_slash p ∈ [""; "status"; "status.html"]%string)
  | EVersion => false
  | _ => true
  end.
(** A request to one of the handlers: [act] is what it does once allowed, from a
    state to a state and an answer, [deny] the answer otherwise. *)
Definition http_serve {S A} (act : endpoint → S → S * A) (deny : auth → A) (token : string) (e : endpoint) (h : http_request) (s : S) : S * A :=
  if asks_token e then
    match http_authorized token h with AAllowed => act e s | a => (s, deny a) end
  else act e s.
(** utils.go:57 tokenLength *)
Definition token_length : nat := 43.
(** serverCLI.go:57-61 handleRequest: whether the request gets past the first case *)
Definition cli_allowed (token : string) (method given : string) : bool :=
  negb ((negb (String.length given =? token_length)%nat || negb (bool_decide (given = token))) && bool_decide (method ≠ "ping"%string)).
