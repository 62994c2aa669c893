(** Model of what is looked up by rep group: the lookups the database keeps
    (jobqueue/db.go:453-651, 668-787, 796-815, 839-977, 1195-1317, 1487-1546), those of the server
    (jobqueue/server.go:188-229, 752-809, 1840-1861, 1866-1941, 1985-2006, 2201-2261, 2420-2602,
    jobqueue/serverCLI.go:344-391, 541-575, 635-690), and the kinds of matches
    (jobqueue/client.go:142-165). *)
From Coq Require Import ZArith String Ascii.
From stdpp Require Import base option strings gmap list sorting.
From RecordUpdate Require Import RecordSet.
From Verif Require Import UtilModel LearnModel.
Import RecordSetNotations.
Open Scope Z_scope.

(** ** Keys *)
(** utils.go:102-105 byteKey: two numbers of 64 bits, each as %016x. farm.Hash128 is not
    modelled: the two numbers are given. *)
Definition hex_digit (d : N) : ascii := ascii_of_N (if (d <? 10)%N then 48 + d else 87 + d)%N.
Fixpoint hex (k : nat) (v : N) : string :=
  match k with O => EmptyString | S k' => hex k' (v / 16)%N +:+ String (hex_digit (v mod 16)%N) EmptyString end.
Definition byte_key (h : N * N) : string := hex 16 h.1 +:+ hex 16 h.2.

(** ** State *)
(** job.go:127-200: what of a Job matters here. *)
Record rjob := RJob { j_rg : string; j_start : Z; j_end : Z }.
Global Instance eta_rjob : Settable _ := settable! RJob <j_rg; j_start; j_end>.
(** The buckets of the database (db.go:60-83): live and complete jobs by key, the lookups
    bucketRTK, the rep groups bucketRGs (their values are nil; here 0), and bucketRGEndTime.
    Then the queue's items by key, and s.rpl (server.go:188-195): an ordered set of keys for
    each rep group. *)
Record rstate := RState {
  live : gmap string rjob; comp : gmap string rjob; rtk : bucket; rgs : bucket; ends : gmap string Z;
  items : gmap string rjob; rpl : gmap string (list string) }.
Global Instance eta_rstate : Settable _ := settable! RState <live; comp; rtk; rgs; ends; items; rpl>.
(** db.go:270-340, server.go:729: a new database and server *)
Definition rempty : rstate := RState ∅ ∅ ∅ ∅ ∅ ∅ ∅.

(** ** The server's lookup *)
(** server.go:200-206 *)
Definition rpl_add (m : gmap string (list string)) (rg k : string) : gmap string (list string) :=
  let ks := default [] (m !! rg) in
  <[rg := if decide (k ∈ ks) then ks else ks ++ [k]]> m.
(** server.go:210-216 *)
Definition rpl_delete (m : gmap string (list string)) (rg k : string) : gmap string (list string) :=
  match m !! rg with
  | None => m
  | Some ks => <[rg := List.filter (λ x, negb (bool_decide (x = k))) ks]> m
  end.
(** server.go:220-229 *)
Definition rpl_values (m : gmap string (list string)) (rg : string) : list string := default [] (m !! rg).
(** server.go:1840-1861 enqueueItems: AddMany leaves the items that are there; the lookup
    gets all. A closed queue is left out. *)
Definition add_item (st : rstate) (kj : string * rjob) : rstate :=
  match items st !! kj.1 with Some _ => st | None => st <| items ::= <[kj.1 := kj.2]> |> end.
(** server.go:1846-1858 *)
Definition enqueue (st : rstate) (l : list (string * rjob)) : rstate :=
  fold_left add_item l st <| rpl := fold_left (λ m kj, rpl_add m (j_rg kj.2) kj.1) l (rpl st) |>.

(** ** Storing *)
(** bolt's Bucket.Put takes keys of 1 to 32768 bytes *)
Definition storable (k : string) : bool := bool_decide (0 < String.length k ≤ 2 ^ 15)%nat.
(** db.go:645-650 generateLookupKey *)
Definition lookup_key (rg k : string) : string := rg +:+ delimiter +:+ k.
(** db.go:1528-1546 storeLookups: all or, on an error, nothing. An add of 1000 lookups or more
    is done in batches (db.go:1487-1524), of which the first would be kept; here it is one. *)
Definition put_lookups (b : bucket) (ks : list string) : option bucket :=
  if forallb storable ks then Some (fold_left (λ b k, <[k := 0]> b) ks b) else None.
(** db.go:668-679 checkIfAdded *)
Definition was_added (st : rstate) (k : string) : bool :=
  match live st !! k, comp st !! k with None, None => false | _, _ => true end.
(** db.go:560-571 *)
Definition kept (ignore : bool) (st : rstate) (jobs : list (string * rjob)) : list (string * rjob) :=
  if ignore then List.filter (λ kj, negb (was_added st kj.1)) jobs else jobs.
(** db.go:908-977 retrieveDependentJobs: which jobs depend on the dep groups of the new ones is
    given; of these the ones in the live bucket are updated, and those only in the complete
    one, and not new, are added again. *)
(** db.go:932-935, 958-959 *)
Definition to_update (st : rstate) (deps : list string) : list (string * rjob) :=
  omap (λ k, (k,.) <$> live st !! k) deps.
(** db.go:936-938, 960-962 *)
Definition again (st : rstate) (new : list (string * rjob)) (deps : list string) : list (string * rjob) :=
  omap (λ k, match live st !! k with
             | Some _ => None
             | None => if decide (k ∈ new.*1) then None else (k,.) <$> comp st !! k
             end) deps.
(** db.go:453-642, server.go:1866-1941: createJobs. The lookups and records are stored each
    on its own, so all that do not fail are kept; the jobs are queued if none failed, and if
    the dependants could be updated. Of two jobs of one call with the same key the record of
    the later one is kept (sort.Sort leaves open which). If some jobs are added again, all
    the given jobs are queued, not only the kept ones (db.go:628-630). Keys of jobs are
    storable. [update_items] stands for server.go:1985-2006 updateJobDependencies, which stops
    at the first that is not in the queue; the state comes with whether the call succeeded. *)
Fixpoint update_items (l : list (string * rjob)) (st : rstate) : rstate * bool :=
  match l with
  | [] => (st, true)
  | kj :: l' => match items st !! kj.1 with
                | None => (st, false)
                | Some _ => update_items l' (st <| items ::= <[kj.1 := kj.2]> |>)
                end
  end.
(** db.go:1558-1567 putEncodedJobs *)
Definition put_jobs (m : gmap string rjob) (l : list (string * rjob)) : gmap string rjob :=
  fold_left (λ m kj, <[kj.1 := kj.2]> m) l m.
(** see above *)
Definition add_jobs (ignore : bool) (jobs : list (string * rjob)) (deps : list string) (st : rstate) : rstate * bool :=
  let new := kept ignore st jobs in
  match new with
  | [] => (st, true)
  | _ =>
      let old := again st new deps in
      let upd := to_update st deps in
      let queued := match old with [] => new | _ => old ++ jobs end in
      let t := put_lookups (rtk st) ((λ kj, lookup_key (j_rg kj.2) kj.1) <$> new) in
      let g := put_lookups (rgs st) ((λ kj, j_rg kj.2) <$> new) in
      let st1 := st <| rtk := default (rtk st) t |> <| rgs := default (rgs st) g |>
                    <| live := put_jobs (live st) (new ++ old) |> in
      match t, g with
      | Some _, Some _ =>
          let '(st2, ok) := update_items upd st1 in
          if ok then (enqueue st2 queued, true) else (st2, false)
      | _, _ => (st1, false)
      end
  end.

(** ** Archiving and deleting *)
(** db.go:742-758: the end time is stored if it is later than the one that is there. The
    time is in seconds, as Unix() has it. *)
Definition put_end (m : gmap string Z) (rg : string) (t : Z) : gmap string Z :=
  match m !! rg with Some t0 => if bool_decide (t ≤ t0) then m else <[rg := t]> m | None => <[rg := t]> m end.
(** db.go:689-765, serverCLI.go:344-391: jarchive of a running job, with its times. If the rep
    group cannot be stored the whole transaction fails (db.go:742-757) and the job stays as it
    was. The checks of serverCLI.go:354-364 are taken as passed; the statistics that are
    stored are in LearnModel. *)
Definition archive (k : string) (start end_ : Z) (st : rstate) : rstate * bool :=
  match items st !! k with
  | None => (st, false)
  | Some j =>
      let j' := RJob (j_rg j) start end_ in
      if storable (j_rg j) then
        (st <| live ::= delete k |> <| comp ::= <[k := j']> |> <| ends ::= λ m, put_end m (j_rg j) end_ |>
            <| items ::= delete k |> <| rpl ::= λ m, rpl_delete m (j_rg j) k |>, true)
      else (st <| items ::= <[k := j']> |>, false)
  end.
(** server.go:2201-2261 deleteJobs, db.go:768-787: [ks] are those without dependants *)
Definition delete_one (st : rstate) (k : string) : rstate :=
  match items st !! k with
  | None => st
  | Some j => st <| items ::= delete k |> <| live ::= delete k |> <| rpl ::= λ m, rpl_delete m (j_rg j) k |>
  end.
(** the loop of server.go:2209-2234 *)
Definition delete_jobs (ks : list string) (st : rstate) : rstate := fold_left delete_one ks st.

(** ** Modifying *)
(** strings.HasSuffix, bytes.HasSuffix *)
Fixpoint has_suffix (suf s : string) : bool :=
  bool_decide (s = suf) || match s with EmptyString => false | String _ s' => has_suffix suf s' end.
(** serverCLI.go:541-562 and db.go:1195-1317 modifyLiveJobs for one job whose key changes
    from [old] to [new], perhaps the same. Its rep group cannot change (job.go:1036).
    Other changes to the job do not matter here; requests for several jobs are taken one by
    one. Modify has refused a new key that is in the queue. The deletion within bolt's
    ForEach is taken to meet all entries (bolt leaves that undefined). *)
Definition modify (old new : string) (st : rstate) : rstate :=
  match items st !! old with
  | None => st
  | Some j =>
      if bool_decide (old ≠ new) && match items st !! new with Some _ => true | None => false end then st else
      let st1 := if bool_decide (old = new) then st
                 else st <| items ::= λ m, <[new := j]> (delete old m) |>
                         <| rpl ::= λ m, rpl_add (rpl_delete m (j_rg j) old) (j_rg j) new |> in
      let t := filter (λ kv, has_suffix (delimiter +:+ old) kv.1 = false) (rtk st) in
      match put_lookups t [lookup_key (j_rg j) new], put_lookups (rgs st) [j_rg j] with
      | Some t', Some g' => st1 <| rtk := t' |> <| rgs := g' |> <| live ::= λ m, <[new := j]> (delete old m) |>
      | _, _ => st1
      end
  end.

(** ** Starting again *)
(** server.go:752-806, db.go:796-815: all live jobs are queued. They come in the order of
    their keys; here the order is that of map_to_list. *)
Definition restart (st : rstate) : rstate :=
  enqueue (st <| items := ∅ |> <| rpl := ∅ |>) (map_to_list (live st)).

(** ** Requests *)
(** the requests of serverCLI.go that change what is looked up, and a new start *)
Inductive rreq :=
  | RAdd (ignore : bool) (jobs : list (string * rjob)) (deps : list string)
  | RArchive (k : string) (start end_ : Z)
  | RDelete (ks : list string)
  | RModify (old new : string)
  | RRestart.
(** serverCLI.go: add, jarchive, jdel, jmod; server.go:752-806 *)
Definition rstep (st : rstate) (r : rreq) : rstate :=
  match r with
  | RAdd i jobs deps => (add_jobs i jobs deps st).1
  | RArchive k s e => (archive k s e st).1
  | RDelete ks => delete_jobs ks st
  | RModify o n => modify o n st
  | RRestart => restart st
  end.
(** a history of requests *)
Definition rrun (h : list rreq) (st : rstate) : rstate := fold_left rstep h st.

(** ** Lookups *)
(** client.go:142-151 *)
Inductive rmatch := MExact | MSub | MPrefix | MSuffix.
(** strings.Contains *)
Fixpoint contains (sub s : string) : bool :=
  String.prefix sub s || match s with EmptyString => false | String _ s' => contains sub s' end.
(** client.go:154-165 RepGroupMatches *)
Definition rg_matches (job_rg rg : string) (m : rmatch) : bool :=
  match m with
  | MSub => contains rg job_rg
  | MPrefix => String.prefix rg job_rg
  | MSuffix => has_suffix rg job_rg
  | MExact => bool_decide (job_rg = rg)
  end.
(** server.go:2589-2602 normalizeRepGroupMatch: what is not one of the four is decided by the
    older flag *)
Definition normalize (m : string) (search : bool) : rmatch :=
  if bool_decide (m = "exact"%string) then MExact else
  if bool_decide (m = "substr"%string) then MSub else
  if bool_decide (m = "prefix"%string) then MPrefix else
  if bool_decide (m = "suffix"%string) then MSuffix else
  if search then MSub else MExact.
(** bytes.TrimPrefix of a prefix that is there *)
Definition drop_prefix (p s : string) : string := substring (String.length p) (String.length s - String.length p) s.
(** db.go:878-902 retrieveCompleteJobsByRepGroup: the cursor's walk, as in LearnModel *)
Definition db_complete (st : rstate) (rg : string) : list (string * rjob) :=
  let p := rg +:+ delimiter in
  omap (λ e, let k := drop_prefix p e.1 in
             match comp st !! k, live st !! k with Some j, None => Some (k, j) | _, _ => None end)
       (while_prefix p (seek p (entries (rtk st)))).
(** server.go:2493-2502 *)
Definition time_le (a b : string * rjob) : Prop :=
  j_start a.2 < j_start b.2 ∨ (j_start a.2 = j_start b.2 ∧ j_end a.2 ≤ j_end b.2).
Global Instance time_le_dec : RelDecision time_le.
Proof. intros a b. unfold time_le. apply _. Defined.
(** server.go:2480-2504 getDBJobsByRepGroup. sort.Slice may give jobs of equal times in any
    order; here they keep theirs. *)
Definition complete_by_rg (st : rstate) (rg : string) : list (string * rjob) :=
  merge_sort time_le ((λ kj : string * rjob, (kj.1, kj.2 <| j_rg := rg |>)) <$> db_complete st rg).
(** server.go:2465-2477 getQueueJobsByRepGroup *)
Definition queue_by_rg (st : rstate) (rg : string) : list (string * rjob) :=
  omap (λ k, (k,.) <$> items st !! k) (rpl_values (rpl st) rg).
(** server.go:2441-2462 getRepGroupsList, db.go:839-849 *)
Definition rg_list (st : rstate) (rg : string) (m : rmatch) : list string :=
  match m with MExact => [rg] | _ => List.filter (λ g, rg_matches g rg m) (entries (rgs st)).*1 end.
(** server.go:2420-2438 getJobsByRepGroup before limitJobs, which is in ListModel;
    [complete] is whether the wanted state is blank or complete. *)
Definition by_rg (st : rstate) (rg : string) (m : rmatch) (complete : bool) : list (string * rjob) :=
  g ← rg_list st rg m; queue_by_rg st g ++ (if complete then complete_by_rg st g else []).
(** server.go:2535-2587 getJobsCurrent before limitJobs. AllItems' order is that of a map. *)
Definition current (st : rstate) (rg : string) (m : rmatch) : list (string * rjob) :=
  if bool_decide (rg = EmptyString) then map_to_list (items st) else
  match m with
  | MExact => queue_by_rg st rg
  | _ => List.filter (λ kj, rg_matches (j_rg kj.2) rg m) (map_to_list (items st))
  end.
(** server.go:2517-2531 getLastCompletionTimeByRepGroup, db.go:853-872 *)
Definition last_completion (st : rstate) (rg : string) (m : rmatch) : list (string * Z) :=
  omap (λ g, (g,.) <$> ends st !! g) (rg_list st rg m).
