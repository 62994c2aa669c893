(** Model of jobqueue/scheduler/lsf.go: how queues are ranked and picked, how many jobs are
    submitted and killed, and what bsub is called with.

    Simplifications: the output of bqueues and lsadmin is taken to have been read already;
    that of bjobs is the list of its lines, taken apart into fields; times are nanoseconds
    and computed with exactly; the hash of a command, the random end of a job's name and the
    taking apart of the user's options into words (the shellwords library) are arguments. *)
From Coq Require Import ZArith String Ascii.
From stdpp Require Import base option strings list gmap pretty.
From Verif Require Import UtilModel BsubModel.
Open Scope Z_scope.

(** ** Queues: lsf.go:82-400 initialize *)
(** What bqueues -l said of a queue: what it gave a value for; whether the user may use it
    (260-279), otherwise it is forgotten. Names are taken to differ. *)
Record seen := Seen { n_queue : string; n_facts : gmap string Z; n_mine : bool }.
(** 149-154, used at 192, 200, 235, 305: the highest value seen; of run limits none is kept *)
Definition highest (l : list seen) (criterion : string) : Z :=
  if decide (criterion ∈ ["memlimit"; "max"; "max_user"; "hosts"]%string)
  then fold_left (λ h q, Z.max h (default 0 (n_facts q !! criterion))) l 0
  else 0.
(** 342-343 *)
Definition fallback (criterion : string) : Z :=
  if decide (criterion = "runlimit"%string) then 31536000
  else if decide (criterion = "num_users"%string) then 10000
  else if decide (criterion = "chunk_size"%string) then 0
  else 10000000.
(** 342-348 defaults *)
Definition the_default (l : list seen) (criterion : string) : Z :=
  if 0 <? highest l criterion then highest l criterion + 1 else fallback criterion.
Definition criteria_with_default : list string :=
  ["num_users"; "runlimit"; "memlimit"; "max"; "max_user"; "users"; "hosts"; "chunk_size"]%string.
(** 349-355: defaults are filled in *)
Definition fill (l : list seen) (m : gmap string Z) : gmap string Z :=
  fold_left (λ m c, match m !! c with Some _ => m | None => <[c := the_default l c]> m end) criteria_with_default m.
(** 143-170, 276-279: the queues kept *)
Definition queues_of (l : list seen) : list (string * gmap string Z) :=
  omap (λ q, if n_mine q then Some (n_queue q, fill l (n_facts q)) else None) l.
(** 330-339 criteriaHandling in the order of 361-364: weight, and whether larger is better *)
Definition handling : list (string * Z * bool) :=
  [("max_user", 10, true); ("max", 5, true); ("hosts", 18, true); ("prio", 1, false);
   ("chunk_size", 10000, false); ("num_users", 15, false); ("runlimit", 1, true); ("memlimit", 1, false)]%string.
(** 368-383: the loop over the queues sorted by a criterion *)
Fixpoint rank_loop (val : string → Z) (weight prev rank : Z) (sorted : list string) (ranking : gmap string Z) : gmap string Z :=
  match sorted with
  | [] => ranking
  | q :: rest =>
      let rank := if negb (prev =? -1) && (1 <=? Z.abs (val q - prev)) then rank + 1 else rank in
      rank_loop val weight (val q) rank rest (<[q := default 0 (ranking !! q) + rank * weight]> ranking)
  end.
Definition value (qs : list (string * gmap string Z)) (criterion q : string) : Z :=
  match list_find (λ p, fst p = q) qs with Some (_, (_, m)) => default 0 (m !! criterion) | None => 0 end.
(** 357-386: [order c] is the order in which the map of queues is gone through for criterion c *)
Definition ranking (qs : list (string * gmap string Z)) (order : string → list (string * gmap string Z)) : gmap string Z :=
  fold_left (λ rk h, let '(c, w, rev) := h in rank_loop (value qs c) w (-1) 0 (sort_by_map_int (order c) c rev) rk) handling ∅.
Definition sortedqs (qs : list (string * gmap string Z)) (order : string → list (string * gmap string Z)) : list string :=
  sort_by_int (map_to_list (ranking qs order)) false.

(** ** Picking a queue *)
(** scheduler.go:82-99 Requirements, as far as needed: MB, nanoseconds, thousandths of
    cores, and of Other the entries looked at *)
Record lreq := LReq { r_ram : Z; r_time : Z; r_cores : Z; r_queue : option string; r_avoid : string; r_misc : option string }.
Definition second : Z := 10 ^ 9.
(** scheduler.go:61 *)
Definition minimumQueueTime : Z := 60 * second.
(** strings.Contains *)
Fixpoint contains (sub s : string) : bool :=
  String.prefix sub s || match s with EmptyString => false | String _ s => contains sub s end.
(** lsf.go:716-724 *)
Definition queueShouldBeAvoided (queue : string) (avoid : list string) : bool := existsb (λ a, contains a queue) avoid.
(** 726-728: a queue that is not known has a limit of 0 *)
Definition queueHasTooLittleMemory (qs : list (string * gmap string Z)) (queue : string) (q : lreq) : bool :=
  (0 <? value qs "memlimit" queue) && (value qs "memlimit" queue <? r_ram q).
(** 730-732 *)
Definition queueHasTooLittleTime (qs : list (string * gmap string Z)) (queue : string) (time : Z) : bool :=
  (0 <? value qs "runlimit" queue) && (value qs "runlimit" queue * second <? time).
(** 692-695 queuesToAvoid *)
Definition to_avoid (q : lreq) : list string := if decide (r_avoid q = ""%string) then [] else split "," (r_avoid q).
(** 697-712: the loop; None is ErrImpossible *)
Fixpoint pick (qs : list (string * gmap string Z)) (q : lreq) (queues : list string) : option string :=
  match queues with
  | [] => None
  | queue :: rest =>
      if queueShouldBeAvoided queue (to_avoid q) then pick qs q rest
      else if queueHasTooLittleMemory qs queue q then pick qs q rest
      else if queueHasTooLittleTime qs queue (r_time q + minimumQueueTime) then pick qs q rest
      else Some queue
  end.
(** 681-714 determineQueue *)
Definition determineQueue (qs : list (string * gmap string Z)) (sorted : list string) (q : lreq) : option string :=
  match r_queue q with
  | Some queue => if contains "," queue then pick qs q (split "," queue) else Some queue
  | None => pick qs q sorted
  end.
(** 455-462 maxQueueTime and scheduler.go:367-376 MaxQueueTime *)
Definition MaxQueueTime (qs : list (string * gmap string Z)) (sorted : list string) (q : lreq) : Z :=
  let d := match determineQueue qs sorted q with Some queue => value qs "runlimit" queue * second | None => 0 end in
  if d =? 0 then r_time q + minimumQueueTime else d.

(** ** Jobs in LSF *)
(** scheduler.go:424-433 jobName without the random end; [hash] in 32 hexadecimal digits *)
Definition letter (deployment : string) : string := substring 0 1 deployment.
Definition all_prefix (deployment : string) : string := "wr" +:+ letter deployment +:+ "_".
Definition jobName (hash : string → string) (cmd deployment : string) : string := all_prefix deployment +:+ hash cmd.
(** lsf.go:615-626 generateBsubName; [random] is the random string *)
Definition generateBsubName (hash : string → string) (random cmd deployment : string) (needed : Z) : string :=
  jobName hash cmd deployment +:+ "_" +:+ random +:+ (if 1 <? needed then "[1-" +:+ pretty needed +:+ "]" else "").
(** 806-808: JOBID, STAT and JOB_NAME of a job *)
Record bjob := BJob { b_id : string; b_stat : string; b_name : string }.
(** 826-831: of the fields of a line of bjobs -w *)
Definition job_of (fields : list string) : option bjob :=
  match fields with
  | f0 :: _ :: f2 :: _ :: _ :: _ :: f6 :: _ :: _ => Some (BJob f0 f2 f6)
  | _ => None
  end.
(** 809-842 parseBjobs: the jobs that the callback is given *)
Definition parseBjobs (prefix : string) (lines : list (list string)) : list bjob :=
  omap (λ fields, j ← job_of fields;
          if decide (b_stat j = "EXIT"%string) then None else if decide (b_stat j = "DONE"%string) then None
          else if String.prefix prefix (b_name j) then Some j else None) lines.
(** the digits at the end of a reversed string, and what is before them *)
Fixpoint digits (s : list ascii) : list ascii * list ascii :=
  match s with
  | c :: s' => if is_digit c then let '(a, b) := digits s' in (c :: a, b) else ([], s)
  | [] => ([], [])
  end.
(** 768, 776: what the expression \[(\d+)\]$ finds *)
Definition array_index (name : string) : option string :=
  match reverse (list_ascii_of_string name) with
  | c :: s => if decide (c = "]"%char) then
                match digits s with
                | ((_ :: _) as ds, d :: _) => if decide (d = "["%char) then Some (string_of_list_ascii (reverse ds)) else None
                | _ => None
                end
              else None
  | [] => None
  end.
(** 774: strings.HasSuffix(jobID, "]") *)
Definition ends_in_bracket (s : string) : bool :=
  match reverse (list_ascii_of_string s) with c :: _ => bool_decide (c = "]"%char) | [] => false end.
(** 773-778 sidaid *)
Definition sidaid (j : bjob) : option string :=
  if ends_in_bracket (b_id j) then Some (b_id j)
  else match array_index (b_name j) with Some i => Some (b_id j +:+ "[" +:+ i +:+ "]") | None => None end.
(** 770-784: the callback when there is a maximum: the count so far and what is to be killed *)
Fixpoint over_max (max : Z) (jobs : list bjob) (count : Z) : Z * list string :=
  match jobs with
  | [] => (count, [])
  | j :: jobs =>
      if (max <? count + 1) && negb (bool_decide (b_stat j = "RUN"%string)) then
        let '(n, ks) := over_max max jobs count in
        (n, match sidaid j with Some s => s :: ks | None => ks end)
      else over_max max jobs (count + 1)
  end.
(** 738-802 checkCmd: the count returned and what bkill is given *)
Definition checkCmd (hash : string → string) (deployment cmd : string) (max : Z) (lines : list (list string)) : Z * list string :=
  let prefix := if decide (cmd = ""%string) then all_prefix deployment else jobName hash cmd deployment in
  let jobs := parseBjobs prefix lines in
  if 0 <=? max then over_max max jobs 0 else (Z.of_nat (length jobs), []).

(** ** What bsub is called with *)
(** 110-128: the unit of limits *)
Inductive munit := KB | MB | GB.
(** the number of binary digits beyond 24 *)
Definition excess (z : Z) : Z := Z.max 0 (Z.log2 z - 23).
(** z / 2^n rounded to the nearest whole number, to an even one from the middle *)
Definition nearest (z n : Z) : Z :=
  let d := 2 ^ n in let q := z / d in let r := z mod d in
  if 2 * r <? d then q else if d <? 2 * r then q + 1 else if Z.even q then q else q + 1.
(** z rounded to float32, 24 binary digits (exponents are never too large here) *)
Definition float32 (z : Z) : Z := nearest z (excess z) * 2 ^ excess z.
(** 563-565: float32(megabytes) * memLimitMultiplier printed with %0.0f. The multiplier for
    GB, 0.001 as a float32, is 8589935 / 2^33. *)
Definition memory_limit (u : munit) (ram : Z) : Z :=
  match u with
  | KB => float32 (float32 ram * 1000)
  | MB => float32 ram
  | GB => nearest (float32 (float32 ram * 8589935)) 33
  end.
(** what the options come to: words, an error, or a panic *)
Inductive args_res := Args (l : list string) | Ignored | Panic.
(** 593-610: the loop over the words, two at a time *)
Fixpoint user_args (megabytes : string) (words : list string) : args_res :=
  match words with
  | [] => Args []
  | w :: rest =>
      if String.prefix "-" w then
        match rest with
        | [] => if decide (w = "-R"%string) then Panic else Args [w]
        | v :: rest =>
            let continue v := match user_args megabytes rest with Args l => Args (w :: v :: l) | r => r end in
            if decide (w = "-R"%string) then
              match parse_bsub (str v) with
              | POk cs _ => continue (string_of_list_ascii (show_clauses (replace_memory_and_hosts (str megabytes) (str "1") cs)))
              | _ => Ignored
              end
            else continue v
        end
      else Ignored
  end.
(** 587-613 parseUserArgs; [words]: what shellwords makes of the string, None an error *)
Definition parseUserArgs (words : string → option (list string)) (userArgs megabytes : string) : args_res :=
  match words userArgs with Some ws => user_args megabytes ws | None => Ignored end.
(** 559-585 generateBsubArgs: the arguments and whether there was an error; None is a panic *)
Definition generateBsubArgs (hash : string → string) (words : string → option (list string)) (random queue : string) (q : lreq)
    (cmd deployment : string) (needed : Z) (u : munit) : option (list string * bool) :=
  let mb := pretty (r_ram q) in
  let first := ["-q"; queue; "-M"; pretty (memory_limit u (r_ram q)); "-R";
                "select[mem>" +:+ mb +:+ "] rusage[mem=" +:+ mb +:+ "] span[hosts=1]"]%string in
  let last := (if 1000 <? r_cores q then ["-n"; pretty ((r_cores q + 999) / 1000)]%string else []) ++
              ["-J"; generateBsubName hash random cmd deployment needed; "-o"; "/dev/null"; "-e"; "/dev/null"; cmd]%string in
  match r_misc q with
  | None => Some (first ++ last, false)
  | Some misc => match parseUserArgs words misc mb with
                 | Args l => Some (first ++ l ++ last, false)
                 | Ignored => Some (first ++ last, true)
                 | Panic => None
                 end
  end.
(** 467-490 schedule up to calling bsub: what is killed and, if anything, what bsub is
    called with; None is ErrImpossible or a panic. *)
Definition schedule (hash : string → string) (words : string → option (list string)) (deployment : string) (u : munit)
    (qs : list (string * gmap string Z)) (sorted : list string) (cmd : string) (q : lreq) (count : Z)
    (lines : list (list string)) (random : string) : option (list string * option (list string)) :=
  match determineQueue qs sorted q with
  | None => None
  | Some queue =>
      let '(scheduled, kill) := checkCmd hash deployment cmd count lines in
      if count - scheduled <? 1 then Some (kill, None)
      else match generateBsubArgs hash words random queue q cmd deployment (count - scheduled) u with
           | Some (args, _) => Some (kill, Some args)
           | None => None
           end
  end.
(** 628-658 BsubValidator.Validate: the answer and the cache after; [accepts] is bsub's own
    verdict on arguments *)
Definition Validate (hash : string → string) (words : string → option (list string)) (random : string) (accepts : list string → bool)
    (opts queue : string) (cache : gmap string bool) : option (bool * gmap string bool) :=
  match cache !! opts with
  | Some v => Some (v, cache)
  | None =>
      match generateBsubArgs hash words random queue (LReq 1 0 0 None "" (Some opts)) "echo" "production" 1 MB with
      | None => None
      | Some (_, true) => Some (false, <[opts := false]> cache)
      | Some (args, false) => Some (accepts args, <[opts := accepts args]> cache)
      end
  end.
