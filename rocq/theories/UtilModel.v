(** Models of the small helpers the job queue rests on: what requirements are asked
    of the scheduler, back-off delays, sorting, batched storing, environments and
    job keys. *)
From Coq Require Import ZArith String Ascii.
From stdpp Require Import base option strings gmap list sorting.
From RecordUpdate Require Import RecordSet.
Import RecordSetNotations.
Open Scope Z_scope.

(** Go's int64 arithmetic (time.Duration, int): two's complement wrap-around *)
Definition wrap64 (z : Z) : Z := (z + 2 ^ 63) mod 2 ^ 64 - 2 ^ 63.
Definition int64 (z : Z) : Prop := - 2 ^ 63 ≤ z < 2 ^ 63.
Definition max64 : Z := 2 ^ 63 - 1.
Definition min64 : Z := - 2 ^ 63.

(** ** Requirements (jobqueue/scheduler/scheduler.go:86-95). Cores, a float64, is an
    opaque number here; Other is opaque too; the ...Set flags are left out, since
    reqForScheduler does not copy them and nothing below reads them. *)
Record reqs := Reqs { ram : Z; rtime : Z; cores : Z; disk : Z; other : list (string * string) }.
(** jobqueue/utils.go:60-62 *)
Definition special_ram : Z := 924.
Definition extra_ram : Z := 100.
Definition time_round : Z := 30 * 60 * 10 ^ 9.
(** time.Duration.Round of Go's library (by its source): to the nearest multiple,
    halves away from zero, the largest or smallest value on overflow *)
Definition less_than_half (x y : Z) : bool := bool_decide (x + x < y).
Definition dur_round (d m : Z) : Z :=
  if bool_decide (m ≤ 0) then d else
  let r := Z.rem d m in
  if bool_decide (d < 0) then
    let r := - r in
    if less_than_half r m then d + r
    else let d1 := wrap64 (d - m + r) in if bool_decide (d1 < d) then d1 else min64
  else
    if less_than_half r m then d - r
    else let d1 := wrap64 (d + m - r) in if bool_decide (d < d1) then d1 else max64.
(** utils.go:623-641 reqForScheduler *)
Definition req_for_scheduler (r : reqs) : reqs :=
  let m := if bool_decide (ram r < special_ram) then ram r + extra_ram else ram r in
  let d := dur_round (rtime r) time_round in
  let d := if bool_decide (d < rtime r) then wrap64 (d + time_round) else d in
  Reqs m d (cores r) (disk r) (other r).

(** ** Back-off (utils.go:645-661; client.go:95-97) *)
Record backoff := Backoff { bmin : Z; bmax : Z; bfactor : Z }.
Definition release_backoff : backoff := Backoff (30 * 10 ^ 9) (1800 * 10 ^ 9) 2.
(** jpillora/backoff ForAttempt with no jitter, by its source: min * factor ^ attempt
    as a float64, max if that is beyond an int64, then kept between min and max. With
    the values above the float arithmetic is exact as long as it matters. A negative
    attempt gives less than min, so min. *)
Definition for_attempt (b : backoff) (attempt : Z) : Z :=
  if bool_decide (bmax b ≤ bmin b) then bmax b else
  if bool_decide (attempt < 0) then bmin b else
  let d := bmin b * bfactor b ^ attempt in
  if bool_decide (d < bmin b) then bmin b else if bool_decide (bmax b < d) then bmax b else d.
(** [draw] is rand.Float64()*Min in nanoseconds, between 0 and Min *)
Definition item_delay (b : backoff) (n draw : Z) : Z :=
  let d := for_attempt b n - (draw - bmin b) in
  if bool_decide (d < 0) then bmax b else d.
(** serverCLI.go:784-785: the attempt number used when a job is reserved *)
Definition reserve_attempt (retries untilburied : Z) : Z := retries - untilburied + 1.

(** ** internal/utils.go:64-135 *)
(** sort.Strings and sort.StringSlice compare bytes *)
Definition str_le (a b : string) : Prop := String.leb a b = true.
Global Instance str_le_dec : RelDecision str_le := λ a b, bool_eq_dec (String.leb a b) true.
Definition sort_strings (l : list string) : list string := merge_sort str_le l.
(** 69-72, 96-100: keys grouped by value; the argument is the map in the order the
    range loop meets its entries *)
Definition group_by_value (imap : list (string * Z)) : gmap Z (list string) :=
  fold_left (λ m kv, <[snd kv := default [] (m !! snd kv) ++ [fst kv]]> m) imap ∅.
(** 73-82, 101-110: the values sorted (the order in which the map gives them does not matter) *)
Definition sorted_values (m : gmap Z (list string)) (reverse : bool) : list Z :=
  let vals := (map_to_list m).*1 in
  if reverse then merge_sort Z.ge vals else merge_sort Z.le vals.
(** 66-90 SortMapKeysByIntValue *)
Definition sort_by_int (imap : list (string * Z)) (reverse : bool) : list string :=
  let m := group_by_value imap in
  concat ((λ v, merge_sort (flip str_le) (default [] (m !! v))) <$> sorted_values m reverse).
(** 95-117 SortMapKeysByMapIntValue *)
Definition sort_by_map_int (imap : list (string * gmap string Z)) (criterion : string) (reverse : bool) : list string :=
  let m := group_by_value ((λ kv : string * gmap string Z, (fst kv, default 0 (snd kv !! criterion))) <$> imap) in
  concat ((λ v, default [] (m !! v)) <$> sorted_values m reverse).
(** 121-135 DedupSortStrings. The loop (124-131) over positions [j] of the slice
    being compacted in place; the state is the slice, the strings seen and [i]. *)
Definition dedup_step (st : list string * gset string * nat) (j : nat) : list string * gset string * nat :=
  let '(s, seen, i) := st in
  match s !! j with
  | Some v => if decide (v ∈ seen) then st else (<[i := v]> s, {[v]} ∪ seen, S i)
  | None => st
  end.
Definition dedup_loop (s : list string) : list string * gset string * nat :=
  fold_left dedup_step (seq 0 (length s)) (s, ∅, 0%nat).
(** the slice returned, and what the caller's slice holds afterwards *)
Definition dedup_sort (s : list string) : list string * list string :=
  let '(s', _, i) := dedup_loop s in
  let sorted := sort_strings (take i s') in
  (sorted, sorted ++ drop i s').

(** ** jobqueue/db.go:1487-1523 storeBatched *)
Section batches.
  Context {A : Type}.
  (** 1490-1500 *)
  Definition batch_size (num : nat) : nat :=
    let b := (num / 10)%nat in
    let rem := (b mod 1000)%nat in
    let b := if decide (500 < rem)%nat then (b - rem + 1000)%nat else (b - rem)%nat in
    if decide (b < 1000)%nat then 1000%nat else b.
  (** The calls made to the storer, in order, up to and including the first that
      fails, and whether there was an error. [fails] tells of each slice whether
      storing it would fail. *)
  Fixpoint store_all (fails : list A → bool) (calls : list (list A)) : list (list A) * bool :=
    match calls with
    | [] => ([], false)
    | c :: cs => if fails c then ([c], true) else let '(done, e) := store_all fails cs in (c :: done, e)
    end.
  Definition slice (data : list A) (from to : nat) : list A := take (to - from) (drop from data).
  Definition store_batched (fails : list A → bool) (data : list A) : list (list A) * bool :=
    let num := length data in
    let b := batch_size num in
    if decide (num < b)%nat then store_all fails [data] else
    let batches := (num / b)%nat in
    let offset := (num - num mod b)%nat in
    store_all fails (((λ i, slice data (i * b) ((i + 1) * b)) <$> seq 0 batches) ++
                     if decide (offset = 0)%nat then [] else [drop offset data]).
End batches.

(** ** Environments (utils.go:419-441; job.go:441-532) *)
(** strings.Split(s, sep) for a separator of one byte *)
Fixpoint split (c : ascii) (s : string) : list string :=
  match s with
  | EmptyString => [EmptyString]
  | String a s =>
      if Ascii.eqb a c then EmptyString :: split c s
      else match split c s with
           | [] => [String a EmptyString]
           | p :: ps => String a p :: ps
           end
  end.
(** pair[0]: the name of an entry *)
Definition env_name (e : string) : string := hd EmptyString (split "=" e).
(** 422-426 the overrides by name, later ones replacing earlier ones *)
Definition override_map (over : list string) : gmap string string :=
  fold_left (λ m e, <[env_name e := e]> m) over ∅.
(** 428-435 the loop; the slice after it and the overrides not used *)
Fixpoint env_replace (env : list string) (m : gmap string string) : list string * gmap string string :=
  match env with
  | [] => ([], m)
  | e :: es =>
      match m !! env_name e with
      | Some r => let '(es, m) := env_replace es (delete (env_name e) m) in (r :: es, m)
      | None => let '(es, m) := env_replace es m in (e :: es, m)
      end
  end.
(** 421-440 envOverride. [order] is the order in which the range loop at 437 meets the
    entries of the map. (The slice given is changed in place as well; the callers
    give one nobody else holds.) *)
Definition env_override (order : gmap string string → list string) (orig over : list string) : list string :=
  let '(env, m) := env_replace orig (override_map over) in env ++ order m.
(** What a job knows of its environment (job.go EnvC, EnvCRetrieved, EnvOverride).
    Encoding and compressing are left out as faithful: [envc] is [None] if EnvC is
    empty. *)
Record jobenv := JobEnv { envc : option (list string); retrieved : bool; overrides : list string }.
(** job.go:441-480 Env, [os] being the process' own environment *)
Definition job_env (order : gmap string string → list string) (os : list string) (j : jobenv) : list string :=
  let over env := if bool_decide (overrides j = []) then env else env_override order env (overrides j) in
  match envc j with
  | None => if retrieved j then over os else []
  | Some [] => over os
  | Some env => over env
  end.
(** job.go:506-515 EnvAddOverride *)
Definition add_override (order : gmap string string → list string) (over : list string) (j : jobenv) : jobenv :=
  JobEnv (envc j) (retrieved j) (env_override order (overrides j) over).
(** job.go:520-532 Getenv: [None] if the index at 528 is out of range (panic) *)
Fixpoint getenv (env : list string) (key : string) : option string :=
  match env with
  | [] => Some EmptyString
  | e :: es => if bool_decide (env_name e = key) then split "=" e !! 1%nat else getenv es key
  end.

(** ** Keys (jobqueue/job.go:851-873, 1008-1018; jobqueue/mount.go:157-192) *)
(** mount.go:32-134 the parts the key uses *)
Record target := Target { profile : string; tpath : string }.
Record mount := Mount { mnt : string; targets : list target }.
(** mount.go:164-168: sort.Slice by mount point. It is not stable; this sort is. *)
Definition mount_le (a b : mount) : Prop := str_le (mnt a) (mnt b).
Global Instance mount_le_dec : RelDecision mount_le := λ a b, str_le_dec (mnt a) (mnt b).
(** mount.go:180-187 *)
Definition target_key (t : target) : string :=
  ((if bool_decide (profile t = "") then "default" else profile t) ++ "-" ++ tpath t ++ ";")%string.
(** mount.go:172-188 *)
Definition mount_key (m : mount) : string :=
  ((if bool_decide (mnt m = "") then "mnt" else mnt m) ++ ":" ++ String.concat "" (target_key <$> targets m))%string.
(** mount.go:157-192 MountConfigs.Key *)
Definition mounts_key (ms : list mount) : string :=
  String.concat "" (mount_key <$> merge_sort mount_le ms).
(** The parts of a job its key uses (job.go Job) *)
Record jobkey := JobKey {
  kcmd : string; kcwd : string; kcwdmatters : bool; kmounts : list mount;
  kdocker : string; ksingularity : string; kcmounts : string }.
(** job.go:853-870: the text that is hashed *)
Definition key_text (j : jobkey) : string :=
  let t := (kcmd j ++ "." ++ mounts_key (kmounts j))%string in
  let t := if kcwdmatters j then (kcwd j ++ "." ++ t)%string else t in
  let image := if bool_decide (kdocker j ≠ "") then ("docker:" ++ kdocker j)%string
               else if bool_decide (ksingularity j ≠ "") then ("singularity:" ++ ksingularity j)%string else ""%string in
  if bool_decide (image = "") then t else (t ++ "." ++ image ++ "." ++ kcmounts j)%string.
(** job.go:852-873 Job.Key, [hash] being byteKey (utils.go:102-105) *)
Definition job_key (hash : string → string) (j : jobkey) : string := hash (key_text j).
(** job.go:989-1006 *)
Record essence := Essence { ekey : string; ecmd : string; ecwd : string; emounts : list mount }.
(** job.go:1009-1018 *)
Definition essence_key (hash : string → string) (e : essence) : string :=
  if bool_decide (ekey e ≠ "") then ekey e else
  if bool_decide (ecwd e ≠ "") then hash (ecwd e ++ "." ++ ecmd e ++ "." ++ mounts_key (emounts e))%string
  else hash (ecmd e ++ "." ++ mounts_key (emounts e))%string.
