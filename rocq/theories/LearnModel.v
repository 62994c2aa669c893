(** Model of the learning of requirements: the values stored for each requirements group
    (jobqueue/db.go:714-741, 1113-1124), the recommendation made from them
    (db.go:1362-1451), and what a pass over the ready jobs does with it
    (jobqueue/server.go:1331-1455). *)
From Coq Require Import ZArith String Ascii.
From stdpp Require Import base option strings gmap list sorting.
From RecordUpdate Require Import RecordSet.
From Verif Require Import UtilModel.
Import RecordSetNotations.
Open Scope Z_scope.

(** ** Stored values *)
(** one decimal digit, or a space for a leading zero *)
Definition digit (started : bool) (d : Z) : ascii :=
  if started || bool_decide (0 < d) then ascii_of_N (Z.to_N (48 + d)) else " "%char.
(** fmt's %20d for a number not below zero: [k] digits are left to write *)
Fixpoint padded (started : bool) (k : nat) (v : Z) : string :=
  match k with
  | O => EmptyString
  | S k' => let d := v / 10 ^ Z.of_nat k' in
            let s := started || bool_decide (k' = 0%nat) in
            String (digit s d) (padded (s || bool_decide (0 < d)) k' (v mod 10 ^ Z.of_nat k'))
  end.
(** db.go:53 *)
Definition delimiter : string := "_::_".
(** db.go:725, 730, 737, 1117, 1120, 1123: the key for a value of a requirements group *)
Definition stat_key (group : string) (v : Z) : string := group +:+ delimiter +:+ padded false 20 v.
(** a bucket of bolt: values by key. The value is stored as text and read back by
    strconv.Atoi; that is left out. *)
Notation bucket := (gmap string Z).
(** db.go:724-741, 1113-1124: Put *)
Definition put_stat (b : bucket) (gv : string * Z) : bucket := <[stat_key gv.1 gv.2 := gv.2]> b.
Definition stored (log : list (string * Z)) : bucket := fold_left put_stat log ∅.

(** bolt's cursor meets the entries in the order of the bytes of their keys *)
Definition entry_le (a b : string * Z) : Prop := str_le a.1 b.1.
Global Instance entry_le_dec : RelDecision entry_le := λ a b, str_le_dec a.1 b.1.
Definition entries (b : bucket) : list (string * Z) := merge_sort entry_le (map_to_list b).
(** Cursor.Seek: the entries from the first key not below the given one *)
Fixpoint seek (p : string) (l : list (string * Z)) : list (string * Z) :=
  match l with
  | [] => []
  | e :: l' => if decide (str_le p e.1) then l else seek p l'
  end.
(** db.go:1409: go on while the key has the prefix *)
Fixpoint while_prefix (p : string) (l : list (string * Z)) : list (string * Z) :=
  match l with
  | [] => []
  | e :: l' => if String.prefix p e.1 then e :: while_prefix p l' else []
  end.
(** the values the loop of db.go:1409-1424 meets *)
Definition met (b : bucket) (group : string) : list Z := (while_prefix group (seek group (entries b))).*2.

(** ** The recommendation *)
(** Positive float32 numbers as fractions: the nearest number with 24 bits, halves to even.
    Only for fractions not below 1. *)
Definition half_even (n d : Z) : Z :=
  let q := n / d in let r := n mod d in
  if bool_decide (2 * r < d) then q else if bool_decide (d < 2 * r) then q + 1 else if Z.even q then q else q + 1.
Definition float32 (x : Z * Z) : Z * Z :=
  let '(n, d) := x in
  let e := Z.log2 (n / d) - 23 in
  if bool_decide (e < 0) then (half_even (n * 2 ^ (- e)) d, 2 ^ (- e)) else (half_even n (d * 2 ^ e) * 2 ^ e, 1).
(** db.go:54 *)
Definition window_percent : Z := 5.
(** db.go:1406, 1416-1418: the window when [count] values were met *)
Definition window (count : Z) : Z * Z :=
  if bool_decide (100 < count) then
    let '(n, d) := float32 (count, 100) in float32 (n * window_percent, d)
  else (window_percent, 1).
(** db.go:1421 *)
Definition longer (len : nat) (w : Z * Z) : bool :=
  let '(n, d) := float32 (Z.of_nat len, 1) in bool_decide (w.1 * d < n * w.2).
Record scan := Scan { scount : Z; sprev : list Z; srec : Z; smax : Z }.
Global Instance eta_scan : Settable _ := settable! Scan <scount; sprev; srec; smax>.
(** db.go:1409-1424 for one value *)
Definition scan_value (s : scan) (v : Z) : scan :=
  let count := scount s + 1 in
  let prev := sprev s ++ [v] in
  if longer (length prev) (window count)
  then match prev with r :: prev' => Scan count prev' r v | [] => Scan count prev (srec s) v end
  else Scan count prev (srec s) v.
Definition scanned (vs : list Z) : scan := fold_left scan_value vs (Scan 0 [] 0 0).
(** int(math.Ceil(float64(n)/float64(by)))*by; exact for numbers below 2^53 *)
Definition ceil_to (by_ n : Z) : Z := (n + by_ - 1) / by_ * by_.
(** db.go:1432-1451 *)
Definition rounded (round : Z) (s : scan) : Z :=
  if bool_decide (srec s = 0) && bool_decide (smax s = 0) then 0 else
  let r := if bool_decide (srec s = 0) then smax s else srec s in
  let r := if bool_decide (smax s - r < round) then smax s else r in
  let r := if bool_decide (r < round) then round else r in
  if bool_decide (0 < r mod round) then ceil_to round r else r.
(** db.go:1394-1451 recommendedReqGroupStat; the errors of bolt are left out here *)
Definition recommended (b : bucket) (group : string) (round : Z) : Z := rounded round (scanned (met b group)).

(** ** What a pass over the ready jobs makes of it *)
(** scheduler.Requirements as far as they are changed (scheduler.go:86-95): MB, GB and
    nanoseconds *)
Record need := Need { nram : Z; ndisk : Z; ndiskset : bool; ntime : Z }.
Global Instance eta_need : Settable _ := settable! Need <nram; ndisk; ndiskset; ntime>.
Inductive failreason := FRam | FDisk | FTime | FOther.
(** the fields of a Job the pass reads and writes (job.go:139-153, 168-200); [lran] is
    EndTime - StartTime *)
Record learner := Learner { lneed : need; lorig : option need; lover : Z; lfail : failreason; lpeakram : Z; lpeakdisk : Z; lran : Z }.
Global Instance eta_learner : Settable _ := settable! Learner <lneed; lorig; lover; lfail; lpeakram; lpeakdisk; lran>.
Definition second : Z := 10 ^ 9.
Definition hour : Z := 3600 * second.
(** server.go:1345-1357: from what the database recommends, in MB, MB and seconds *)
Definition rec_need (m d s : Z) : need :=
  Need (if bool_decide (0 < m) then m else 0)
       (if bool_decide (0 < d) then (d + 1023) / 1024 else 0) true
       ((if bool_decide (0 < s) then s else 0) * second).
(** server.go:1373-1386 and, the same, 1388-1401 and 1403-1416: the value to use, from the
    recommended one, whether the user gave one, and the present one *)
Definition choose (over : Z) (rec : Z) (given : bool) (now : Z) : Z :=
  if bool_decide (0 < rec) then
    if given then
      if bool_decide (over = 0) then rec else
      if bool_decide (over = 1) then (if bool_decide (now < rec) then rec else now) else now
    else rec
  else now.
(** client.go:104-107; 1.3 as a fraction. Here and below float64 numbers are taken to be
    exact, which makes no difference for values below 2^40. *)
Definition increase_min : Z := 1000.
Definition breakpoint : Z := 8192.
(** server.go:1425-1434 *)
Definition more_ram (peak : Z) : Z :=
  let up10 := if bool_decide (peak ≤ breakpoint) then peak * 20 else peak * 13 in
  let up10 := if bool_decide (up10 < (peak + increase_min) * 10) then (peak + increase_min) * 10 else up10 in
  (up10 + 999) / 1000 * 100.
(** server.go:1438-1441 *)
Definition more_disk (peak : Z) : Z := (peak * 13 + 1024 * 1000 - 1) / (1024 * 1000) * 100.
(** server.go:1446 *)
Definition more_time (ran : Z) : Z := ran + hour.
Definition raise (new now : Z) : Z := if bool_decide (now < new) then new else now.
(** server.go:1419-1452 *)
Definition after_failure (j : learner) : need :=
  let n := lneed j in
  if bool_decide (lover j = 2) then n else
  match lfail j with
  | FRam => n <| nram ::= raise (more_ram (lpeakram j)) |>
  | FDisk => n <| ndisk ::= raise (more_disk (lpeakdisk j)) |>
  | FTime => n <| ntime ::= raise (more_time (lran j)) |>
  | FOther => n
  end.
(** server.go:1362-1455 for one job. No recommendation means that the database failed;
    then a nil pointer is read if the job failed for lack of something: [None], the
    manager exits (server.go:1291, internal/utils.go:219-226). *)
Definition learn (rec : option need) (j : learner) : option learner :=
  match rec with
  | None => match lfail j with FOther => Some j | _ => None end
  | Some r =>
      let o := default (lneed j) (lorig j) in
      let n := lneed j in
      let n := n <| nram := choose (lover j) (nram r) (bool_decide (0 < nram o)) (nram n) |> in
      let n := n <| ndisk := choose (lover j) (ndisk r) (bool_decide (0 < ndisk o) || ndiskset o) (ndisk n) |> in
      let n := n <| ntime := choose (lover j) (ntime r) (bool_decide (0 < ntime o)) (ntime n) |> in
      let j := j <| lorig := Some o |> <| lneed := n |> in
      Some (j <| lneed := after_failure j |>)
  end.
(** Between passes the job may run and end: what it failed for and what it used at most
    are then new (job.go:168-200; server.go:2077-2110). *)
Inductive levent := LPass (rec : option need) | LRun (f : failreason) (peakram peakdisk ran : Z).
Definition levent_step (e : levent) (j : learner) : option learner :=
  match e with
  | LPass rec => learn rec j
  | LRun f m d t => Some (j <| lfail := f |> <| lpeakram := m |> <| lpeakdisk := d |> <| lran := t |>)
  end.
Fixpoint learn_run (es : list levent) (j : learner) : option learner :=
  match es with
  | [] => Some j
  | e :: es => match levent_step e j with Some j => learn_run es j | None => None end
  end.
