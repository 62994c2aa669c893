(** Model of the capture of a command's output (jobqueue/utils.go:305-417).
    Bytes are [ascii]. *)
From Coq Require Import ZArith String Ascii.
From stdpp Require Import base option strings list pretty.
From RecordUpdate Require Import RecordSet.
Import RecordSetNotations.

(** utils.go:309-315 prefixSuffixSaver. The slices are lists: nil and empty are
    told apart nowhere else than in Bytes (347), and [suffix] is nil there exactly
    if nothing was appended to it. [skipped] is an int64; it is not negative. *)
Record saver := Saver {
  sN : nat;
  prefix : list ascii;
  suffix : list ascii;
  suffixOff : nat;
  skipped : nat;
}.
Global Instance eta_saver : Settable _ := settable! Saver <sN; prefix; suffix; suffixOff; skipped>.
(** client.go:607, 613 a new one *)
Definition saver_new (n : nat) : saver := Saver n [] [] 0 0.

(** utils.go:337-344 fill: what is in the destination afterwards, and the rest *)
Definition fill (n : nat) (dst p : list ascii) : list ascii * list ascii :=
  let remain := n - length dst in
  if decide (0 < remain)
  then let add := if decide (length p < remain) then length p else remain in (dst ++ take add p, drop add p)
  else (dst, p).
(** Go's copy(s[off:], p): the bytes copied and the destination *)
Definition copy_at (s : list ascii) (off : nat) (p : list ascii) : nat * list ascii :=
  let n := if decide (length p < length s - off) then length p else length s - off in
  (n, take off s ++ take n p ++ drop (off + n) s).
(** utils.go:325-333 the loop; [fuel] bounds the iterations, [None] if it is used
    up (the Go loop would go on for ever) *)
Fixpoint spill (fuel : nat) (p : list ascii) (w : saver) : option saver :=
  match p with
  | [] => Some w
  | _ => match fuel with
         | O => None
         | S fuel =>
             let '(n, s) := copy_at (suffix w) (suffixOff w) p in
             let off := suffixOff w + n in
             spill fuel (drop n p)
               (w <| suffix := s |> <| skipped ::= Nat.add n |> <| suffixOff := if decide (off = sN w) then 0 else off |>)
         end
  end.
(** utils.go:317-335 Write *)
Definition write (p : list ascii) (w : saver) : option saver :=
  let '(pre, p) := fill (sN w) (prefix w) p in
  let w := w <| prefix := pre |> in
  let over := length p - sN w in
  let '(p, w) := if decide (0 < over) then (drop over p, w <| skipped ::= Nat.add over |>) else (p, w) in
  let '(suf, p) := fill (sN w) (suffix w) p in
  let w := w <| suffix := suf |> in
  spill (S (length p)) p w.
Fixpoint writes (ps : list (list ascii)) (w : saver) : option saver :=
  match ps with
  | [] => Some w
  | p :: ps => w ← write p w; writes ps w
  end.
(** utils.go:356-358 the omission note *)
Definition note (n : nat) : list ascii :=
  String.list_ascii_of_string (String "010" ("... omitting " ++ pretty n ++ " bytes ..." ++ String "010" "")%string).
(** utils.go:346-362 Bytes *)
Definition bytes (w : saver) : list ascii :=
  match suffix w with
  | [] => prefix w
  | s => match skipped w with
         | O => prefix w ++ s
         | n => prefix w ++ note n ++ drop (suffixOff w) s ++ take (suffixOff w) s
         end
  end.

(** ** utils.go:376-417 stdFilter *)
Definition lf : ascii := "010".
Definition cr : ascii := "013".
(** utils.go:71 *)
Definition ellipses : list ascii := String.list_ascii_of_string ("[...]" ++ String lf "")%string.
(** bufio.Reader.ReadBytes('\n') called until it returns an error: lines with their
    newline, and last what comes after the last newline (possibly nothing) *)
Fixpoint lines (s : list ascii) : list (list ascii) :=
  match s with
  | [] => [[]]
  | c :: s =>
      if decide (c = lf) then [c] :: lines s
      else match lines s with
           | [] => [[c]]
           | l :: ls => (c :: l) :: ls
           end
  end.
(** bytes.Split(p, "\r") *)
Fixpoint split_cr (s : list ascii) : list (list ascii) :=
  match s with
  | [] => [[]]
  | c :: s =>
      if decide (c = cr) then [] :: split_cr s
      else match split_cr s with
           | [] => [[c]]
           | l :: ls => (c :: l) :: ls
           end
  end.
(** utils.go:384-408: the writes made for one line *)
Definition filter_line (p : list ascii) : list (list ascii) :=
  let ls := split_cr p in
  hd [] ls ::
  (if decide (2 < length ls) then
     [lf] :: (if decide (3 < length ls) then [ellipses] else []) ++ [nth (length ls - 2) ls []; [lf]]
   else []).
(** the writes made for a stream (errors of the reader other than the end, and of
    the writer, left out) *)
Definition std_filter (s : list ascii) : list (list ascii) := concat (filter_line <$> lines s).
