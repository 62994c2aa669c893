(** How limits are spelled. Independent of the parser: this prints. *)
From Coq Require Import ZArith String Ascii.
From stdpp Require Import base option strings list.
From Verif Require Import LimiterModel LimitNameModel.
Open Scope Z_scope.
Open Scope string_scope.

(** One decimal digit. *)
Definition dig (n : Z) : ascii := ascii_of_nat (48 + Z.to_nat n).
(** Two digits, as in 07. *)
Definition two (n : Z) : string := String (dig (n / 10)) (String (dig (n mod 10)) "").
Fixpoint spaces (n : nat) : string := match n with O => "" | S n => String " " (spaces n) end.
(** "<" with any number of spaces on either side. *)
Definition less (a b : nat) : string := spaces a ++ "<" ++ spaces b.

Record tod := Tod { hour : Z; minute : Z; second : Z }.
Definition tod_ok (t : tod) : Prop := 0 ≤ hour t < 24 ∧ 0 ≤ minute t < 60 ∧ 0 ≤ second t < 60.
Definition tod_str (t : tod) : string := two (hour t) ++ ":" ++ two (minute t) ++ ":" ++ two (second t).
Definition tod_secs (t : tod) : Z := hour t * 3600 + minute t * 60 + second t.
Record date := Date { year : Z; month : Z; day : Z }.
Definition leap (y : Z) : Prop := y mod 4 = 0 ∧ (y mod 100 ≠ 0 ∨ y mod 400 = 0).
Definition month_days (y m n : Z) : Prop :=
  (m ∈ [1; 3; 5; 7; 8; 10; 12] ∧ n = 31) ∨ (m ∈ [4; 6; 9; 11] ∧ n = 30) ∨
  (m = 2 ∧ leap y ∧ n = 29) ∨ (m = 2 ∧ ¬ leap y ∧ n = 28).
Definition date_ok (d : date) : Prop :=
  0 ≤ year d < 10000 ∧ ∃ n, month_days (year d) (month d) n ∧ 1 ≤ day d ≤ n.
Definition date_str (d : date) (t : tod) : string :=
  two (year d / 100) ++ two (year d mod 100) ++ "-" ++ two (month d) ++ "-" ++ two (day d) ++ " " ++ tod_str t.
Definition tuple (d : date) (t : tod) : Z * Z * Z * (Z * Z * Z) :=
  (year d, month d, day d, (hour t, minute t, second t)).

(** The number a string of digits stands for, most significant first. *)
Inductive numeral : string → Z → Prop :=
| num_one n : 0 ≤ n < 10 → numeral (String (dig n) "") n
| num_more s v n : numeral s v → 0 ≤ n < 10 → numeral (s ++ String (dig n) "") (10 * v + n).
(** An integer with an optional sign. *)
Definition integer (s : string) (v : Z) : Prop :=
  ∃ ds n, numeral ds n ∧ ((s = ds ∧ v = n) ∨ (s = "+" ++ ds ∧ v = n) ∨ (s = "-" ++ ds ∧ v = - n)).
Fixpoint colon_free (s : string) : Prop :=
  match s with "" => True | String a s => a ≠ ":"%char ∧ colon_free s end.

(** [spells local full name d]: [full] spells limit [d] of the group [name]. *)
Inductive spells (local : zone) : string → string → gdata → Prop :=
| sp_count n s v : colon_free n → integer s v → 0 ≤ v < 2 ^ 63 →
    spells local (n ++ ":" ++ s) n (GData MCount v 0)
| sp_none n s v : colon_free n → integer s v → - 2 ^ 63 ≤ v < 0 →
    spells local (n ++ ":" ++ s) n (GData MUnknown 0 0)
| sp_before a b t : tod_ok t →
    let s := "time" ++ less a b ++ tod_str t in spells local s s (GData MBeforeTime (tod_secs t) 0)
| sp_after a b t : tod_ok t →
    let s := tod_str t ++ less a b ++ "time" in spells local s s (GData MAfterTime 0 (tod_secs t))
| sp_between a b c e t u : tod_ok t → tod_ok u →
    let s := tod_str t ++ less a b ++ "time" ++ less c e ++ tod_str u in
    spells local s s (GData MBetweenTimes (tod_secs u) (tod_secs t))
| sp_dbefore a b d t : date_ok d → tod_ok t →
    let s := "datetime" ++ less a b ++ date_str d t in spells local s s (GData MBeforeDateTime (local (tuple d t)) 0)
| sp_dafter a b d t : date_ok d → tod_ok t →
    let s := date_str d t ++ less a b ++ "datetime" in spells local s s (GData MAfterDateTime 0 (local (tuple d t)))
| sp_dbetween a b c e d t d' t' : date_ok d → tod_ok t → date_ok d' → tod_ok t' →
    let s := date_str d t ++ less a b ++ "datetime" ++ less c e ++ date_str d' t' in
    spells local s s (GData MBetweenDateTimes (local (tuple d' t')) (local (tuple d t))).

(** The local time of day, in seconds, at Unix time [u] in a zone with offset
    [offset u] from UTC. *)
Definition wall (offset : Z → Z) (u : Z) : Z := (u + offset u) mod 86400.
(** [m] is an instant at which the local day of [u] began. *)
Definition day_start (offset : Z → Z) (u m : Z) : Prop := m + offset m = (u + offset u) / 86400 * 86400.
