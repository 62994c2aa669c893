(** Model of the name parsing of /repo/limiter/group.go.

    Strings are byte strings. The patterns (group.go:51-58) are anchored and
    have a single way to match, so each is a left-to-right scan. [zone] is
    time.ParseInLocation's translation of a local date and time to Unix time, an
    oracle. strconv.ParseInt and time.Parse are modelled by their contracts. *)
From Coq Require Import ZArith String Ascii.
From stdpp Require Import base option strings list.
From Verif Require Import LimiterModel.
Open Scope Z_scope.
Open Scope string_scope.

(** [\d] of group.go:52-57 *)
Definition digit_of (a : ascii) : option Z :=
  let n := Z.of_nat (nat_of_ascii a) in
  if (48 <=? n)%Z && (n <=? 57)%Z then Some (n - 48) else None.
(** A literal of a pattern, group.go:52-57: what follows it *)
Fixpoint lit (w s : string) : option string :=
  match w, s with
  | "", _ => Some s
  | String a w, String b s => if Ascii.eqb a b then lit w s else None
  | _, _ => None
  end.
(** [ *], greedy, group.go:52-57 *)
Fixpoint spaces_ (s : string) : string :=
  match s with
  | String a s' => if Ascii.eqb a " " then spaces_ s' else s
  | "" => ""
  end.
(** [ *< *], group.go:52-57 *)
Definition less_ (s : string) : option string := s ← lit "<" (spaces_ s); Some (spaces_ s).
(** [\d\d], group.go:52-57 *)
Definition two_ (s : string) : option (Z * string) :=
  match s with
  | String a (String b s) => x ← digit_of a; y ← digit_of b; Some (10 * x + y, s)
  | _ => None
  end.
(** [\d\d:\d\d:\d\d], group.go:52-54 *)
Definition hms_ (s : string) : option ((Z * Z * Z) * string) :=
  '(h, s) ← two_ s; s ← lit ":" s; '(m, s) ← two_ s; s ← lit ":" s; '(x, s) ← two_ s; Some ((h, m, x), s).
(** [\d\d\d\d-\d\d-\d\d \d\d:\d\d:\d\d], group.go:55-57 *)
Definition datetime_ (s : string) : option ((Z * Z * Z * (Z * Z * Z)) * string) :=
  '(c, s) ← two_ s; '(y, s) ← two_ s; s ← lit "-" s; '(mo, s) ← two_ s; s ← lit "-" s; '(d, s) ← two_ s;
  s ← lit " " s; '(t, s) ← hms_ s; Some ((100 * c + y, mo, d, t), s).
(** [$], group.go:52-57 *)
Definition end_ {A} (x : A) (s : string) : option A := match s with "" => Some x | _ => None end.

(** group.go:87-94 timeToSecs; time.Parse refuses hours from 24, minutes and
    seconds from 60 *)
Definition time_to_secs (t : Z * Z * Z) : option Z :=
  let '(h, m, x) := t in
  if (h <? 24)%Z && (m <? 60)%Z && (x <? 60)%Z then Some (h * 3600 + m * 60 + x) else None.
(** The days of a month as time.Parse checks them (group.go:135, 149, 163, 168) *)
Definition days_in (y mo : Z) : Z :=
  if (mo =? 2)%Z then
    if ((y mod 4 =? 0) && (negb (y mod 100 =? 0) || (y mod 400 =? 0)))%Z then 29 else 28
  else if (mo =? 4)%Z || (mo =? 6)%Z || (mo =? 9)%Z || (mo =? 11)%Z then 30 else 31.
(** Local date and time to Unix time. *)
Definition zone := Z * Z * Z * (Z * Z * Z) → Z.
(** time.ParseInLocation(time.DateTime, ...).Unix(): group.go:135, 149, 163, 168 *)
Definition datetime_to_unix (local : zone) (dt : Z * Z * Z * (Z * Z * Z)) : option Z :=
  let '(y, mo, d, t) := dt in
  if (1 <=? mo)%Z && (mo <=? 12)%Z && (1 <=? d)%Z && (d <=? days_in y mo)%Z
  then _ ← time_to_secs t; Some (local dt) else None.

(** group.go:73-85 beforeTimeLimitParse *)
Definition before_time_parse (name : string) : option gdata :=
  s ← lit "time" name; s ← less_ s; '(t, s) ← hms_ s; t ← end_ t s;
  t ← time_to_secs t; Some (GData MBeforeTime t 0).
(** group.go:96-108 afterTimeLimitParse *)
Definition after_time_parse (name : string) : option gdata :=
  '(t, s) ← hms_ name; s ← less_ s; s ← lit "time" s; t ← end_ t s;
  t ← time_to_secs t; Some (GData MAfterTime 0 t).
(** group.go:110-127 betweenTimesLimitParse *)
Definition between_times_parse (name : string) : option gdata :=
  '(t, s) ← hms_ name; s ← less_ s; s ← lit "time" s; s ← less_ s; '(u, s) ← hms_ s; u ← end_ u s;
  t ← time_to_secs t; u ← time_to_secs u; Some (GData MBetweenTimes u t).
(** group.go:129-141 beforeDateTimeLimitParse *)
Definition before_datetime_parse (local : zone) (name : string) : option gdata :=
  s ← lit "datetime" name; s ← less_ s; '(t, s) ← datetime_ s; t ← end_ t s;
  t ← datetime_to_unix local t; Some (GData MBeforeDateTime t 0).
(** group.go:143-155 afterDateTimeLimitParse *)
Definition after_datetime_parse (local : zone) (name : string) : option gdata :=
  '(t, s) ← datetime_ name; s ← less_ s; s ← lit "datetime" s; t ← end_ t s;
  t ← datetime_to_unix local t; Some (GData MAfterDateTime 0 t).
(** group.go:157-174 betweenDateTimesLimitParse *)
Definition between_datetimes_parse (local : zone) (name : string) : option gdata :=
  '(t, s) ← datetime_ name; s ← less_ s; s ← lit "datetime" s; s ← less_ s; '(u, s) ← datetime_ s; u ← end_ u s;
  t ← datetime_to_unix local t; u ← datetime_to_unix local u; Some (GData MBetweenDateTimes u t).

(** strings.SplitN(name, ":", 2), group.go:62: the parts around the first colon *)
Fixpoint split_colon (s : string) : option (string * string) :=
  match s with
  | "" => None
  | String a s =>
      if Ascii.eqb a ":" then Some ("", s)
      else '(p, q) ← split_colon s; Some (String a p, q)
  end.
(** The digits of strconv.ParseInt, group.go:64 *)
Fixpoint digits_ (acc : Z) (s : string) : option Z :=
  match s with
  | "" => Some acc
  | String a s => x ← digit_of a; digits_ (10 * acc + x) s
  end.
(** strconv.ParseInt(s, 10, 64), group.go:64: an optional sign, at least one
    digit, within int64 *)
Definition parse_int (s : string) : option Z :=
  let '(neg, ds) := match s with
                    | String a s' => if Ascii.eqb a "-" then (true, s') else if Ascii.eqb a "+" then (false, s') else (false, s)
                    | "" => (false, "")
                    end in
  match ds with
  | "" => None
  | _ => n ← digits_ 0 ds;
         let n := if (neg : bool) then - n else n in
         if (- 2 ^ 63 <=? n)%Z && (n <? 2 ^ 63)%Z then Some n else None
  end.
(** group.go:61-71 countLimitParse; only the case with data matters to the caller *)
Definition count_parse (name : string) : option (string * gdata) :=
  '(p, q) ← split_colon name; n ← parse_int q; Some (p, new_count n).

(** group.go:178-197 NameToGroupData. [None] is the nil data. *)
Definition name_to_group (local : zone) (name : string) : string * option gdata :=
  match before_time_parse name with Some d => (name, Some d) | None =>
  match after_time_parse name with Some d => (name, Some d) | None =>
  match between_times_parse name with Some d => (name, Some d) | None =>
  match before_datetime_parse local name with Some d => (name, Some d) | None =>
  match after_datetime_parse local name with Some d => (name, Some d) | None =>
  match between_datetimes_parse local name with Some d => (name, Some d) | None =>
  match count_parse name with Some (n, d) => (n, Some d) | None => (name, None)
  end end end end end end end.

(** group.go:283-288 secondsInDay: [offset u] is the zone's offset from UTC at
    Unix time [u], [midnight] the instant time.Date gives for the start of the
    local day (286). *)
Definition seconds_in_day (now midnight : Z) : Z := now - midnight.
