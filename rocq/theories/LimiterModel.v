(** Model of /repo/limiter: limiter.go and the group struct of group.go.

    Every method of Limiter holds l.mu from start to end (limiter.go:55, 68, 81,
    98, 118, 214, 229, 245), so each is one atomic step; a waiting Increment is
    one step up to the unlock (132) and one step per wake-up (138-146). Int64
    arithmetic is unbounded here: counts only move by one per call. *)
From Coq Require Import ZArith.
From stdpp Require Import base option strings gmap list.
From RecordUpdate Require Import RecordSet.
Import RecordSetNotations.
Open Scope Z_scope.

(** group.go:31-42 groupMode *)
Inductive gmode :=
| MUnknown | MCount | MBeforeTime | MAfterTime | MBetweenTimes
| MBeforeDateTime | MAfterDateTime | MBetweenDateTimes.
Global Instance gmode_eq_dec : EqDecision gmode.
Proof. solve_decision. Defined.

(** group.go:45-49 GroupData *)
Record gdata := GData { dmode : gmode; dlimit : Z; dcurrent : Z }.
Global Instance gdata_eq_dec : EqDecision gdata.
Proof. solve_decision. Defined.

(** group.go:231-235 group. [gnotify]: toNotify, channels by number. The name is
    the key of the groups map. *)
Record grp := Grp { gdat : gdata; gnotify : list nat }.

(** What one look at the clock gives: secondsInDay() (group.go:283-288) and
    time.Now().Unix(). *)
Record clock := Clock { csod : Z; cunix : Z }.

(** group.go:202-208 NewCountGroupData *)
Definition new_count (limit : Z) : gdata :=
  if limit <? 0 then GData MUnknown 0 0 else GData MCount limit 0.
(** group.go:211-213 IsCount *)
Definition is_count (d : gdata) : bool := match dmode d with MCount => true | _ => false end.
(** group.go:216-218 IsValid; the nil pointer is [None] *)
Definition is_valid (d : option gdata) : bool :=
  match d with Some d => match dmode d with MUnknown => false | _ => true end | None => false end.

(** group.go:238-243 newGroup *)
Definition new_group (d : gdata) : grp := Grp d [].
(** group.go:246-250 setLimit *)
Definition set_limit (g : grp) (limit : Z) : grp :=
  if is_count (gdat g) then Grp (GData (dmode (gdat g)) limit (dcurrent (gdat g))) (gnotify g) else g.
(** group.go:254-281 canIncrement *)
Definition can_increment (c : clock) (d : gdata) : bool :=
  match dmode d with
  | MCount => dcurrent d <? dlimit d
  | MBeforeTime => csod c <? dlimit d
  | MAfterTime => dcurrent d <? csod c
  | MBetweenTimes =>
      if dlimit d <? dcurrent d then (dlimit d <? csod c) && (csod c <? dcurrent d)
      else (dcurrent d <? csod c) && (csod c <? dlimit d)
  | MBeforeDateTime => cunix c <? dlimit d
  | MAfterDateTime => dcurrent d <? cunix c
  | MBetweenDateTimes => (dcurrent d <? cunix c) && (cunix c <? dlimit d)
  | MUnknown => false
  end.
(** group.go:293-297 increment *)
Definition increment (g : grp) : grp :=
  if is_count (gdat g) then Grp (GData MCount (dlimit (gdat g)) (dcurrent (gdat g) + 1)) (gnotify g) else g.
(** group.go:301-328 decrement: the group, the channels that the goroutine (320)
    will send to, and whether the group is unused. *)
Definition decrement (g : grp) : grp * list nat * bool :=
  if is_count (gdat g) then
    if dcurrent (gdat g) =? 0 then (g, [], true)
    else (Grp (GData MCount (dlimit (gdat g)) (dcurrent (gdat g) - 1)) [], gnotify g,
          dcurrent (gdat g) - 1 <? 1)
  else (g, [], false).
(** group.go:332-342 capacity *)
Definition capacity (c : clock) (d : gdata) : Z :=
  if can_increment c d then if is_count d then dlimit d - dcurrent d else -1 else 0.
(** group.go:346-350 notifyDecrement *)
Definition notify_decrement (ch : nat) (g : grp) : grp :=
  if is_count (gdat g) then Grp (gdat g) (gnotify g ++ [ch]) else g.

(** limiter.go:39-43 Limiter, plus: [waiting], for every waiting Increment its
    current channel and groups (the locals of limiter.go:117-152); [sent], the
    channels that something was or is about to be sent to (group.go:320-324);
    [nchan], the number of channels made. *)
Record lstate := LState {
  groups : gmap string grp; waiting : gmap nat (list string); sent : gset nat; nchan : nat }.
Global Instance eta_lstate : Settable _ := settable! LState <groups; waiting; sent; nchan>.

(** limiter.go:46-51 New *)
Definition l_new : lstate := LState ∅ ∅ ∅ 0.

(** The SetLimitCallback (limiter.go:36): an oracle asked anew on every call;
    the first argument counts the places in the method it is called from. *)
Definition callback := nat → string → option gdata.

(** limiter.go:184-193 vivifyGroup *)
Definition vivify (cb : string → option gdata) (gs : gmap string grp) (name : string)
  : gmap string grp * option grp :=
  match gs !! name with
  | Some g => (gs, Some g)
  | None => match cb name with
            | Some d => if is_valid (Some d) then (<[name := new_group d]> gs, Some (new_group d)) else (gs, None)
            | None => (gs, None)
            end
  end.

(** limiter.go:157-167 checkGroups; [n] numbers the callback calls and clock
    readings *)
Fixpoint check_groups (cb : callback) (clk : nat → clock) (n : nat) (gs : gmap string grp) (names : list string)
  : gmap string grp * bool :=
  match names with
  | [] => (gs, true)
  | name :: names =>
      match vivify (cb n) gs name with
      | (gs, Some g) => if can_increment (clk n) (gdat g) then check_groups cb clk (S n) gs names else (gs, false)
      | (gs, None) => check_groups cb clk (S n) gs names
      end
  end.
(** limiter.go:171-178 incrementGroups *)
Fixpoint increment_groups (cb : callback) (n : nat) (gs : gmap string grp) (names : list string) : gmap string grp :=
  match names with
  | [] => gs
  | name :: names =>
      match vivify (cb n) gs name with
      | (gs, Some g) => increment_groups cb (S n) (<[name := increment g]> gs) names
      | (gs, None) => increment_groups cb (S n) gs names
      end
  end.
(** limiter.go:197-204 registerGroupNotifications *)
Fixpoint register_groups (cb : callback) (n : nat) (ch : nat) (gs : gmap string grp) (names : list string) : gmap string grp :=
  match names with
  | [] => gs
  | name :: names =>
      match vivify (cb n) gs name with
      | (gs, Some g) => register_groups cb (S n) ch (<[name := notify_decrement ch g]> gs) names
      | (gs, None) => register_groups cb (S n) ch gs names
      end
  end.
(** limiter.go:217-223, the loop of Decrement; second result: channels sent to *)
Fixpoint decrement_groups (gs : gmap string grp) (names : list string) : gmap string grp * list nat :=
  match names with
  | [] => (gs, [])
  | name :: names =>
      match gs !! name with
      | None => decrement_groups gs names
      | Some g =>
          let '(g', chs, unused) := decrement g in
          let '(gs, chs') := decrement_groups (if unused then delete name gs else <[name := g']> gs) names in
          (gs, chs ++ chs')
      end
  end.
(** limiter.go:232-239 *)
Fixpoint lowest_limit (cb : callback) (n : nat) (gs : gmap string grp) (lowest : Z) (names : list string)
  : gmap string grp * Z :=
  match names with
  | [] => (gs, lowest)
  | name :: names =>
      match vivify (cb n) gs name with
      | (gs, Some g) =>
          lowest_limit cb (S n) gs
            (if (lowest =? -1) || (dlimit (gdat g) <? lowest) then dlimit (gdat g) else lowest) names
      | (gs, None) => lowest_limit cb (S n) gs lowest names
      end
  end.
(** limiter.go:248-258 *)
Fixpoint lowest_capacity (cb : callback) (clk : nat → clock) (n : nat) (gs : gmap string grp) (lowest : Z) (names : list string)
  : gmap string grp * Z :=
  match names with
  | [] => (gs, lowest)
  | name :: names =>
      match vivify (cb n) gs name with
      | (gs, Some g) =>
          let c := capacity (clk n) (gdat g) in
          lowest_capacity cb clk (S n) gs (if (lowest =? -1) || (c <? lowest) then c else lowest) names
      | (gs, None) => lowest_capacity cb clk (S n) gs lowest names
      end
  end.

(** The steps. *)
Inductive lop :=
| LSetLimit (name : string) (d : gdata)                                   (** limiter.go:54-63 *)
| LGetLimit (cb : callback) (name : string)                               (** 67-77 *)
| LGetLimits                                                              (** 80-93 *)
| LRemoveLimit (name : string)                                            (** 97-101 *)
| LIncrement (cb : callback) (clk : nat → clock) (names : list string) (wait : bool)  (** 117-132 *)
| LWake (cb : callback) (clk : nat → clock) (ch : nat)                    (** 137-147 *)
| LGiveUp (ch : nat)                                                      (** 148-149 *)
| LDecrement (names : list string)                                        (** 213-224 *)
| LLowest (cb : callback) (names : list string)                           (** 228-240 *)
| LCapacity (cb : callback) (clk : nat → clock) (names : list string).    (** 244-259 *)
Inductive lres :=
| RDone | RBool (b : bool) | RWaits (ch : nat) | RData (d : gdata) | RInt (n : Z) | RLimits (m : gmap string Z)
| RDisabled. (** not a possible step: no such waiting Increment, or nothing sent to it *)

(** limiter.go:118-132 and 138-146: try, and register a new channel if told to *)
Definition attempt (s : lstate) (cb : callback) (clk : nat → clock) (names : list string) (wait : bool)
  : lstate * lres :=
  let '(gs, ok) := check_groups cb clk 0 (groups s) names in
  let n := length names in
  if ok then (s <| groups := increment_groups cb n gs names |>, RBool true)
  else if wait then
    (s <| groups := register_groups cb n (nchan s) gs names |>
       <| waiting ::= <[nchan s := names]> |> <| nchan ::= S |>, RWaits (nchan s))
  else (s <| groups := gs |>, RBool false).

(** The methods, at the lines given with [lop]. Simplification: GetLimit returns
    a pointer into the group (76); here a copy. *)
Definition lstep (s : lstate) (o : lop) : lstate * lres :=
  match o with
  | LSetLimit name d =>
      (s <| groups ::= λ gs, match gs !! name with
                             | Some g => <[name := set_limit g (dlimit d)]> gs
                             | None => <[name := new_group d]> gs
                             end |>, RDone)
  | LGetLimit cb name =>
      match vivify (cb 0%nat) (groups s) name with
      | (gs, Some g) => (s <| groups := gs |>, RData (gdat g))
      | (gs, None) => (s <| groups := gs |>, RData (new_count (-1)))
      end
  | LGetLimits =>
      (s, RLimits (omap (λ g, if is_count (gdat g) then Some (dlimit (gdat g)) else None) (groups s)))
  | LRemoveLimit name => (s <| groups ::= delete name |>, RDone)
  | LIncrement cb clk names wait => attempt s cb clk names wait
  | LWake cb clk ch =>
      match waiting s !! ch with
      | Some names =>
          if decide (ch ∈ sent s) then attempt (s <| waiting ::= delete ch |>) cb clk names true
          else (s, RDisabled)
      | None => (s, RDisabled)
      end
  | LGiveUp ch =>
      match waiting s !! ch with
      | Some _ => (s <| waiting ::= delete ch |>, RBool false)
      | None => (s, RDisabled)
      end
  | LDecrement names =>
      let '(gs, chs) := decrement_groups (groups s) names in
      (s <| groups := gs |> <| sent ::= λ t, list_to_set chs ∪ t |>, RDone)
  | LLowest cb names => let '(gs, n) := lowest_limit cb 0 (groups s) (-1) names in (s <| groups := gs |>, RInt n)
  | LCapacity cb clk names =>
      let '(gs, n) := lowest_capacity cb clk 0 (groups s) (-1) names in (s <| groups := gs |>, RInt n)
  end.

(** A history of calls, by any number of callers (limiter.go:42: one mutex). *)
Fixpoint lrun (s : lstate) (ops : list lop) : lstate * list lres :=
  match ops with
  | [] => (s, [])
  | o :: ops => let '(s, r) := lstep s o in let '(s, rs) := lrun s ops in (s, r :: rs)
  end.
