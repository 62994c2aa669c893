(** Model of the counts of scheduler groups (jobqueue/server.go:262-332, 2911-2940)
    and of Scheduler.Schedule (jobqueue/scheduler/scheduler.go:294-329). *)
From Coq Require Import ZArith String.
From stdpp Require Import base option strings gmap list.
From RecordUpdate Require Import RecordSet.
Import RecordSetNotations.
Open Scope Z_scope.

(** server.go:263-270 sgroup; name, requirements and priority are left out *)
Record sgroup := SGroup { gcount : Z; gskipped : Z }.
Global Instance eta_sgroup : Settable _ := settable! SGroup <gcount; gskipped>.
(** server.go:299-325 decrement: what it returns and the group after *)
Definition decrement (drop : Z) (g : sgroup) : Z * sgroup :=
  if bool_decide (drop < 1) then (-1, g) else
  if bool_decide (0 < gskipped g) && bool_decide (drop ≤ gskipped g) then (-1, g <| gskipped ::= λ s, s - drop |>) else
  let '(drop, g) := if bool_decide (0 < gskipped g) then (drop - gskipped g, g <| gskipped := 0 |>) else (drop, g) in
  let prev := gcount g in
  let g := g <| gcount ::= λ c, c - drop |> in
  let g := if bool_decide (gcount g < 0) then g <| gcount := 0 |> else g in
  if bool_decide (gcount g = prev) then (-1, g) else (gcount g, g).
(** server.go:328-332 hasSkips *)
Definition has_skips (g : sgroup) : bool := bool_decide (0 < gskipped g).

(** what decrementGroupCount has done by others: Schedule for a group with a count, and
    TriggerReadyAddedCallback *)
Inductive geffect := GSchedule (name : string) (count : Z) | GTrigger.
(** server.go:2911-2940 decrementGroupCount, run on its own; [runners] says that a runner
    command is set. The drop is 1 unless given. *)
Definition decrement_group_count (runners : bool) (name : string) (odrop : option Z) (groups : gmap string sgroup) : list geffect * gmap string sgroup :=
  if negb runners then ([], groups) else
  match groups !! name with
  | None => ([], groups)
  | Some g =>
      let '(count, g') := decrement (default 1 odrop) g in
      ((if bool_decide (0 ≤ count) then [GSchedule name count] else []) ++ (if has_skips g then [GTrigger] else []),
       <[name := g']> groups)
  end.
(** several calls one after the other *)
Fixpoint decrements (runners : bool) (calls : list (string * option Z)) (groups : gmap string sgroup) : list geffect * gmap string sgroup :=
  match calls with
  | [] => ([], groups)
  | (n, d) :: calls => let '(e, groups) := decrement_group_count runners n d groups in
                       let '(e', groups) := decrements runners calls groups in (e ++ e', groups)
  end.
(** Calls of decrementGroupCount for one group at the same time: the decrement is under
    the group's lock, the scheduling of the clone is not (server.go:2935-2939). [gwait]
    holds the counts of calls that have decremented and not scheduled yet, [gtold] the
    count scheduled last. *)
Record gconc := GConc { ggroup : sgroup; gwait : list Z; gtold : option Z }.
Global Instance eta_gconc : Settable _ := settable! GConc <ggroup; gwait; gtold>.
Inductive gstep := GDrop (drop : Z) | GTell (i : nat).
(** server.go:2935 (GDrop) and 2936-2939 (GTell): one step of one of the calls *)
Definition gconc_step (s : gstep) (c : gconc) : gconc :=
  match s with
  | GDrop d => let '(n, g) := decrement d (ggroup c) in
               c <| ggroup := g |> <| gwait ::= λ w, if bool_decide (0 ≤ n) then w ++ [n] else w |>
  | GTell i => match gwait c !! i with
               | Some n => c <| gtold := Some n |> <| gwait ::= delete i |>
               | None => c
               end
  end.

(** scheduler.go Schedule: one call of impl.schedule, with the arguments it was given *)
Record call := Call { ccmd : string; cprio : Z; ccount : Z }.
(** the scheduler: the limiter, the calls of impl.schedule now running, the goroutines
    that are yet to call Schedule again, and all calls of impl.schedule so far. What
    impl.schedule returns is passed on and changes nothing here; requirements are left
    out. *)
Record sched := Sched { limiter : gmap string Z; running : list call; recalls : list call; told : list call }.
Global Instance eta_sched : Settable _ := settable! Sched <limiter; running; recalls; told>.
(** scheduler.go:301-308: what a call does under the first lock, and whether it then
    runs impl.schedule *)
Definition enter (c : call) (s : sched) : sched :=
  match limiter s !! ccmd c with
  | Some _ => s <| limiter ::= <[ccmd c := ccount c]> |>
  | None => s <| limiter ::= <[ccmd c := ccount c]> |> <| running ::= λ r, r ++ [c] |> <| told ::= λ t, t ++ [c] |>
  end.
(** scheduler.go:312-326: what it does under the second lock, after impl.schedule *)
Definition leave (c : call) (s : sched) : sched :=
  match limiter s !! ccmd c with
  | Some n => let s := if bool_decide (n ≠ ccount c) then s <| recalls ::= λ r, r ++ [Call (ccmd c) (cprio c) n] |> else s in
              s <| limiter ::= delete (ccmd c) |>
  | None => s
  end.
(** a user calls Schedule, a running impl.schedule ends, a goroutine calls Schedule again *)
Inductive sevent := SCall (c : call) | SEnd (i : nat) | SRecall (i : nat).
(** scheduler.go:294-329 Schedule, a step at a time; None: there is no such call *)
Definition sched_step (e : sevent) (s : sched) : option sched :=
  match e with
  | SCall c => Some (enter c s)
  | SEnd i => c ← running s !! i; Some (leave c (s <| running ::= delete i |>))
  | SRecall i => c ← recalls s !! i; Some (enter c (s <| recalls ::= delete i |>))
  end.
Fixpoint sched_run (es : list sevent) (s : sched) : option sched :=
  match es with [] => Some s | e :: es => s ← sched_step e s; sched_run es s end.
(** scheduler.go:251 (the limiter made by New): nothing called yet *)
Definition sched0 : sched := Sched ∅ [] [] [].
