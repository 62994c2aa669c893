(** Vocabulary of the limiter properties. Reads the fields of the Go structs
    only; uses none of the model's functions but the run of a history. *)
From Coq Require Import ZArith.
From stdpp Require Import base option strings gmap list.
From RecordUpdate Require Import RecordSet.
From Verif Require Import LimiterModel.
Open Scope Z_scope.

(** The count of a (count) group; a group not in memory has count 0. *)
Definition count (s : lstate) (name : string) : Z :=
  match groups s !! name with
  | Some g => match dmode (gdat g) with MCount => dcurrent (gdat g) | _ => 0 end
  | None => 0
  end.
(** Its limit, if it is a count group in memory. *)
Definition limit_of (s : lstate) (name : string) : option Z :=
  match groups s !! name with
  | Some g => match dmode (gdat g) with MCount => Some (dlimit (gdat g)) | _ => None end
  | None => None
  end.
(** How often a name is given. *)
Definition occ (name : string) (names : list string) : Z :=
  Z.of_nat (length (filter (λ n, n = name) names)).

(** The callback answers the same each time it is asked during the call. *)
Definition stable (cb : callback) (f : string → option gdata) : Prop := ∀ n, cb n = f.
(** Its answers are made by NewCountGroupData or parsed from a name: nothing
    is counted yet. *)
Definition fresh (f : string → option gdata) : Prop :=
  ∀ name d, f name = Some d → dmode d = MCount → dcurrent d = 0.

(** What is known about a group: what is in memory, else what the callback says
    if that is a limit. *)
Definition data_of (f : string → option gdata) (s : lstate) (name : string) : option gdata :=
  match groups s !! name with
  | Some g => Some (gdat g)
  | None => match f name with
            | Some d => match dmode d with MUnknown => None | _ => Some d end
            | None => None
            end
  end.
(** The group lets one more in at this moment. *)
Definition room (c : clock) (d : gdata) : Prop :=
  match dmode d with
  | MCount => dcurrent d < dlimit d
  | MBeforeTime => csod c < dlimit d
  | MAfterTime => dcurrent d < csod c
  | MBetweenTimes => Z.min (dcurrent d) (dlimit d) < csod c < Z.max (dcurrent d) (dlimit d)
  | MBeforeDateTime => cunix c < dlimit d
  | MAfterDateTime => dcurrent d < cunix c
  | MBetweenDateTimes => dcurrent d < cunix c < dlimit d
  | MUnknown => False
  end.

(** An attempt to increment: a call of Increment, or a waiting one that has been
    notified and tries again. With the callback, the clock and the groups. *)
Definition tries (s : lstate) (o : lop) : option (callback * (nat → clock) * list string) :=
  match o with
  | LIncrement cb clk names _ => Some (cb, clk, names)
  | LWake cb clk ch =>
      if decide (ch ∈ sent s)
      then match waiting s !! ch with Some names => Some (cb, clk, names) | None => None end
      else None
  | _ => None
  end.
(** The same group with [n] more counted. *)
Definition plus (n : Z) (d : gdata) : gdata :=
  match dmode d with MCount => GData MCount (dlimit d) (dcurrent d + n) | _ => d end.
(** The callback a step uses. *)
Definition cb_of (o : lop) : option callback :=
  match o with
  | LGetLimit cb _ | LIncrement cb _ _ _ | LWake cb _ _ | LLowest cb _ | LCapacity cb _ _ => Some cb
  | _ => None
  end.

(** [P] holds of every call of a history in the state it is made in. *)
Fixpoint lalways (P : lstate → lop → Prop) (s : lstate) (ops : list lop) : Prop :=
  match ops with
  | [] => True
  | o :: ops => P s o ∧ lalways P (lstep s o).1 ops
  end.

(** Increments not yet undone, from the calls and their results. *)
Definition outstanding_step (s : lstate) (o : lop) (h : string → Z) (name : string) : Z :=
  match tries s o, (lstep s o).2 with
  | Some (_, _, names), RBool true => h name + occ name names
  | _, _ => match o with LDecrement names => h name - occ name names | _ => h name end
  end.
Fixpoint outstanding_from (h : string → Z) (s : lstate) (ops : list lop) : string → Z :=
  match ops with
  | [] => h
  | o :: ops => outstanding_from (outstanding_step s o h) (lstep s o).1 ops
  end.
Definition outstanding (ops : list lop) : string → Z := outstanding_from (λ _, 0) l_new ops.
(** Only what is outstanding is ever decremented. *)
Fixpoint paired_from (h : string → Z) (s : lstate) (ops : list lop) : Prop :=
  match ops with
  | [] => True
  | o :: ops =>
      match o with LDecrement names => ∀ name, occ name names ≤ h name | _ => True end ∧
      paired_from (outstanding_step s o h) (lstep s o).1 ops
  end.
Definition paired (ops : list lop) : Prop := paired_from (λ _, 0) l_new ops.

(** Whether a name has a count limit does not change: those in [L] have one
    (which may change), the others none, and RemoveLimit is not used on them. *)
Definition constant_groups (L : string → bool) (o : lop) : Prop :=
  match cb_of o with
  | Some cb => ∀ n name, (L name = true → ∃ l, cb n name = Some (GData MCount l 0)) ∧
                         (L name = false → ∀ d, cb n name = Some d → dmode d ≠ MCount)
  | None => True
  end ∧
  match o with
  | LSetLimit name d => (L name = true → dmode d = MCount ∧ dcurrent d = 0) ∧ (L name = false → dmode d ≠ MCount)
  | LRemoveLimit name => L name = false
  | _ => True
  end.
(** Increment is not given the same name twice, and its callback is stable. *)
Definition increments_properly (s : lstate) (o : lop) : Prop :=
  match cb_of o with Some cb => ∃ f, stable cb f ∧ fresh f | None => True end ∧
  match tries s o with Some (_, _, names) => NoDup names | None => True end.
(** SetLimit makes a count group with nothing counted and does not put the limit
    below the current count. *)
Definition sets_properly (s : lstate) (o : lop) : Prop :=
  match o with
  | LSetLimit name d => (dmode d = MCount → dcurrent d = 0) ∧ count s name ≤ dlimit d
  | _ => True
  end.
(** The callback does not report negative limits. *)
Definition answers_properly (o : lop) : Prop :=
  match cb_of o with
  | Some cb => ∀ n name d, cb n name = Some d → dmode d = MCount → 0 ≤ dlimit d
  | None => True
  end.

(** ** Waiting *)
(** Room is only ever made by Decrement: it takes at most what is counted, limits
    are neither raised nor removed, and no window groups are used. *)
Definition only_decrement_frees (s : lstate) (o : lop) : Prop :=
  match o with
  | LDecrement names => ∀ name l, limit_of s name = Some l → occ name names ≤ count s name
  | LSetLimit name d => dmode d = MCount ∧ ∀ l, limit_of s name = Some l → dlimit d ≤ l
  | LRemoveLimit _ => False
  | _ => match cb_of o with
         | Some cb => ∀ n name d, cb n name = Some d → dmode d = MCount ∨ dmode d = MUnknown
         | None => True
         end
  end.

(** ** Remaining capacity *)
(** Time stands still. *)
Definition steady (clk : nat → clock) (c : clock) : Prop := ∀ n, clk n = c.
(** The answers to [m] further Increments of the same groups. *)
Definition further (s : lstate) (cb : callback) (clk : nat → clock) (names : list string) (m : nat) : list lres :=
  (lrun s (replicate m (LIncrement cb clk names false))).2.
(** No open window group is among the groups, or nothing but open window groups. *)
Definition no_open_window (f : string → option gdata) (s : lstate) (c : clock) (names : list string) : Prop :=
  ∀ name d, name ∈ names → data_of f s name = Some d → dmode d = MCount ∨ ¬ room c d.
Definition all_open_windows (f : string → option gdata) (s : lstate) (c : clock) (names : list string) : Prop :=
  ∀ name d, name ∈ names → data_of f s name = Some d → dmode d ≠ MCount ∧ room c d.
