(** Model of the queue package (queue/queue.go, item.go, subqueue.go,
    bury_queue.go, dependency_queue.go).

    Every exported operation holds queue.mutex from start to end (Reserve drops
    it only while waiting), so each is one atomic step here; the two background
    goroutines are steps [TickDelay] and [TickTTR].  [None] is a Go panic. *)
From Coq Require Import ZArith String.
From stdpp Require Import base option strings gmap list.
From RecordUpdate Require Import RecordSet.
From Verif Require Import GoHeap.
Import RecordSetNotations.
Open Scope Z_scope.

Notation key := string (only parsing).
Notation group := string (only parsing).

(** queue/queue.go ItemState constants (item states; "removed" is set by
    queue/item.go:405-417 removalCleanup). *)
Inductive istate := SDelay | SReady | SRun | SBury | SDep | SRemoved.
Global Instance istate_eq_dec : EqDecision istate.
Proof. solve_decision. Defined.

(** queue/queue.go SubQueue constants: the moved-from/moved-to names given to
    the changed callback (queue.go:142-146). *)
Inductive subq := QNew | QDelay | QReady | QRun | QBury | QDep | QRemoved.
Global Instance subq_eq_dec : EqDecision subq.
Proof. solve_decision. Defined.

(** Go's zero time.Time: earlier than every clock reading. Times are integers
    (nanoseconds); a clock reading is assumed positive where it matters. *)
Definition time_zero : Z := 0.

(** queue/item.go:50-72 Item. Left out: the mutex (steps are atomic) and
    queueIndexes (kept per sub-queue, see GoHeap.arrq). [data] is an opaque
    number standing for the interface{} value. Counters are unbounded (Go:
    uint32, wrap after 2^32 events). *)
Record item := Item {
  ikey : key;
  igroup : group;
  idata : N;
  ist : istate;
  nreserves : N;
  ntimeouts : N;
  nreleases : N;
  nburies : N;
  nkicks : N;
  iprio : N;
  isize : N;
  idelay : Z;
  ittr : Z;
  readyAt : Z;
  releaseAt : Z;
  creation : Z;
  ideps : list key;
  iremain : gset key;
}.
Global Instance eta_item : Settable _ :=
  settable! Item <ikey; igroup; idata; ist; nreserves; ntimeouts; nreleases;
                  nburies; nkicks; iprio; isize; idelay; ittr; readyAt;
                  releaseAt; creation; ideps; iremain>.

(** queue/item.go:94-112 newItem (size set at queue.go:434). The two time.Now()
    readings are one. *)
Definition new_item (now : Z) (k : key) (g : group) (d : N) (prio size : N)
    (delay ttr : Z) : item :=
  {| ikey := k; igroup := g; idata := d; ist := SDelay; nreserves := 0;
     ntimeouts := 0; nreleases := 0; nburies := 0; nkicks := 0; iprio := prio;
     isize := size; idelay := delay; ittr := ttr; readyAt := now + delay;
     releaseAt := time_zero; creation := now; ideps := []; iremain := ∅ |}.

(** queue/item.go:231-239 setDependencies *)
Definition set_dependencies (deps : list key) (it : item) : item :=
  it <| ideps := deps |> <| iremain := list_to_set deps |>.

(** queue/item.go:215-220: the first dependency equal to [old] is renamed. *)
Fixpoint rename_first (old new : key) (l : list key) : list key :=
  match l with
  | [] => []
  | d :: l => if decide (d = old) then new :: l else d :: rename_first old new l
  end.

(** queue/item.go:206-226 ChangedKey *)
Definition changed_key (old new : key) (it : item) : item :=
  if decide (ikey it = old) then it <| ikey := new |>
  else
    it <| ideps := rename_first old new (ideps it) |>
       <| iremain := if decide (old ∈ iremain it)
                     then {[new]} ∪ (iremain it ∖ {[old]})
                     else iremain it |>.

(** queue/item.go:257-261 restart *)
Definition restart (now : Z) (it : item) : item := it <| readyAt := now + idelay it |>.
(** queue/item.go:265-269 touch *)
Definition touch (now : Z) (it : item) : item := it <| releaseAt := now + ittr it |>.
(** queue/item.go:290-294 tempDisableTTR: 8760 hours from now *)
Definition temp_disable_ttr (now : Z) (it : item) : item :=
  it <| releaseAt := now + 8760 * 3600 * 1000000000 |>.
(** queue/item.go:272-276 isready *)
Definition isready (now : Z) (it : item) : bool := readyAt it <? now.
(** queue/item.go:279-286 releasable *)
Definition releasable (now : Z) (it : item) : bool :=
  negb (releaseAt it =? time_zero) && (releaseAt it <? now).

(** queue/item.go:297-303 switchDelayReady (the queueIndexes entry is cleared by
    the state-level functions below) *)
Definition switch_delay_ready (it : item) : item :=
  it <| readyAt := time_zero |> <| ist := SReady |>.
(** queue/item.go:306-312 switchDelayDependent *)
Definition switch_delay_dependent (it : item) : item :=
  it <| readyAt := time_zero |> <| ist := SDep |>.
(** queue/item.go:315-320 switchDependentReady *)
Definition switch_dependent_ready (it : item) : item := it <| ist := SReady |>.
(** queue/item.go:323-329 switchReadyRun *)
Definition switch_ready_run (it : item) : item :=
  it <| nreserves := (nreserves it + 1)%N |> <| ist := SRun |>.
(** queue/item.go:332-337 switchReadyDependent *)
Definition switch_ready_dependent (it : item) : item := it <| ist := SDep |>.
(** queue/item.go:340-347 switchRunReady: always counts a time-out *)
Definition switch_run_ready (it : item) : item :=
  it <| releaseAt := time_zero |> <| ntimeouts := (ntimeouts it + 1)%N |> <| ist := SReady |>.
(** queue/item.go:350-361 switchRunDelay *)
Definition switch_run_delay (timedOut : bool) (it : item) : item :=
  let it := it <| releaseAt := time_zero |> in
  let it := if timedOut then it <| ntimeouts := (ntimeouts it + 1)%N |>
            else it <| nreleases := (nreleases it + 1)%N |> in
  it <| ist := SDelay |>.
(** queue/item.go:364-374 switchRunBury *)
Definition switch_run_bury (timedOut : bool) (it : item) : item :=
  let it := it <| releaseAt := time_zero |> in
  let it := if timedOut then it <| ntimeouts := (ntimeouts it + 1)%N |> else it in
  it <| nburies := (nburies it + 1)%N |> <| ist := SBury |>.
(** queue/item.go:377-384 switchRunDependent *)
Definition switch_run_dependent (it : item) : item :=
  it <| releaseAt := time_zero |> <| nreleases := (nreleases it + 1)%N |> <| ist := SDep |>.
(** queue/item.go:387-393 switchBuryReady *)
Definition switch_bury_ready (it : item) : item :=
  it <| nkicks := (nkicks it + 1)%N |> <| ist := SReady |>.
(** queue/item.go:396-402 switchBuryDependent *)
Definition switch_bury_dependent (it : item) : item :=
  it <| nkicks := (nkicks it + 1)%N |> <| ist := SDep |>.
(** queue/item.go:405-420 removalCleanup *)
Definition removal_cleanup (it : item) : item :=
  it <| releaseAt := time_zero |> <| readyAt := time_zero |> <| ist := SRemoved |>.

(** The ready sub-queue, queue/subqueue.go:32-39 with sqIndex 1: one heap per
    reserve group, the group used by the last push/pop/remove, and the items'
    queueIndexes[1]. *)
Record readyq := ReadyQ { rgroups : gmap group (list nat); rix : gmap nat Z; rlast : group }.
Global Instance eta_readyq : Settable _ := settable! ReadyQ <rgroups; rix; rlast>.

(** queue/queue.go:164-189 Queue. Left out: the name, callbacks (supplied by the
    environment at each step) and channels. [objs] is the Go heap of items, kept
    after removal so that stale pointers can be followed. [delayTime]/[ttrTime]
    are when the background goroutines will next wake. *)
Record qstate := QState {
  objs : gmap nat item;
  items : gmap key nat;
  dependants : gmap key (gmap key nat);
  delayQ : arrq;
  readyQ : readyq;
  runQ : arrq;
  buryQ : arrq;
  depQ : arrq;
  nextid : nat;
  closed : bool;
  delayTime : Z;
  ttrTime : Z;
}.
Global Instance eta_qstate : Settable _ :=
  settable! QState <objs; items; dependants; delayQ; readyQ; runQ; buryQ; depQ;
                    nextid; closed; delayTime; ttrTime>.

(** one hour, the background goroutines' idle sleep (queue.go:1232, 1296) *)
Definition hour : Z := 3600 * 1000000000.

(** queue/queue.go:214-239 New at time [now]; the started goroutines have set
    delayTime and ttrTime (queue.go:1235, 1299). *)
Definition q_new (now : Z) : qstate :=
  {| objs := ∅; items := ∅; dependants := ∅; delayQ := arrq_empty;
     readyQ := ReadyQ ∅ ∅ ""; runQ := arrq_empty; buryQ := arrq_empty;
     depQ := arrq_empty; nextid := 0; closed := false;
     delayTime := now + hour; ttrTime := now + hour |}.

(** Following an item pointer. Pointers in the queue are never dangling (this is
    part of the invariant); a dangling one would read as [dummy_item]. *)
Definition dummy_item : item := new_item 0 "" "" 0 0 0 0 0.
Definition obj (o : gmap nat item) (x : nat) : item := default dummy_item (o !! x).

(** queue/subqueue.go:239-257 Less, by the items' current fields. *)
Definition less_delay (o : gmap nat item) (x y : nat) : bool :=
  readyAt (obj o x) <? readyAt (obj o y).
Definition item_before (a b : item) : bool :=
  if (iprio a =? iprio b)%N then
    if (isize a =? isize b)%N then creation a <? creation b
    else (isize b <? isize a)%N
  else (iprio b <? iprio a)%N.
Definition less_ready (o : gmap nat item) (x y : nat) : bool :=
  item_before (obj o x) (obj o y).
Definition less_run (o : gmap nat item) (x y : nat) : bool :=
  releaseAt (obj o x) <? releaseAt (obj o y).

(** Mutation through an item pointer. *)
Definition mod_obj (f : item → item) (x : nat) (s : qstate) : qstate :=
  s <| objs ::= alter f x |>.

(** item.queueIndexes[k] = -1, for each of the five sub-queues (item.go:300..) *)
Definition clr_delay (x : nat) (s : qstate) : qstate := s <| delayQ ::= λ q, set_idx q x (-1) |>.
Definition clr_ready (x : nat) (s : qstate) : qstate := s <| readyQ ::= λ r, r <| rix ::= <[x := -1]> |> |>.
Definition clr_run (x : nat) (s : qstate) : qstate := s <| runQ ::= λ q, set_idx q x (-1) |>.
Definition clr_bury (x : nat) (s : qstate) : qstate := s <| buryQ ::= λ q, set_idx q x (-1) |>.
Definition clr_dep (x : nat) (s : qstate) : qstate := s <| depQ ::= λ q, set_idx q x (-1) |>.

(** delayQueue.push / remove / update (queue/subqueue.go:117-125, 152-159,
    197-209 with sqIndex 0) *)
Definition delay_push (x : nat) (s : qstate) : option qstate :=
  q ← heap_push (less_delay (objs s)) (delayQ s) x; Some (s <| delayQ := q |>).
Definition delay_remove (x : nat) (s : qstate) : option qstate :=
  '(_, q) ← heap_remove (less_delay (objs s)) (delayQ s) (idx_of (delayQ s) x);
  Some (s <| delayQ := q |>).
Definition delay_update (x : nat) (s : qstate) : option qstate :=
  q ← heap_fix (less_delay (objs s)) (delayQ s) (idx_of (delayQ s) x);
  Some (s <| delayQ := q |>).

(** runQueue.push / remove / update (same, sqIndex 2) *)
Definition run_push (x : nat) (s : qstate) : option qstate :=
  q ← heap_push (less_run (objs s)) (runQ s) x; Some (s <| runQ := q |>).
Definition run_remove (x : nat) (s : qstate) : option qstate :=
  '(_, q) ← heap_remove (less_run (objs s)) (runQ s) (idx_of (runQ s) x);
  Some (s <| runQ := q |>).
Definition run_update (x : nat) (s : qstate) : option qstate :=
  q ← heap_fix (less_run (objs s)) (runQ s) (idx_of (runQ s) x);
  Some (s <| runQ := q |>).

(** buryQueue.push / remove (bury_queue.go:37-42, 57-75), depQueue.push /
    remove (dependency_queue.go:41-46, 61-79) *)
Definition bury_push (x : nat) (s : qstate) : qstate := s <| buryQ ::= λ q, slice_push q x |>.
Definition bury_remove (x : nat) (s : qstate) : option qstate :=
  q ← slice_remove (buryQ s) x; Some (s <| buryQ := q |>).
Definition dep_push (x : nat) (s : qstate) : qstate := s <| depQ ::= λ q, slice_push q x |>.
Definition dep_remove (x : nat) (s : qstate) : option qstate :=
  q ← slice_remove (depQ s) x; Some (s <| depQ := q |>).

(** groupedItems[g] seen as a slice with the items' queueIndexes[1]; a group
    that was never created reads as empty. *)
Definition rget (r : readyq) (g : group) : arrq := ArrQ (default [] (rgroups r !! g)) (rix r).
(** groupedItems[g] = slice *)
Definition rput (r : readyq) (g : group) (q : arrq) : readyq :=
  ReadyQ (<[g := arr q]> (rgroups r)) (aix q) (rlast r).

(** readyQueue heap operations act on groupedItems[q.reserveGroup]
    (queue/subqueue.go:226-332). heap.Push creates the group if needed
    (292-294); heap.Remove and heap.Fix on a group that does not exist do
    nothing (Len is 0, Less false, Swap and Pop return: 230, 244-253, 263-265,
    314-316). *)
Definition rheap_push (x : nat) (s : qstate) : option qstate :=
  let r := readyQ s in
  q ← heap_push (less_ready (objs s)) (rget r (rlast r)) x;
  Some (s <| readyQ := rput r (rlast r) q |>).
Definition rheap_remove (x : nat) (s : qstate) : option qstate :=
  let r := readyQ s in
  match rgroups r !! rlast r with
  | None => Some s
  | Some _ =>
      '(_, q) ← heap_remove (less_ready (objs s)) (rget r (rlast r)) (idx_of (rget r (rlast r)) x);
      Some (s <| readyQ := rput r (rlast r) q |>)
  end.
Definition rheap_fix (x : nat) (s : qstate) : option qstate :=
  let r := readyQ s in
  match rgroups r !! rlast r with
  | None => Some s
  | Some _ =>
      q ← heap_fix (less_ready (objs s)) (rget r (rlast r)) (idx_of (rget r (rlast r)) x);
      Some (s <| readyQ := rput r (rlast r) q |>)
  end.
Definition set_rlast (g : group) (s : qstate) : qstate := s <| readyQ ::= λ r, r <| rlast := g |> |>.

(** readyQueue.push (queue/subqueue.go:117-125; the wake-up of a waiting
    Reserve is modelled in QueueWait.v) *)
Definition ready_push (x : nat) (s : qstate) : option qstate :=
  it ← objs s !! x; rheap_push x (set_rlast (igroup it) s).
(** readyQueue.remove (queue/subqueue.go:152-159) *)
Definition ready_remove (x : nat) (s : qstate) : option qstate :=
  it ← objs s !! x; rheap_remove x (set_rlast (igroup it) s).
(** readyQueue.update(item, oldGroup) (queue/subqueue.go:197-209): when the
    group did not change, Fix runs on whichever group was used last. *)
Definition ready_update (x : nat) (old : group) (s : qstate) : option qstate :=
  it ← objs s !! x;
  if decide (old = igroup it) then rheap_fix x s
  else s ← rheap_remove x (set_rlast old s);
       rheap_push x (set_rlast (igroup it) s).
(** readyQueue.pop(group) (queue/subqueue.go:128-149) *)
Definition ready_pop (g : group) (s : qstate) : option (option nat * qstate) :=
  match rgroups (readyQ s) !! g with
  | None => Some (None, s)
  | Some l =>
      let s := set_rlast g s in
      match l with
      | [] => Some (None, s)
      | _ =>
          '(x, q) ← heap_pop (less_ready (objs s)) (rget (readyQ s) g);
          Some (Some x, s <| readyQ := rput (readyQ s) g q |>)
      end
  end.

(** queue/queue.go:1229-1235: top of the delay goroutine's loop, computes when
    it will wake next. firstItem() is items[0]. *)
Definition delay_loop_top (now : Z) (s : qstate) : option qstate :=
  match arr (delayQ s) with
  | [] => Some (s <| delayTime := now + hour |>)
  | x :: _ => it ← objs s !! x; Some (s <| delayTime := readyAt it |>)
  end.
(** queue/queue.go:1293-1299 *)
Definition ttr_loop_top (now : Z) (s : qstate) : option qstate :=
  match arr (runQ s) with
  | [] => Some (s <| ttrTime := now + hour |>)
  | x :: _ => it ← objs s !! x; Some (s <| ttrTime := releaseAt it |>)
  end.
(** queue/queue.go:1277-1286 delayNotificationTrigger: the caller waits until
    the goroutine has gone through its loop top, so the two are one step. *)
Definition delay_trigger (now : Z) (x : nat) (s : qstate) : option qstate :=
  it ← objs s !! x;
  if now + idelay it <? delayTime s then delay_loop_top now s else Some s.
(** queue/queue.go:1369-1378 ttrNotificationTrigger *)
Definition ttr_trigger (now : Z) (x : nat) (s : qstate) : option qstate :=
  it ← objs s !! x;
  if now + ittr it <? ttrTime s then ttr_loop_top now s else Some s.

(** What an operation tells its caller (queue/queue.go Err* constants). *)
Inductive qerr := EClosed | ENotFound | EExists | ENotRunning | ENotBuried | ENothingReady.
Global Instance qerr_eq_dec : EqDecision qerr.
Proof. solve_decision. Defined.
Inductive qres :=
| ROk
| RItem (x : nat)                 (* the item returned, no error *)
| RAdded (added dups : nat)
| RBool (b : bool)
| RErr (e : qerr)
| RErrItem (x : nat) (e : qerr).  (* item returned together with an error *)
Global Instance qres_eq_dec : EqDecision qres.
Proof. solve_decision. Defined.

(** A changed-callback notification (queue/queue.go:324-332): from, to, and the
    data of the items. The callback is started in a goroutine, so only the
    multiset of notifications is meaningful. *)
Definition event : Type := subq * subq * list N.
Definition data_of (s : qstate) (x : nat) : N := from_option idata 0%N (objs s !! x).
Definition ev (s : qstate) (from to : subq) (xs : list nat) : event :=
  (from, to, data_of s <$> xs).

Definition outcome : Type := qstate * qres * list event.

(** queue/queue.go:512-519 setQueueDeps *)
Definition set_queue_deps (x : nat) (s : qstate) : option qstate :=
  it ← objs s !! x;
  Some (s <| dependants ::= λ d,
    fold_left (λ d dep, <[dep := <[ikey it := x]> (default ∅ (d !! dep))]> d) (ideps it) d |>).

(** queue/queue.go:502-507 setItemDependencies *)
Definition set_item_dependencies (x : nat) (deps : list key) (s : qstate) : option qstate :=
  let s := mod_obj (set_dependencies deps) x s in
  s ← set_queue_deps x s;
  Some (dep_push x (clr_delay x (mod_obj switch_delay_dependent x s))).

(** queue/queue.go:523-530 itemHasDeps *)
Definition item_has_deps (x : nat) (s : qstate) : bool :=
  match objs s !! x with
  | None => false
  | Some it => existsb (λ d, bool_decide (is_Some (items s !! d))) (ideps it)
  end.

(** startQueue argument / ItemDef.StartQueue (queue.go:399-401, 209) *)
Inductive startq := StartDefault | StartRun | StartBury.

(** newItem and queue.items[key] = item (queue.go:433-435, 558-559) *)
Definition alloc_item (now : Z) (k : key) (g : group) (d : N) (prio size : N)
    (delay ttr : Z) (s : qstate) : nat * qstate :=
  let x := nextid s in
  (x, s <| objs ::= <[x := new_item now k g d prio size delay ttr]> |>
        <| items ::= <[k := x]> |>
        <| nextid := S x |>).

(** queue/queue.go:441-480 handleItemForAdd *)
Definition handle_item_for_add (now : Z) (x : nat) (start : startq) (delay : Z)
    (deps : list key) (s : qstate) : option outcome :=
  match deps with
  | _ :: _ =>
      s ← set_item_dependencies x deps s;
      Some (s, RItem x, [ev s QNew QDep [x]])
  | [] =>
      match start with
      | StartRun =>
          let s := clr_delay x (mod_obj switch_delay_ready x s) in
          let s := mod_obj (touch now) x s in
          s ← run_push x s;
          let s := clr_ready x (mod_obj switch_ready_run x s) in
          s ← ttr_trigger now x s;
          Some (s, RItem x, [ev s QNew QRun [x]])
      | StartBury =>
          let s := clr_delay x (mod_obj switch_delay_ready x s) in
          let s := bury_push x s in
          let s := clr_run x (mod_obj (switch_run_bury false) x s) in
          Some (s, RItem x, [ev s QNew QBury [x]])
      | StartDefault =>
          if delay =? 0 then
            let s := clr_delay x (mod_obj switch_delay_ready x s) in
            s ← ready_push x s;
            Some (s, RItem x, [ev s QNew QReady [x]])
          else
            s ← delay_push x s;
            s ← delay_trigger now x s;
            Some (s, RItem x, [ev s QNew QDelay [x]])
      end
  end.

(** queue/queue.go:410-437 Add / newItemForAdd, 486-495 AddWithSize (Add is
    size 0). [deps]: absent or empty means no dependencies (443). *)
Definition q_add (now : Z) (k : key) (g : group) (d : N) (prio size : N)
    (delay ttr : Z) (start : startq) (deps : list key) (s : qstate) : option outcome :=
  if closed s then Some (s, RErr EClosed, [])
  else match items s !! k with
  | Some x => Some (s, RErrItem x EExists, [])
  | None =>
      let '(x, s) := alloc_item now k g d prio size delay ttr s in
      handle_item_for_add now x start delay deps s
  end.

(** queue/queue.go:202-211 ItemDef *)
Record itemdef := ItemDef {
  d_key : key; d_group : group; d_data : N; d_prio : N; d_delay : Z; d_ttr : Z;
  d_start : startq; d_deps : list key }.

(** Per-call accumulators of AddMany (queue.go:544-550). The two trigger flags
    record the first item that needs the deferred notification. *)
Record addacc := AddAcc {
  a_added : nat; a_dups : nat;
  a_ready : list nat; a_delay : list nat; a_dep : list nat;
  a_run : list nat; a_bury : list nat;
  a_dtrig : option nat; a_ttrig : option nat }.
Global Instance eta_addacc : Settable _ :=
  settable! AddAcc <a_added; a_dups; a_ready; a_delay; a_dep; a_run; a_bury; a_dtrig; a_ttrig>.

(** queue/queue.go:551-600: one iteration of the AddMany loop *)
Definition add_many_one (now : Z) (def : itemdef) (s : qstate) (a : addacc)
    : option (qstate * addacc) :=
  match items s !! d_key def with
  | Some _ => Some (s, a <| a_dups ::= S |>)
  | None =>
      let '(x, s) := alloc_item now (d_key def) (d_group def) (d_data def)
                       (d_prio def) 0%N (d_delay def) (d_ttr def) s in
      let a := a <| a_added ::= S |> in
      match d_deps def with
      | _ :: _ =>
          s ← set_item_dependencies x (d_deps def) s;
          Some (s, a <| a_dep ::= λ l, l ++ [x] |>)
      | [] =>
          match d_start def with
          | StartRun =>
              let s := clr_delay x (mod_obj switch_delay_ready x s) in
              let s := mod_obj (touch now) x s in
              s ← run_push x s;
              let s := clr_ready x (mod_obj switch_ready_run x s) in
              let a := a <| a_run ::= λ l, l ++ [x] |> in
              Some (s, if bool_decide (a_ttrig a = None) && (now + d_ttr def <? ttrTime s)
                       then a <| a_ttrig := Some x |> else a)
          | StartBury =>
              let s := clr_delay x (mod_obj switch_delay_ready x s) in
              let s := bury_push x s in
              let s := clr_ready x (mod_obj switch_ready_run x s) in
              let s := clr_run x (mod_obj (switch_run_bury false) x s) in
              Some (s, a <| a_bury ::= λ l, l ++ [x] |>)
          | StartDefault =>
              if d_delay def =? 0 then
                let s := clr_delay x (mod_obj switch_delay_ready x s) in
                s ← ready_push x s;
                Some (s, a <| a_ready ::= λ l, l ++ [x] |>)
              else
                s ← delay_push x s;
                let a := a <| a_delay ::= λ l, l ++ [x] |> in
                Some (s, if bool_decide (a_dtrig a = None) && (now + d_delay def <? delayTime s)
                         then a <| a_dtrig := Some x |> else a)
          end
      end
  end.
(** queue/queue.go:551: for _, def := range items *)
Fixpoint add_many_loop (now : Z) (defs : list itemdef) (s : qstate) (a : addacc)
    : option (qstate * addacc) :=
  match defs with
  | [] => Some (s, a)
  | def :: defs =>
      '(s, a) ← add_many_one now def s a;
      add_many_loop now defs s a
  end.
(** queue/queue.go:603-618: a notification only for a non-empty category *)
Definition ev_if (s : qstate) (to : subq) (xs : list nat) : list event :=
  match xs with [] => [] | _ => [ev s QNew to xs] end.
(** deferred notification triggers (queue.go:573, 592) *)
Definition trig_opt (f : nat → qstate → option qstate) (o : option nat) (s : qstate) : option qstate :=
  match o with None => Some s | Some x => f x s end.
(** queue/queue.go:536-621 AddMany *)
Definition q_add_many (now : Z) (defs : list itemdef) (s : qstate) : option outcome :=
  if closed s then Some (s, RErr EClosed, [])
  else
    '(s, a) ← add_many_loop now defs s (AddAcc 0 0 [] [] [] [] [] None None);
    s ← trig_opt (delay_trigger now) (a_dtrig a) s;
    s ← trig_opt (ttr_trigger now) (a_ttrig a) s;
    Some (s, RAdded (a_added a) (a_dups a),
          ev_if s QReady (a_ready a) ++ ev_if s QDelay (a_delay a) ++
          ev_if s QDep (a_dep a) ++ ev_if s QRun (a_run a) ++ ev_if s QBury (a_bury a)).

(** queue/queue.go:689-703: the old unresolved dependencies not wanted any more,
    and how many of the new ones were not (or no longer) among the old. *)
Definition deps_diff (old : gset key) (deps : list key) : gset key * nat :=
  fold_left (λ '(o, n) d, (o ∖ {[d]}, if decide (d ∈ o) then n else S n)) deps (old, 0%nat).

(** queue/queue.go:707-714 *)
Definition drop_dependant (k : key) (s : qstate) (dep : key) : qstate :=
  match items s !! dep with
  | None => s
  | Some _ =>
      s <| dependants ::= λ d,
        let m := delete k (default ∅ (d !! dep)) in
        if decide (m = ∅) then delete dep d else <[dep := m]> d |>
  end.

(** queue/queue.go:687-756: the dependency part of Update; returns whether the
    item was added to the ready sub-queue and the sub-queue it left, if any. *)
Definition update_deps (k : key) (x : nat) (deps : list key) (s : qstate)
    : option (qstate * bool * option subq) :=
  it ← objs s !! x;
  let '(toRemove, newDeps) := deps_diff (iremain it) deps in
  if bool_decide (toRemove = ∅) && (newDeps =? 0)%nat then Some (s, false, None)
  else
    let s := fold_left (drop_dependant k) (elements toRemove) s in
    let s := mod_obj (set_dependencies deps) x s in
    s ← set_queue_deps x s;
    match deps with
    | _ :: _ =>
        match ist it with
        | SDep => Some (s, false, None)
        | SDelay =>
            s ← delay_remove x s;
            Some (dep_push x (clr_delay x (mod_obj switch_delay_dependent x s)), false, Some QDelay)
        | SReady =>
            s ← ready_remove x s;
            Some (dep_push x (clr_ready x (mod_obj switch_ready_dependent x s)), false, Some QReady)
        | SRun =>
            s ← run_remove x s;
            Some (dep_push x (clr_run x (mod_obj switch_run_dependent x s)), false, Some QRun)
        | SBury => Some (s, false, None)
        | SRemoved => Some (dep_push x s, false, None)
        end
    | [] =>
        s ← dep_remove x s;
        let s := clr_dep x (mod_obj switch_dependent_ready x s) in
        s ← ready_push x s;
        Some (s, true, None)
    end.

(** queue/queue.go:758-790: at most one of delay, priority/group, ttr changes *)
Definition update_props (now : Z) (x : nat) (g : group) (prio : N) (delay ttr : Z)
    (addedReady : bool) (s : qstate) : option qstate :=
  it ← objs s !! x;
  if negb (idelay it =? delay) then
    let s := mod_obj (λ it, it <| idelay := delay |>) x s in
    match ist it with
    | SDelay => delay_update x (mod_obj (restart now) x s)
    | _ => Some s
    end
  else if negb (iprio it =? prio)%N || bool_decide (igroup it ≠ g) || addedReady then
    let s := mod_obj (λ it, it <| iprio := prio |> <| igroup := g |>) x s in
    match ist it with
    | SReady => ready_update x (igroup it) s
    | _ => Some s
    end
  else if negb (ittr it =? ttr) then
    let s := mod_obj (λ it, it <| ittr := ttr |>) x s in
    match ist it with
    | SRun => run_update x (mod_obj (touch now) x s)
    | _ => Some s
    end
  else Some s.

(** queue/queue.go:670-805 Update; [deps] is the optional last argument. *)
Definition q_update (now : Z) (k : key) (g : group) (d : N) (prio : N) (delay ttr : Z)
    (deps : option (list key)) (s : qstate) : option outcome :=
  if closed s then Some (s, RErr EClosed, [])
  else match items s !! k with
  | None => Some (s, RErr ENotFound, [])
  | Some x =>
      let s := mod_obj (λ it, it <| idata := d |>) x s in
      '(s, addedReady, from) ← (match deps with
                                | None => Some (s, false, None)
                                | Some deps => update_deps k x deps s
                                end);
      s ← update_props now x g prio delay ttr addedReady s;
      Some (s, ROk,
            (if addedReady : bool then [ev s QDep QReady [x]] else []) ++
            match from with None => [] | Some f => [ev s f QDep [x]] end)
  end.

(** queue/queue.go:811-848 ChangeKey *)
Definition rename_dependants (old new : key) (d : gmap key (gmap key nat)) : gmap key (gmap key nat) :=
  let d := match d !! old with
           | None => d
           | Some v => <[new := v]> (delete old d)
           end in
  (λ m : gmap key nat, match m !! old with
                       | None => m
                       | Some v => <[new := v]> (delete old m)
                       end) <$> d.
(** queue.go:843-845: every item in the queue; objects not in the queue are left. *)
Definition rename_objs (old new : key) (its : gmap key nat) (o : gmap nat item) : gmap nat item :=
  map_fold (λ _ x o, alter (changed_key old new) x o) o its.
Definition q_change_key (old new : key) (s : qstate) : option outcome :=
  if closed s then Some (s, RErr EClosed, [])
  else match items s !! new with
  | Some _ => Some (s, RErr EExists, [])
  | None =>
      match items s !! old with
      | None => Some (s, RErr ENotFound, [])
      | Some x =>
          let its := <[new := x]> (delete old (items s)) in
          Some (s <| items := its |>
                  <| dependants ::= rename_dependants old new |>
                  <| objs ::= rename_objs old new its |>, ROk, [])
      end
  end.

(** queue/queue.go:851-879 SetDelay *)
Definition q_set_delay (now : Z) (k : key) (delay : Z) (s : qstate) : option outcome :=
  if closed s then Some (s, RErr EClosed, [])
  else match items s !! k with
  | None => Some (s, RErr ENotFound, [])
  | Some x =>
      it ← objs s !! x;
      if idelay it =? delay then Some (s, ROk, [])
      else
        let s := mod_obj (λ it, it <| idelay := delay |>) x s in
        match ist it with
        | SDelay =>
            s ← delay_update x (mod_obj (restart now) x s);
            s ← delay_trigger now x s;
            Some (s, ROk, [])
        | _ => Some (s, ROk, [])
        end
  end.

(** queue/queue.go:882-910 SetReserveGroup *)
Definition q_set_reserve_group (k : key) (g : group) (s : qstate) : option outcome :=
  if closed s then Some (s, RErr EClosed, [])
  else match items s !! k with
  | None => Some (s, RErr ENotFound, [])
  | Some x =>
      it ← objs s !! x;
      if decide (igroup it = g) then Some (s, ROk, [])
      else
        let s := mod_obj (λ it, it <| igroup := g |>) x s in
        match ist it with
        | SReady => s ← ready_update x (igroup it) s; Some (s, ROk, [])
        | _ => Some (s, ROk, [])
        end
  end.

(** queue/queue.go:933-977 Reserve: one attempt. A waiting Reserve makes a first
    attempt ([retry = false]) and, if woken by a push, one more that does not
    look at the closed flag (953-958; [retry = true]). *)
Definition q_reserve (now : Z) (g : group) (retry : bool) (s : qstate) : option outcome :=
  if closed s && negb retry then Some (s, RErr EClosed, [])
  else
    '(o, s) ← ready_pop g s;
    match o with
    | None => Some (s, RErr ENothingReady, [])
    | Some x =>
        let s := mod_obj (touch now) x s in
        s ← run_push x s;
        let s := clr_ready x (mod_obj switch_ready_run x s) in
        s ← ttr_trigger now x s;
        Some (s, RItem x, [ev s QReady QRun [x]])
    end.

(** queue/queue.go:981-1010 Touch *)
Definition q_touch (now : Z) (k : key) (s : qstate) : option outcome :=
  if closed s then Some (s, RErr EClosed, [])
  else match items s !! k with
  | None => Some (s, RErr ENotFound, [])
  | Some x =>
      it ← objs s !! x;
      match ist it with
      | SRun =>
          s ← run_update x (mod_obj (touch now) x s);
          s ← ttr_trigger now x s;
          Some (s, ROk, [])
      | _ => Some (s, RErr ENotRunning, [])
      end
  end.

(** queue/queue.go:1014-1054 Release *)
Definition q_release (now : Z) (k : key) (s : qstate) : option outcome :=
  if closed s then Some (s, RErr EClosed, [])
  else match items s !! k with
  | None => Some (s, RErr ENotFound, [])
  | Some x =>
      it ← objs s !! x;
      match ist it with
      | SRun =>
          s ← run_remove x s;
          if idelay it =? 0 then
            let s := clr_run x (mod_obj switch_run_ready x s) in
            s ← ready_push x s;
            Some (s, ROk, [ev s QRun QReady [x]])
          else
            s ← delay_push x (mod_obj (restart now) x s);
            let s := clr_run x (mod_obj (switch_run_delay false) x s) in
            s ← delay_trigger now x s;
            Some (s, ROk, [ev s QRun QDelay [x]])
      | _ => Some (s, RErr ENotRunning, [])
      end
  end.

(** queue/queue.go:1059-1088 Bury *)
Definition q_bury (k : key) (s : qstate) : option outcome :=
  if closed s then Some (s, RErr EClosed, [])
  else match items s !! k with
  | None => Some (s, RErr ENotFound, [])
  | Some x =>
      it ← objs s !! x;
      match ist it with
      | SRun =>
          s ← run_remove x s;
          let s := bury_push x s in
          let s := clr_run x (mod_obj (switch_run_bury false) x s) in
          Some (s, ROk, [ev s QRun QBury [x]])
      | _ => Some (s, RErr ENotRunning, [])
      end
  end.

(** queue/queue.go:1092-1128 Kick *)
Definition q_kick (k : key) (s : qstate) : option outcome :=
  if closed s then Some (s, RErr EClosed, [])
  else match items s !! k with
  | None => Some (s, RErr ENotFound, [])
  | Some x =>
      it ← objs s !! x;
      match ist it with
      | SBury =>
          s ← bury_remove x s;
          if item_has_deps x s then
            let s := dep_push x s in
            let s := clr_bury x (mod_obj switch_bury_dependent x s) in
            Some (s, ROk, [ev s QBury QDep [x]])
          else
            s ← ready_push x s;
            let s := clr_bury x (mod_obj switch_bury_ready x s) in
            Some (s, ROk, [ev s QBury QReady [x]])
      | _ => Some (s, RErr ENotBuried, [])
      end
  end.

(** The order in which Go's "range" visits a map is arbitrary: [ord] lists keys
    in the order wanted by the environment; keys of the map not in [ord] come
    last. Every iteration order is obtained for some [ord]. *)
Definition arrange (ord : list key) (m : gmap key nat) : list nat :=
  omap (λ k, m !! k) (remove_dups ord) ++
  (snd <$> map_to_list (filter (λ kv, kv.1 ∉ ord) m)).

(** queue/queue.go:1150-1161: one dependant is told that [k] is resolved
    (item.go:245-253) and moved to ready if that was its last dependency. *)
Definition resolve_one (k : key) (acc : option (qstate * list nat)) (x : nat)
    : option (qstate * list nat) :=
  '(s, added) ← acc;
  let s := mod_obj (λ it, it <| iremain := iremain it ∖ {[k]} |>) x s in
  it ← objs s !! x;
  if bool_decide (ist it = SDep) && bool_decide (iremain it = ∅) then
    s ← dep_remove x s;
    let s := clr_dep x (mod_obj switch_dependent_ready x s) in
    s ← ready_push x s;
    Some (s, added ++ [x])
  else Some (s, added).

(** queue/queue.go:1167-1174: forget that the removed item waits for its parents *)
Definition forget_parent (k : key) (d : gmap key (gmap key nat)) (parent : key)
    : gmap key (gmap key nat) :=
  match d !! parent with
  | None => d
  | Some m => let m := delete k m in
              if decide (m = ∅) then delete parent d else <[parent := m]> d
  end.

(** queue/queue.go:1180-1196: leave the current sub-queue *)
Definition remove_from_sub (st : istate) (x : nat) (s : qstate) : option (qstate * list event) :=
  match st with
  | SDelay => s ← delay_remove x s; Some (s, [ev s QDelay QRemoved [x]])
  | SReady => s ← ready_remove x s; Some (s, [ev s QReady QRemoved [x]])
  | SRun => s ← run_remove x s; Some (s, [ev s QRun QRemoved [x]])
  | SBury => s ← bury_remove x s; Some (s, [ev s QBury QRemoved [x]])
  | SDep => s ← dep_remove x s; Some (s, [ev s QDep QRemoved [x]])
  | SRemoved => Some (s, [])
  end.

(** queue/queue.go:1131-1206 Remove *)
Definition q_remove (k : key) (ord : list key) (s : qstate) : option outcome :=
  if closed s then Some (s, RErr EClosed, [])
  else match items s !! k with
  | None => Some (s, RErr ENotFound, [])
  | Some x =>
      '(s, added) ← (match dependants s !! k with
                     | None => Some (s, [])
                     | Some m =>
                         '(s, added) ← fold_left (resolve_one k) (arrange ord m) (Some (s, []));
                         Some (s <| dependants ::= delete k |>, added)
                     end);
      it ← objs s !! x;
      let s := s <| dependants ::= λ d, fold_left (forget_parent k) (ideps it) d |> in
      let s := s <| items ::= delete k |> in
      '(s, evs) ← remove_from_sub (ist it) x s;
      let s := clr_dep x (clr_bury x (clr_run x (clr_ready x (clr_delay x (mod_obj removal_cleanup x s))))) in
      Some (s, ROk, evs ++ match added with [] => [] | _ => [ev s QDep QReady added] end)
  end.

(** queue/queue.go:346-364 Destroy; subQueue.empty (subqueue.go:212-220) and the
    slices' empty. [dependants] and the removed items keep their contents. *)
Definition q_destroy (s : qstate) : option outcome :=
  if closed s then Some (s, RErr EClosed, [])
  else Some (s <| items := ∅ |>
               <| delayQ ::= λ q, ArrQ [] (aix q) |>
               <| readyQ ::= λ r, r <| rgroups := ∅ |> |>
               <| runQ ::= λ q, ArrQ [] (aix q) |>
               <| buryQ ::= λ q, ArrQ [] (aix q) |>
               <| depQ ::= λ q, ArrQ [] (aix q) |>
               <| closed := true |>, ROk, []).

(** queue/queue.go:1247-1261: the delay goroutine's loop, at most [n] items *)
Fixpoint delay_loop (now : Z) (n : nat) (s : qstate) (moved : list nat)
    : option (qstate * list nat) :=
  match n with
  | O => Some (s, moved)
  | S n =>
      match arr (delayQ s) with
      | [] => None (* firstItem() on an empty slice *)
      | x :: _ =>
          it ← objs s !! x;
          if isready now it then
            s ← delay_remove x s;
            s ← ready_push x s;
            let s := clr_delay x (mod_obj switch_delay_ready x s) in
            delay_loop now n s (moved ++ [x])
          else Some (s, moved)
      end
  end.
(** queue/queue.go:1242-1267, one firing of the delay timer, and the following
    loop top (1227-1236) *)
Definition q_tick_delay (now : Z) (s : qstate) : option outcome :=
  '(s, moved) ← delay_loop now (length (arr (delayQ s))) s [];
  s ← delay_loop_top now s;
  Some (s, ROk, match moved with [] => [] | _ => [ev s QDelay QReady moved] end).

(** Answers of the TTR callback (queue.go:148-153) *)
Inductive ttrdest := ToRun | ToDelay | ToBury | ToReady.

(** queue/queue.go:1310-1343: the TTR goroutine's loop; [cb] gives the
    callback's answer for the items in the order they are asked about. *)
Fixpoint ttr_loop (now : Z) (n : nat) (cb : nat → ttrdest) (i : nat) (s : qstate)
    (dl bl rl : list nat) : option (qstate * (list nat * list nat * list nat)) :=
  match n with
  | O => Some (s, (dl, bl, rl))
  | S n =>
      match arr (runQ s) with
      | [] => None
      | x :: _ =>
          it ← objs s !! x;
          if releasable now it then
            match cb i with
            | ToRun =>
                s ← run_update x (mod_obj (temp_disable_ttr now) x s);
                ttr_loop now n cb (S i) s dl bl rl
            | ToDelay =>
                s ← run_remove x s;
                s ← delay_push x (mod_obj (restart now) x s);
                let s := clr_run x (mod_obj (switch_run_delay true) x s) in
                ttr_loop now n cb (S i) s (dl ++ [x]) bl rl
            | ToBury =>
                s ← run_remove x s;
                let s := bury_push x s in
                let s := clr_run x (mod_obj (switch_run_bury true) x s) in
                ttr_loop now n cb (S i) s dl (bl ++ [x]) rl
            | ToReady =>
                s ← run_remove x s;
                s ← ready_push x s;
                let s := clr_run x (mod_obj switch_run_ready x s) in
                ttr_loop now n cb (S i) s dl bl (rl ++ [x])
            end
          else Some (s, (dl, bl, rl))
      end
  end.
(** queue/queue.go:1346-1351: notify the delay goroutine for each delayed item *)
Fixpoint trigger_all (now : Z) (xs : list nat) (s : qstate) : option qstate :=
  match xs with
  | [] => Some s
  | x :: xs => s ← delay_trigger now x s; trigger_all now xs s
  end.
(** queue/queue.go:1306-1359 one firing of the TTR timer, and the following loop
    top (1292-1300) *)
Definition q_tick_ttr (now : Z) (cb : nat → ttrdest) (s : qstate) : option outcome :=
  '(s, (dl, bl, rl)) ← ttr_loop now (length (arr (runQ s))) cb 0 s [] [] [];
  s ← trigger_all now dl s;
  s ← ttr_loop_top now s;
  Some (s, ROk,
        match dl with [] => [] | _ => [ev s QRun QDelay dl] end ++
        match bl with [] => [] | _ => [ev s QRun QBury bl] end ++
        match rl with [] => [] | _ => [ev s QRun QReady rl] end).

(** queue/queue.go:1212-1222 HasDependents *)
Definition q_has_dependents (k : key) (s : qstate) : option outcome :=
  if closed s then Some (s, RErr EClosed, [])
  else Some (s, RBool (bool_decide (is_Some (dependants s !! k))), []).

(** queue/queue.go:624-637 Get *)
Definition q_get (k : key) (s : qstate) : option outcome :=
  if closed s then Some (s, RErr EClosed, [])
  else match items s !! k with
  | None => Some (s, RErr ENotFound, [])
  | Some x => Some (s, RItem x, [])
  end.

(** queue/queue.go:191-199, 368-380 Stats *)
Record qstats := QStats {
  st_items : nat; st_delayed : nat; st_ready : nat; st_running : nat;
  st_buried : nat; st_dependant : nat }.
Definition q_stats (s : qstate) : qstats :=
  QStats (size (items s)) (length (arr (delayQ s)))
         (map_fold (λ _ l n, (length l + n)%nat) 0%nat (rgroups (readyQ s)))
         (length (arr (runQ s))) (length (arr (buryQ s))) (length (arr (depQ s))).

(** The API calls and background steps. *)
Inductive op :=
| OAdd (now : Z) (k : key) (g : group) (d : N) (prio size : N) (delay ttr : Z)
       (start : startq) (deps : list key)
| OAddMany (now : Z) (defs : list itemdef)
| OGet (k : key)
| OUpdate (now : Z) (k : key) (g : group) (d : N) (prio : N) (delay ttr : Z)
          (deps : option (list key))
| OChangeKey (old new : key)
| OSetDelay (now : Z) (k : key) (delay : Z)
| OSetGroup (k : key) (g : group)
| OReserve (now : Z) (g : group) (retry : bool)
| OTouch (now : Z) (k : key)
| ORelease (now : Z) (k : key)
| OBury (k : key)
| OKick (k : key)
| ORemove (k : key) (ord : list key)
| OHasDependents (k : key)
| ODestroy
| OTickDelay (now : Z)
| OTickTTR (now : Z) (cb : nat → ttrdest).

(** Dispatch; the citation for each case is at the function called. *)
Definition step (s : qstate) (o : op) : option outcome :=
  match o with
  | OAdd now k g d prio size delay ttr start deps => q_add now k g d prio size delay ttr start deps s
  | OAddMany now defs => q_add_many now defs s
  | OGet k => q_get k s
  | OUpdate now k g d prio delay ttr deps => q_update now k g d prio delay ttr deps s
  | OChangeKey old new => q_change_key old new s
  | OSetDelay now k delay => q_set_delay now k delay s
  | OSetGroup k g => q_set_reserve_group k g s
  | OReserve now g retry => q_reserve now g retry s
  | OTouch now k => q_touch now k s
  | ORelease now k => q_release now k s
  | OBury k => q_bury k s
  | OKick k => q_kick k s
  | ORemove k ord => q_remove k ord s
  | OHasDependents k => q_has_dependents k s
  | ODestroy => q_destroy s
  | OTickDelay now => q_tick_delay now s
  | OTickTTR now cb => q_tick_ttr now cb s
  end.

(** A history: the results and notifications of each call, in order. *)
Fixpoint run (s : qstate) (ops : list op) : option (qstate * list (qres * list event)) :=
  match ops with
  | [] => Some (s, [])
  | o :: ops =>
      '(s, r, e) ← step s o;
      '(s, l) ← run s ops;
      Some (s, (r, e) :: l)
  end.
