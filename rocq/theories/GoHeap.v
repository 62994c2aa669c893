(** Model of Go's container/heap as used by queue/subqueue.go.

    The heap array holds item identities ([nat], the model's stand-in for an
    [*Item] pointer).  [less] is the Less method applied to the items found at
    the two positions.  An out-of-range slice access panics in Go; here the
    operation then returns [None]. *)
From Coq Require Import ZArith.
From stdpp Require Import base option gmap list.

(** An array-backed sub-queue: the slice, and for every item the entry of its
    [queueIndexes] array that belongs to this sub-queue (queue/item.go:70).
    Simplification: the five entries of [queueIndexes] are stored transposed,
    one map per sub-queue; an absent entry is Go's zero value 0. *)
Record arrq := ArrQ { arr : list nat; aix : gmap nat Z }.

(** queue/subqueue.go:44-54 newSubQueue, bury_queue.go:33, dependency_queue.go:37 *)
Definition arrq_empty : arrq := ArrQ [] ∅.

(** item.queueIndexes[sq] (queue/item.go:70), zero value 0. *)
Definition idx_of (q : arrq) (x : nat) : Z := default 0%Z (aix q !! x).

(** item.queueIndexes[sq] = v *)
Definition set_idx (q : arrq) (x : nat) (v : Z) : arrq :=
  ArrQ (arr q) (<[x := v]> (aix q)).

Section heap.
  Context (less : nat -> nat -> bool).

  (** queue/subqueue.go:239-257 Less(i,j): panics when an index is out of range. *)
  Definition less_at (q : arrq) (i j : nat) : option bool :=
    match arr q !! i, arr q !! j with
    | Some x, Some y => Some (less x y)
    | _, _ => None
    end.

  (** queue/subqueue.go:259-286 Swap(i,j): exchanges the two entries and records
      their new positions in the items' queueIndexes. *)
  Definition swap_at (q : arrq) (i j : nat) : option arrq :=
    match arr q !! i, arr q !! j with
    | Some x, Some y =>
        Some (ArrQ (<[i := y]> (<[j := x]> (arr q)))
                   (<[x := Z.of_nat j]> (<[y := Z.of_nat i]> (aix q))))
    | _, _ => None
    end.

  (** Go container/heap [up] (used by queue/subqueue.go:124,158,202,205,208):
<<
      for { i := (j-1)/2; if i == j || !h.Less(j,i) {break}; h.Swap(i,j); j = i }
>>
      [fuel] bounds the loop; running out returns [None], which the proofs show
      never happens with the fuel used. For j = 0 both Go's truncated (0-1)/2
      and Coq's truncated subtraction give 0. *)
  Fixpoint up (fuel : nat) (q : arrq) (j : nat) : option arrq :=
    match fuel with
    | O => None
    | S fuel =>
        let i := (j - 1) / 2 in
        if decide (i = j) then Some q
        else match less_at q j i with
             | None => None
             | Some false => Some q
             | Some true => match swap_at q i j with
                            | None => None
                            | Some q' => up fuel q' i
                            end
             end
    end.

  (** Go container/heap [down]: returns the new heap and whether the element
      moved.
<<
      i := i0
      for { j1 := 2*i+1; if j1 >= n || j1 < 0 {break}
            j := j1; if j2 := j1+1; j2 < n && h.Less(j2,j1) { j = j2 }
            if !h.Less(j,i) {break}
            h.Swap(i,j); i = j }
      return i > i0
>> *)
  Fixpoint down_loop (fuel : nat) (q : arrq) (i n : nat) : option (arrq * nat) :=
    match fuel with
    | O => None
    | S fuel =>
        let j1 := 2 * i + 1 in
        if decide (n <= j1) then Some (q, i)
        else
          let j2 := j1 + 1 in
          match (if decide (j2 < n) then less_at q j2 j1 else Some false) with
          | None => None
          | Some b =>
              let j := if b then j2 else j1 in
              match less_at q j i with
              | None => None
              | Some false => Some (q, i)
              | Some true => match swap_at q i j with
                             | None => None
                             | Some q' => down_loop fuel q' j n
                             end
              end
          end
    end.
  Definition down (q : arrq) (i0 n : nat) : option (arrq * bool) :=
    match down_loop (S n) q i0 n with
    | None => None
    | Some (q', i) => Some (q', bool_decide (i0 < i))
    end.

  (** "if !down(h, i, n) { up(h, i) }", common to heap.Remove and heap.Fix. *)
  Definition down_or_up (q : arrq) (i n : nat) : option arrq :=
    match down q i n with
    | None => None
    | Some (q', true) => Some q'
    | Some (q', false) => up (S i) q' i
    end.

  (** queue/subqueue.go:288-308 Push: append and record the position. *)
  Definition raw_push (q : arrq) (x : nat) : arrq :=
    ArrQ (arr q ++ [x]) (<[x := Z.of_nat (length (arr q))]> (aix q)).

  (** queue/subqueue.go:310-332 Pop: drop the last entry, its position becomes
      -1; panics on an empty slice. *)
  Definition raw_pop (q : arrq) : option (nat * arrq) :=
    match last (arr q) with
    | None => None
    | Some x => Some (x, ArrQ (take (length (arr q) - 1) (arr q)) (<[x := (-1)%Z]> (aix q)))
    end.

  (** Go heap.Push: h.Push(x); up(h, h.Len()-1) *)
  Definition heap_push (q : arrq) (x : nat) : option arrq :=
    let q' := raw_push q x in
    let j := length (arr q') - 1 in
    up (S j) q' j.

  (** Go heap.Pop: n := h.Len()-1; h.Swap(0,n); down(h,0,n); return h.Pop().
      Only called on a non-empty slice (queue/subqueue.go:145-148). *)
  Definition heap_pop (q : arrq) : option (nat * arrq) :=
    let n := length (arr q) - 1 in
    match swap_at q 0 n with
    | None => None
    | Some q1 => match down q1 0 n with
                 | None => None
                 | Some (q2, _) => raw_pop q2
                 end
    end.

  (** Go heap.Remove(h, i):
<<
      n := h.Len()-1
      if n != i { h.Swap(i,n); if !down(h,i,n) { up(h,i) } }
      return h.Pop()
>>
      A negative or too large [i] makes Swap panic (or Pop, on an empty slice). *)
  Definition heap_remove (q : arrq) (i : Z) : option (nat * arrq) :=
    if (i <? 0)%Z then None
    else
      let i := Z.to_nat i in
      let n := length (arr q) - 1 in
      if decide (length (arr q) = 0) then None
      else if decide (n = i) then raw_pop q
      else match swap_at q i n with
           | None => None
           | Some q1 => match down_or_up q1 i n with
                        | None => None
                        | Some q2 => raw_pop q2
                        end
           end.

  (** Go heap.Fix(h, i): if !down(h, i, h.Len()) { up(h, i) }.
      For i = -1 both loops stop at once (j1 < 0, and (-1-1)/2 = -1). *)
  Definition heap_fix (q : arrq) (i : Z) : option arrq :=
    if (i <? 0)%Z then Some q
    else down_or_up q (Z.to_nat i) (length (arr q)).
End heap.

(** queue/bury_queue.go:37-42 push and dependency_queue.go:41-46 push *)
Definition slice_push (q : arrq) (x : nat) : arrq := raw_push q x.

(** queue/bury_queue.go:57-75 remove and dependency_queue.go:61-79 remove.
    With one element the slice is emptied whatever the item; otherwise the last
    element overwrites the position recorded in the item (panicking when that
    is out of range, or the slice is empty), and the slice is shortened. *)
Definition slice_remove (q : arrq) (x : nat) : option arrq :=
  let thisi := idx_of q x in
  if decide (length (arr q) = 1) then
    Some (ArrQ [] (<[x := (-1)%Z]> (aix q)))
  else
    match last (arr q) with
    | None => None
    | Some y =>
        if (thisi <? 0)%Z then None
        else if decide (Z.to_nat thisi < length (arr q)) then
          let l := <[Z.to_nat thisi := y]> (arr q) in
          Some (ArrQ (take (length (arr q) - 1) l)
                     (<[x := (-1)%Z]> (<[y := thisi]> (aix q))))
        else None
    end.
