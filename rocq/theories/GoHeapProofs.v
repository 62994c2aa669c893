(** Correctness of the container/heap model: totality, permutation, exact back
    indexes (no order needed), and the heap order for any strict weak order. *)
From Coq Require Import ZArith Lia.
From stdpp Require Import base option gmap list.
From Verif Require Import GoHeap.

Definition par (c : nat) : nat := (c - 1) / 2.

Lemma par_lt c : 0 < c → par c < c.
Proof. intros H. unfold par. apply Nat.div_lt_upper_bound; lia. Qed.
Lemma par_child c i : 0 < c → par c = i → c = 2 * i + 1 ∨ c = 2 * i + 2.
Proof.
  unfold par. intros H <-.
  pose proof (Nat.div_mod (c-1) 2 ltac:(lia)).
  pose proof (Nat.mod_upper_bound (c-1) 2 ltac:(lia)). lia.
Qed.
Lemma par_c1 i : par (2*i+1) = i.
Proof. unfold par. replace (2*i+1-1) with (i*2) by lia. apply Nat.div_mul; lia. Qed.
Lemma par_c2 i : par (2*i+1+1) = i.
Proof.
  unfold par. replace (2*i+1+1-1) with (1+i*2) by lia.
  rewrite Nat.div_add by lia. simpl. lia.
Qed.

(** Structural well-formedness: no duplicates, exact back indexes. *)
Definition wf (q : arrq) : Prop :=
  NoDup (arr q) ∧ ∀ i x, arr q !! i = Some x → aix q !! x = Some (Z.of_nat i).

Lemma wf_empty : wf arrq_empty.
Proof. split; [constructor|]. intros i x. simpl. by rewrite lookup_nil. Qed.

Lemma wf_idx q x : wf q → x ∈ arr q → ∃ i, idx_of q x = Z.of_nat i ∧ arr q !! i = Some x.
Proof.
  intros [_ H] [i Hi]%elem_of_list_lookup. exists i. split; [|done].
  unfold idx_of. by rewrite (H i x Hi).
Qed.

Lemma wf_set_idx q x v : wf q → x ∉ arr q → wf (set_idx q x v).
Proof.
  intros [Hn H] Hx. split; [done|]. intros i y Hy. simpl in *.
  rewrite lookup_insert_ne; [by apply H|]. intros ->. apply Hx.
  by eapply elem_of_list_lookup_2.
Qed.

Lemma swap_lookup (l : list nat) i j x y k :
  l !! i = Some x → l !! j = Some y →
  (<[i := y]> (<[j := x]> l)) !! k =
    if decide (k = i) then Some y else if decide (k = j) then Some x else l !! k.
Proof.
  intros Hi Hj.
  pose proof (lookup_lt_Some _ _ _ Hi). pose proof (lookup_lt_Some _ _ _ Hj).
  destruct (decide (k = i)) as [->|Hk].
  - rewrite list_lookup_insert; [done|]. rewrite insert_length; lia.
  - rewrite list_lookup_insert_ne by done.
    destruct (decide (k = j)) as [->|Hk'].
    + by rewrite list_lookup_insert.
    + by rewrite list_lookup_insert_ne.
Qed.

Lemma swap_perm (l : list nat) i j x y :
  l !! i = Some x → l !! j = Some y → <[i := y]> (<[j := x]> l) ≡ₚ l.
Proof.
  intros Hi Hj. apply Permutation_inj. split; [by rewrite !insert_length|].
  exists (λ k, if decide (k = i) then j else if decide (k = j) then i else k).
  split.
  - intros a b. repeat case_decide; congruence.
  - intros k. rewrite (swap_lookup _ _ _ _ _ _ Hi Hj).
    repeat case_decide; subst; congruence.
Qed.

Lemma swap_at_ok q i j :
  wf q → i < length (arr q) → j < length (arr q) →
  ∃ q', swap_at q i j = Some q' ∧ wf q' ∧ arr q' ≡ₚ arr q ∧
    length (arr q') = length (arr q) ∧
    ∃ x y, arr q !! i = Some x ∧ arr q !! j = Some y ∧
      ∀ k, arr q' !! k = if decide (k = i) then Some y
                         else if decide (k = j) then Some x else arr q !! k.
Proof.
  intros [Hn Hix] Hi Hj. unfold swap_at.
  destruct (lookup_lt_is_Some_2 (arr q) i Hi) as [x Hx].
  destruct (lookup_lt_is_Some_2 (arr q) j Hj) as [y Hy].
  rewrite Hx, Hy. eexists. split; [done|]. simpl.
  assert (Hp := swap_perm _ _ _ _ _ Hx Hy).
  split_and!.
  - split; simpl.
    + by rewrite Hp.
    + intros k z. rewrite (swap_lookup _ _ _ _ _ _ Hx Hy).
      repeat case_decide; intros Hz; simplify_eq.
      * (* k = i, z = y *)
        destruct (decide (x = z)) as [->|Hne].
        -- assert (i = j) by (eapply NoDup_lookup; eauto). subst.
           by rewrite lookup_insert.
        -- rewrite lookup_insert_ne by done. by rewrite lookup_insert.
      * by rewrite lookup_insert.
      * rewrite lookup_insert_ne, lookup_insert_ne; [by apply Hix| |].
        -- intros ->. assert (k = j) by (eapply NoDup_lookup; eauto). done.
        -- intros ->. assert (k = i) by (eapply NoDup_lookup; eauto). done.
  - done.
  - by rewrite !insert_length.
  - exists x, y. split_and!; [done..|]. intros k.
    apply (swap_lookup _ _ _ _ _ _ Hx Hy).
Qed.

Section struct.
  Context (less : nat -> nat -> bool).

  Lemma less_at_ok q i j :
    i < length (arr q) → j < length (arr q) →
    ∃ x y, arr q !! i = Some x ∧ arr q !! j = Some y ∧ less_at less q i j = Some (less x y).
  Proof.
    intros Hi Hj. unfold less_at.
    destruct (lookup_lt_is_Some_2 (arr q) i Hi) as [x Hx].
    destruct (lookup_lt_is_Some_2 (arr q) j Hj) as [y Hy].
    exists x, y. by rewrite Hx, Hy.
  Qed.

  Lemma up_struct fuel q j :
    wf q → j < length (arr q) → j < fuel →
    ∃ q', up less fuel q j = Some q' ∧ wf q' ∧ arr q' ≡ₚ arr q ∧
      (∀ k, j < k → arr q' !! k = arr q !! k).
  Proof.
    revert q j. induction fuel as [|fuel IH]; intros q j Hwf Hj Hf; [lia|].
    cbn [up]. fold (par j). case_decide as Hd.
    - exists q. split_and!; done.
    - assert (Hp : par j < j). { apply par_lt. destruct j; [done|lia]. }
      destruct (less_at_ok q j (par j)) as (x & y & Hx & Hy & ->); [lia..|].
      destruct (less x y).
      + destruct (swap_at_ok q (par j) j) as (q1 & -> & Hwf1 & Hp1 & Hl1 & x' & y' & _ & _ & Hlk); [done|lia..|].
        destruct (IH q1 (par j)) as (q' & -> & Hwf' & Hp' & Hk'); [done|lia..|].
        exists q'. split_and!; [done..| |].
        * by rewrite Hp'.
        * intros k Hk. rewrite Hk' by lia. rewrite Hlk. repeat case_decide; [lia..|done].
      + exists q. split_and!; done.
  Qed.

  Lemma down_struct fuel q i n :
    wf q → n <= length (arr q) → i < length (arr q) → n - i < fuel →
    ∃ q' i', down_loop less fuel q i n = Some (q', i') ∧ wf q' ∧ arr q' ≡ₚ arr q ∧
      i <= i' ∧ (∀ k, n <= k → k ≠ i → arr q' !! k = arr q !! k).
  Proof.
    revert q i. induction fuel as [|fuel IH]; intros q i Hwf Hn Hi Hf; [lia|].
    cbn [down_loop]. case_decide as Hd.
    - exists q, i. split_and!; [done..|lia|done].
    - assert (∃ b, (if decide (2*i+1+1 < n) then less_at less q (2*i+1+1) (2*i+1) else Some false) = Some b
                ∧ (if b then 2*i+1+1 else 2*i+1) < n) as (b & -> & Hb).
      { case_decide.
        - destruct (less_at_ok q (2*i+1+1) (2*i+1)) as (x & y & _ & _ & ->); [lia..|].
          eexists; split; [done|]. destruct (less x y); lia.
        - exists false; split; [done|lia]. }
      set (j := if b then 2*i+1+1 else 2*i+1) in *.
      assert (i < j) by (subst j; destruct b; lia).
      destruct (less_at_ok q j i) as (x & y & _ & _ & ->); [lia..|].
      destruct (less x y).
      + destruct (swap_at_ok q i j) as (q1 & -> & Hwf1 & Hp1 & Hl1 & x' & y' & _ & _ & Hlk); [done|lia..|].
        destruct (IH q1 j) as (q' & i' & -> & Hwf' & Hp' & Hii & Hk'); [done|lia..|].
        exists q', i'. split_and!; [done..| | |].
        * by rewrite Hp'.
        * lia.
        * intros k Hk Hki. rewrite Hk' by lia. rewrite Hlk. repeat case_decide; [lia..|done].
      + exists q, i. split_and!; [done..|lia|done].
  Qed.

  Lemma down_or_up_struct q i n :
    wf q → n <= length (arr q) → i < n →
    ∃ q', down_or_up less q i n = Some q' ∧ wf q' ∧ arr q' ≡ₚ arr q ∧
      (∀ k, n <= k → arr q' !! k = arr q !! k).
  Proof.
    intros Hwf Hn Hi. unfold down_or_up, down.
    destruct (down_struct (S n) q i n) as (q1 & i1 & -> & Hwf1 & Hp1 & Hii & Hk1); [done|lia..|].
    case_bool_decide.
    - exists q1. split_and!; [done..|]. intros k Hk. apply Hk1; lia.
    - destruct (up_struct (S i) q1 i) as (q' & -> & Hwf' & Hp' & Hk'); [done| |lia|].
      { rewrite Hp1. lia. }
      exists q'. split_and!; [done..| |].
      + by rewrite Hp'.
      + intros k Hk. rewrite Hk' by lia. apply Hk1; lia.
  Qed.

  Lemma raw_push_wf q x : wf q → x ∉ arr q → wf (raw_push q x).
  Proof.
    intros [Hn Hix] Hx. split; simpl.
    - apply NoDup_app. split_and!; [done| |apply NoDup_singleton].
      intros y Hy ->%elem_of_list_singleton. done.
    - intros i y [Hy|[Hi Hy]]%lookup_app_Some.
      + rewrite lookup_insert_ne; [by apply Hix|].
        intros ->. apply Hx. by eapply elem_of_list_lookup_2.
      + apply list_lookup_singleton_Some in Hy as [? <-].
        rewrite lookup_insert. do 2 f_equal. lia.
  Qed.

  Lemma heap_push_struct q x :
    wf q → x ∉ arr q →
    ∃ q', heap_push less q x = Some q' ∧ wf q' ∧ arr q' ≡ₚ x :: arr q.
  Proof.
    intros Hwf Hx. unfold heap_push.
    pose proof (raw_push_wf q x Hwf Hx) as Hwf1.
    assert (Hlen : length (arr (raw_push q x)) = S (length (arr q))).
    { simpl. rewrite app_length. simpl. lia. }
    destruct (up_struct (S (length (arr (raw_push q x)) - 1)) (raw_push q x)
                (length (arr (raw_push q x)) - 1)) as (q' & -> & Hwf' & Hp & _); [done|lia..|].
    exists q'. split_and!; [done..|]. rewrite Hp. simpl.
    by rewrite Permutation_app_comm.
  Qed.

  Lemma raw_pop_struct q x :
    wf q → last (arr q) = Some x →
    ∃ q', raw_pop q = Some (x, q') ∧ wf q' ∧ arr q = arr q' ++ [x] ∧ aix q' !! x = Some (-1)%Z.
  Proof.
    intros [Hn Hix] Hl. unfold raw_pop. rewrite Hl. eexists; split; [done|].
    apply last_Some in Hl as [l' Hl]. simpl.
    assert (Ht : take (length (arr q) - 1) (arr q) = l').
    { rewrite Hl, app_length. simpl. rewrite take_app_alt; [done|]. lia. }
    rewrite Ht. rewrite Hl in Hn. apply NoDup_app in Hn as (Hn & Hd & _).
    split_and!.
    - split; simpl; [done|]. intros i y Hy.
      rewrite lookup_insert_ne.
      + apply Hix. rewrite Hl. by apply lookup_app_l_Some.
      + intros ->. apply (Hd y); [by eapply elem_of_list_lookup_2|]. apply elem_of_list_singleton. done.
    - done.
    - by rewrite lookup_insert.
  Qed.

  Lemma heap_remove_struct q x :
    wf q → x ∈ arr q →
    ∃ q', heap_remove less q (idx_of q x) = Some (x, q') ∧ wf q' ∧ arr q ≡ₚ x :: arr q'.
  Proof.
    intros Hwf Hx. destruct (wf_idx q x Hwf Hx) as (i & -> & Hi).
    unfold heap_remove.
    replace (Z.of_nat i <? 0)%Z with false by (symmetry; apply Z.ltb_ge; lia).
    rewrite Nat2Z.id. pose proof (lookup_lt_Some _ _ _ Hi) as Hlt.
    case_decide as Hz; [lia|]. case_decide as Hn.
    - destruct (raw_pop_struct q x Hwf) as (q' & -> & Hwf' & Heq & _).
      { rewrite last_lookup. rewrite <- Hi. f_equal. lia. }
      exists q'. split_and!; [done..|]. rewrite Heq. by rewrite Permutation_app_comm.
    - destruct (swap_at_ok q i (length (arr q) - 1)) as (q1 & -> & Hwf1 & Hp1 & Hl1 & x' & y' & Hx' & Hy' & Hlk); [done|lia..|].
      destruct (down_or_up_struct q1 i (length (arr q) - 1)) as (q2 & -> & Hwf2 & Hp2 & Hk2); [done|lia..|].
      assert (length (arr q2) = length (arr q)) as Hl2 by (rewrite Hp2; lia).
      destruct (raw_pop_struct q2 x Hwf2) as (q' & -> & Hwf' & Heq & _).
      { rewrite last_lookup. rewrite Hl2, Hk2, Hlk by lia. repeat case_decide; [lia| |lia]. congruence. }
      exists q'. split_and!; [done..|]. rewrite <- Hp1, <- Hp2, Heq. by rewrite Permutation_app_comm.
  Qed.

  Lemma heap_pop_struct q :
    wf q → arr q ≠ [] →
    ∃ x q', heap_pop less q = Some (x, q') ∧ wf q' ∧ arr q ≡ₚ x :: arr q' ∧
      arr q !! 0 = Some x.
  Proof.
    intros Hwf Hne. unfold heap_pop.
    assert (0 < length (arr q)) by (destruct (arr q); simpl; [done|lia]).
    destruct (swap_at_ok q 0 (length (arr q) - 1)) as (q1 & -> & Hwf1 & Hp1 & Hl1 & x & y & Hx & Hy & Hlk); [done|lia..|].
    unfold down.
    destruct (down_struct (S (length (arr q) - 1)) q1 0 (length (arr q) - 1)) as (q2 & i2 & -> & Hwf2 & Hp2 & _ & Hk2); [done|lia..|].
    assert (length (arr q2) = length (arr q)) as Hl2 by (rewrite Hp2; lia).
    assert (last (arr q2) = Some x) as Hlast.
    { rewrite last_lookup. rewrite Hl2.
      destruct (decide (length (arr q) - 1 = 0)) as [Hz|Hz].
      - assert (length (arr q2) = 1) by lia. assert (length (arr q1) = 1) by lia.
        destruct (arr q2) as [|a [|]] eqn:Ha2; simpl in *; [lia| |lia].
        destruct (arr q1) as [|b [|]] eqn:Ha1; simpl in *; [lia| |lia].
        rewrite Hz in *. simpl.
        assert (a ∈ [b]) as ->%elem_of_list_singleton by (rewrite <- Hp2; apply elem_of_list_singleton; done).
        specialize (Hlk 0). rewrite decide_True in Hlk by done. simpl in Hlk.
        rewrite <- Hl1. simpl. congruence.
      - replace (Init.Nat.pred (length (arr q))) with (length (arr q) - 1) by lia.
        rewrite Hk2, Hlk by lia. repeat case_decide; [lia| |lia]. congruence. }
    destruct (raw_pop_struct q2 x Hwf2 Hlast) as (q' & -> & Hwf' & Heq & _).
    exists x, q'. split_and!; [done..| |done].
    rewrite <- Hp1, <- Hp2, Heq. by rewrite Permutation_app_comm.
  Qed.

  Lemma heap_fix_struct q i :
    wf q → i < length (arr q) →
    ∃ q', heap_fix less q (Z.of_nat i) = Some q' ∧ wf q' ∧ arr q' ≡ₚ arr q.
  Proof.
    intros Hwf Hi. unfold heap_fix.
    replace (Z.of_nat i <? 0)%Z with false by (symmetry; apply Z.ltb_ge; lia).
    rewrite Nat2Z.id.
    destruct (down_or_up_struct q i (length (arr q))) as (q' & -> & Hwf' & Hp' & _); [done|lia..|].
    exists q'. done.
  Qed.
End struct.

(** bury / dependency slices *)
Lemma slice_remove_struct q x :
  wf q → x ∈ arr q →
  ∃ q', slice_remove q x = Some q' ∧ wf q' ∧ arr q ≡ₚ x :: arr q'.
Proof.
  intros Hwf Hx. destruct (wf_idx q x Hwf Hx) as (i & Hidx & Hi).
  destruct Hwf as [Hn Hix].
  unfold slice_remove. rewrite Hidx. pose proof (lookup_lt_Some _ _ _ Hi) as Hlt.
  case_decide as H1.
  - eexists; split; [done|]. split.
    + split; simpl; [constructor|]. intros ??. by rewrite lookup_nil.
    + simpl. destruct (arr q) as [|a [|]]; simpl in *; [lia| |lia].
      apply elem_of_list_singleton in Hx as ->. done.
  - destruct (last (arr q)) as [y|] eqn:Hlast.
    2: { apply last_None in Hlast. rewrite Hlast in Hlt. simpl in Hlt. lia. }
    replace (Z.of_nat i <? 0)%Z with false by (symmetry; apply Z.ltb_ge; lia).
    rewrite Nat2Z.id, decide_True by done.
    eexists; split; [done|]. simpl.
    apply last_Some in Hlast as [l Hl].
    assert (Hlen : length (arr q) = S (length l)) by (rewrite Hl, app_length; simpl; lia).
    rewrite Hl in *. clear Hlen.
    destruct (decide (i = length l)) as [->|Hne].
    + (* removing the last *)
      rewrite lookup_app_r in Hi by lia. rewrite Nat.sub_diag in Hi. simpl in Hi. simplify_eq.
      rewrite take_insert by (rewrite app_length; simpl; lia).
      rewrite take_app_alt by (rewrite app_length; simpl; lia).
      apply NoDup_app in Hn as (Hn & Hd & _).
      split; [split; simpl|].
      * done.
      * intros k z Hz.
        assert (x ≠ z). { intros ->. apply (Hd z); [by eapply elem_of_list_lookup_2|set_solver]. }
        rewrite lookup_insert_ne, lookup_insert_ne by done. apply Hix. by apply lookup_app_l_Some.
      * by rewrite Permutation_app_comm.
    + rewrite app_length in Hlt. simpl in Hlt.
      assert (Hil : i < length l) by lia.
      rewrite lookup_app_l in Hi by done.
      rewrite insert_app_l by done.
      rewrite take_app_alt by (rewrite app_length, insert_length; simpl; lia).
      apply NoDup_app in Hn as (Hn & Hd & _).
      assert (Hyl : y ∉ l). { intros Hy. apply (Hd y Hy). set_solver. }
      assert (Hxl : x ∈ l) by (by eapply elem_of_list_lookup_2).
      assert (Hp : l ++ [y] ≡ₚ x :: <[i:=y]> l).
      { rewrite insert_take_drop by done.
        rewrite <- (take_drop_middle l i x Hi) at 1.
        rewrite Permutation_app_comm. simpl.
        rewrite <- !Permutation_middle. rewrite Permutation_swap. done. }
      split; [split; simpl|done].
      * apply (NoDup_cons_1_2 x). rewrite <- Hp. apply NoDup_app. split_and!; [done|done|apply NoDup_singleton].
      * intros k z Hz.
        assert (z ≠ x).
        { intros ->. assert (NoDup (x :: <[i:=y]> l)) as [Hnx _]%NoDup_cons.
          { rewrite <- Hp. apply NoDup_app. split_and!; [done|done|apply NoDup_singleton]. }
          apply Hnx. by eapply elem_of_list_lookup_2. }
        rewrite lookup_insert_ne by done.
        destruct (decide (k = i)) as [->|Hki].
        -- rewrite list_lookup_insert in Hz by done. simplify_eq. by rewrite lookup_insert.
        -- rewrite list_lookup_insert_ne in Hz by done.
           rewrite lookup_insert_ne.
           ++ apply Hix. by apply lookup_app_l_Some.
           ++ intros ->. apply Hyl. by eapply elem_of_list_lookup_2.
Qed.

(** ** Heap order *)
Class StrictWeak (less : nat -> nat -> bool) : Prop := {
  sw_asym a b : less a b = true → less b a = false;
  sw_negtrans a b c : less a b = false → less b c = false → less a c = false;
}.

Section order.
  Context (less : nat -> nat -> bool) `{!StrictWeak less}.

  (** the element at [c] does not precede the one at [p] *)
  Definition okp (l : list nat) (c p : nat) : Prop :=
    ∀ x y, l !! c = Some x → l !! p = Some y → less x y = false.

  Definition heap_n (n : nat) (l : list nat) : Prop :=
    ∀ c, 0 < c → c < n → okp l c (par c).
  Definition heap (l : list nat) : Prop := heap_n (length l) l.

  (** heap with a hole at [i]; with [b], the hole is already ordered w.r.t. its
      parent *)
  Definition hole (n i : nat) (b : bool) (l : list nat) : Prop :=
    (∀ c, 0 < c → c < n → par c ≠ i → c ≠ i → okp l c (par c)) ∧
    (∀ c, 0 < c → c < n → par c = i → 0 < i → okp l c (par i)) ∧
    (b = true → 0 < i → i < n → okp l i (par i)).

  Definition hole_up (n j : nat) (l : list nat) : Prop :=
    (∀ c, 0 < c → c < n → c ≠ j → okp l c (par c)) ∧
    (∀ c, 0 < c → c < n → par c = j → 0 < j → okp l c (par j)).

  Lemma sw_irrefl a : less a a = false.
  Proof. destruct (less a a) eqn:E; [|done]. pose proof (sw_asym _ _ E); congruence. Qed.

  Lemma up_order fuel q j n :
    wf q → n <= length (arr q) → j < n → j < fuel → hole_up n j (arr q) →
    ∀ q', up less fuel q j = Some q' → heap_n n (arr q').
  Proof using Type*.
    revert q j. induction fuel as [|fuel IH]; intros q j Hwf Hn Hj Hf [H1 H2] q'; [lia|].
    cbn [up]. fold (par j). case_decide as Hd.
    - intros [= <-]. intros c Hc Hcn. apply H1; try done.
      intros ->. pose proof (par_lt j Hc). lia.
    - assert (Hp : par j < j). { apply par_lt. destruct j; [done|lia]. }
      destruct (less_at_ok less q j (par j)) as (x & y & Hx & Hy & ->); [lia..|].
      destruct (less x y) eqn:Hxy.
      + destruct (swap_at_ok q (par j) j) as (q1 & -> & Hwf1 & Hp1 & Hl1 & y' & x' & Hy' & Hx' & Hlk); [done|lia..|].
        rewrite Hx in Hx'. rewrite Hy in Hy'. simplify_eq.
        intros Hup. eapply (IH q1 (par j)); [done|lia..| |done].
        split.
        * intros c Hc Hcn Hcj a b Ha Hb. rewrite Hlk in Ha, Hb.
          pose proof (par_lt c Hc).
          repeat case_decide; simplify_eq; try lia.
          -- (* c = j, parent = par j : a = y', b = x' *) by apply sw_asym.
          -- (* parent of c is par j; sibling of j *)
             eapply sw_negtrans; [|by apply sw_asym].
             apply (H1 c); try done. by replace (par c) with (par j).
          -- (* parent of c is j *)
             apply (H2 c); try done. lia.
          -- by apply (H1 c).
        * intros c Hc Hcn Hcp Hjp a b Ha Hb. rewrite Hlk in Ha, Hb.
          pose proof (par_lt (par j) Hjp). pose proof (par_lt c Hc).
          repeat case_decide; simplify_eq; try lia.
          -- (* c = j : a = y', b = parent of par j *)
             apply (H1 (par j)); try done; lia.
          -- eapply sw_negtrans; [apply (H1 c); try done|apply (H1 (par j)); try done; lia].
             by rewrite Hcp.
      + intros [= <-]. intros c Hc Hcn. destruct (decide (c = j)) as [->|]; [|by apply H1].
        intros a b Ha Hb. by simplify_eq.
  Qed.

  Lemma down_order fuel q i n b :
    wf q → n <= length (arr q) → i < length (arr q) → n - i < fuel → hole n i b (arr q) →
    ∀ q' i', down_loop less fuel q i n = Some (q', i') →
      (i' = i ∧ q' = q ∧ ∀ c, 0 < c → c < n → par c = i → okp (arr q) c i)
      ∨ (i < i' ∧ heap_n n (arr q')).
  Proof using Type*.
    revert q i b. induction fuel as [|fuel IH]; intros q i b Hwf Hn Hi Hf (H1 & H2 & H3) q' i'; [lia|].
    cbn [down_loop]. case_decide as Hd.
    - intros [= <- <-]. left. split_and!; [done..|].
      intros c Hc Hcn Hcp. apply par_child in Hcp; [lia|done].
    - assert (∃ b', (if decide (2*i+1+1 < n) then less_at less q (2*i+1+1) (2*i+1) else Some false) = Some b'
                ∧ (if b' then 2*i+1+1 else 2*i+1) < n
                ∧ ∀ c, 0 < c → c < n → par c = i → okp (arr q) c (if b' then 2*i+1+1 else 2*i+1)) as (b' & -> & Hb & Hmin).
      { case_decide.
        - destruct (less_at_ok less q (2*i+1+1) (2*i+1)) as (x & y & Hx & Hy & ->); [lia..|].
          eexists; split; [done|]. destruct (less x y) eqn:Hxy; (split; [lia|]).
          + intros c Hc Hcn [->| ->]%par_child a a' Ha Ha'; [| |done].
            * simplify_eq. by apply sw_asym.
            * replace (2*i+2) with (2*i+1+1) in Ha by lia. simplify_eq. apply sw_irrefl.
          + intros c Hc Hcn [->| ->]%par_child a a' Ha Ha'; [| |done].
            * simplify_eq. apply sw_irrefl.
            * replace (2*i+2) with (2*i+1+1) in Ha by lia. by simplify_eq.
        - exists false; split; [done|]. split; [lia|].
          intros c Hc Hcn [->| ->]%par_child a a' Ha Ha'; [|lia|done].
          simplify_eq. apply sw_irrefl. }
      set (j := if b' then 2*i+1+1 else 2*i+1) in *.
      assert (i < j) by (subst j; destruct b'; lia).
      assert (Hpj : par j = i) by (subst j; destruct b'; [apply par_c2|apply par_c1]).
      clearbody j.
      destruct (less_at_ok less q j i) as (x & y & Hx & Hy & ->); [lia..|].
      destruct (less x y) eqn:Hxy.
      + destruct (swap_at_ok q i j) as (q1 & -> & Hwf1 & Hp1 & Hl1 & y' & x' & Hy' & Hx' & Hlk); [done|lia..|].
        rewrite Hx in Hx'. rewrite Hy in Hy'. simplify_eq.
        intros Hdn. right.
        assert (Hole : hole n j true (arr q1)).
        { split_and!.
          - intros c Hc Hcn Hcp Hcj a a' Ha Ha'. rewrite Hlk in Ha, Ha'.
            pose proof (par_lt c Hc).
            repeat case_decide; simplify_eq; try lia.
            + (* par c = i, sibling *) by apply (Hmin c).
            + (* c = i: a = x', a' = parent of i *) apply (H2 j); try done; lia.
            + by apply (H1 c).
          - intros c Hc Hcn Hcp _ a a' Ha Ha'. rewrite Hlk in Ha, Ha'.
            pose proof (par_lt c Hc).
            repeat case_decide; simplify_eq; try lia.
            apply (H1 c); try done; lia.
          - intros _ _ _ a a' Ha Ha'. rewrite Hlk in Ha, Ha'.
            repeat case_decide; simplify_eq; try lia. by apply sw_asym. }
        destruct (IH q1 j true) with (q' := q') (i' := i') as [(-> & -> & Hch)|[Hlt Hh]]; [done|lia|lia|lia|done|done| |].
        * split; [lia|]. destruct Hole as (G1 & G2 & G3).
          intros c Hc Hcn. destruct (decide (c = j)) as [->|]; [apply G3; done|].
          destruct (decide (par c = j)) as [Hpc|]; [rewrite Hpc; by apply Hch|by apply G1].
        * split; [lia|done].
      + intros [= <- <-]. left. split_and!; [done..|].
        intros c Hc Hcn Hcp a a' Ha Ha'. rewrite Hy in Ha'. simplify_eq.
        eapply sw_negtrans; [|exact Hxy]. by apply (Hmin c).
  Qed.

  Lemma down_or_up_order q i n :
    wf q → n <= length (arr q) → i < n → hole n i false (arr q) →
    ∀ q', down_or_up less q i n = Some q' → heap_n n (arr q').
  Proof using Type*.
    intros Hwf Hn Hi Hh q'. unfold down_or_up, down.
    destruct (down_loop less (S n) q i n) as [[q1 i1]|] eqn:Hd; [|done].
    destruct (down_order (S n) q i n false) with (q' := q1) (i' := i1) as [(-> & -> & Hch)|[Hlt Hheap]]; [done|lia|lia|lia|done|done| |].
    - rewrite bool_decide_eq_false_2 by lia. intros Hup.
      eapply up_order; [exact Hwf|done|exact Hi| |..|exact Hup]; [lia|].
      destruct Hh as (H1 & H2 & _). split.
      + intros c Hc Hcn Hci. destruct (decide (par c = i)) as [Hpc|]; [|by apply H1].
        rewrite Hpc. by apply Hch.
      + intros c Hc Hcn Hpc Hi0. by apply H2.
    - rewrite bool_decide_eq_true_2 by lia. intros [= <-]. done.
  Qed.

  Lemma heap_push_order q x :
    wf q → x ∉ arr q → heap (arr q) →
    ∀ q', heap_push less q x = Some q' → heap (arr q').
  Proof using Type*.
    intros Hwf Hx Hh q' Hp.
    destruct (heap_push_struct less q x Hwf Hx) as (q'' & Hp' & _ & Hperm).
    rewrite Hp in Hp'. simplify_eq.
    unfold heap. rewrite (Permutation_length Hperm). simpl length.
    unfold heap_push in Hp.
    assert (Hlen : length (arr (raw_push q x)) = S (length (arr q))).
    { simpl. rewrite app_length. simpl. lia. }
    rewrite Hlen in Hp. replace (S (length (arr q)) - 1) with (length (arr q)) in Hp by lia.
    eapply up_order; [by apply raw_push_wf|..|exact Hp]; [lia..|].
    split.
    - intros c Hc Hcn Hne a b. simpl. pose proof (par_lt c Hc).
      rewrite !lookup_app_l by lia. apply (Hh c); lia.
    - intros c Hc Hcn Hpc. pose proof (par_lt c Hc). lia.
  Qed.

  (** Changing one element of a heap leaves a hole there. *)
  Lemma heap_hole_swap q q1 i :
    heap (arr q) →
    i < length (arr q) - 1 →
    (∀ k, k < length (arr q) - 1 → k ≠ i → arr q1 !! k = arr q !! k) →
    hole (length (arr q) - 1) i false (arr q1).
  Proof using Type*.
    intros Hh Hi Hk. split_and!; [| |done].
    - intros c Hc Hcn Hpc Hci a b. pose proof (par_lt c Hc). rewrite !Hk by lia.
      apply (Hh c); lia.
    - intros c Hc Hcn Hpc Hi0 a b.
      pose proof (par_lt c Hc). pose proof (par_lt i Hi0). rewrite !Hk by lia.
      intros Ha Hb.
      destruct (lookup_lt_is_Some_2 (arr q) i) as [z Hz]; [lia|].
      eapply sw_negtrans; [apply (Hh c); [lia..|done|rewrite Hpc; done]|apply (Hh i); [lia..|done|done]].
  Qed.

  Lemma heap_take l n : heap l → heap (take n l).
  Proof.
    intros Hh c Hc Hcn. rewrite take_length in Hcn. intros a b Ha Hb.
    apply lookup_take_Some in Ha as [Ha _]. apply lookup_take_Some in Hb as [Hb _].
    apply (Hh c); [lia|lia|done|done].
  Qed.
  Lemma heap_n_take l n : heap_n n l → heap (take n l).
  Proof.
    intros Hh c Hc Hcn. rewrite take_length in Hcn. intros a b Ha Hb.
    apply lookup_take_Some in Ha as [Ha _]. apply lookup_take_Some in Hb as [Hb _].
    apply (Hh c); [lia|lia|done|done].
  Qed.

  Lemma heap_remove_order q x :
    wf q → x ∈ arr q → heap (arr q) →
    ∀ q', heap_remove less q (idx_of q x) = Some (x, q') → heap (arr q').
  Proof using Type*.
    intros Hwf Hx Hh q'. destruct (wf_idx q x Hwf Hx) as (i & -> & Hi).
    unfold heap_remove.
    replace (Z.of_nat i <? 0)%Z with false by (symmetry; apply Z.ltb_ge; lia).
    rewrite Nat2Z.id. pose proof (lookup_lt_Some _ _ _ Hi) as Hlt.
    case_decide as Hz; [lia|]. case_decide as Hn.
    - unfold raw_pop. destruct (last (arr q)); [|done]. intros ?; simplify_eq. simpl. by apply heap_take.
    - destruct (swap_at_ok q i (length (arr q) - 1)) as (q1 & -> & Hwf1 & Hp1 & Hl1 & x' & y' & Hx' & Hy' & Hlk); [done|lia..|].
      destruct (down_or_up_struct less q1 i (length (arr q) - 1)) as (q2 & Hdu & Hwf2 & Hp2 & Hk2); [done|lia..|].
      rewrite Hdu. unfold raw_pop. destruct (last (arr q2)); [|done]. intros ?; simplify_eq. simpl.
      apply heap_n_take.
      replace (length (arr q2) - 1) with (length (arr q) - 1) by (rewrite Hp2; lia).
      eapply down_or_up_order; [exact Hwf1|lia| |..|exact Hdu]; [lia|].
      apply heap_hole_swap; [done|lia|].
      intros k Hk Hki. rewrite Hlk. repeat case_decide; [lia..|done].
  Qed.

  (** Remove still leaves a heap when the key of the removed item was changed
      beforehand. *)
  Lemma heap_remove_order_hole q x i :
    wf q → arr q !! i = Some x → hole (length (arr q)) i false (arr q) →
    ∀ q', heap_remove less q (idx_of q x) = Some (x, q') → heap (arr q').
  Proof using Type*.
    intros Hwf Hi (H1 & H2 & _) q'.
    destruct (wf_idx q x Hwf) as (i' & -> & Hi'); [by eapply elem_of_list_lookup_2|].
    assert (i' = i) as -> by (eapply NoDup_lookup; [apply Hwf|done|done]).
    unfold heap_remove.
    replace (Z.of_nat i <? 0)%Z with false by (symmetry; apply Z.ltb_ge; lia).
    rewrite Nat2Z.id. pose proof (lookup_lt_Some _ _ _ Hi) as Hlt.
    case_decide as Hz; [lia|]. case_decide as Hn.
    - unfold raw_pop. destruct (last (arr q)); [|done]. intros ?; simplify_eq. simpl.
      apply heap_n_take. intros c Hc Hcn. pose proof (par_lt c Hc). apply H1; lia.
    - destruct (swap_at_ok q i (length (arr q) - 1)) as (q1 & -> & Hwf1 & Hp1 & Hl1 & x' & y' & Hx' & Hy' & Hlk); [done|lia..|].
      destruct (down_or_up_struct less q1 i (length (arr q) - 1)) as (q2 & Hdu & Hwf2 & Hp2 & Hk2); [done|lia..|].
      rewrite Hdu. unfold raw_pop. destruct (last (arr q2)); [|done]. intros ?; simplify_eq. simpl.
      apply heap_n_take.
      replace (length (arr q2) - 1) with (length (arr q) - 1) by (rewrite Hp2; lia).
      assert (Hk : ∀ k, k < length (arr q) - 1 → k ≠ i → arr q1 !! k = arr q !! k).
      { intros k Hk Hki. rewrite Hlk. repeat case_decide; [lia..|done]. }
      eapply down_or_up_order; [exact Hwf1|lia| |..|exact Hdu]; [lia|].
      split_and!; [| |done].
      + intros c Hc Hcn Hpc Hci a b. pose proof (par_lt c Hc). rewrite !Hk by lia. apply H1; lia.
      + intros c Hc Hcn Hpc Hi0 a b. pose proof (par_lt c Hc). pose proof (par_lt i Hi0).
        rewrite !Hk by lia. apply H2; lia.
  Qed.

  Lemma heap_pop_order q x q' :
    wf q → heap (arr q) → heap_pop less q = Some (x, q') → heap (arr q').
  Proof using Type*.
    intros Hwf Hh. unfold heap_pop.
    destruct (decide (length (arr q) = 0)) as [Hz|Hz].
    { destruct (arr q) as [|] eqn:E; [|simpl in *; lia]. unfold swap_at. rewrite E. done. }
    destruct (swap_at_ok q 0 (length (arr q) - 1)) as (q1 & -> & Hwf1 & Hp1 & Hl1 & x' & y' & Hx' & Hy' & Hlk); [done|lia..|].
    unfold down.
    destruct (down_struct less (S (length (arr q) - 1)) q1 0 (length (arr q) - 1)) as (q2 & i2 & Hd & Hwf2 & Hp2 & _ & Hk2); [done|lia..|].
    rewrite Hd. unfold raw_pop. destruct (last (arr q2)); [|done]. intros ?; simplify_eq. simpl.
    apply heap_n_take.
    replace (length (arr q2) - 1) with (length (arr q) - 1) by (rewrite Hp2; lia).
    destruct (decide (length (arr q) = 1)) as [Hone|Hone].
    { intros c Hc Hcn. lia. }
    eapply (down_order _ q1 0 _ false) in Hd as [(-> & -> & Hch)|[_ ?]]; [| |done|lia|lia|lia|].
    - assert (Hole : hole (length (arr q) - 1) 0 false (arr q1)).
      { apply heap_hole_swap; [done|lia|]. intros k Hk Hki. rewrite Hlk. repeat case_decide; [lia..|done]. }
      destruct Hole as (G1 & _ & _). intros c Hc Hcn.
      destruct (decide (par c = 0)) as [Hpc|]; [rewrite Hpc; by apply Hch|]. apply G1; [done..|lia].
    - done.
    - apply heap_hole_swap; [done|lia|]. intros k Hk Hki. rewrite Hlk. repeat case_decide; [lia..|done].
  Qed.

  Lemma heap_fix_order q i :
    wf q → i < length (arr q) → hole (length (arr q)) i false (arr q) →
    ∀ q', heap_fix less q (Z.of_nat i) = Some q' → heap (arr q').
  Proof using Type*.
    intros Hwf Hi Hh q'. unfold heap_fix.
    replace (Z.of_nat i <? 0)%Z with false by (symmetry; apply Z.ltb_ge; lia).
    rewrite Nat2Z.id. intros Hf.
    destruct (down_or_up_struct less q i (length (arr q))) as (q2 & Hdu & _ & Hp & _); [done|lia..|].
    rewrite Hf in Hdu. simplify_eq. unfold heap. rewrite (Permutation_length Hp).
    eapply down_or_up_order; [exact Hwf|lia| |exact Hh|exact Hf]. lia.
  Qed.

  (** The root of a heap is a minimum. *)
  Lemma heap_min l r x : heap l → l !! 0 = Some r → x ∈ l → less x r = false.
  Proof using Type*.
    intros Hh Hr [i Hi]%elem_of_list_lookup. revert x Hi.
    induction (lt_wf i) as [i _ IH]. intros x Hi.
    destruct (decide (i = 0)) as [->|Hne].
    - simplify_eq. apply sw_irrefl.
    - assert (Hp : par i < i) by (apply par_lt; lia).
      pose proof (lookup_lt_Some _ _ _ Hi).
      destruct (lookup_lt_is_Some_2 l (par i)) as [y Hy]; [lia|].
      eapply sw_negtrans; [apply (Hh i); [lia|lia|exact Hi|exact Hy]|]. by apply (IH (par i)).
  Qed.
End order.

(** Heap order only depends on [less] on the members. *)
Lemma heap_ext less1 less2 l :
  (∀ x y, x ∈ l → y ∈ l → less1 x y = less2 x y) → heap less1 l → heap less2 l.
Proof.
  intros He Hh c Hc Hcn x y Hx Hy. rewrite <- He by (by eapply elem_of_list_lookup_2).
  by apply (Hh c).
Qed.

(** Changing the key of the element at [i] leaves a hole at [i]. *)
Lemma heap_hole_change less1 less2 `{!StrictWeak less1} `{!StrictWeak less2} l i z :
  l !! i = Some z → NoDup l →
  (∀ x y, x ∈ l → y ∈ l → x ≠ z → y ≠ z → less1 x y = less2 x y) →
  heap less1 l → hole less2 (length l) i false l.
Proof.
  intros Hz Hnd He Hh. split_and!; [| |done].
  - intros c Hc Hcn Hpc Hci x y Hx Hy. rewrite <- He; [by apply (Hh c)|..].
    + by eapply elem_of_list_lookup_2.
    + by eapply elem_of_list_lookup_2.
    + intros ->. apply Hci. by eapply NoDup_lookup.
    + intros ->. apply Hpc. by eapply NoDup_lookup.
  - intros c Hc Hcn Hpc Hi x y Hx Hy. pose proof (par_lt c Hc). pose proof (par_lt i Hi).
    rewrite <- He.
    + apply sw_negtrans with z; [apply (Hh c); [done..|by rewrite Hpc]|].
      apply (Hh i); [done| |done|done]. by eapply lookup_lt_Some.
    + by eapply elem_of_list_lookup_2.
    + by eapply elem_of_list_lookup_2.
    + intros ->. assert (c = i) by (by eapply NoDup_lookup). lia.
    + intros ->. assert (par i = i) by (by eapply NoDup_lookup). lia.
Qed.

(** ** Frame: back indexes of items outside the slice are not touched *)
Definition ixframe (q q' : arrq) : Prop :=
  (∀ y, y ∉ arr q → aix q' !! y = aix q !! y) ∧ arr q' ≡ₚ arr q.

Lemma ixframe_refl q : ixframe q q.
Proof. done. Qed.
Lemma ixframe_trans q1 q2 q3 : ixframe q1 q2 → ixframe q2 q3 → ixframe q1 q3.
Proof.
  intros [H1 P1] [H2 P2]. split; [|by rewrite P2].
  intros y Hy. rewrite H2 by (by rewrite P1). by apply H1.
Qed.
Lemma swap_at_frame q i j q' : swap_at q i j = Some q' → ixframe q q'.
Proof.
  unfold swap_at. destruct (arr q !! i) as [x|] eqn:Hi; [|done].
  destruct (arr q !! j) as [y|] eqn:Hj; [|done]. intros [= <-]. split; simpl.
  - intros z Hz. rewrite !lookup_insert_ne; [done| |].
    + intros ->. apply Hz. by eapply elem_of_list_lookup_2.
    + intros ->. apply Hz. by eapply elem_of_list_lookup_2.
  - by apply swap_perm.
Qed.
Lemma up_frame less fuel q j q' : up less fuel q j = Some q' → ixframe q q'.
Proof.
  revert q j. induction fuel as [|fuel IH]; intros q j; simpl; [done|].
  case_decide; [by intros [= <-]|].
  destruct (less_at _ _ _ _) as [[]|]; [|by intros [= <-]|done].
  destruct (swap_at _ _ _) eqn:Hs; [|done]. intros H'.
  eapply ixframe_trans; [by eapply swap_at_frame|by eapply IH].
Qed.
Lemma down_frame less fuel q i n q' i' : down_loop less fuel q i n = Some (q', i') → ixframe q q'.
Proof.
  revert q i. induction fuel as [|fuel IH]; intros q i; [done|]. cbn [down_loop].
  destruct (decide (n <= 2*i+1)); [by intros [= <- _]|].
  destruct (if decide _ then _ else _) as [b|]; [|done].
  destruct (less_at _ _ _ _) as [[]|]; [|by intros [= <- _]|done].
  destruct (swap_at _ _ _) eqn:Hs; [|done]. intros H'.
  eapply ixframe_trans; [by eapply swap_at_frame|by eapply IH].
Qed.
Lemma down_or_up_frame less q i n q' : down_or_up less q i n = Some q' → ixframe q q'.
Proof.
  unfold down_or_up, down. destruct (down_loop _ _ _ _ _) as [[q1 i']|] eqn:Hd; [|done].
  apply down_frame in Hd. case_bool_decide; [by intros [= <-]|].
  intros Hu%up_frame. by eapply ixframe_trans.
Qed.
Lemma heap_push_frame less q x q' y :
  heap_push less q x = Some q' → y ∉ arr q → y ≠ x → aix q' !! y = aix q !! y.
Proof.
  unfold heap_push. intros [H _]%up_frame Hy Hne.
  rewrite H; simpl; [by rewrite lookup_insert_ne|].
  rewrite elem_of_app, elem_of_list_singleton. naive_solver.
Qed.
Lemma raw_pop_frame q x q' y : raw_pop q = Some (x, q') → y ∉ arr q → aix q' !! y = aix q !! y.
Proof.
  unfold raw_pop. destruct (last (arr q)) as [z|] eqn:Hl; [|done]. intros [= -> <-] Hy. simpl.
  apply lookup_insert_ne. intros ->. apply Hy. rewrite last_lookup in Hl.
  by eapply elem_of_list_lookup_2.
Qed.
Lemma heap_remove_frame less q i x q' y :
  heap_remove less q i = Some (x, q') → y ∉ arr q → aix q' !! y = aix q !! y.
Proof.
  unfold heap_remove. destruct (i <? 0)%Z; [done|]. case_decide; [done|]. case_decide.
  - intros. by eapply raw_pop_frame.
  - destruct (swap_at _ _ _) as [q1|] eqn:Hs; [|done].
    destruct (down_or_up _ _ _ _) as [q2|] eqn:Hd; [|done].
    apply swap_at_frame in Hs. apply down_or_up_frame in Hd.
    destruct (ixframe_trans _ _ _ Hs Hd) as [Hf Hp].
    intros Hr Hy. rewrite (raw_pop_frame _ _ _ _ Hr) by (by rewrite Hp). by apply Hf.
Qed.
Lemma heap_pop_frame less q x q' y :
  heap_pop less q = Some (x, q') → y ∉ arr q → aix q' !! y = aix q !! y.
Proof.
  unfold heap_pop, down. destruct (swap_at _ _ _) as [q1|] eqn:Hs; [|done].
  destruct (down_loop _ _ _ _ _) as [[q2 i']|] eqn:Hd; [|done].
  apply swap_at_frame in Hs. apply down_frame in Hd.
  destruct (ixframe_trans _ _ _ Hs Hd) as [Hf Hp].
  intros Hr Hy. rewrite (raw_pop_frame _ _ _ _ Hr) by (by rewrite Hp). by apply Hf.
Qed.
Lemma heap_fix_frame less q i q' : heap_fix less q i = Some q' → ixframe q q'.
Proof.
  unfold heap_fix. destruct (i <? 0)%Z; [by intros [= <-]|]. apply down_or_up_frame.
Qed.
(** Fix either is in range, or leaves everything alone, or panics. *)
Lemma heap_fix_cases less q i q' :
  wf q → heap_fix less q i = Some q' → wf q'.
Proof.
  intros Hwf. unfold heap_fix. destruct (Z.ltb_spec i 0); [by intros [= <-]|].
  destruct (decide (Z.to_nat i < length (arr q))) as [Hlt|Hge].
  - intros Hd. destruct (down_or_up_struct less q (Z.to_nat i) (length (arr q)))
      as (q1 & Hd' & Hw & _); [done|lia|done|]. congruence.
  - unfold down_or_up, down. simpl. case_decide; [|lia].
    rewrite bool_decide_false by lia. simpl.
    case_decide; [by intros [= <-]|].
    unfold less_at. rewrite (lookup_ge_None_2 (arr q) (Z.to_nat i)) by lia. done.
Qed.
