(** The queue properties C01-C15, C17 (container/heap) and C50. Vocabulary in QueueSpec.v and HeapSpec.v. *)
From Coq Require Import ZArith Lia String.
From stdpp Require Import base option strings gmap list.
From RecordUpdate Require Import RecordSet.
From Verif Require Import GoHeap QueueModel HeapSpec QueueSpec QueueDemo
  QueueProofs QueueProofs2 QueueProofs3 QueueProofs4 QueueProofs5 QueueProofs6 QueueTime.
Open Scope Z_scope.
Open Scope string_scope.

Local Ltac booltac H := repeat match goal with H : _ && _ = true |- _ => apply andb_true_iff in H as [? ?] end;
  repeat match goal with H : bool_decide _ = true |- _ => apply bool_decide_eq_true in H end.

(** leaves the goals about whole histories alone *)
Local Ltac tidy := split_and!;
  lazymatch goal with
  | |- always clears_safely _ _ => apply always_clears; by vm_compute
  | |- always safely _ _ => apply always_safely; by vm_compute
  | |- always waits_safely _ _ => apply always_waits; by vm_compute
  | |- always timed_safely _ _ => apply always_timed; by vm_compute
  | |- always _ _ _ => idtac
  | |- history _ [] _ => by exists []
  | |- history _ _ _ => assumption
  | |- run _ _ = _ => assumption
  | |- unresolved _ _ _ = _ => apply (bool_decide_unpack _); by vm_compute
  | |- unresolved _ _ _ ≠ _ => idtac
  | |- Forall never_clears _ => repeat constructor
  | |- Forall never_updates _ => repeat constructor
  | |- Forall _ _ => idtac
  | |- named _ _ _ _ => split; assumption
  | |- _ => try first [assumption | reflexivity | discriminate]
  end.

(** * C01 *)
(** Full claim: [∀ t ops s, history t ops s → well_filed s]. It is false (next
    theorem); it holds of every history in which Update is never given an
    explicitly empty dependency list for an item that has unresolved
    dependencies while not being in the dependent sub-queue. *)
Theorem C01_partial : ∀ t ops s,
  history t ops s → always clears_safely (q_new t) ops → well_filed s.
Proof. exact filed_ok. Qed.
Print Assumptions C01_partial.
Example C01_case : ∃ s, history 0 demo s ∧ always clears_safely (q_new 0) demo ∧ size (items s) = 5%nat.
Proof.
  destruct (after_hist 0 demo (λ s, bool_decide (size (items s) = 5%nat))) as (s & Hh & Hs); [by vm_compute|].
  apply bool_decide_eq_true in Hs. exists s. tidy.
Qed.
Theorem C01_never_clears : ∀ t ops s, history t ops s → Forall never_clears ops → well_filed s.
Proof. exact (λ t ops s Hh Hf, filed_ok t ops s Hh (always_forall _ _ _ _ never_clears_safely Hf)). Qed.
Print Assumptions C01_never_clears.
Theorem C01_stats_partial : ∀ t ops s, history t ops s → always clears_safely (q_new t) ops →
  st_items (q_stats s) =
    (st_delayed (q_stats s) + st_ready (q_stats s) + st_running (q_stats s) +
     st_buried (q_stats s) + st_dependant (q_stats s))%nat ∧
  (∀ q n, (q, n) ∈ [(SDelay, st_delayed (q_stats s)); (SReady, st_ready (q_stats s));
                    (SRun, st_running (q_stats s)); (SBury, st_buried (q_stats s));
                    (SDep, st_dependant (q_stats s))] → n = length (holding s q)).
Proof. exact stats_ok. Qed.
Print Assumptions C01_stats_partial.

(** A buried item is given a dependency and relieved of it: it ends up in the
    bury and the ready sub-queue at once, and another item in none. *)
Definition clearing : list op :=
  [ OAdd 1 "c" "g" 1 0 0 0 60 StartDefault ["q"];
    OAdd 2 "b" "g" 2 0 0 0 60 StartBury [];
    OUpdate 3 "b" "g" 2 0 0 60 (Some ["zz"]);
    OUpdate 4 "b" "g" 2 0 0 60 (Some []) ].
Theorem C01_refuted : ∃ t ops s, history t ops s ∧ ¬ well_filed s.
Proof.
  destruct (after_hist 0 clearing (λ s, bool_decide (items s !! "b" = Some 1%nat) &&
    bool_decide (occurs 1 (holding s SBury) = 1%nat) && bool_decide (occurs 1 (holding s SReady) = 1%nat)))
    as (s & Hh & Hs); [by vm_compute|]. booltac Hs.
  exists 0, clearing, s. split; [done|]. intros [Hw _]. destruct (Hw "b" 1%nat) as (it & _ & _ & _ & Ho & _); [done|].
  pose proof (Ho SBury) as H1'. pose proof (Ho SReady) as H2'. 
  destruct (decide (SBury = ist it)), (decide (SReady = ist it)); congruence.
Qed.

(** ** No call panics, Update being used safely. *)
Theorem C01_no_panic_partial : ∀ t ops, always safely (q_new t) ops → is_Some (run (q_new t) ops).
Proof. exact no_panic. Qed.
Print Assumptions C01_no_panic_partial.
Example C01_no_panic_case : always safely (q_new 0) demo.
Proof. apply always_safely. by vm_compute. Qed.
(** In general a call can panic (index out of range, holding the queue's lock):
    changing the priority of a ready item after another group was used. *)
Theorem C01_no_panic_refuted : ∃ t ops, Forall never_clears ops ∧ run (q_new t) ops = None.
Proof.
  exists 0, [ OAdd 1 "a" "g" 1 5 0 0 60 StartDefault []; OAdd 2 "b" "g" 2 4 0 0 60 StartDefault [];
              OAdd 3 "c" "h" 3 0 0 0 60 StartDefault []; OUpdate 4 "b" "g" 2 9 0 60 None ].
  split; [repeat constructor|by vm_compute].
Qed.

(** * C02 *)
(** Reserve answers ErrNothingReady exactly when the group has no ready item,
    and otherwise returns a ready item of the group. *)
Theorem C02_ready_partial : ∀ t ops s now g retry s' r e,
  history t ops s → always clears_safely (q_new t) ops →
  step s (OReserve now g retry) = Some (s', r, e) → closed s = false →
  (r = RErr ENothingReady ∧ ¬ ∃ x it, objs s !! x = Some it ∧ ist it = SReady ∧ igroup it = g) ∨
  (∃ x it, r = RItem x ∧ objs s !! x = Some it ∧ ist it = SReady ∧ igroup it = g).
Proof. exact reserve_ready. Qed.
Print Assumptions C02_ready_partial.
(** Full claim: the item returned is best, without [always safely]. *)
Theorem C02_partial : ∀ t ops s now g retry s' x e,
  history t ops s → always safely (q_new t) ops →
  step s (OReserve now g retry) = Some (s', RItem x, e) →
  ∃ it, objs s !! x = Some it ∧ ist it = SReady ∧ igroup it = g ∧
    ∀ y it', objs s !! y = Some it' → ist it' = SReady → igroup it' = g → ¬ better it' it.
Proof. exact reserve_best. Qed.
Print Assumptions C02_partial.
Example C02_case : ∃ s s' e, history 0 demo s ∧ always safely (q_new 0) demo ∧
  step s (OReserve 30 "g" false) = Some (s', RItem 4%nat, e) ∧ closed s = false.
Proof.
  destruct (after_hist 0 demo (λ s, stepped s (OReserve 30 "g" false) (λ _ r, bool_decide (r = RItem 4%nat)) && negb (closed s)))
    as (s & Hh & Hs); [by vm_compute|]. apply andb_true_iff in Hs as [Hs Hc].
  apply stepped_step in Hs as (s' & r & e & Hs & Hr). apply bool_decide_eq_true in Hr as ->.
  exists s, s', e. tidy. by apply negb_true_iff.
Qed.
Theorem C02_never_updates : ∀ t ops s now g retry s' x e,
  history t ops s → Forall never_updates ops →
  step s (OReserve now g retry) = Some (s', RItem x, e) →
  ∃ it, objs s !! x = Some it ∧ ist it = SReady ∧ igroup it = g ∧
    ∀ y it', objs s !! y = Some it' → ist it' = SReady → igroup it' = g → ¬ better it' it.
Proof.
  exact (λ t ops s now g retry s' x e Hh Hf Hs,
    reserve_best t ops s now g retry s' x e Hh (always_forall _ _ _ _ never_updates_safely Hf) Hs).
Qed.
Print Assumptions C02_never_updates.
(** Lowering the priority of the best item of a group after an operation on
    another group: the item is still returned first. *)
Theorem C02_refuted : ∃ t ops s now g s' x e it y it',
  history t ops s ∧ Forall never_clears ops ∧
  step s (OReserve now g false) = Some (s', RItem x, e) ∧ objs s !! x = Some it ∧
  objs s !! y = Some it' ∧ ist it' = SReady ∧ igroup it' = g ∧ better it' it.
Proof.
  set (ops := [ OAdd 1 "a" "g" 1 5 0 0 60 StartDefault []; OAdd 2 "b" "g" 2 4 0 0 60 StartDefault [];
                OAdd 3 "c" "h" 3 0 0 0 60 StartDefault []; OUpdate 4 "a" "g" 1 1 0 60 None ]).
  destruct (after_hist 0 ops (λ s, stepped s (OReserve 9 "g" false) (λ _ r, bool_decide (r = RItem 0%nat)) &&
    match objs s !! 0%nat, objs s !! 1%nat with
    | Some it, Some it' => bool_decide (ist it' = SReady) && bool_decide (igroup it' = "g") && (iprio it <? iprio it')%N
    | _, _ => false
    end)) as (s & Hh & Hs); [by vm_compute|]. apply andb_true_iff in Hs as [Hs Hc].
  apply stepped_step in Hs as (s' & r & e & Hs & Hr). apply bool_decide_eq_true in Hr as ->.
  destruct (objs s !! 0%nat) as [it|] eqn:H0; [|done]. destruct (objs s !! 1%nat) as [it'|] eqn:H1; [|done].
  apply andb_true_iff in Hc as [Hc Hp]. booltac Hc. apply N.ltb_lt in Hp.
  exists 0, ops, s, 9, "g", s', 0%nat, e, it, 1%nat, it'. tidy. by left.
Qed.

(** * C03 *)
(** Full claim: without the [always clears_safely] hypothesis. *)
Theorem C03_partial : ∀ t pre s0 now1 g1 w1 s1 e1 mid s2 out now2 g2 w2 s3 e2 x,
  history t pre s0 →
  step s0 (OReserve now1 g1 w1) = Some (s1, RItem x, e1) →
  run s1 mid = Some (s2, out) →
  step s2 (OReserve now2 g2 w2) = Some (s3, RItem x, e2) →
  always clears_safely (q_new t) (pre ++ OReserve now1 g1 w1 :: mid) →
  ∃ mid1 o mid2 sa outa sb r e it,
    mid = (mid1 ++ o :: mid2)%list ∧ run s1 mid1 = Some (sa, outa) ∧ step sa o = Some (sb, r, e) ∧
    objs sa !! x = Some it ∧ ist it = SRun ∧ state_of sb x ≠ Some SRun ∧ may_stop o (ikey it).
Proof. exact reserved_once. Qed.
Print Assumptions C03_partial.
Example C03_case :
  let pre := [OAdd 1 "a" "g" 1 0 0 0 60 StartDefault []; OAdd 2 "b" "g" 2 0 0 0 60 StartDefault []] in
  let mid := [OReserve 4 "g" false; ORelease 5 "b"; OTickTTR 100 (λ _, ToReady)] in
  ∃ s0 s1 e1 s2 out s3 e2, history 0 pre s0 ∧
    step s0 (OReserve 3 "g" false) = Some (s1, RItem 0%nat, e1) ∧ run s1 mid = Some (s2, out) ∧
    step s2 (OReserve 101 "g" false) = Some (s3, RItem 0%nat, e2) ∧
    always clears_safely (q_new 0) (pre ++ OReserve 3 "g" false :: mid).
Proof.
  intros pre mid. destruct (after_hist 0 pre (λ s0, stepped s0 (OReserve 3 "g" false) (λ s1 r,
    bool_decide (r = RItem 0%nat) && after s1 mid (λ s2, stepped s2 (OReserve 101 "g" false) (λ _ r, bool_decide (r = RItem 0%nat))))))
    as (s0 & Hh & Hs); [by vm_compute|].
  apply stepped_step in Hs as (s1 & r & e1 & Hs & Hr). apply andb_true_iff in Hr as [Hr Ha].
  apply bool_decide_eq_true in Hr as ->. apply after_run in Ha as (s2 & out & Hr2 & Ha).
  apply stepped_step in Ha as (s3 & r & e2 & Hs3 & Hr). apply bool_decide_eq_true in Hr as ->.
  exists s0, s1, e1, s2, out, s3, e2. tidy.
Qed.
(** Without it the same item is handed to two clients: between the two Reserves
    there is only an Update that clears the item's dependencies. *)
Theorem C03_refuted : ∃ t pre s0 s1 e1 o s2 r e s3 e2 x now1 now2 g,
  history t pre s0 ∧ step s0 (OReserve now1 g false) = Some (s1, RItem x, e1) ∧
  step s1 o = Some (s2, r, e) ∧ step s2 (OReserve now2 g false) = Some (s3, RItem x, e2) ∧
  ∀ k, ¬ may_stop o k.
Proof.
  set (pre := [ OAdd 1 "c" "h" 1 0 0 0 60 StartDefault ["q"]; OAdd 2 "b" "g" 2 0 0 0 60 StartBury [];
                OUpdate 3 "b" "g" 2 0 0 60 (Some ["zz"]); OKick "b" ]).
  set (o := OUpdate 5 "b" "g" 2 0 0 60 (Some [])).
  destruct (after_hist 0 pre (λ s0, stepped s0 (OReserve 4 "g" false) (λ s1 r,
    bool_decide (r = RItem 1%nat) && stepped s1 o (λ s2 _, stepped s2 (OReserve 6 "g" false) (λ _ r, bool_decide (r = RItem 1%nat))))))
    as (s0 & Hh & Hs); [by vm_compute|].
  apply stepped_step in Hs as (s1 & r & e1 & Hs & Hr). apply andb_true_iff in Hr as [Hr Ha].
  apply bool_decide_eq_true in Hr as ->. apply stepped_step in Ha as (s2 & r2 & e & Hs2 & Ha).
  apply stepped_step in Ha as (s3 & r & e2 & Hs3 & Hr). apply bool_decide_eq_true in Hr as ->.
  exists 0, pre, s0, s1, e1, o, s2, r2, e, s3, e2, 1%nat, 4, 6, "g". tidy. intros k [].
Qed.

(** * C04 *)
(** Full claim: without the restrictions on Update and Kick. *)
Theorem C04_partial : ∀ t ops s now g w s' x e,
  history t ops s → always (λ s o, clears_safely s o ∧ kicks_soundly s o) (q_new t) ops →
  unresolved t ops x ≠ ∅ → step s (OReserve now g w) ≠ Some (s', RItem x, e).
Proof. exact not_reserved. Qed.
Print Assumptions C04_partial.
Example C04_case : ∃ s, history 0 demo s ∧ unresolved 0 demo 1%nat = {["a2"]} ∧ state_of s 1%nat = Some SDep ∧
  always (λ s o, clears_safely s o ∧ kicks_soundly s o) (q_new 0) demo.
Proof.
  destruct (after_hist 0 demo (λ s, bool_decide (state_of s 1%nat = Some SDep))) as (s & Hh & Hs); [by vm_compute|].
  apply bool_decide_eq_true in Hs. exists s. tidy.
  eapply (always_b_ok (λ s o, clears_b s o && kicks_b s o)); [|by vm_compute].
  intros s0 o [H1 H2]%andb_true_iff. split; [by apply clears_b_ok|by apply kicks_b_ok].
Qed.
(** Kicking a buried item that was given a dependency which is not in the queue
    makes it ready, and it is reserved. *)
Theorem C04_refuted : ∃ t ops s now g s' x e,
  history t ops s ∧ Forall never_clears ops ∧ unresolved t ops x ≠ ∅ ∧
  step s (OReserve now g false) = Some (s', RItem x, e).
Proof.
  set (ops := [ OAdd 2 "b" "g" 2 0 0 0 60 StartBury []; OUpdate 3 "b" "g" 2 0 0 60 (Some ["zz"]); OKick "b" ]).
  destruct (after_hist 0 ops (λ s, stepped s (OReserve 4 "g" false) (λ _ r, bool_decide (r = RItem 0%nat))))
    as (s & Hh & Hs); [by vm_compute|].
  apply stepped_step in Hs as (s' & r & e & Hs & Hr). apply bool_decide_eq_true in Hr as ->.
  exists 0, ops, s, 4, "g", s', 0%nat, e. tidy.
  assert (unresolved 0 ops 0%nat = {["zz"]}) as -> by (apply (bool_decide_unpack _); by vm_compute). done.
Qed.

(** * C05 *)
(** Full claim: without [always waits_safely]. *)
Theorem C05_partial : ∀ t ops s k ord s' e,
  history t ops s → always waits_safely (q_new t) ops →
  step s (ORemove k ord) = Some (s', ROk, e) →
  (∀ x, state_of s x = Some SDep → unresolved t ops x ≠ ∅) ∧
  (∀ x, state_of s x = Some SDep → items s !! k ≠ Some x →
     state_of s' x = Some (if decide (unresolved t ops x ⊆ {[k]}) then SReady else SDep)) ∧
  (∀ x st, state_of s x = Some st → st ≠ SDep → items s !! k ≠ Some x → state_of s' x = Some st).
Proof. exact resolved. Qed.
Print Assumptions C05_partial.
(** No item waits for nothing. *)
Theorem C05_never_stuck_partial : ∀ t ops s x,
  history t ops s → always waits_safely (q_new t) ops → closed s = false →
  state_of s x = Some SDep → unresolved t ops x ≠ ∅.
Proof. exact never_stuck. Qed.
Print Assumptions C05_never_stuck_partial.
Example C05_case : ∃ s s' e, history 0 demo s ∧ always waits_safely (q_new 0) demo ∧
  step s (ORemove "a2" []) = Some (s', ROk, e) ∧ state_of s 1%nat = Some SDep ∧ state_of s' 1%nat = Some SReady ∧
  closed s = false.
Proof.
  destruct (after_hist 0 demo (λ s, stepped s (ORemove "a2" []) (λ s' r, bool_decide (r = ROk) &&
     bool_decide (state_of s' 1%nat = Some SReady)) && bool_decide (state_of s 1%nat = Some SDep) && negb (closed s)))
    as (s & Hh & Hs); [by vm_compute|]. apply andb_true_iff in Hs as [Hs Hcl]. apply andb_true_iff in Hs as [Hs Hd].
  apply stepped_step in Hs as (s' & r & e & Hs & Hr). booltac Hr. subst.
  exists s, s', e. tidy. by apply negb_true_iff.
Qed.
(** An item buried while a dependency was resolved and added anew is put by Kick
    among the dependent items with nothing left to wait for. *)
Theorem C05_refuted : ∃ t ops s x, history t ops s ∧ Forall never_clears ops ∧ closed s = false ∧
  state_of s x = Some SDep ∧ unresolved t ops x = ∅.
Proof.
  set (ops := [ OAdd 1 "p" "g" 1 0 0 0 60 StartDefault []; OAdd 2 "b" "g" 2 0 0 0 60 StartBury [];
                OUpdate 3 "b" "g" 2 0 0 60 (Some ["p"]); ORemove "p" []; OAdd 4 "p" "g" 1 0 0 0 60 StartDefault [];
                OKick "b" ]).
  destruct (after_hist 0 ops (λ s, bool_decide (state_of s 1%nat = Some SDep) && negb (closed s))) as (s & Hh & Hs); [by vm_compute|].
  apply andb_true_iff in Hs as [Hs Hc]. apply bool_decide_eq_true in Hs. apply negb_true_iff in Hc.
  exists 0, ops, s, 1%nat. tidy.
Qed.
(** ChangeKey to a key others wait for forgets them: Removing it frees nobody. *)
Theorem C05_clobbered_refuted : ∃ t ops s k s' e x, history t ops s ∧ Forall never_clears ops ∧
  step s (ORemove k []) = Some (s', ROk, e) ∧ state_of s x = Some SDep ∧ unresolved t ops x = {[k]} ∧
  state_of s' x = Some SDep.
Proof.
  set (ops := [ OAdd 1 "old" "g" 1 0 0 0 60 StartDefault []; OAdd 2 "d" "g" 2 0 0 0 60 StartDefault ["old"];
                OAdd 3 "w" "g" 3 0 0 0 60 StartDefault ["new"]; OChangeKey "old" "new" ]).
  destruct (after_hist 0 ops (λ s, stepped s (ORemove "new" []) (λ s' r, bool_decide (r = ROk) &&
     bool_decide (state_of s' 2%nat = Some SDep)) && bool_decide (state_of s 2%nat = Some SDep)))
    as (s & Hh & Hs); [by vm_compute|]. apply andb_true_iff in Hs as [Hs Hd].
  apply stepped_step in Hs as (s' & r & e & Hs & Hr). booltac Hr. subst.
  exists 0, ops, s, "new", s', e, 2%nat. tidy.
Qed.

(** * C06 *)
Theorem C06_items_stay : ∀ t ops0 s ops s' out k x it,
  history t ops0 s → named s k x it → run s ops = Some (s', out) →
  match follow k (idata it) (zip ops (fst <$> out)) with
  | Some (k', d') => ∃ it', named s' k' x it' ∧ idata it' = d'
  | None => ∀ k', items s' !! k' ≠ Some x
  end.
Proof. exact followed_hist. Qed.
Print Assumptions C06_items_stay.
Example C06_case : 
  let pre := firstn 5 demo in let ops := skipn 5 demo in
  ∃ s s' out it, history 0 pre s ∧ named s "a" 0%nat it ∧ run s ops = Some (s', out) ∧
    follow "a" (idata it) (zip ops (fst <$> out)) = Some ("a2", 10%N).
Proof.
  intros pre ops. destruct (after_hist 0 pre (λ s, bool_decide (items s !! "a" = Some 0%nat) &&
    match objs s !! 0%nat, run s ops with
    | Some it, Some (_, out) => bool_decide (follow "a" (idata it) (zip ops (fst <$> out)) = Some ("a2", 10%N))
    | _, _ => false end)) as (s & Hh & Hs); [by vm_compute|].
  apply andb_true_iff in Hs as [Hi Hs]. apply bool_decide_eq_true in Hi.
  destruct (objs s !! 0%nat) as [it|] eqn:Ho; [|done]. destruct (run s ops) as [[s' out]|] eqn:Hr; [|done].
  apply bool_decide_eq_true in Hs. exists s, s', out, it. tidy.
Qed.

(** * C07 *)
Theorem C07_add_known : ∀ s now k g d prio size delay ttr start deps s' r e x,
  closed s = false → items s !! k = Some x →
  step s (OAdd now k g d prio size delay ttr start deps) = Some (s', r, e) →
  r = RErrItem x EExists ∧ s' = s ∧ e = [].
Proof. exact add_known_ok. Qed.
Print Assumptions C07_add_known.
Theorem C07_add_many : ∀ t ops s now ds s' r e,
  history t ops s → closed s = false → step s (OAddMany now ds) = Some (s', r, e) →
  let fd := first_defs (dom (items s)) ds in
  r = RAdded (length fd) (length ds - length fd) ∧ (length fd ≤ length ds)%nat ∧
  (∀ d, d ∈ fd → ∃ x it, named s' (d_key d) x it ∧ (∀ k, items s !! k ≠ Some x) ∧
      igroup it = d_group d ∧ idata it = d_data d ∧ iprio it = d_prio d ∧
      idelay it = d_delay d ∧ ittr it = d_ttr d ∧ creation it = now) ∧
  (∀ k x it, named s k x it → ∃ it', named s' k x it' ∧ same_settings it it') ∧
  (∀ k, is_Some (items s' !! k) → is_Some (items s !! k) ∨ ∃ d, d ∈ fd ∧ d_key d = k).
Proof. exact add_many_settings. Qed.
Print Assumptions C07_add_many.
Example C07_case : ∃ s s' e s1 e1 x, history 0 demo s ∧ closed s = false ∧
  step s (OAddMany 30 [ItemDef "z" "g" 1 0 0 60 StartRun []; ItemDef "b" "g" 2 0 0 60 StartDefault [];
                       ItemDef "z" "g" 3 0 0 60 StartDefault ["b"]; ItemDef "y" "g" 4 0 0 60 StartBury []])
    = Some (s', RAdded 2 2, e) ∧
  items s !! "b" = Some x ∧
  step s (OAdd 30 "b" "g" 2 0 0 0 60 StartDefault []) = Some (s1, RErrItem x EExists, e1).
Proof.
  destruct (after_hist 0 demo (λ s, negb (closed s) && stepped s (OAddMany 30 [ItemDef "z" "g" 1 0 0 60 StartRun []; ItemDef "b" "g" 2 0 0 60 StartDefault [];
                       ItemDef "z" "g" 3 0 0 60 StartDefault ["b"]; ItemDef "y" "g" 4 0 0 60 StartBury []]) (λ _ r, bool_decide (r = RAdded 2 2)) &&
     bool_decide (items s !! "b" = Some 1%nat) &&
     stepped s (OAdd 30 "b" "g" 2 0 0 0 60 StartDefault []) (λ _ r, bool_decide (r = RErrItem 1 EExists))))
    as (s & Hh & Hs); [by vm_compute|]. apply andb_true_iff in Hs as [Hs Hs2]. apply andb_true_iff in Hs as [Hs Hb].
  apply andb_true_iff in Hs as [Hc Hs]. apply stepped_step in Hs as (s' & r & e & Hs & Hr). apply stepped_step in Hs2 as (s1 & r1 & e1 & Hs1 & Hr1).
  booltac Hr. subst. apply negb_true_iff in Hc. exists s, s', e, s1, e1, 1%nat. tidy.
Qed.

(** * C08 *)
(** Full claims: without [always clears_safely]. *)
Theorem C08_added_partial : ∀ t pre s now k g d prio size delay ttr s1 x e ops s2 out,
  history t pre s → delay ≠ 0 →
  step s (OAdd now k g d prio size delay ttr StartDefault []) = Some (s1, RItem x, e) →
  run s1 ops = Some (s2, out) →
  always clears_safely (q_new t) (pre ++ OAdd now k g d prio size delay ttr StartDefault [] :: ops) →
  always (before_ready x (now + delay)) s1 ops →
  state_of s2 x = Some SDelay ∨ state_of s2 x = Some SRemoved.
Proof. exact not_early_add. Qed.
Print Assumptions C08_added_partial.
Theorem C08_released_partial : ∀ t pre s now k s1 x it e ops s2 out,
  history t pre s → named s k x it → idelay it ≠ 0 →
  step s (ORelease now k) = Some (s1, ROk, e) →
  run s1 ops = Some (s2, out) →
  always clears_safely (q_new t) (pre ++ ORelease now k :: ops) →
  always (before_ready x (now + idelay it)) s1 ops →
  state_of s2 x = Some SDelay ∨ state_of s2 x = Some SRemoved.
Proof. exact not_early_release. Qed.
Print Assumptions C08_released_partial.
Theorem C08_processing_partial : ∀ t ops s now s' r e,
  history t ops s → always clears_safely (q_new t) ops → closed s = false →
  step s (OTickDelay now) = Some (s', r, e) →
  ∀ x it, objs s !! x = Some it →
    if decide (ist it = SDelay ∧ readyAt it < now)
    then ∃ it', objs s' !! x = Some it' ∧ ist it' = SReady ∧ same_settings it it'
    else objs s' !! x = Some it.
Proof. exact tick_delay_moves. Qed.
Print Assumptions C08_processing_partial.
Example C08_case :
  let ops := [OAdd 2 "b" "g" 2 0 0 20 60 StartDefault []; OTickDelay 10; OTickDelay 11; OChangeKey "a" "aa"] in
  ∃ s s1 e s2 out, history 0 [] s ∧
    step s (OAdd 1 "a" "g" 1 0 0 10 60 StartDefault []) = Some (s1, RItem 0%nat, e) ∧ run s1 ops = Some (s2, out) ∧
    always clears_safely (q_new 0) ([] ++ OAdd 1 "a" "g" 1 0 0 10 60 StartDefault [] :: ops) ∧
    always (before_ready 0 11) s1 ops ∧ state_of s2 0%nat = Some SDelay.
Proof.
  intros ops. destruct (stepped_step (q_new 0) (OAdd 1 "a" "g" 1 0 0 10 60 StartDefault []) (λ s1 r, bool_decide (r = RItem 0%nat) &&
    after s1 ops (λ s2, bool_decide (state_of s2 0%nat = Some SDelay)))) as (s1 & r & e & Hs & Hr); [by vm_compute|].
  apply andb_true_iff in Hr as [Hr Ha]. apply bool_decide_eq_true in Hr as ->. apply after_run in Ha as (s2 & out & Hr & Hd).
  apply bool_decide_eq_true in Hd. exists (q_new 0), s1, e, s2, out. tidy.
  eapply (always_forall _ (λ o, match o with OTickDelay now => now ≤ 11 | OUpdate _ _ _ _ _ _ _ _ | OSetDelay _ _ _ => False | _ => True end)).
  - by intros ? [].
  - repeat constructor; lia.
Qed.
Example C08_released_case : ∃ s it s1 e, history 0 (firstn 11 demo) s ∧ named s "c" 2%nat it ∧ idelay it ≠ 0 ∧
  step s (ORelease 22 "c") = Some (s1, ROk, e) ∧ always clears_safely (q_new 0) (firstn 11 demo ++ [ORelease 22 "c"]).
Proof.
  destruct (after_hist 0 (firstn 11 demo) (λ s, stepped s (ORelease 22 "c") (λ _ r, bool_decide (r = ROk)) &&
    bool_decide (items s !! "c" = Some 2%nat) && match objs s !! 2%nat with Some it => negb (idelay it =? 0)%Z | None => false end))
    as (s & Hh & Hs); [by vm_compute|]. apply andb_true_iff in Hs as [Hs Hd]. apply andb_true_iff in Hs as [Hs Hi].
  apply stepped_step in Hs as (s1 & r & e & Hs & Hr). booltac Hr. subst. destruct (objs s !! 2%nat) as [it|] eqn:Hx; [|done].
  apply negb_true_iff, Z.eqb_neq in Hd. exists s, it, s1, e. tidy.
Qed.

(** * C09 *)
(** Full claims: without [always clears_safely]. *)
Theorem C09_processing_partial : ∀ t ops s now cb s' r e,
  history t ops s → always clears_safely (q_new t) ops → Forall clocked ops → 0 < now → closed s = false →
  step s (OTickTTR now cb) = Some (s', r, e) →
  ∃ ord, NoDup ord ∧
    (∀ x, x ∈ ord ↔ ∃ it, objs s !! x = Some it ∧ ist it = SRun ∧ releaseAt it < now) ∧
    (∀ j x, ord !! j = Some x → state_of s' x = Some (ttr_state (cb j))) ∧
    (∀ x, x ∉ ord → objs s' !! x = objs s !! x).
Proof. exact tick_ttr_exact. Qed.
Print Assumptions C09_processing_partial.
Theorem C09_reserved_partial : ∀ t pre s now g w s1 x e ops s2 out it,
  history t pre s → step s (OReserve now g w) = Some (s1, RItem x, e) → objs s !! x = Some it →
  run s1 ops = Some (s2, out) →
  always clears_safely (q_new t) (pre ++ OReserve now g w :: ops) →
  always (before_timeout x (now + ittr it)) s1 ops →
  state_of s2 x = Some SRun.
Proof. exact not_timed_out_early. Qed.
Print Assumptions C09_reserved_partial.
Theorem C09_touched_partial : ∀ t pre s now k s1 x e ops s2 out it,
  history t pre s → named s k x it → step s (OTouch now k) = Some (s1, ROk, e) →
  run s1 ops = Some (s2, out) →
  always clears_safely (q_new t) (pre ++ OTouch now k :: ops) →
  always (before_timeout x (now + ittr it)) s1 ops →
  state_of s2 x = Some SRun.
Proof. exact not_timed_out_early_touch. Qed.
Print Assumptions C09_touched_partial.
Example C09_case : ∃ s s' r e, history 0 demo s ∧ always clears_safely (q_new 0) demo ∧ Forall clocked demo ∧
  closed s = false ∧ step s (OTickTTR 100 (λ _, ToBury)) = Some (s', r, e) ∧
  state_of s 0%nat = Some SRun ∧ state_of s' 0%nat = Some SBury.
Proof.
  destruct (after_hist 0 demo (λ s, negb (closed s) && stepped s (OTickTTR 100 (λ _, ToBury)) (λ s' _, bool_decide (state_of s' 0%nat = Some SBury)) &&
    bool_decide (state_of s 0%nat = Some SRun))) as (s & Hh & Hs); [by vm_compute|].
  apply andb_true_iff in Hs as [Hs Hd]. apply andb_true_iff in Hs as [Hc Hs]. apply stepped_step in Hs as (s' & r & e & Hs & Hr).
  booltac Hr. apply negb_true_iff in Hc. exists s, s', r, e. tidy.
  repeat (constructor; [simpl; repeat split; try lia; repeat constructor; simpl; lia|]). constructor.
Qed.
Example C09_held_case :
  let pre := [OAdd 1 "a" "g" 1 0 0 0 60 StartDefault []] in
  let ops := [OAdd 4 "b" "g" 1 0 0 0 60 StartRun []; OTickTTR 50 (λ _, ToReady); OTickTTR 63 (λ _, ToReady)] in
  ∃ s s1 e s2 out it, history 0 pre s ∧ step s (OReserve 3 "g" false) = Some (s1, RItem 0%nat, e) ∧
    objs s !! 0%nat = Some it ∧ run s1 ops = Some (s2, out) ∧
    always clears_safely (q_new 0) (pre ++ OReserve 3 "g" false :: ops) ∧
    always (before_timeout 0 (3 + ittr it)) s1 ops.
Proof.
  intros pre ops. destruct (after_hist 0 pre (λ s, stepped s (OReserve 3 "g" false) (λ s1 r, bool_decide (r = RItem 0%nat) &&
    after s1 ops (λ s2, true)) && match objs s !! 0%nat with Some it => (ittr it =? 60)%Z | None => false end)) as (s & Hh & Hs); [by vm_compute|].
  apply andb_true_iff in Hs as [Hs Ho]. apply stepped_step in Hs as (s1 & r & e & Hs & Hr).
  apply andb_true_iff in Hr as [Hr Ha]. apply bool_decide_eq_true in Hr as ->. apply after_run in Ha as (s2 & out & Hr & _).
  destruct (objs s !! 0%nat) as [it|] eqn:Hx; [|done]. apply Z.eqb_eq in Ho.
  exists s, s1, e, s2, out, it. tidy. rewrite Ho.
  eapply (always_forall _ (λ o, match o with OTickTTR now _ => now ≤ 63 | OAdd _ _ _ _ _ _ _ _ _ _ => True | _ => False end)).
  - by intros ? [].
  - repeat constructor; lia.
Qed.

(** * C10 *)
Theorem C10_error_unchanged : ∀ s o s' r e, step s o = Some (s', r, e) → fails r → unchanged s s' ∧ e = [].
Proof. exact error_unchanged. Qed.
Print Assumptions C10_error_unchanged.
Theorem C10_guards : ∀ s o s' r e k st err,
  demands o = Some (k, st, err) → step s o = Some (s', r, e) →
  r = if closed s then RErr EClosed
      else match items s !! k with
           | None => RErr ENotFound
           | Some x => if decide (state_of s x = Some st) then ROk else RErr err
           end.
Proof. exact guarded_answer. Qed.
Print Assumptions C10_guards.
Theorem C10_lands : ∀ s o s' e k st err x it,
  demands o = Some (k, st, err) → step s o = Some (s', ROk, e) → named s k x it →
  ist it = st ∧ items s' = items s ∧
  (∃ it', objs s' !! x = Some it' ∧ ist it' = lands s it o ∧ same_settings it it') ∧
  ∀ y, y ≠ x → objs s' !! y = objs s !! y.
Proof. exact guarded_lands. Qed.
Print Assumptions C10_lands.
Example C10_case : ∃ s s' e s1 r1 e1, history 0 demo s ∧ demands (OBury "a2") = Some ("a2", SRun, ENotRunning) ∧
  step s (OBury "a2") = Some (s', ROk, e) ∧ step s (OKick "a2") = Some (s1, r1, e1) ∧ fails r1.
Proof.
  destruct (after_hist 0 demo (λ s, stepped s (OBury "a2") (λ _ r, bool_decide (r = ROk)) && stepped s (OKick "a2") (λ _ r, bool_decide (r = RErr ENotBuried))))
    as (s & Hh & Hs); [by vm_compute|]. apply andb_true_iff in Hs as [Hs Hs1].
  apply stepped_step in Hs as (s' & r & e & Hs & Hr). apply stepped_step in Hs1 as (s1 & r1 & e1 & Hs1 & Hr1). booltac Hr. subst.
  exists s, s', e, s1, (RErr ENotBuried), e1. tidy.
Qed.

(** * C11 *)
(** Full claim: also that every item that waited for [new] before still does;
    refuted by [C05_clobbered_refuted]. That Removing [new] then frees the items
    that waited for [old] is C05_partial, whose [unresolved] follows renames. *)
Theorem C11_partial : ∀ t ops s old new s' r e,
  history t ops s → always clears_safely (q_new t) ops →
  step s (OChangeKey old new) = Some (s', r, e) →
  r = rename_answer s old new ∧
  (fails r → s' = s) ∧
  (r = ROk → ∀ x, items s !! old = Some x →
     items s' !! new = Some x ∧ items s' !! old = None ∧
     (∀ k, k ≠ old → k ≠ new → items s' !! k = items s !! k) ∧
     (∀ q, holding s' q = holding s q) ∧
     (∀ y it, objs s !! y = Some it → ∃ it', objs s' !! y = Some it' ∧ same_but_keys it it' ∧
        (y = x → ikey it' = new) ∧
        (y ≠ x → ikey it' = ikey it ∧
           (ist it ≠ SRemoved → ∀ d, d ∈ iremain it' ↔ (d = new ∧ old ∈ iremain it) ∨ (d ≠ old ∧ d ∈ iremain it))))).
Proof. exact rename_ok. Qed.
Print Assumptions C11_partial.
Example C11_case : ∃ s s' e, history 0 (firstn 5 demo) s ∧ always clears_safely (q_new 0) (firstn 5 demo) ∧
  step s (OChangeKey "a" "a2") = Some (s', ROk, e) ∧ items s !! "a" = Some 0%nat.
Proof.
  destruct (after_hist 0 (firstn 5 demo) (λ s, stepped s (OChangeKey "a" "a2") (λ _ r, bool_decide (r = ROk)) && bool_decide (items s !! "a" = Some 0%nat)))
    as (s & Hh & Hs); [by vm_compute|]. apply andb_true_iff in Hs as [Hs Hi].
  apply stepped_step in Hs as (s' & r & e & Hs & Hr). booltac Hr. subst.
  exists s, s', e. tidy.
Qed.

(** * C12 *)
(** Full claim: [given it' ...] whatever the item was before; refuted below. It
    holds when at most one of delay, priority/group and TTR is changed. *)
Theorem C12_partial : ∀ t ops s now k g d prio delay ttr deps s' r e,
  history t ops s → always clears_safely (q_new t) ops → clears_safely s (OUpdate now k g d prio delay ttr deps) →
  step s (OUpdate now k g d prio delay ttr deps) = Some (s', r, e) →
  r = (if closed s then RErr EClosed else if decide (is_Some (items s !! k)) then ROk else RErr ENotFound) ∧
  (r = ROk → items s' = items s ∧ ∀ x it, named s k x it →
     (∀ y, y ≠ x → objs s' !! y = objs s !! y) ∧
     ∃ it', objs s' !! x = Some it' ∧ ikey it' = k ∧
       ist it' = waiting_state it deps ∧
       idata it' = d ∧ idelay it' = delay ∧
       (idelay it = delay → iprio it' = prio ∧ igroup it' = g) ∧
       (one_at_a_time it g prio delay ttr deps → given it' g d prio delay ttr deps)).
Proof. exact update_ok. Qed.
Print Assumptions C12_partial.
Example C12_case : ∃ s s' e it, history 0 demo s ∧ always clears_safely (q_new 0) demo ∧
  clears_safely s (OUpdate 30 "d" "q" 77 3 0 60 (Some ["a2"; "b"])) ∧
  step s (OUpdate 30 "d" "q" 77 3 0 60 (Some ["a2"; "b"])) = Some (s', ROk, e) ∧
  named s "d" 3%nat it ∧ one_at_a_time it "q" 3 0 60 (Some ["a2"; "b"]) ∧ iprio it = 9%N ∧ ist it = SReady.
Proof.
  destruct (after_hist 0 demo (λ s, stepped s (OUpdate 30 "d" "q" 77 3 0 60 (Some ["a2"; "b"])) (λ _ r, bool_decide (r = ROk)) &&
    bool_decide (items s !! "d" = Some 3%nat) && match objs s !! 3%nat with Some it => (idelay it =? 0)%Z && (ittr it =? 60)%Z && (iprio it =? 9)%N && bool_decide (ist it = SReady) | None => false end))
    as (s & Hh & Hs); [by vm_compute|]. apply andb_true_iff in Hs as [Hs Ho]. apply andb_true_iff in Hs as [Hs Hi].
  apply stepped_step in Hs as (s' & r & e & Hs & Hr). booltac Hr. subst. destruct (objs s !! 3%nat) as [it|] eqn:Hx; [|done].
  apply andb_true_iff in Ho as [Ho H4]. apply andb_true_iff in Ho as [Ho H3]. apply andb_true_iff in Ho as [H1 H2].
  apply Z.eqb_eq in H1, H2. apply N.eqb_eq in H3. apply bool_decide_eq_true in H4.
  exists s, s', e, it. tidy. split; by left.
Qed.
(** Changing the delay and the priority in one Update: the priority is ignored. *)
Theorem C12_refuted : ∃ t ops s now k g d prio delay ttr s' e x it',
  history t ops s ∧ Forall never_updates ops ∧
  step s (OUpdate now k g d prio delay ttr None) = Some (s', ROk, e) ∧
  named s' k x it' ∧ ¬ given it' g d prio delay ttr None.
Proof.
  set (ops := [OAdd 1 "a" "g" 1 5 0 0 60 StartDefault []]).
  destruct (after_hist 0 ops (λ s, stepped s (OUpdate 2 "a" "g" 1 9 10 60 None) (λ s' r, bool_decide (r = ROk) &&
    bool_decide (items s' !! "a" = Some 0%nat) && match objs s' !! 0%nat with Some it => (iprio it =? 5)%N | None => false end)))
    as (s & Hh & Hs); [by vm_compute|]. apply stepped_step in Hs as (s' & r & e & Hs & Hr).
  apply andb_true_iff in Hr as [Hr Ho]. booltac Hr. subst. destruct (objs s' !! 0%nat) as [it|] eqn:Hx; [|done]. apply N.eqb_eq in Ho.
  exists 0, ops, s, 2, "a", "g", 1%N, 9%N, 10, 60, s', e, 0%nat, it. tidy.
  intros (_ & _ & H9 & _). congruence.
Qed.

(** * C13 *)
Theorem C13_destroyed : ∀ t ops s s' r e ops' s2 out,
  history t ops s → closed s = false → step s ODestroy = Some (s', r, e) →
  run s' ops' = Some (s2, out) →
  r = ROk ∧ e = [] ∧ (fst <$> out) = (closed_answer <$> ops') ∧ Forall (λ o, snd o = []) out ∧
  items s2 = ∅ ∧ (∀ q, holding s2 q = []) ∧ q_stats s2 = QStats 0 0 0 0 0 0.
Proof. exact destroyed. Qed.
Print Assumptions C13_destroyed.
Theorem C13_no_panic : ∀ t ops s s' r e ops',
  history t ops s → closed s = false → step s ODestroy = Some (s', r, e) → is_Some (run s' ops').
Proof. exact destroyed_total. Qed.
Print Assumptions C13_no_panic.
Example C13_case : ∃ s s' e s2 out, history 0 demo s ∧ closed s = false ∧ step s ODestroy = Some (s', ROk, e) ∧ run s' demo = Some (s2, out).
Proof.
  destruct (after_hist 0 demo (λ s, negb (closed s) && stepped s ODestroy (λ s' r, bool_decide (r = ROk) && after s' demo (λ _, true))))
    as (s & Hh & Hs); [by vm_compute|]. apply andb_true_iff in Hs as [Hc Hs]. apply stepped_step in Hs as (s' & r & e & Hs & Hr).
  apply andb_true_iff in Hr as [Hr Ha]. booltac Hr. subst. apply after_run in Ha as (s2 & out & Ha & _). apply negb_true_iff in Hc.
  exists s, s', e, s2, out. tidy.
Qed.

(** * C14 *)
(** Full claim: each of the five counters equals the number of the events it is
    named after. Proved: reserves, kicks and buries do; releases and timeouts do
    in total only (see C14_refuted). *)
Theorem C14_partial : ∀ t pre s o s1 r e ops s2 out x it0 it,
  history t pre s → step s o = Some (s1, r, e) → objs s1 !! x = Some it0 →
  run s1 ops = Some (s2, out) → objs s2 !! x = Some it →
  always clears_safely (q_new t) (pre ++ o :: ops) →
  (nreserves it = nreserves it0 + tally (reserves_of x) s1 ops)%N ∧
  (nkicks it = nkicks it0 + tally (kicks_of x) s1 ops)%N ∧
  (nburies it = nburies it0 + tally (moves_of x SRun SBury) s1 ops)%N ∧
  (nreleases it + ntimeouts it = nreleases it0 + ntimeouts it0 + tally (given_up x) s1 ops)%N.
Proof. exact counted. Qed.
Print Assumptions C14_partial.
Theorem C14_start_partial : ∀ s now k g d prio size delay ttr start deps s1 x e t pre,
  history t pre s → always clears_safely (q_new t) pre →
  step s (OAdd now k g d prio size delay ttr start deps) = Some (s1, RItem x, e) →
  ∃ it, objs s1 !! x = Some it ∧ nkicks it = 0%N ∧ nreleases it = 0%N ∧ ntimeouts it = 0%N ∧
    nreserves it = match start, deps with StartRun, [] => 1%N | _, _ => 0%N end ∧
    nburies it = match start, deps with StartBury, [] => 1%N | _, _ => 0%N end.
Proof. exact counted_add. Qed.
Print Assumptions C14_start_partial.
Example C14_case :
  let o := OAdd 1 "a" "g" 1 0 0 0 60 StartDefault [] in
  let ops := [OReserve 2 "g" false; ORelease 3 "a"; OReserve 4 "g" false; OBury "a"; OKick "a"; OReserve 5 "g" false] in
  ∃ s s1 e it0 s2 out it, history 0 [] s ∧ step s o = Some (s1, RItem 0%nat, e) ∧ objs s1 !! 0%nat = Some it0 ∧
    run s1 ops = Some (s2, out) ∧ objs s2 !! 0%nat = Some it ∧ nreserves it = 3%N ∧
    always clears_safely (q_new 0) ([] ++ o :: ops).
Proof.
  intros o ops. destruct (stepped_step (q_new 0) o (λ s1 r, bool_decide (r = RItem 0%nat) && bool_decide (is_Some (objs s1 !! 0%nat)) &&
    after s1 ops (λ s2, match objs s2 !! 0%nat with Some it => (nreserves it =? 3)%N | None => false end))) as (s1 & r & e & Hs & Hr); [by vm_compute|].
  apply andb_true_iff in Hr as [Hr Ha]. booltac Hr. subst. apply after_run in Ha as (s2 & out & Hr & Hd).
  match goal with H : is_Some _ |- _ => destruct H as [it0 Hi0] end.
  destruct (objs s2 !! 0%nat) as [it|] eqn:Hx; [|done]. apply N.eqb_eq in Hd.
  exists (q_new 0), s1, e, it0, s2, out, it. tidy.
Qed.
(** A Release with no delay is counted as a timeout. *)
Theorem C14_refuted : ∃ t ops s k s' e x it it',
  history t ops s ∧ Forall never_updates ops ∧ named s k x it ∧
  step s (ORelease 9 k) = Some (s', ROk, e) ∧ named s' k x it' ∧
  nreleases it' = nreleases it ∧ ntimeouts it' = (ntimeouts it + 1)%N.
Proof.
  set (ops := [OAdd 1 "a" "g" 1 0 0 0 60 StartDefault []; OReserve 2 "g" false]).
  destruct (after_hist 0 ops (λ s, stepped s (ORelease 9 "a") (λ s' r, bool_decide (r = ROk) &&
    bool_decide (items s !! "a" = Some 0%nat) && bool_decide (items s' !! "a" = Some 0%nat) &&
    match objs s !! 0%nat, objs s' !! 0%nat with
    | Some it, Some it' => (nreleases it' =? nreleases it)%N && (ntimeouts it' =? ntimeouts it + 1)%N
    | _, _ => false end))) as (s & Hh & Hs); [by vm_compute|]. apply stepped_step in Hs as (s' & r & e & Hs & Hr).
  apply andb_true_iff in Hr as [Hr Ho]. booltac Hr. subst.
  destruct (objs s !! 0%nat) as [it|] eqn:Hx; [|done]. destruct (objs s' !! 0%nat) as [it'|] eqn:Hx'; [|done].
  apply andb_true_iff in Ho as [E1 E2]. apply N.eqb_eq in E1, E2.
  exists 0, ops, s, "a", s', e, 0%nat, it, it'. tidy.
Qed.

(** * C15 *)
(** Full claim: without [always clears_safely]; after Destroy the claim is false
    because Destroy empties the sub-queues without notifying (C15_refuted). *)
Theorem C15_partial : ∀ t ops s out,
  run (q_new t) ops = Some (s, out) → always clears_safely (q_new t) ops → closed s = false →
  ∀ q, q ≠ SRemoved → heard (name_of q) (concat (snd <$> out)) = Z.of_nat (length (holding s q)).
Proof. exact heard_all. Qed.
Print Assumptions C15_partial.
Example C15_case : ∃ s out, run (q_new 0) demo = Some (s, out) ∧ always clears_safely (q_new 0) demo ∧
  closed s = false ∧ length (holding s SReady) = 2%nat.
Proof.
  destruct (after_run (q_new 0) demo (λ s, negb (closed s) && bool_decide (length (holding s SReady) = 2%nat))) as (s & out & Hr & Hs); [by vm_compute|].
  apply andb_true_iff in Hs as [Hc Hs]. apply bool_decide_eq_true in Hs. apply negb_true_iff in Hc.
  exists s, out. tidy.
Qed.
Theorem C15_refuted : ∃ t ops s out q,
  run (q_new t) ops = Some (s, out) ∧ Forall never_updates ops ∧ q ≠ SRemoved ∧
  heard (name_of q) (concat (snd <$> out)) ≠ Z.of_nat (length (holding s q)).
Proof.
  set (ops := [OAdd 1 "a" "g" 1 0 0 0 60 StartDefault []; ODestroy]).
  assert (match run (q_new 0) ops with Some (s, out) => bool_decide (heard QReady (concat (snd <$> out)) = 1) &&
     bool_decide (length (holding s SReady) = 0%nat) | None => false end = true) as H by (by vm_compute).
  destruct (run (q_new 0) ops) as [[s out]|] eqn:Hr; [|done]. booltac H.
  exists 0, ops, s, out, SReady. tidy. simpl name_of. rewrite H. rewrite H0. done.
Qed.

(** * C17 *)
Theorem C17_push : ∀ less q x, weak_order less → indexed q → ordered less (arr q) → x ∉ arr q →
  ∃ q', heap_push less q x = Some q' ∧ indexed q' ∧ ordered less (arr q') ∧ arr q' ≡ₚ x :: arr q.
Proof. exact heap_push_spec. Qed.
Print Assumptions C17_push.
Theorem C17_remove : ∀ less q x, weak_order less → indexed q → ordered less (arr q) → x ∈ arr q →
  ∃ q', heap_remove less q (idx_of q x) = Some (x, q') ∧ indexed q' ∧ ordered less (arr q') ∧ arr q ≡ₚ x :: arr q'.
Proof. exact heap_remove_spec. Qed.
Print Assumptions C17_remove.
Theorem C17_pop : ∀ less q, weak_order less → indexed q → ordered less (arr q) → arr q ≠ [] →
  ∃ x q', heap_pop less q = Some (x, q') ∧ indexed q' ∧ ordered less (arr q') ∧ arr q ≡ₚ x :: arr q' ∧
    ∀ y, y ∈ arr q → less y x = false.
Proof. exact heap_pop_spec. Qed.
Print Assumptions C17_pop.
(** [less'] is the order after the key of [x] changed. *)
Theorem C17_fix : ∀ less less' q x,
  weak_order less → weak_order less' → indexed q → ordered less (arr q) → x ∈ arr q →
  (∀ a b, a ≠ x → b ≠ x → less' a b = less a b) →
  ∃ q', heap_fix less' q (idx_of q x) = Some q' ∧ indexed q' ∧ ordered less' (arr q') ∧ arr q' ≡ₚ arr q.
Proof. exact heap_fix_spec. Qed.
Print Assumptions C17_fix.
(** A four element heap by number, 4 being made smallest. *)
Example C17_case :
  let less a b := (a <? b)%nat in
  let rank x := if (x =? 4)%nat then 0%nat else S x in
  let less' a b := (rank a <? rank b)%nat in
  let q := ArrQ [1; 3; 2; 4]%nat (list_to_map [(1%nat, 0); (3%nat, 1); (2%nat, 2); (4%nat, 3)]) in
  weak_order less ∧ weak_order less' ∧ indexed q ∧ ordered less (arr q) ∧ 4%nat ∈ arr q ∧
  (∀ a b, a ≠ 4%nat → b ≠ 4%nat → less' a b = less a b) ∧
  arr <$> heap_fix less' q (idx_of q 4%nat) = Some [4; 1; 2; 3]%nat ∧
  (λ p, arr (snd p)) <$> heap_pop less q = Some [2; 3; 4]%nat.
Proof.
  intros less rank less' q. split_and!.
  - split; unfold less; intros *; rewrite ?Nat.ltb_lt, ?Nat.ltb_ge; lia.
  - split; unfold less'; intros *; rewrite ?Nat.ltb_lt, ?Nat.ltb_ge; lia.
  - split; [by apply (bool_decide_unpack _); vm_compute|].
    intros [|[|[|[|i]]]] x H; simpl in H; simplify_eq; by vm_compute.
  - intros i j x y Hj Hi Hy. apply Nat.ltb_ge. unfold q in *; simpl in *.
    destruct i as [|[|[|[|i]]]]; destruct Hj as [-> | ->]; simpl in *; simplify_eq; lia.
  - by apply (bool_decide_unpack _); vm_compute.
  - intros a b Ha Hb. unfold less', less, rank. apply Nat.eqb_neq in Ha, Hb. by rewrite Ha, Hb.
  - by vm_compute.
  - by vm_compute.
Qed.

(** * C50 *)
(** Full claim: the conclusion for every history. It is false (next theorem);
    it holds when Update never makes the delay or TTR of a delayed or running
    item end sooner (and [clears_safely], see C01). *)
Theorem C50_partial : ∀ t ops s k x it T,
  history t ops s → always timed_safely (q_new t) ops →
  named s k x it → due_at it = Some T → wakes_at s (ist it) ≤ T.
Proof. exact timers_ok. Qed.
Print Assumptions C50_partial.
Definition c50_hist : list op :=
  [ OAdd 1 "a" "g" 1 0 0 5000 60 StartDefault [];
    OAddMany 2 [ItemDef "b" "g" 2 0 300 60 StartDefault []; ItemDef "c" "g" 3 0 200 60 StartDefault [];
                ItemDef "d" "g" 4 0 0 90 StartRun []; ItemDef "e" "g" 5 0 0 70 StartRun []];
    OUpdate 3 "c" "g" 3 0 400 60 None;
    OSetDelay 4 "b" 100;
    OTickTTR 80 (λ _, ToDelay);
    ORelease 81 "d"; OReserve 82 "g" false; OTouch 83 "d" ].
Definition c50_test (s : qstate) : bool :=
  bool_decide (items s !! "c" = Some 2%nat) && bool_decide (items s !! "d" = Some 3%nat) &&
  match objs s !! 2%nat, objs s !! 3%nat with
  | Some c, Some d => bool_decide (due_at c = Some 403) && bool_decide (due_at d = Some 173) &&
                      (wakes_at s (ist c) =? 80)%Z && (wakes_at s (ist d) =? 92)%Z
  | _, _ => false
  end.
Example C50_case : ∃ s c d, history 0 c50_hist s ∧ always timed_safely (q_new 0) c50_hist ∧
  named s "c" 2 c ∧ due_at c = Some 403 ∧ wakes_at s (ist c) = 80 ∧
  named s "d" 3 d ∧ due_at d = Some 173 ∧ wakes_at s (ist d) = 92.
Proof.
  destruct (after_hist 0 c50_hist c50_test) as (s & Hh & Hs); [by vm_compute|]. unfold c50_test in Hs.
  apply andb_true_iff in Hs as [Hs Ho]. booltac Hs. destruct (objs s !! 2%nat) as [c|] eqn:Hc; [|done].
  destruct (objs s !! 3%nat) as [d|] eqn:Hd; [|done]. repeat (apply andb_true_iff in Ho as [Ho ?]).
  repeat match goal with H : bool_decide _ = true |- _ => apply bool_decide_eq_true in H | H : (_ =? _)%Z = true |- _ => apply Z.eqb_eq in H end.
  exists s, c, d. tidy.
Qed.
(** An item due at 1001 is given a delay of 10 at time 2 and so is due at 12,
    but the goroutine still sleeps until 1001; the same with a running item. *)
Theorem C50_refuted : ∃ t ops s k x it T,
  history t ops s ∧ Forall never_clears ops ∧ named s k x it ∧ due_at it = Some T ∧ T + 900 < wakes_at s (ist it).
Proof.
  set (ops := [OAdd 1 "a" "g" 1 0 0 1000 60 StartDefault []; OUpdate 2 "a" "g" 1 0 10 60 None]).
  destruct (after_hist 0 ops (λ s, bool_decide (items s !! "a" = Some 0%nat) &&
    match objs s !! 0%nat with Some it => bool_decide (due_at it = Some 12) && (wakes_at s (ist it) =? 1001)%Z | None => false end))
    as (s & Hh & Hs); [by vm_compute|]. apply andb_true_iff in Hs as [Hs Ho]. booltac Hs.
  destruct (objs s !! 0%nat) as [it|] eqn:Hx; [|done]. apply andb_true_iff in Ho as [Ho Hw].
  apply bool_decide_eq_true in Ho. apply Z.eqb_eq in Hw.
  exists 0, ops, s, "a", 0%nat, it, 12. tidy. lia.
Qed.
Theorem C50_run_refuted : ∃ t ops s k x it T,
  history t ops s ∧ Forall never_clears ops ∧ named s k x it ∧ ist it = SRun ∧ due_at it = Some T ∧ T + 900 < wakes_at s (ist it).
Proof.
  set (ops := [OAdd 1 "a" "g" 1 0 0 0 1000 StartRun []; OUpdate 2 "a" "g" 1 0 0 10 None]).
  destruct (after_hist 0 ops (λ s, bool_decide (items s !! "a" = Some 0%nat) &&
    match objs s !! 0%nat with Some it => bool_decide (ist it = SRun) && bool_decide (due_at it = Some 12) && (wakes_at s (ist it) =? 1001)%Z | None => false end))
    as (s & Hh & Hs); [by vm_compute|]. apply andb_true_iff in Hs as [Hs Ho]. booltac Hs.
  destruct (objs s !! 0%nat) as [it|] eqn:Hx; [|done]. apply andb_true_iff in Ho as [Ho Hw]. booltac Ho.
  apply Z.eqb_eq in Hw.
  exists 0, ops, s, "a", 0%nat, it, 12. tidy. lia.
Qed.
