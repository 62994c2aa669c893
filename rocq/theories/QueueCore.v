(** Structural lemmas about the queue model: which sub-queue holds which item,
    and what each push/remove/update primitive does to that. *)
From Coq Require Import ZArith Lia String.
From stdpp Require Import base option strings gmap list.
From RecordUpdate Require Import RecordSet.
From Verif Require Import GoHeap GoHeapProofs QueueModel.
Import RecordSetNotations.
Open Scope Z_scope.

Inductive loc := LDelay | LReady (g : string) | LRun | LBury | LDep.
Global Instance loc_eq_dec : EqDecision loc.
Proof. solve_decision. Defined.
Definition is_lready (l : loc) : Prop := match l with LReady _ => True | _ => False end.
Global Instance is_lready_dec l : Decision (is_lready l).
Proof. destruct l; apply _. Defined.

Definition cont (s : qstate) (l : loc) : arrq :=
  match l with
  | LDelay => delayQ s
  | LReady g => rget (readyQ s) g
  | LRun => runQ s
  | LBury => buryQ s
  | LDep => depQ s
  end.

Definition loc_of (it : item) : option loc :=
  match ist it with
  | SDelay => Some LDelay
  | SReady => Some (LReady (igroup it))
  | SRun => Some LRun
  | SBury => Some LBury
  | SDep => Some LDep
  | SRemoved => None
  end.
Definition locs (o : gmap nat item) : gmap nat loc := omap loc_of o.

Global Instance less_delay_sw o : StrictWeak (less_delay o).
Proof. split; unfold less_delay; intros *; rewrite ?Z.ltb_lt, ?Z.ltb_ge; lia. Qed.
Global Instance less_run_sw o : StrictWeak (less_run o).
Proof. split; unfold less_run; intros *; rewrite ?Z.ltb_lt, ?Z.ltb_ge; lia. Qed.
Global Instance less_ready_sw o : StrictWeak (less_ready o).
Proof.
  split; unfold less_ready; intros *; generalize (obj o a), (obj o b); try generalize (obj o c);
    intros; unfold item_before in *;
    repeat match goal with
    | H : context [(?a =? ?b)%N] |- _ => destruct (N.eqb_spec a b)
    | |- context [(?a =? ?b)%N] => destruct (N.eqb_spec a b)
    end; rewrite ?N.ltb_lt, ?N.ltb_ge, ?Z.ltb_lt, ?Z.ltb_ge in *; lia.
Qed.

Definition lessl (o : gmap nat item) (l : loc) : nat → nat → bool :=
  match l with
  | LDelay => less_delay o
  | LReady _ => less_ready o
  | LRun => less_run o
  | _ => λ _ _, false
  end.
Global Instance lessl_sw o l : StrictWeak (lessl o l).
Proof. destruct l; try apply _; split; done. Qed.

Record core (b : bool) (s : qstate) (lm : gmap nat loc) : Prop := Core {
  c_wf l : wf (cont s l);
  c_in l x : x ∈ arr (cont s l) ↔ lm !! x = Some l;
  c_ord l : (is_lready l → b = true) → heap (lessl (objs s) l) (arr (cont s l));
}.
Arguments c_wf {_ _ _} _ _.
Arguments c_in {_ _ _} _ _ _.
Arguments c_ord {_ _ _} _ _ _.

(** [s'] differs from [s] only in sub-queue [l] (other groups' index entries may
    be rewritten) *)
Lemma core_upd b s s' lm lm' l :
  core b s lm → objs s' = objs s →
  wf (cont s' l) →
  (∀ l', l' ≠ l → arr (cont s' l') = arr (cont s l') ∧ wf (cont s' l')) →
  (∀ x, x ∈ arr (cont s' l) ↔ lm' !! x = Some l) →
  (∀ x l', l' ≠ l → lm' !! x = Some l' ↔ lm !! x = Some l') →
  ((is_lready l → b = true) → heap (lessl (objs s) l) (arr (cont s' l))) →
  core b s' lm'.
Proof.
  intros [Hw Hi Ho] Hobj Hwl Hoth Hin Hlm Hord. split.
  - intros l'. destruct (decide (l' = l)) as [->|Hne]; [done|]. by apply Hoth.
  - intros l' x. destruct (decide (l' = l)) as [->|Hne]; [done|].
    destruct (Hoth l' Hne) as [-> _]. rewrite Hi. symmetry. by apply Hlm.
  - intros l' Hb. rewrite Hobj. destruct (decide (l' = l)) as [->|Hne]; [by apply Hord|].
    destruct (Hoth l' Hne) as [-> _]. by apply Ho.
Qed.

Lemma core_lm b s lm lm' : (∀ x, lm !! x = lm' !! x) → core b s lm → core b s lm'.
Proof. intros He. replace lm' with lm by (by apply map_eq). done. Qed.

Lemma core_weaken b s lm : core b s lm → core false s lm.
Proof. intros [Hw Hi Ho]. split; [done..|]. intros l Hl. apply Ho. intros Hr. by specialize (Hl Hr). Qed.

Definition samekey (l : loc) (a b : item) : Prop :=
  match l with
  | LDelay => readyAt a = readyAt b
  | LReady _ => iprio a = iprio b ∧ isize a = isize b ∧ creation a = creation b
  | LRun => releaseAt a = releaseAt b
  | _ => True
  end.
Lemma samekey_refl l a : samekey l a a.
Proof. by destruct l. Qed.

Lemma lessl_samekey o o' l x y :
  samekey l (obj o x) (obj o' x) → samekey l (obj o y) (obj o' y) →
  lessl o l x y = lessl o' l x y.
Proof.
  destruct l; simpl; unfold less_delay, less_ready, less_run, item_before; try done.
  - by intros -> ->.
  - by intros (-> & -> & ->) (-> & -> & ->).
  - by intros -> ->.
Qed.

Lemma obj_alter_ne o f x y : y ≠ x → obj (alter f x o) y = obj o y.
Proof. intros. unfold obj. by rewrite lookup_alter_ne. Qed.
Lemma obj_alter o f x it : o !! x = Some it → obj (alter f x o) x = f it.
Proof. intros H. unfold obj. by rewrite lookup_alter, H. Qed.
Lemma obj_Some o x it : o !! x = Some it → obj o x = it.
Proof. intros H. unfold obj. by rewrite H. Qed.

(** Changing item fields that no containing sub-queue sorts by *)
Lemma core_objs b s o' lm :
  core b s lm →
  (∀ x l, lm !! x = Some l → samekey l (obj (objs s) x) (obj o' x)) →
  core b (s <| objs := o' |>) lm.
Proof.
  intros [Hw Hi Ho] Hk. split; [done..|]. intros l Hl. simpl.
  eapply heap_ext; [|by apply Ho]. intros x y Hx Hy.
  apply lessl_samekey; apply Hk; apply Hi; done.
Qed.
Lemma core_mod b s f x lm :
  core b s lm →
  (∀ it l, objs s !! x = Some it → lm !! x = Some l → samekey l it (f it)) →
  core b (mod_obj f x s) lm.
Proof.
  intros Hc Hf. unfold mod_obj, set; simpl.
  refine (core_objs b s (alter f x (objs s)) lm Hc _).
  intros y l Hl. destruct (decide (y = x)) as [->|Hne].
  - unfold obj. rewrite lookup_alter. destruct (objs s !! x) as [it|] eqn:Hx; simpl.
    + by apply Hf.
    + apply samekey_refl.
  - rewrite obj_alter_ne by done. apply samekey_refl.
Qed.
Lemma core_mod_out b s f x lm : core b s lm → lm !! x = None → core b (mod_obj f x s) lm.
Proof. intros Hc Hn. apply core_mod; [done|]. intros it l _. by rewrite Hn. Qed.

(** ** push *)
Lemma ins_other (lm : gmap nat loc) x y l l' :
  l' ≠ l → lm !! x = None → <[x:=l]> lm !! y = Some l' ↔ lm !! y = Some l'.
Proof.
  intros Hne Hn. rewrite lookup_insert_Some. destruct (decide (x = y)) as [->|]; [|naive_solver].
  rewrite Hn. naive_solver.
Qed.
Lemma del_other (lm : gmap nat loc) x y l l' :
  l' ≠ l → lm !! x = Some l → delete x lm !! y = Some l' ↔ lm !! y = Some l'.
Proof.
  intros Hne Hn. rewrite lookup_delete_Some. destruct (decide (x = y)) as [->|]; [|naive_solver].
  rewrite Hn. naive_solver.
Qed.
Lemma ins_same (lm : gmap nat loc) x y l (a a' : list nat) :
  (∀ z, z ∈ a ↔ lm !! z = Some l) → a' ≡ₚ x :: a → y ∈ a' ↔ <[x:=l]> lm !! y = Some l.
Proof.
  intros Ha Hp. rewrite Hp, elem_of_cons, lookup_insert_Some, Ha.
  destruct (decide (x = y)); naive_solver.
Qed.
Lemma del_same (lm : gmap nat loc) x y l (a a' : list nat) :
  (∀ z, z ∈ a ↔ lm !! z = Some l) → NoDup a → a ≡ₚ x :: a' → y ∈ a' ↔ delete x lm !! y = Some l.
Proof.
  intros Ha Hnd Hp. rewrite Hp in Hnd. apply NoDup_cons in Hnd as [Hx Hnd].
  rewrite lookup_delete_Some, <- Ha, Hp, elem_of_cons. naive_solver.
Qed.
Lemma core_notin b s lm l x : core b s lm → lm !! x = None → x ∉ arr (cont s l).
Proof. intros Hc Hn Hin%(c_in Hc). congruence. Qed.
Lemma core_notin' b s lm l x : core b s lm → lm !! x ≠ Some l → x ∉ arr (cont s l).
Proof. intros Hc Hn Hin%(c_in Hc). congruence. Qed.

Lemma delay_push_core b s lm x :
  core b s lm → lm !! x = None →
  ∃ q, delay_push x s = Some (s <| delayQ := q |>) ∧
       core b (s <| delayQ := q |>) (<[x := LDelay]> lm).
Proof.
  intros Hc Hn. pose proof (core_notin _ _ _ LDelay x Hc Hn) as Hx.
  destruct (heap_push_struct (less_delay (objs s)) (delayQ s) x (c_wf Hc LDelay) Hx)
    as (q & Hq & Hwf & Hp).
  exists q. split; [by unfold delay_push; rewrite Hq|].
  apply (core_upd b s _ lm _ LDelay); simpl; try done.
  - intros l' Hl. pose proof (c_wf Hc l') as Hw'. by destruct l'.
  - intros y. eapply ins_same; [|done]. intros z. apply (c_in Hc LDelay).
  - intros. by eapply ins_other.
  - intros _. eapply heap_push_order; [apply _|apply (c_wf Hc LDelay)|done| |done].
    by apply (c_ord Hc LDelay).
Qed.
Lemma run_push_core b s lm x :
  core b s lm → lm !! x = None →
  ∃ q, run_push x s = Some (s <| runQ := q |>) ∧
       core b (s <| runQ := q |>) (<[x := LRun]> lm).
Proof.
  intros Hc Hn. pose proof (core_notin _ _ _ LRun x Hc Hn) as Hx.
  destruct (heap_push_struct (less_run (objs s)) (runQ s) x (c_wf Hc LRun) Hx)
    as (q & Hq & Hwf & Hp).
  exists q. split; [by unfold run_push; rewrite Hq|].
  apply (core_upd b s _ lm _ LRun); simpl; try done.
  - intros l' Hl. pose proof (c_wf Hc l') as Hw'. by destruct l'.
  - intros y. eapply ins_same; [|done]. intros z. apply (c_in Hc LRun).
  - intros. by eapply ins_other.
  - intros _. eapply heap_push_order; [apply _|apply (c_wf Hc LRun)|done| |done].
    by apply (c_ord Hc LRun).
Qed.
Lemma heap_trivial l : heap (λ _ _, false) l.
Proof. intros c _ _ x y _ _. done. Qed.
Lemma bury_push_core b s lm x :
  core b s lm → lm !! x = None → core b (bury_push x s) (<[x := LBury]> lm).
Proof.
  intros Hc Hn. pose proof (core_notin _ _ _ LBury x Hc Hn) as Hx.
  apply (core_upd b s _ lm _ LBury); simpl; try done.
  - apply raw_push_wf; [apply (c_wf Hc LBury)|done].
  - intros l' Hl. pose proof (c_wf Hc l') as Hw'. by destruct l'.
  - intros y. eapply ins_same; [intros z; apply (c_in Hc LBury)|]. simpl.
    by rewrite Permutation_app_comm.
  - intros. by eapply ins_other.
Qed.
Lemma dep_push_core b s lm x :
  core b s lm → lm !! x = None → core b (dep_push x s) (<[x := LDep]> lm).
Proof.
  intros Hc Hn. pose proof (core_notin _ _ _ LDep x Hc Hn) as Hx.
  apply (core_upd b s _ lm _ LDep); simpl; try done.
  - apply raw_push_wf; [apply (c_wf Hc LDep)|done].
  - intros l' Hl. pose proof (c_wf Hc l') as Hw'. by destruct l'.
  - intros y. eapply ins_same; [intros z; apply (c_in Hc LDep)|]. simpl.
    by rewrite Permutation_app_comm.
  - intros. by eapply ins_other.
Qed.

(** ** remove *)
Lemma delay_remove_core b s lm x :
  core b s lm → lm !! x = Some LDelay →
  ∃ q, delay_remove x s = Some (s <| delayQ := q |>) ∧
       core b (s <| delayQ := q |>) (delete x lm).
Proof.
  intros Hc Hn. pose proof (proj2 (c_in Hc LDelay x) Hn) as Hx.
  destruct (heap_remove_struct (less_delay (objs s)) (delayQ s) x (c_wf Hc LDelay) Hx)
    as (q & Hq & Hwf & Hp).
  exists q. split; [by unfold delay_remove; rewrite Hq|].
  apply (core_upd b s _ lm _ LDelay); simpl; try done.
  - intros l' Hl. pose proof (c_wf Hc l') as Hw'. by destruct l'.
  - intros y. eapply del_same; [|apply (c_wf Hc LDelay)|done]. intros z. apply (c_in Hc LDelay).
  - intros. by eapply del_other.
  - intros _. eapply heap_remove_order; [apply _|apply (c_wf Hc LDelay)|done| |done].
    by apply (c_ord Hc LDelay).
Qed.
Lemma run_remove_core b s lm x :
  core b s lm → lm !! x = Some LRun →
  ∃ q, run_remove x s = Some (s <| runQ := q |>) ∧
       core b (s <| runQ := q |>) (delete x lm).
Proof.
  intros Hc Hn. pose proof (proj2 (c_in Hc LRun x) Hn) as Hx.
  destruct (heap_remove_struct (less_run (objs s)) (runQ s) x (c_wf Hc LRun) Hx)
    as (q & Hq & Hwf & Hp).
  exists q. split; [by unfold run_remove; rewrite Hq|].
  apply (core_upd b s _ lm _ LRun); simpl; try done.
  - intros l' Hl. pose proof (c_wf Hc l') as Hw'. by destruct l'.
  - intros y. eapply del_same; [|apply (c_wf Hc LRun)|done]. intros z. apply (c_in Hc LRun).
  - intros. by eapply del_other.
  - intros _. eapply heap_remove_order; [apply _|apply (c_wf Hc LRun)|done| |done].
    by apply (c_ord Hc LRun).
Qed.
Lemma bury_remove_core b s lm x :
  core b s lm → lm !! x = Some LBury →
  ∃ q, bury_remove x s = Some (s <| buryQ := q |>) ∧
       core b (s <| buryQ := q |>) (delete x lm).
Proof.
  intros Hc Hn. pose proof (proj2 (c_in Hc LBury x) Hn) as Hx.
  destruct (slice_remove_struct (buryQ s) x (c_wf Hc LBury) Hx) as (q & Hq & Hwf & Hp).
  exists q. split; [by unfold bury_remove; rewrite Hq|].
  apply (core_upd b s _ lm _ LBury); simpl; try done.
  - intros l' Hl. pose proof (c_wf Hc l') as Hw'. by destruct l'.
  - intros y. eapply del_same; [|apply (c_wf Hc LBury)|done]. intros z. apply (c_in Hc LBury).
  - intros. by eapply del_other.
Qed.
Lemma dep_remove_core b s lm x :
  core b s lm → lm !! x = Some LDep →
  ∃ q, dep_remove x s = Some (s <| depQ := q |>) ∧
       core b (s <| depQ := q |>) (delete x lm).
Proof.
  intros Hc Hn. pose proof (proj2 (c_in Hc LDep x) Hn) as Hx.
  destruct (slice_remove_struct (depQ s) x (c_wf Hc LDep) Hx) as (q & Hq & Hwf & Hp).
  exists q. split; [by unfold dep_remove; rewrite Hq|].
  apply (core_upd b s _ lm _ LDep); simpl; try done.
  - intros l' Hl. pose proof (c_wf Hc l') as Hw'. by destruct l'.
  - intros y. eapply del_same; [|apply (c_wf Hc LDep)|done]. intros z. apply (c_in Hc LDep).
  - intros. by eapply del_other.
Qed.

(** ** the ready sub-queue *)
Lemma rget_rput_same r g q : rget (rput r g q) g = q.
Proof. unfold rget, rput; simpl. rewrite lookup_insert. by destruct q. Qed.
Lemma rget_rput_ne r g g' q : g' ≠ g → arr (rget (rput r g q) g') = arr (rget r g').
Proof. intros. unfold rget, rput; simpl. by rewrite lookup_insert_ne. Qed.
Lemma aix_rget_rput r g g' q : aix (rget (rput r g q) g') = aix q.
Proof. done. Qed.
Lemma core_set_rlast b s lm g : core b s lm → core b (set_rlast g s) lm.
Proof.
  intros Hc. split.
  - intros l. pose proof (c_wf Hc l). by destruct l.
  - intros l x. rewrite <- (c_in Hc l x). by destruct l.
  - intros l Hl. pose proof (c_ord Hc l Hl). by destruct l.
Qed.

(** replacing group [g]'s slice by a heap operation's result *)
Lemma core_rput b s lm lm' g q' :
  core b s lm →
  wf q' →
  (∀ y g', g' ≠ g → lm !! y = Some (LReady g') → aix q' !! y = rix (readyQ s) !! y) →
  (∀ y, y ∈ arr q' ↔ lm' !! y = Some (LReady g)) →
  (∀ y l', l' ≠ LReady g → lm' !! y = Some l' ↔ lm !! y = Some l') →
  (b = true → heap (less_ready (objs s)) (arr q')) →
  core b (s <| readyQ := rput (readyQ s) g q' |>) lm'.
Proof.
  intros Hc Hwf Hfr Hin Hlm Ho.
  apply (core_upd b s _ lm _ (LReady g)); try done; unfold cont; simpl.
  - by rewrite rget_rput_same.
  - intros l' Hl. pose proof (c_wf Hc l') as Hw'. destruct l' as [|g'| | |]; try done.
    assert (g' ≠ g) by congruence. split; [by apply rget_rput_ne|].
    destruct (c_wf Hc (LReady g')) as [Hnd Hix]. simpl in *. split.
    + by rewrite rget_rput_ne.
    + intros i x. rewrite rget_rput_ne, aix_rget_rput by done. intros Hi.
      rewrite (Hfr x g'); [by apply (Hix i x)|done|]. apply (c_in Hc (LReady g')).
      by eapply elem_of_list_lookup_2.
  - intros y. rewrite lookup_insert. apply Hin.
  - rewrite lookup_insert. auto.
Qed.

Lemma rheap_push_core b s lm x g :
  core b s lm → lm !! x = None → rlast (readyQ s) = g →
  ∃ r, rheap_push x s = Some (s <| readyQ := r |>) ∧ rlast r = g ∧
       core b (s <| readyQ := r |>) (<[x := LReady g]> lm).
Proof.
  intros Hc Hn Hg. pose proof (core_notin _ _ _ (LReady g) x Hc Hn) as Hx.
  destruct (heap_push_struct (less_ready (objs s)) (rget (readyQ s) g) x
              (c_wf Hc (LReady g)) Hx) as (q & Hq & Hwf & Hp).
  exists (rput (readyQ s) g q). split; [by unfold rheap_push; rewrite Hg, Hq|]. split; [done|].
  eapply core_rput; try done.
  - intros y g' Hne Hy. rewrite (heap_push_frame _ _ _ _ y Hq); [done| |].
    + apply (core_notin' _ _ _ (LReady g) y Hc). congruence.
    + congruence.
  - intros y. eapply ins_same; [|done]. intros z. apply (c_in Hc (LReady g)).
  - intros. by eapply ins_other.
  - intros Hb. eapply heap_push_order; [apply _|apply (c_wf Hc (LReady g))|done| |done].
    by apply (c_ord Hc (LReady g)).
Qed.
Lemma rheap_remove_core b s lm x g :
  core b s lm → lm !! x = Some (LReady g) → rlast (readyQ s) = g →
  ∃ r, rheap_remove x s = Some (s <| readyQ := r |>) ∧ rlast r = g ∧
       core b (s <| readyQ := r |>) (delete x lm).
Proof.
  intros Hc Hn Hg. pose proof (proj2 (c_in Hc (LReady g) x) Hn) as Hx.
  destruct (heap_remove_struct (less_ready (objs s)) (rget (readyQ s) g) x
              (c_wf Hc (LReady g)) Hx) as (q & Hq & Hwf & Hp).
  exists (rput (readyQ s) g q). split.
  { unfold rheap_remove. rewrite Hg, Hq. simpl in Hx.
    destruct (rgroups (readyQ s) !! g); [done|]. by apply elem_of_nil in Hx. }
  split; [done|].
  eapply core_rput; try done.
  - intros y g' Hne Hy. rewrite (heap_remove_frame _ _ _ _ _ y Hq); [done|].
    apply (core_notin' _ _ _ (LReady g) y Hc). congruence.
  - intros y. eapply del_same; [|apply (c_wf Hc (LReady g))|done].
    intros z. apply (c_in Hc (LReady g)).
  - intros. by eapply del_other.
  - intros Hb. eapply heap_remove_order; [apply _|apply (c_wf Hc (LReady g))|done| |done].
    by apply (c_ord Hc (LReady g)).
Qed.
(** the same when the item's fields have just been changed *)
Lemma rheap_remove_mod_core b s lm x g f :
  core b s lm → lm !! x = Some (LReady g) → rlast (readyQ s) = g →
  ∃ r, rheap_remove x (mod_obj f x s) = Some (mod_obj f x s <| readyQ := r |>) ∧ rlast r = g ∧
       core b (mod_obj f x s <| readyQ := r |>) (delete x lm).
Proof.
  intros Hc Hn Hg. pose proof (proj2 (c_in Hc (LReady g) x) Hn) as Hx.
  set (s1 := mod_obj f x s).
  destruct (heap_remove_struct (less_ready (objs s1)) (rget (readyQ s) g) x
              (c_wf Hc (LReady g)) Hx) as (q & Hq & Hwf & Hp).
  exists (rput (readyQ s) g q). split.
  { unfold rheap_remove. change (readyQ s1) with (readyQ s). rewrite Hg, Hq. simpl in Hx.
    destruct (rgroups (readyQ s) !! g); [done|]. by apply elem_of_nil in Hx. }
  split; [done|].
  assert (Hob : ∀ y, y ≠ x → obj (objs s1) y = obj (objs s) y) by (intros; by apply obj_alter_ne).
  assert (Hnx : delete x lm !! x = None) by apply lookup_delete.
  assert (Hc1 : core b (s <| readyQ := rput (readyQ s) g q |>) (delete x lm)).
  { eapply core_rput; try done.
    - intros y g' Hne Hy. rewrite (heap_remove_frame _ _ _ _ _ y Hq); [done|].
      apply (core_notin' _ _ _ (LReady g) y Hc). congruence.
    - intros y. eapply del_same; [|apply (c_wf Hc (LReady g))|done].
      intros z. apply (c_in Hc (LReady g)).
    - intros. by eapply del_other.
    - intros Hb. destruct (wf_idx _ _ (c_wf Hc (LReady g)) Hx) as (i & _ & Hi).
      assert (Hh : heap (less_ready (objs s1)) (arr q)).
      { eapply heap_remove_order_hole; [apply _|apply (c_wf Hc (LReady g))|exact Hi| |exact Hq].
        eapply (heap_hole_change (less_ready (objs s)) _ _ _ x); [exact Hi|apply (c_wf Hc (LReady g))| |].
        - intros a c _ _ Ha Hcx. unfold less_ready. by rewrite !Hob.
        - by apply (c_ord Hc (LReady g)). }
      eapply heap_ext; [|exact Hh]. intros a c Ha Hcx. unfold less_ready.
      destruct (c_wf Hc (LReady g)) as [Hnd _]. simpl in Hnd, Hp. simpl arr in Hp.
      assert (NoDup (x :: arr q)) as [Hni _]%NoDup_cons by (by rewrite <- Hp).
      by rewrite !Hob by (by intros ->). }
  eapply (core_mod_out _ _ f x _ Hc1 Hnx).
Qed.
Lemma ready_push_core b s lm x it :
  core b s lm → lm !! x = None → objs s !! x = Some it →
  ∃ r, ready_push x s = Some (s <| readyQ := r |>) ∧ rlast r = igroup it ∧
       core b (s <| readyQ := r |>) (<[x := LReady (igroup it)]> lm).
Proof.
  intros Hc Hn Ho. unfold ready_push. rewrite Ho. simpl.
  destruct (rheap_push_core b (set_rlast (igroup it) s) lm x (igroup it))
    as (r & Hr & Hl & Hc'); [by apply core_set_rlast|done|done|].
  exists r. by rewrite Hr.
Qed.
Lemma ready_remove_core b s lm x it :
  core b s lm → objs s !! x = Some it → lm !! x = Some (LReady (igroup it)) →
  ∃ r, ready_remove x s = Some (s <| readyQ := r |>) ∧ rlast r = igroup it ∧
       core b (s <| readyQ := r |>) (delete x lm).
Proof.
  intros Hc Ho Hn. unfold ready_remove. rewrite Ho. simpl.
  destruct (rheap_remove_core b (set_rlast (igroup it) s) lm x (igroup it))
    as (r & Hr & Hl & Hc'); [by apply core_set_rlast|done|done|].
  exists r. by rewrite Hr.
Qed.
Lemma ready_pop_core b s lm g :
  core b s lm →
  (∃ s', ready_pop g s = Some (None, s') ∧ (s' = s ∨ s' = set_rlast g s) ∧
         arr (cont s (LReady g)) = [] ∧ core b s' lm) ∨
  (∃ x r, ready_pop g s = Some (Some x, s <| readyQ := r |>) ∧ rlast r = g ∧
       lm !! x = Some (LReady g) ∧ arr (cont s (LReady g)) !! 0%nat = Some x ∧
       core b (s <| readyQ := r |>) (delete x lm)).
Proof.
  intros Hc. unfold ready_pop.
  destruct (rgroups (readyQ s) !! g) as [[|a l]|] eqn:Hg.
  - left. eexists. split; [done|]. split; [by right|]. simpl. rewrite Hg. split; [done|].
    by apply core_set_rlast.
  - right. apply (core_set_rlast _ _ _ g) in Hc.
    assert (Hne : arr (rget (readyQ (set_rlast g s)) g) ≠ []).
    { unfold rget. simpl. by rewrite Hg. }
    destruct (heap_pop_struct (less_ready (objs s)) (rget (readyQ (set_rlast g s)) g)
                (c_wf Hc (LReady g)) Hne) as (x & q & Hq & Hwf & Hp & H0).
    assert (Hlm : lm !! x = Some (LReady g)).
    { apply (c_in Hc (LReady g)). by eapply elem_of_list_lookup_2. }
    exists x, (rput (readyQ (set_rlast g s)) g q). split.
    { simpl in *. by rewrite Hq. }
    split_and!; [done|done|exact H0|].
    assert (Hc2 : core b (set_rlast g s <| readyQ := rput (readyQ (set_rlast g s)) g q |>) (delete x lm));
      [|done].
    eapply core_rput; try done.
    + intros y g' Hne' Hy. rewrite (heap_pop_frame _ _ _ _ y Hq); [done|].
      apply (core_notin' _ _ _ (LReady g) y Hc). congruence.
    + intros y. eapply del_same; [|apply (c_wf Hc (LReady g))|done].
      intros z. apply (c_in Hc (LReady g)).
    + intros. by eapply del_other.
    + intros Hb. eapply heap_pop_order; [apply _|apply (c_wf Hc (LReady g))| |done].
      by apply (c_ord Hc (LReady g)).
  - left. exists s. split; [done|]. split; [by left|]. simpl. rewrite Hg. done.
Qed.

(** ** in-place changes followed by heap.Fix *)
Lemma delay_update_core b s lm x f :
  core b s lm → lm !! x = Some LDelay →
  ∃ q, delay_update x (mod_obj f x s) = Some (mod_obj f x s <| delayQ := q |>) ∧
       core b (mod_obj f x s <| delayQ := q |>) lm.
Proof.
  intros Hc Hn. pose proof (proj2 (c_in Hc LDelay x) Hn) as Hx.
  destruct (wf_idx _ _ (c_wf Hc LDelay) Hx) as (i & Hi & Hl).
  assert (Hlt : (i < length (arr (delayQ s)))%nat) by (by eapply lookup_lt_Some).
  destruct (heap_fix_struct (less_delay (objs (mod_obj f x s))) (delayQ s) i (c_wf Hc LDelay) Hlt)
    as (q & Hq & Hwf & Hp).
  exists q. split.
  { unfold delay_update. change (delayQ (mod_obj f x s)) with (delayQ s).
    simpl in Hi. rewrite Hi, Hq. done. }
  split.
  - intros []; simpl; [done|apply (c_wf Hc (LReady g))|apply (c_wf Hc LRun)
      |apply (c_wf Hc LBury)|apply (c_wf Hc LDep)].
  - intros l y. rewrite <- (c_in Hc l y). destruct l; simpl; [by rewrite Hp|done..].
  - intros l Hb.
    assert (Hother : l ≠ LDelay → heap (lessl (objs (mod_obj f x s)) l) (arr (cont s l))).
    { intros Hne. eapply heap_ext; [|by apply (c_ord Hc l)]. intros y z Hy Hz.
      assert (y ≠ x) by (intros ->; apply (c_in Hc l) in Hy; congruence).
      assert (z ≠ x) by (intros ->; apply (c_in Hc l) in Hz; congruence).
      apply lessl_samekey; simpl; rewrite obj_alter_ne by done; apply samekey_refl. }
    destruct l; try (by apply Hother). simpl.
    eapply heap_fix_order; [apply _|apply (c_wf Hc LDelay)|done| |done].
    eapply (heap_hole_change (less_delay (objs s)));
      [apply _|apply _|done|apply (c_wf Hc LDelay)| |by apply (c_ord Hc LDelay)].
    intros y z _ _ Hy Hz. unfold less_delay. simpl. by rewrite !obj_alter_ne.
Qed.
Lemma run_update_core b s lm x f :
  core b s lm → lm !! x = Some LRun →
  ∃ q, run_update x (mod_obj f x s) = Some (mod_obj f x s <| runQ := q |>) ∧
       core b (mod_obj f x s <| runQ := q |>) lm.
Proof.
  intros Hc Hn. pose proof (proj2 (c_in Hc LRun x) Hn) as Hx.
  destruct (wf_idx _ _ (c_wf Hc LRun) Hx) as (i & Hi & Hl).
  assert (Hlt : (i < length (arr (runQ s)))%nat) by (by eapply lookup_lt_Some).
  destruct (heap_fix_struct (less_run (objs (mod_obj f x s))) (runQ s) i (c_wf Hc LRun) Hlt)
    as (q & Hq & Hwf & Hp).
  exists q. split.
  { unfold run_update. change (runQ (mod_obj f x s)) with (runQ s).
    simpl in Hi. rewrite Hi, Hq. done. }
  split.
  - intros []; simpl; [apply (c_wf Hc LDelay)|apply (c_wf Hc (LReady g))|done
      |apply (c_wf Hc LBury)|apply (c_wf Hc LDep)].
  - intros l y. rewrite <- (c_in Hc l y). destruct l; simpl; [done..|by rewrite Hp|done|done].
  - intros l Hb.
    assert (Hother : l ≠ LRun → heap (lessl (objs (mod_obj f x s)) l) (arr (cont s l))).
    { intros Hne. eapply heap_ext; [|by apply (c_ord Hc l)]. intros y z Hy Hz.
      assert (y ≠ x) by (intros ->; apply (c_in Hc l) in Hy; congruence).
      assert (z ≠ x) by (intros ->; apply (c_in Hc l) in Hz; congruence).
      apply lessl_samekey; simpl; rewrite obj_alter_ne by done; apply samekey_refl. }
    destruct l; try (by apply Hother). simpl.
    eapply heap_fix_order; [apply _|apply (c_wf Hc LRun)|done| |done].
    eapply (heap_hole_change (less_run (objs s)));
      [apply _|apply _|done|apply (c_wf Hc LRun)| |by apply (c_ord Hc LRun)].
    intros y z _ _ Hy Hz. unfold less_run. simpl. by rewrite !obj_alter_ne.
Qed.

(** In-place change of a ready item: with [b] (order kept), the last used group
    must be the item's; without, only that Fix did not panic. *)
Lemma rheap_fix_core b s lm x f g :
  core b s lm → lm !! x = Some (LReady g) →
  (b = true → rlast (readyQ s) = g) →
  ∀ s', rheap_fix x (mod_obj f x s) = Some s' →
  ∃ r, s' = mod_obj f x s <| readyQ := r |> ∧ core b s' lm.
Proof.
  intros Hc Hn Hg s' Hf.
  assert (Hm : core false (mod_obj f x s) lm).
  { apply core_weaken in Hc as Hc'. split; [apply (c_wf Hc')|apply (c_in Hc')|].
    intros l Hl. eapply heap_ext; [|by apply (c_ord Hc' l)]. intros y z Hy Hz.
    assert (l ≠ LReady g) by (intros ->; specialize (Hl I); done).
    assert (y ≠ x) by (intros ->; apply (c_in Hc l) in Hy; congruence).
    assert (z ≠ x) by (intros ->; apply (c_in Hc l) in Hz; congruence).
    apply lessl_samekey; simpl; rewrite obj_alter_ne by done; apply samekey_refl. }
  set (lst := rlast (readyQ s)) in *.
  unfold rheap_fix in Hf. change (readyQ (mod_obj f x s)) with (readyQ s) in Hf. fold lst in Hf.
  assert (Hgen : ∃ r, s' = mod_obj f x s <| readyQ := r |> ∧ core false s' lm).
  { destruct (rgroups (readyQ s) !! lst) eqn:Hgr.
    - destruct (heap_fix _ _ _) as [q|] eqn:Hq; [|done]. simpl in Hf. injection Hf as <-.
      eexists; split; [done|].
      pose proof (heap_fix_frame _ _ _ _ Hq) as [Hfr Hp].
      apply (heap_fix_cases _ _ _ _ (c_wf Hc (LReady lst))) in Hq as Hwf.
      change (readyQ s) with (readyQ (mod_obj f x s)).
      eapply core_rput; try done.
      + intros y g' Hne Hy. apply Hfr. apply (core_notin' _ _ _ (LReady lst) y Hc). congruence.
      + intros y. rewrite Hp. apply (c_in Hc (LReady lst)).
    - injection Hf as <-. exists (readyQ s). split; [|done]. by destruct s. }
  destruct Hgen as (r & -> & Hc'). exists r. split; [done|].
  destruct b; [|done]. specialize (Hg eq_refl).
  assert (Hx : x ∈ arr (rget (readyQ s) lst)).
  { rewrite Hg. by apply (c_in Hc (LReady g)). }
  split; [apply (c_wf Hc')|apply (c_in Hc')|].
  intros l _. destruct (decide (is_lready l)) as [Hl|Hl];
    [|by apply (c_ord Hc')].
  destruct l as [|g'| | |]; try done.
  assert (Hother : g' ≠ g → heap (less_ready (objs (mod_obj f x s))) (arr (cont s (LReady g')))).
  { intros Hne. eapply heap_ext; [|by apply (c_ord Hc (LReady g'))]. intros y z Hy Hz.
    assert (y ≠ x) by (intros ->; apply (c_in Hc (LReady g')) in Hy; congruence).
    assert (z ≠ x) by (intros ->; apply (c_in Hc (LReady g')) in Hz; congruence).
    apply (lessl_samekey _ _ (LReady g')); simpl; rewrite obj_alter_ne by done; done. }
  destruct (rgroups (readyQ s) !! lst) eqn:Hgr;
    [|exfalso; unfold rget in Hx; rewrite Hgr in Hx; by apply elem_of_nil in Hx].
  destruct (wf_idx _ _ (c_wf Hc (LReady lst)) Hx) as (i & Hi & Hli).
  simpl in Hi, Hli. rewrite Hi in Hf.
  destruct (heap_fix _ _ _) as [q|] eqn:Hq; [|done]. simpl in Hf.
  assert (r = rput (readyQ s) lst q) as ->.
  { by apply (f_equal (from_option readyQ (readyQ s))) in Hf. }
  change (heap (less_ready (objs (mod_obj f x s))) (arr (rget (rput (readyQ s) lst q) g'))).
  destruct (decide (g' = lst)) as [->|Hne'].
  - rewrite rget_rput_same. eapply heap_fix_order;
      [apply _|apply (c_wf Hc (LReady lst))|by eapply lookup_lt_Some| |done].
    eapply (heap_hole_change (less_ready (objs s)));
      [apply _|apply _|done|apply (c_wf Hc (LReady lst))| |by apply (c_ord Hc (LReady lst))].
    intros y z _ _ Hy Hz. unfold less_ready. simpl. by rewrite !obj_alter_ne.
  - rewrite rget_rput_ne by done. apply Hother. congruence.
Qed.
(** the same Fix cannot panic when the last used group is the item's *)
Lemma rheap_fix_total b s lm x f g :
  core b s lm → lm !! x = Some (LReady g) → rlast (readyQ s) = g →
  is_Some (rheap_fix x (mod_obj f x s)).
Proof.
  intros Hc Hn Hg. unfold rheap_fix. change (readyQ (mod_obj f x s)) with (readyQ s).
  rewrite Hg. destruct (rgroups (readyQ s) !! g) eqn:Hgr; [|by eexists].
  pose proof (proj2 (c_in Hc (LReady g) x) Hn) as Hx.
  destruct (wf_idx _ _ (c_wf Hc (LReady g)) Hx) as (i & Hi & Hli). simpl in Hi, Hli.
  rewrite Hi.
  destruct (heap_fix_struct (less_ready (objs (mod_obj f x s))) (rget (readyQ s) g) i
    (c_wf Hc (LReady g)) ltac:(by eapply lookup_lt_Some)) as (q & -> & _). by eexists.
Qed.

(** ** clearing a position entry *)
Lemma core_clr_delay b s lm x : core b s lm → lm !! x ≠ Some LDelay → core b (clr_delay x s) lm.
Proof.
  intros Hc Hn. split.
  - intros l. pose proof (c_wf Hc l). destruct l; try done. apply wf_set_idx; [apply (c_wf Hc LDelay)|].
    by apply (core_notin' _ _ _ LDelay x Hc).
  - intros l y. rewrite <- (c_in Hc l y). by destruct l.
  - intros l Hl. pose proof (c_ord Hc l Hl). by destruct l.
Qed.
Lemma core_clr_run b s lm x : core b s lm → lm !! x ≠ Some LRun → core b (clr_run x s) lm.
Proof.
  intros Hc Hn. split.
  - intros l. pose proof (c_wf Hc l). destruct l; try done. apply wf_set_idx; [apply (c_wf Hc LRun)|].
    by apply (core_notin' _ _ _ LRun x Hc).
  - intros l y. rewrite <- (c_in Hc l y). by destruct l.
  - intros l Hl. pose proof (c_ord Hc l Hl). by destruct l.
Qed.
Lemma core_clr_bury b s lm x : core b s lm → lm !! x ≠ Some LBury → core b (clr_bury x s) lm.
Proof.
  intros Hc Hn. split.
  - intros l. pose proof (c_wf Hc l). destruct l; try done. apply wf_set_idx; [apply (c_wf Hc LBury)|].
    by apply (core_notin' _ _ _ LBury x Hc).
  - intros l y. rewrite <- (c_in Hc l y). by destruct l.
  - intros l Hl. pose proof (c_ord Hc l Hl). by destruct l.
Qed.
Lemma core_clr_dep b s lm x : core b s lm → lm !! x ≠ Some LDep → core b (clr_dep x s) lm.
Proof.
  intros Hc Hn. split.
  - intros l. pose proof (c_wf Hc l). destruct l; try done. apply wf_set_idx; [apply (c_wf Hc LDep)|].
    by apply (core_notin' _ _ _ LDep x Hc).
  - intros l y. rewrite <- (c_in Hc l y). by destruct l.
  - intros l Hl. pose proof (c_ord Hc l Hl). by destruct l.
Qed.
Lemma core_clr_ready b s lm x :
  core b s lm → (∀ g, lm !! x ≠ Some (LReady g)) → core b (clr_ready x s) lm.
Proof.
  intros Hc Hn. split.
  - intros l. pose proof (c_wf Hc l). destruct l; try done.
    apply (wf_set_idx (rget (readyQ s) g)); [apply (c_wf Hc (LReady g))|].
    by apply (core_notin' _ _ _ (LReady g) x Hc).
  - intros l y. rewrite <- (c_in Hc l y). by destruct l.
  - intros l Hl. pose proof (c_ord Hc l Hl). by destruct l.
Qed.
