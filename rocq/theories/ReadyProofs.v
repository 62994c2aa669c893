(** Proofs about the ready-added callback machinery. *)
From Coq Require Import Lia.
From stdpp Require Import base option gmap list.
From RecordUpdate Require Import RecordSet.
From Verif Require Import ReadyModel ReadySpec.
Import RecordSetNotations.

Definition live (p : phase) : bool := match p with Finished => false | _ => true end.
Definition nlive (ts : list phase) : nat := length (filter (λ p, live p = true) ts).
Definition unseen (p : phase) : Prop := p = Spawned.
(** a snapshot is still to come *)
Definition coming (s : rstate) : Prop :=
  0 < pending s ∨ Spawned ∈ threads s ∨ recall s = true.
(** the one goroutine owns the running flag; what is ready has been shown or
    will be *)
Record RInv (s : rstate) : Prop := {
  ri_one : nlive (threads s) = if running s then 1 else 0;
  ri_recall : recall s = true → running s = true;
  ri_pause : Pausing ∈ threads s → recall s = true;
  ri_shown : ready s ⊆ shown s ∨ coming s }.

Lemma nlive_insert ts i p q : ts !! i = Some p →
  nlive (<[i := q]> ts) + (if live p then 1 else 0) = nlive ts + (if live q then 1 else 0).
Proof.
  revert i. induction ts as [|t ts IH]; intros i Hi; [done|]. unfold nlive in *. destruct i as [|i].
  - simpl in Hi. injection Hi as ->. simpl. rewrite !filter_cons.
    destruct (decide (live q = true)) as [Hq|Hq], (decide (live p = true)) as [Hp|Hp];
      try rewrite Hp; try rewrite Hq; try (apply not_true_is_false in Hq; rewrite Hq);
      try (apply not_true_is_false in Hp; rewrite Hp); simpl; lia.
  - simpl in Hi |- *. rewrite !filter_cons. specialize (IH i Hi). destruct (decide (live t = true)); simpl; lia.
Qed.
Lemma nlive_app ts1 ts2 : nlive (ts1 ++ ts2) = nlive ts1 + nlive ts2.
Proof. unfold nlive. by rewrite filter_app, app_length. Qed.
Lemma nlive_in ts i p : ts !! i = Some p → live p = true → 0 < nlive ts.
Proof.
  intros Hi Hp. unfold nlive. assert (p ∈ filter (λ p, live p = true) ts) as H.
  { apply elem_of_list_filter. split; [done|]. by eapply elem_of_list_lookup_2. }
  destruct (filter _ ts); [by apply elem_of_nil in H|simpl; lia].
Qed.
Lemma elem_of_insert (ts : list phase) i p q x : ts !! i = Some p → x ∈ <[i := q]> ts → x = q ∨ x ∈ ts.
Proof.
  intros Hi Hx. apply elem_of_list_lookup in Hx as [j Hj].
  destruct (decide (i = j)) as [->|Hne].
  - rewrite list_lookup_insert in Hj by (by eapply lookup_lt_Some). injection Hj as <-. by left.
  - rewrite list_lookup_insert_ne in Hj by done. right. by eapply elem_of_list_lookup_2.
Qed.
Lemma elem_of_insert_keep (ts : list phase) i p q x : ts !! i = Some p → p ≠ x → x ∈ ts → x ∈ <[i := q]> ts.
Proof.
  intros Hi Hne Hx. apply elem_of_list_lookup in Hx as [j Hj].
  apply elem_of_list_lookup. exists j. rewrite list_lookup_insert_ne; [done|]. intros ->. congruence.
Qed.

Lemma rinv_new : RInv r_new.
Proof. split; try done. intros H. by apply elem_of_nil in H. by left. Qed.

Lemma rinv_step s l s' : RInv s → rstep s l = Some s' → RInv s'.
Proof.
  intros [H1 H2 H3 H4] Hs. destruct l as [xs|xs| | |i|i|i|i]; simpl in Hs.
  - injection Hs as <-. split; try done. right. left. simpl. lia.
  - injection Hs as <-. split; try done. simpl. destruct H4 as [H4|H4]; [left; set_solver|by right].
  - injection Hs as <-. split; try done. right. left. simpl. lia.
  - destruct (pending s) as [|n] eqn:Hp; [done|]. destruct (running s) eqn:Hr; injection Hs as <-.
    + split; simpl; try done. by rewrite Hr. right. by right; right.
    + split; simpl; try done.
      * rewrite nlive_app, H1. done.
      * rewrite elem_of_app. intros [H|H]; [by apply H3|]. by apply elem_of_list_singleton in H.
      * right. right. left. simpl. set_solver.
  - destruct (threads s !! i) as [[]|] eqn:Hi; try done. injection Hs as <-.
    pose proof (nlive_insert _ _ _ (Calling (ready s)) Hi) as Hn. simpl in Hn.
    split; simpl; try done.
    + lia.
    + intros H. apply (elem_of_insert _ _ _ _ _ Hi) in H as [H|H]; [done|by apply H3].
    + left. done.
  - destruct (threads s !! i) as [[]|] eqn:Hi; try done. injection Hs as <-.
    pose proof (nlive_insert _ _ _ Returned Hi) as Hn. simpl in Hn.
    split; simpl; try done.
    + lia.
    + intros H. apply (elem_of_insert _ _ _ _ _ Hi) in H as [H|H]; [done|by apply H3].
    + destruct H4 as [H4|[H4|[H4|H4]]]; [by left|right; by left|right; right; left|right; by right; right].
      by eapply elem_of_insert_keep.
  - destruct (threads s !! i) as [[]|] eqn:Hi; try done. destruct (recall s) eqn:Hr; injection Hs as <-.
    + pose proof (nlive_insert _ _ _ Pausing Hi) as Hn. simpl in Hn. split; simpl; try done.
      * lia.
      * intros _. by apply H2.
      * right. right. by right.
    + pose proof (nlive_insert _ _ _ Finished Hi) as Hn. simpl in Hn.
      pose proof (nlive_in _ _ _ Hi eq_refl) as Hpos. split; simpl; try done.
      * destruct (running s); lia.
      * rewrite Hr. done.
      * intros H. rewrite Hr. apply (elem_of_insert _ _ _ _ _ Hi) in H as [H|H]; [done|].
        apply H3 in H. congruence.
      * destruct H4 as [H4|[H4|[H4|H4]]]; [by left|right; by left|right; right; left|congruence].
        by eapply elem_of_insert_keep.
  - destruct (threads s !! i) as [[]|] eqn:Hi; try done. injection Hs as <-.
    pose proof (nlive_insert _ _ _ Finished Hi) as Hn. simpl in Hn.
    pose proof (nlive_in _ _ _ Hi eq_refl) as Hpos. split; simpl; try done.
    + destruct (running s); lia.
    + intros [j Hj]%elem_of_list_lookup. exfalso.
      pose proof (nlive_in _ _ _ Hj eq_refl). destruct (running s); lia.
    + right. left. simpl. lia.
Qed.
Lemma rinv_run s ls s' : RInv s → rrun s ls = Some s' → RInv s'.
Proof.
  revert s. induction ls as [|l ls IH]; intros s HI Hr; simpl in Hr; [by injection Hr as <-|].
  destruct (rstep s l) as [s1|] eqn:Hs; [|done]. simpl in Hr. eapply IH; [|done]. by eapply rinv_step.
Qed.

Lemma one_callback ls s : rrun r_new ls = Some s → length (filter (λ p, in_callback p = true) (threads s)) ≤ 1.
Proof.
  intros Hr. pose proof (rinv_run _ _ _ rinv_new Hr) as HI. pose proof (ri_one _ HI) as H1.
  enough (length (filter (λ p, in_callback p = true) (threads s)) ≤ nlive (threads s)) by (destruct (running s); lia).
  clear. induction (threads s) as [|p ts IH]; [done|]. unfold nlive in *. rewrite !filter_cons.
  destruct p; simpl; lia.
Qed.

Lemma settled_shown ls s : rrun r_new ls = Some s → settled s → ready s ⊆ shown s.
Proof.
  intros Hr [Hp Hf]. pose proof (rinv_run _ _ _ rinv_new Hr) as HI.
  assert (nlive (threads s) = 0) as Hn.
  { clear -Hf. induction Hf as [|p ts -> Hf IH]; [done|]. unfold nlive in *. by rewrite filter_cons. }
  destruct (ri_shown _ HI) as [H|[H|[H|H]]]; [done|lia| |].
  - rewrite Forall_forall in Hf. by apply Hf in H.
  - pose proof (ri_one _ HI) as H1. rewrite (ri_recall _ HI H) in H1. lia.
Qed.

Definition weight (p : phase) : nat :=
  match p with Spawned => 5 | Calling _ => 4 | Returned => 3 | Pausing => 2 | Finished => 0 end.
Fixpoint total (ts : list phase) : nat := match ts with [] => 0 | p :: ts => weight p + total ts end.
Definition measure (s : rstate) : nat :=
  6 * pending s + (if recall s then 5 else 0) + total (threads s).
Lemma total_app a b : total (a ++ b) = total a + total b.
Proof. induction a as [|p a IH]; simpl; lia. Qed.
Lemma weight_insert ts i p q : ts !! i = Some p →
  total (<[i := q]> ts) + weight p = total ts + weight q.
Proof.
  revert i. induction ts as [|t ts IH]; intros i Hi; [done|]. destruct i as [|i]; simpl in *.
  - injection Hi as ->. lia.
  - specialize (IH i Hi). lia.
Qed.
Lemma measure_step s l s' : RInv s → internal l → rstep s l = Some s' → measure s' < measure s.
Proof.
  intros HI Hl Hs. unfold measure. destruct l as [xs|xs| | |i|i|i|i]; simpl in Hl, Hs; try done.
  - destruct (pending s) as [|n] eqn:Hp; [done|]. destruct (running s) eqn:Hr; injection Hs as <-; simpl.
    + destruct (recall s); lia.
    + rewrite total_app. simpl.
      destruct (recall s); lia.
  - destruct (threads s !! i) as [[]|] eqn:Hi; try done. injection Hs as <-.
    pose proof (weight_insert _ _ _ (Calling (ready s)) Hi) as Hn. simpl in *. lia.
  - destruct (threads s !! i) as [[]|] eqn:Hi; try done. injection Hs as <-.
    pose proof (weight_insert _ _ _ Returned Hi) as Hn. simpl in *. lia.
  - destruct (threads s !! i) as [[]|] eqn:Hi; try done. destruct (recall s) eqn:Hr; injection Hs as <-.
    + pose proof (weight_insert _ _ _ Pausing Hi) as Hn. simpl in *. rewrite Hr. lia.
    + pose proof (weight_insert _ _ _ Finished Hi) as Hn. simpl in *. rewrite Hr. lia.
  - destruct (threads s !! i) as [[]|] eqn:Hi; try done. injection Hs as <-.
    pose proof (weight_insert _ _ _ Finished Hi) as Hn. simpl in *.
    rewrite (ri_pause _ HI) by (by eapply elem_of_list_lookup_2). lia.
Qed.
Lemma internal_bound s ls s' : RInv s → Forall internal ls → rrun s ls = Some s' → length ls + measure s' ≤ measure s.
Proof.
  revert s. induction ls as [|l ls IH]; intros s HI Hf Hr; simpl in Hr; [by injection Hr as <-|].
  destruct (rstep s l) as [s1|] eqn:Hs; [|done]. simpl in Hr. apply Forall_cons in Hf as [Hl Hf].
  pose proof (measure_step _ _ _ HI Hl Hs). specialize (IH s1 (rinv_step _ _ _ HI Hs) Hf Hr). simpl. lia.
Qed.
Lemma unsettled_moves s : ¬ settled s → ∃ l, internal l ∧ is_Some (rstep s l).
Proof.
  intros Hn. destruct (pending s) as [|n] eqn:Hp.
  - destruct (decide (Forall (λ p, live p = false) (threads s))) as [Hf|Hf].
    + exfalso. apply Hn. split; [done|]. eapply Forall_impl; [exact Hf|]. by intros [].
    + apply not_Forall_Exists in Hf; [|apply _]. apply Exists_exists in Hf as (p & [i Hi]%elem_of_list_lookup & Hl).
      destruct p; try done.
      * exists (LSnap i). simpl. rewrite Hi. split; [done|by eexists].
      * exists (LReturn i). simpl. rewrite Hi. split; [done|by eexists].
      * exists (LDecide i). simpl. rewrite Hi. split; [done|]. destruct (recall s); by eexists.
      * exists (LRecall i). simpl. rewrite Hi. split; [done|by eexists].
      * by destruct Hl.
  - exists LEnter. simpl. rewrite Hp. split; [done|]. destruct (running s); by eexists.
Qed.
Lemma settles ls s : rrun r_new ls = Some s →
  ∃ n, ∀ ls' s', Forall internal ls' → rrun s ls' = Some s' →
    length ls' ≤ n ∧ (settled s' ∨ ∃ l, internal l ∧ is_Some (rstep s' l)) ∧
    (settled s' → ready s ⊆ shown s').
Proof.
  intros Hr. pose proof (rinv_run _ _ _ rinv_new Hr) as HI. exists (measure s). intros ls' s' Hf Hr'.
  split_and!.
  - pose proof (internal_bound _ _ _ HI Hf Hr'). lia.
  - assert (Decision (settled s')).
    { unfold settled. apply and_dec; [apply _|]. apply Forall_dec. intros []; try (by right); by left. }
    destruct (decide (settled s')) as [Hx|Hx]; [by left|right; by apply unsettled_moves].
  - intros Hs. assert (ready s' = ready s) as <-.
    { clear -Hf Hr'. revert s Hr'. induction ls' as [|l ls' IH]; intros s Hr; simpl in Hr; [by injection Hr as <-|].
      apply Forall_cons in Hf as [Hl Hf]. destruct (rstep s l) as [s1|] eqn:E; [|done]. simpl in Hr.
      rewrite (IH Hf s1 Hr). destruct l; simpl in Hl, E; try done;
        repeat case_match; simplify_eq; done. }
    apply (settled_shown (ls ++ ls')); [|done].
    clear -Hr Hr'. revert Hr. generalize r_new. induction ls as [|l ls IH]; intros s0 Hr; simpl in *.
    + by injection Hr as ->.
    + destruct (rstep s0 l) as [s1|]; [|done]. simpl in *. by apply IH.
Qed.

(** ** Every push is followed by a snapshot that sees it *)
Definition is_snap (l : rlabel) : Prop := match l with LSnap _ => True | _ => False end.
Lemma coming_step s l s' : RInv s → coming s → ¬ is_snap l → rstep s l = Some s' → coming s'.
Proof.
  intros HI Hc Hl Hs. unfold coming in *. destruct l as [xs|xs| | |i|i|i|i]; simpl in Hs; try done.
  - injection Hs as <-. simpl. left. lia.
  - by injection Hs as <-.
  - injection Hs as <-. simpl. left. lia.
  - destruct (pending s) as [|n] eqn:Hp; [done|]. destruct (running s) eqn:Hr; injection Hs as <-; simpl.
    + by right; right.
    + right; left. set_solver.
  - destruct (threads s !! i) as [[]|] eqn:Hi; try done. injection Hs as <-. simpl.
    destruct Hc as [H4|[H4|H4]]; [by left|right; left|by right; right]. by eapply elem_of_insert_keep.
  - destruct (threads s !! i) as [[]|] eqn:Hi; try done. destruct (recall s) eqn:Hr; injection Hs as <-; simpl.
    + by right; right.
    + destruct Hc as [H4|[H4|H4]]; [by left|right; left|congruence]. by eapply elem_of_insert_keep.
  - destruct (threads s !! i) as [[]|] eqn:Hi; try done. injection Hs as <-. simpl. left. lia.
Qed.
Lemma settled_not_coming s : RInv s → settled s → ¬ coming s.
Proof.
  intros HI [Hp Hf]. assert (nlive (threads s) = 0) as Hn.
  { clear -Hf. induction Hf as [|p ts -> Hf IH]; [done|]. unfold nlive in *. by rewrite filter_cons. }
  intros [H|[H|H]]; [lia| |].
  - rewrite Forall_forall in Hf. by apply Hf in H.
  - pose proof (ri_one _ HI) as H1. rewrite (ri_recall _ HI H) in H1. lia.
Qed.
Lemma rrun_app s ls ls' : rrun s (ls ++ ls') = s1 ← rrun s ls; rrun s1 ls'.
Proof. revert s. induction ls as [|l ls IH]; intros s; simpl; [done|]. destruct (rstep s l); simpl; [apply IH|done]. Qed.
Lemma first_snap s ls s' : RInv s → coming s → rrun s ls = Some s' → settled s' →
  ∃ a i b s1, ls = a ++ LSnap i :: b ∧ rrun s a = Some s1 ∧ is_Some (rstep s1 (LSnap i)).
Proof.
  revert s. induction ls as [|l ls IH]; intros s HI Hc Hr Hf; simpl in Hr.
  - injection Hr as <-. by apply settled_not_coming in Hf.
  - destruct (rstep s l) as [s1|] eqn:Hs; [|done]. simpl in Hr.
    assert (is_snap l ∨ ¬ is_snap l) as [Hl|Hl] by (destruct l; simpl; tauto).
    + destruct l; try done. by exists [], i, ls, s.
    + destruct (IH s1) as (a & i & b & s2 & -> & Ha & Hi); try done; [by eapply rinv_step|by eapply coming_step|].
      exists (l :: a), i, b, s2. split_and!; try done. simpl. by rewrite Hs.
Qed.
Lemma ready_kept s ls s' x : x ∈ ready s → (∀ ys, LTake ys ∈ ls → x ∉ ys) → rrun s ls = Some s' → x ∈ ready s'.
Proof.
  revert s. induction ls as [|l ls IH]; intros s Hx Ht Hr; simpl in Hr; [by injection Hr as <-|].
  destruct (rstep s l) as [s1|] eqn:Hs; [|done]. simpl in Hr. eapply (IH s1); [|set_solver|done].
  assert (∀ ys, l = LTake ys → x ∉ ys) as Ht' by set_solver.
  destruct l as [xs|xs| | |i|i|i|i]; simpl in Hs; repeat case_match; try done; injection Hs as <-; simpl; set_solver.
Qed.
Lemma seen ls xs ls' s : rrun r_new (ls ++ LPush xs :: ls') = Some s → settled s →
  ∃ a i b s1 s2, ls' = a ++ LSnap i :: b ∧ rrun r_new (ls ++ LPush xs :: a) = Some s1 ∧
    rstep s1 (LSnap i) = Some s2 ∧ threads s2 !! i = Some (Calling (ready s1)) ∧
    ∀ x, x ∈ xs → (∀ ys, LTake ys ∈ a → x ∉ ys) → x ∈ ready s1.
Proof.
  rewrite rrun_app. destruct (rrun r_new ls) as [s0|] eqn:Hr0; [|done]. intros Hr Hf.
  pose proof (rinv_run _ _ _ rinv_new Hr0) as HI0. cbn [mbind option_bind rrun] in Hr.
  destruct (rstep s0 (LPush xs)) as [s0'|] eqn:Hs0; [|done]. cbn [mbind option_bind] in Hr.
  destruct (first_snap s0' ls' s) as (a & i & b & s1 & -> & Ha & [s2 Hi]); try done.
  { by eapply rinv_step. } { injection Hs0 as <-. left. simpl. lia. }
  exists a, i, b, s1, s2. split_and!; try done.
  - rewrite rrun_app, Hr0. cbn [mbind option_bind rrun]. by rewrite Hs0.
  - clear -Hi. simpl in Hi. destruct (threads s1 !! i) as [[]|] eqn:Ht; try done. injection Hi as <-. simpl.
    apply list_lookup_insert. by eapply lookup_lt_Some.
  - intros x Hx Ht. eapply (ready_kept s0'); [|done|done]. injection Hs0 as <-. simpl. set_solver.
Qed.
