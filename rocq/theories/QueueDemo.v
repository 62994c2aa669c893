(** Executable tests used to show that concrete histories meet the hypotheses
    of the queue theorems. *)
From Coq Require Import ZArith Lia String.
From stdpp Require Import base option strings gmap list.
From Verif Require Import GoHeap QueueModel QueueSpec.
Open Scope Z_scope.

Definition after (s : qstate) (ops : list op) (f : qstate → bool) : bool :=
  match run s ops with Some (s', _) => f s' | None => false end.
Definition stepped (s : qstate) (o : op) (f : qstate → qres → bool) : bool :=
  match step s o with Some (s', r, _) => f s' r | None => false end.
Lemma after_run s ops f : after s ops f = true → ∃ s' out, run s ops = Some (s', out) ∧ f s' = true.
Proof. unfold after. destruct (run s ops) as [[s' out]|]; [eauto|done]. Qed.
Lemma after_hist t ops f : after (q_new t) ops f = true → ∃ s, history t ops s ∧ f s = true.
Proof. intros (s & out & Hr & Hf)%after_run. exists s. split; [by exists out|done]. Qed.
Lemma stepped_step s o f : stepped s o f = true → ∃ s' r e, step s o = Some (s', r, e) ∧ f s' r = true.
Proof. unfold stepped. destruct (step s o) as [[[s' r] e]|]; [eauto|done]. Qed.

(** test for [named] *)
Definition at_key (s : qstate) (k : key) (f : nat → item → bool) : bool :=
  match items s !! k with
  | Some x => match objs s !! x with Some it => f x it | None => true end
  | None => true
  end.
Lemma at_key_named s k f x it : at_key s k f = true → named s k x it → f x it = true.
Proof. unfold at_key, named. intros H [E1 E2]. by rewrite E1, E2 in H. Qed.

Definition clears_b (s : qstate) (o : op) : bool :=
  match o with
  | OUpdate _ k _ _ _ _ _ (Some []) =>
      at_key s k (λ x it, bool_decide (iremain it = ∅) || bool_decide (ist it = SDep))
  | _ => true
  end.
Lemma clears_b_ok s o : clears_b s o = true → clears_safely s o.
Proof.
  destruct o; try done. destruct deps as [[|]|]; try done. simpl. intros H x it Hn Hr.
  apply (at_key_named _ _ _ _ _ H) in Hn. apply orb_true_iff in Hn as [Hn|Hn]; by apply bool_decide_eq_true in Hn.
Qed.
Definition repri_b (s : qstate) (o : op) : bool :=
  match o with
  | OUpdate _ k g _ prio delay _ _ =>
      at_key s k (λ x it, negb (bool_decide (ist it = SReady)) || negb (idelay it =? delay) ||
        negb (bool_decide (igroup it = g)) || (iprio it =? prio)%N || bool_decide (rlast (readyQ s) = g))
  | _ => true
  end.
Lemma repri_b_ok s o : repri_b s o = true → reprioritises_safely s o.
Proof.
  destruct o; try done. simpl. intros H x it Hn H1 H2 H3 H4.
  apply (at_key_named _ _ _ _ _ H) in Hn. rewrite H2 in Hn. rewrite (bool_decide_true _ H1), (bool_decide_true _ H3), Z.eqb_refl in Hn.
  apply N.eqb_neq in H4. rewrite H4 in Hn. simpl in Hn. by apply bool_decide_eq_true in Hn.
Qed.
Definition kicks_b (s : qstate) (o : op) : bool :=
  match o with
  | OKick k => at_key s k (λ x it, bool_decide (iremain it = ∅) ||
      existsb (λ d, bool_decide (is_Some (items s !! d))) (ideps it))
  | _ => true
  end.
Lemma kicks_b_ok s o : kicks_b s o = true → kicks_soundly s o.
Proof.
  destruct o; try done. simpl. intros H x it Hn Hr. apply (at_key_named _ _ _ _ _ H) in Hn.
  rewrite bool_decide_false in Hn by done. simpl in Hn. apply existsb_exists in Hn as (d & Hd & Hs).
  exists d. split; [by apply elem_of_list_In|by apply bool_decide_eq_true in Hs].
Qed.
Definition kicks_exactly_b (s : qstate) (o : op) : bool :=
  kicks_b s o &&
  match o with
  | OKick k => at_key s k (λ x it, negb (bool_decide (iremain it = ∅)) ||
      forallb (λ d, bool_decide (items s !! d = None)) (ideps it))
  | _ => true
  end.
Lemma kicks_exactly_b_ok s o : kicks_exactly_b s o = true → kicks_exactly s o.
Proof.
  intros [H1 H2]%andb_true_iff. split; [by apply kicks_b_ok|]. destruct o; try done.
  intros x it d Hn Hr Hd. apply (at_key_named _ _ _ _ _ H2) in Hn.
  rewrite (bool_decide_true _ Hr) in Hn. simpl in Hn. rewrite forallb_forall in Hn.
  apply elem_of_list_In in Hd. apply Hn in Hd. by apply bool_decide_eq_true in Hd.
Qed.
Definition renames_b (s : qstate) (o : op) : bool :=
  match o with
  | OChangeKey old new =>
      at_key s old (λ x it, bool_decide (old ∉ iremain it)) &&
      (bool_decide (dependants s !! old = None) ||
       forallb (λ kx, at_key s kx.1 (λ x it, bool_decide (new ∉ iremain it))) (map_to_list (items s)))
  | _ => true
  end.
Lemma renames_b_ok s o : renames_b s o = true → renames_safely s o.
Proof.
  destruct o; try done. simpl. intros [H1 H2]%andb_true_iff. split.
  - intros x it Hn. apply (at_key_named _ _ _ _ _ H1) in Hn. by apply bool_decide_eq_true in Hn.
  - apply orb_true_iff in H2 as [H2|H2]; [left; by apply bool_decide_eq_true in H2|right].
    intros k x it Hn. rewrite forallb_forall in H2. specialize (H2 (k, x)).
    assert (at_key s k (λ x it, bool_decide (new ∉ iremain it)) = true) as H3.
    { apply H2. apply elem_of_list_In, elem_of_map_to_list. apply Hn. }
    apply (at_key_named _ _ _ _ _ H3) in Hn. by apply bool_decide_eq_true in Hn.
Qed.
Definition safely_b (s : qstate) (o : op) : bool := clears_b s o && repri_b s o.
Lemma safely_b_ok s o : safely_b s o = true → safely s o.
Proof. intros [H1 H2]%andb_true_iff. split; [by apply clears_b_ok|by apply repri_b_ok]. Qed.
Definition waits_b (s : qstate) (o : op) : bool := clears_b s o && kicks_exactly_b s o && renames_b s o.
Lemma waits_b_ok s o : waits_b s o = true → waits_safely s o.
Proof.
  intros [[H1 H2]%andb_true_iff H3]%andb_true_iff.
  split_and!; [by apply clears_b_ok|by apply kicks_exactly_b_ok|by apply renames_b_ok].
Qed.
Fixpoint always_b (P : qstate → op → bool) (s : qstate) (ops : list op) : bool :=
  match ops with
  | [] => true
  | o :: ops => P s o && match step s o with Some (s', _, _) => always_b P s' ops | None => true end
  end.
Lemma always_b_ok P (Q : qstate → op → Prop) s ops : (∀ s o, P s o = true → Q s o) → always_b P s ops = true → always Q s ops.
Proof.
  intros HPQ. revert s. induction ops as [|o ops IH]; intros s; simpl; [done|].
  intros [H1 H2]%andb_true_iff. split; [by apply HPQ|]. destruct (step s o) as [[[s' r] e]|]; [by apply IH|done].
Qed.
Lemma always_clears t ops : always_b clears_b (q_new t) ops = true → always clears_safely (q_new t) ops.
Proof. apply always_b_ok, clears_b_ok. Qed.
Lemma always_safely t ops : always_b safely_b (q_new t) ops = true → always safely (q_new t) ops.
Proof. apply always_b_ok, safely_b_ok. Qed.
Lemma always_waits t ops : always_b waits_b (q_new t) ops = true → always waits_safely (q_new t) ops.
Proof. apply always_b_ok, waits_b_ok. Qed.

Definition postpones_b (s : qstate) (o : op) : bool :=
  match o with
  | OUpdate now k _ _ _ delay ttr _ => at_key s k (λ x it,
      (negb (bool_decide (ist it = SDelay)) || (idelay it =? delay) || (readyAt it <=? now + delay)) &&
      (negb (bool_decide (ist it = SRun)) || (ittr it =? ttr) || (releaseAt it <=? now + ttr)))
  | _ => true
  end.
Lemma postpones_b_ok s o : postpones_b s o = true → postpones s o.
Proof.
  destruct o; try done. cbn [postpones_b postpones]. intros H x it Hn. apply (at_key_named _ _ _ _ _ H) in Hn.
  apply andb_true_iff in Hn as [H1 H2]. split; intros Hst Hne.
  - rewrite (bool_decide_true _ Hst) in H1. cbn [negb orb] in H1. lia.
  - rewrite (bool_decide_true _ Hst) in H2. cbn [negb orb] in H2. lia.
Qed.
Lemma always_timed t ops : always_b (λ s o, clears_b s o && postpones_b s o) (q_new t) ops = true → always timed_safely (q_new t) ops.
Proof.
  apply always_b_ok. intros s o [H1 H2]%andb_true_iff. split; [by apply clears_b_ok|by apply postpones_b_ok].
Qed.

(** A history that uses most calls: "b" and "e" wait for "a", "c" is delayed,
    "d" starts buried; "a" is reserved, touched and renamed; "d" is kicked; "c"
    becomes ready, is reserved and released; "e" loses its dependencies. *)
Open Scope string_scope.
Definition demo : list op :=
  [ OAdd 1 "a" "g" 10 5 0 0 60 StartDefault [];
    OAdd 2 "b" "g" 11 7 0 0 60 StartDefault ["a"];
    OAddMany 3 [ItemDef "c" "h" 12 3 10 60 StartDefault []; ItemDef "a" "g" 99 1 0 60 StartDefault []];
    OAdd 4 "d" "g" 13 9 0 0 60 StartBury [];
    OAdd 5 "e" "g" 14 4 0 0 60 StartDefault ["a"; "zz"];
    OReserve 6 "g" false; OTouch 7 "a"; OChangeKey "a" "a2"; OKick "d"; OTickDelay 20;
    OReserve 21 "h" false; ORelease 22 "c"; OUpdate 23 "e" "g" 15 4 0 60 (Some []);
    OSetGroup "d" "k"; OSetDelay 24 "c" 50 ].
