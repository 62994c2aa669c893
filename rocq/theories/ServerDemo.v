(** Executable tests used to show that concrete histories meet the hypotheses of
    the server theorems. *)
From Coq Require Import ZArith Lia String.
From stdpp Require Import base option strings gmap list.
From RecordUpdate Require Import RecordSet.
From Verif Require Import GoHeap QueueModel ServerModel ServerSpec ServerLimSpec.
Import RecordSetNotations.
Open Scope Z_scope.
Open Scope string_scope.

(** A history of requests, newest entry first; [None] if a step panics or is not
    allowed by [b]. *)
Fixpoint trace (b : sstate → sop → bool) (s : sstate) (es : list entry) (ops : list sop) : option (list entry * sstate) :=
  match ops with
  | [] => Some (es, s)
  | o :: ops =>
      if b s o then match sstep s o with Some (s', r, l) => trace b s' (Entry s o r l s' :: es) ops | None => None end
      else None
  end.
Lemma trace_hist (ok : sstate → sop → Prop) b s0 s es ops es' s' : (∀ s o, b s o = true → ok s o) → hist ok s0 es s →
  trace b s es ops = Some (es', s') → hist ok s0 es' s'.
Proof.
  intros Hb. revert s es. induction ops as [|o ops IH]; intros s es Hh; cbn [trace]; [by intros [= <- <-]|].
  destruct (b s o) eqn:E; [|done]. destruct (sstep s o) as [[[s1 r] l]|] eqn:Hs; [|done].
  apply IH. constructor; [done|by apply Hb|done].
Qed.
Definition shown (b : sstate → sop → bool) (s : sstate) (ops : list sop) (f : list entry → sstate → bool) : bool :=
  match trace b s [] ops with Some (es, s') => f es s' | None => false end.
Lemma shown_hist (ok : sstate → sop → Prop) b s0 ops f : (∀ s o, b s o = true → ok s o) → shown b s0 ops f = true →
  ∃ es s, hist ok s0 es s ∧ f es s = true.
Proof.
  intros Hb. unfold shown. destruct (trace b s0 [] ops) as [[es s]|] eqn:E; [|done]. intros Hf. exists es, s.
  split; [|done]. eapply trace_hist; [done|constructor|done].
Qed.

(** ** tests of the conditions *)
Definition no_members (js : list job) : bool := forallb (λ j, forallb (λ g, bool_decide (g = "")) (jdepgroups j)) js.
Lemma no_members_ok js g : no_members js = true → ¬ group_names js g.
Proof.
  intros H [Hg (j & Hj & Hi)]. unfold no_members in H. rewrite forallb_forall in H.
  specialize (H j (proj1 (elem_of_list_In _ _) Hj)). rewrite forallb_forall in H.
  specialize (H g (proj1 (elem_of_list_In _ _) Hi)). by apply bool_decide_eq_true in H.
Qed.
Lemma touched_names d js k : touched d js k → ∃ g, group_names js g.
Proof. induction 1; eauto. Qed.
Lemma touched_rdtk d js k : touched d js k → ∃ g, (g, k) ∈ rdtk d.
Proof. induction 1; eauto. Qed.
Lemma really_added_sub d js ignore j : j ∈ really_added d js ignore → j ∈ js.
Proof. unfold really_added. destruct ignore; [|done]. by intros [_ ?]%elem_of_list_filter. Qed.
Lemma no_members_touched d js ignore k : no_members js = true → ¬ touched d (really_added d js ignore) k.
Proof.
  intros H [g [Hg (j & Hj & Hi)]]%touched_names. apply (no_members_ok js g H). split; [done|]. exists j.
  split; [by eapply really_added_sub|done].
Qed.
Definition idle (s : sstate) (k : key) : bool :=
  match seen s k with Some (SRun, _) | Some (SBury, _) => false | _ => true end.
Definition spares_b (s : sstate) (o : sop) : bool :=
  match o with
  | AAdd _ js ignore => no_members js || forallb (λ gk : string * key, idle s gk.2) (elements (rdtk (sdb s)))
  | _ => true
  end.
Lemma spares_b_ok s o : spares_b s o = true → spares_busy s o.
Proof.
  destruct o; try done. simpl. intros [H|H]%orb_true_iff k st j Ht Hs.
  { exfalso. by eapply no_members_touched. }
  apply touched_rdtk in Ht as [g Ht]. rewrite forallb_forall in H.
  specialize (H (g, k) (proj1 (elem_of_list_In _ _) (proj2 (elem_of_elements _ _) Ht))).
  unfold idle in H. simpl in H. rewrite Hs in H. by destruct st.
Qed.
Definition spares_key_b (k : key) (s : sstate) (o : sop) : bool :=
  match o with
  | AAdd _ js ignore => no_members js || forallb (λ gk : string * key, bool_decide (gk.2 ≠ k)) (elements (rdtk (sdb s)))
  | _ => true
  end.
Lemma spares_key_b_ok k s o : spares_key_b k s o = true → spares k s o.
Proof.
  destruct o; try done. simpl. intros [H|H]%orb_true_iff Ht; [by eapply no_members_touched|].
  apply touched_rdtk in Ht as [g Ht]. rewrite forallb_forall in H.
  specialize (H (g, k) (proj1 (elem_of_list_In _ _) (proj2 (elem_of_elements _ _) Ht))).
  by apply bool_decide_eq_true in H.
Qed.
Definition serving_b (s : sstate) (o : sop) : bool :=
  spares_b s o && match o with ACrash _ _ _ => false | AStart now _ _ _ => negb (now =? 0)%Z | _ => true end.
Lemma serving_b_ok s o : serving_b s o = true → serving s o.
Proof.
  intros [H1 H2]%andb_true_iff. split; [by apply spares_b_ok|]. split; [destruct o; simpl in *; try done; by intros []|].
  destruct o; try done. simpl. by apply negb_true_iff, Z.eqb_neq in H2.
Qed.
Definition retry_b (k : key) (s : sstate) (o : sop) : bool :=
  serving_b s o && spares_key_b k s o &&
  match o with
  | AArchive _ k' jes _ =>
      bool_decide (k' ≠ k) ||
      (was_started s k && bool_decide (exit_of jes = Some 0%Z) && match jes with Some e => negb (e_end e =? 0)%Z | None => false end)
  | _ => true
  end && forallb (λ i, (jretries i <=? 255)%N) (requested o).
Lemma retry_b_ok k s o : retry_b k s o = true → serving s o ∧ spares k s o ∧ honest k s o ∧ small_retries o.
Proof.
  intros [[[H1 H2]%andb_true_iff H3]%andb_true_iff H4]%andb_true_iff. split; [by apply serving_b_ok|].
  split; [by apply spares_key_b_ok|]. split.
  - destruct o; try done. simpl. intros ->. rewrite bool_decide_eq_false_2 in H3 by tauto. simpl in H3.
    apply andb_true_iff in H3 as [[? ?]%andb_true_iff H3]. split; [done|]. split; [by apply bool_decide_eq_true in H0|].
    destruct jes; [|done]. apply negb_true_iff in H3. by apply Z.eqb_neq.
  - intros i Hi. rewrite forallb_forall in H4. by apply N.leb_le, H4, elem_of_list_In.
Qed.
Definition counting_b (s : sstate) (o : sop) : bool :=
  spares_b s o &&
  match o with
  | ACrash _ _ _ =>
      match sstep s o with
      | Some (s', _, _) =>
          forallb (λ k, match seen s' k with
                        | Some (st, j) => bool_decide (jst j ≠ JRunning) || (bool_decide (st = SRun) && negb (jexited j))
                        | None => true
                        end) (elements (dom (items (sq s'))))
      | None => true
      end
  | _ => true
  end.
Lemma counting_b_ok s o : counting_b s o = true → counting s o.
Proof.
  intros [H1 H2]%andb_true_iff. split; [by apply spares_b_ok|]. destruct o; try done. intros s' r l k st j Hs Hk Hj.
  rewrite Hs in H2. rewrite forallb_forall in H2.
  assert (Hd : k ∈ dom (items (sq s'))).
  { apply elem_of_dom. unfold seen in Hk. destruct (items (sq s') !! k); [by eexists|done]. }
  specialize (H2 k (proj1 (elem_of_list_In _ _) (proj2 (elem_of_elements _ _) Hd))). rewrite Hk in H2.
  rewrite bool_decide_eq_false_2 in H2 by tauto. apply andb_true_iff in H2 as [H2 H3].
  apply bool_decide_eq_true in H2. split; [done|]. by destruct (jexited j).
Qed.

Definition dep_eqb (d d' : dependency) : bool :=
  match d, d' with
  | DGroup g, DGroup g' => bool_decide (g = g')
  | DJob k, DJob k' => bool_decide (k = k')
  | _, _ => false
  end.
Fixpoint deps_eqb (l l' : list dependency) : bool :=
  match l, l' with
  | [], [] => true
  | d :: l, d' :: l' => dep_eqb d d' && deps_eqb l l'
  | _, _ => false
  end.
Lemma deps_eqb_ok l l' : deps_eqb l l' = true → l = l'.
Proof.
  revert l'. induction l as [|d l IH]; intros [|d' l']; try done. cbn [deps_eqb]. intros [H1 H2%IH]%andb_true_iff. subst.
  destruct d, d'; try done; cbn in H1; apply bool_decide_eq_true in H1; by subst.
Qed.
Definition depending_b (gr : key → list string) (dp : key → list dependency) (s : sstate) (o : sop) : bool :=
  spares_b s o &&
  forallb (λ j, bool_decide (jdepgroups j = gr (jkey j)) && deps_eqb (jdeps j) (dp (jkey j))) (requested o) &&
  match o with
  | AAdd _ js true =>
      forallb (λ j, bool_decide (complete (sdb s) !! jkey j = None) || bool_decide (is_Some (seen s (jkey j)))) js ||
      forallb (λ gk : string * key, bool_decide (complete (sdb s) !! gk.2 = None) || bool_decide (is_Some (seen s gk.2)))
        (elements (rdtk (sdb s)))
  | ACrash (CutAdd _ _ _ _ _) _ _ => false
  | _ => true
  end.
Lemma depending_b_ok gr dp s o : depending_b gr dp s o = true → depending gr dp s o.
Proof.
  intros [[H1 H2]%andb_true_iff H3]%andb_true_iff. split; [by apply spares_b_ok|]. split; [|split].
  - intros j Hj. rewrite forallb_forall in H2. apply elem_of_list_In, H2, andb_true_iff in Hj as [E1 E2].
    split; [by apply bool_decide_eq_true in E1|by apply deps_eqb_ok].
  - destruct o as [now js ignore| | | | | | | | | | | | | | |]; try done. destruct ignore; [|done]. cbn.
    apply orb_true_iff in H3 as [H3|H3]; [left|right]; rewrite forallb_forall in H3.
    + intros j Hj. apply elem_of_list_In, H3 in Hj. by apply orb_true_iff in Hj as [?%bool_decide_eq_true|?%bool_decide_eq_true]; [left|right].
    + intros k [g Ht]%touched_rdtk.
      specialize (H3 (g, k) (proj1 (elem_of_list_In _ _) (proj2 (elem_of_elements _ _) Ht))).
      by apply orb_true_iff in H3 as [?%bool_decide_eq_true|?%bool_decide_eq_true]; [left|right].
  - destruct o as [| | | | | | | | | | | | | | |c now gt]; try done. by destruct c.
Qed.

(** ** a few jobs and requests *)
Definition plain_job (k : key) (retries : N) (limits depgroups : list string) (deps : list dependency) (sched : string) : job :=
  Job k retries 0 0 0 0 false 0 false false JNew 0 0 limits sched [] depgroups deps.
Definition jobA : job := plain_job "A" 1 ["lg"] [] [] "r~lg".
Definition jobB : job := plain_job "B" 0 [] [] [] "r".
Definition sec (n : Z) : Z := n * 1000000000.
Definition ended (code : Z) (t : Z) : option endstate := Some (EndState true code (sec t)).
Definition st_of (s : sstate) (k : key) : option istate := fst <$> seen s k.
