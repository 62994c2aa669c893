(** Proofs about pausing. *)
From Coq Require Import ZArith Lia.
From stdpp Require Import base option list.
From RecordUpdate Require Import RecordSet.
From Verif Require Import PauseModel PauseSpec.
Import RecordSetNotations.
Open Scope Z_scope.

Lemma run_app y es1 es2 : run y (es1 ++ es2) = y1 ← run y es1; run y1 es2.
Proof. revert y. induction es1 as [|e es1 IH]; intros y; cbn; [done|]. destruct (step y e); cbn; [apply IH|done]. Qed.
Lemma run_snoc y es e y2 : run y (es ++ [e]) = Some y2 → ∃ y1, run y es = Some y1 ∧ step y1 e = Some y2.
Proof. rewrite run_app. destruct (run y es) as [y1|]; cbn; [|done]. intros H. exists y1. split; [done|]. destruct (step y1 e); [done|done]. Qed.
Ltac by_bools := repeat match goal with H : context [bool_decide ?P] |- _ => destruct (bool_decide_reflect P) | |- context [bool_decide ?P] => destruct (bool_decide_reflect P) end.

(** ** One call at a time *)
Definition nests (s : sstate) (d : nat) : Prop :=
  up s = true ∧ pauses s = Z.of_nat d ∧ drain s = bool_decide (d ≠ 0%nat) ∧ mode s = if bool_decide (d = 0%nat) then MNormal else MPause.
Lemma nests_pause s d : nests s d → ∃ s', pause s = (s', AOk (bool_decide (d = 0%nat))) ∧ nests s' (S d).
Proof.
  destruct s as [u dr m k]. intros (Hu & Hp & Hd & Hm). cbn in *. subst. unfold pause. destruct d; cbn; eexists.
  - split; [done|]. by repeat split.
  - split; [f_equal; f_equal; apply bool_decide_eq_false; cbn; lia|]. unfold nests. cbn. repeat split. lia.
Qed.
Lemma nests_resume s d : nests s d → ∃ s', resume s = (s', AOk (bool_decide (d = 1%nat))) ∧ nests s' (pred d).
Proof.
  destruct s as [u dr m k]. intros (Hu & Hp & Hd & Hm). cbn in *. subst. unfold resume. destruct d as [|[|d]]; cbn.
  - eexists. split; [done|]. by repeat split.
  - eexists. split; [done|]. by repeat split.
  - rewrite (bool_decide_true (Z.of_nat (S (S d)) - 1 > 0)) by lia. eexists. split; [by rewrite (bool_decide_false (S (S d) = 1%nat)) by lia|]. unfold nests. cbn. repeat split. lia.
Qed.
Lemma depth_snoc cs c : depth (cs ++ [c]) = match c with CPause => S (depth cs) | CResume => pred (depth cs) | _ => depth cs end.
Proof. unfold depth. by rewrite foldl_app. Qed.
Lemma do_calls_app s cs1 cs2 : do_calls s (cs1 ++ cs2) = let '(s1, l1) := do_calls s cs1 in let '(s2, l2) := do_calls s1 cs2 in (s2, l1 ++ l2).
Proof.
  revert s. induction cs1 as [|c cs1 IH]; intros s; cbn [app do_calls].
  - by destruct (do_calls s cs2).
  - destruct (do_call s c) as [s1 a]. rewrite IH. destruct (do_calls s1 cs1) as [s2 l1]. by destruct (do_calls s2 cs2).
Qed.
Lemma nests_calls cs : Forall (λ c, c = CPause ∨ c = CResume) cs → nests (do_calls fresh cs).1 (depth cs).
Proof.
  induction cs as [|c cs IH] using rev_ind; [done|]. rewrite Forall_app, Forall_singleton. intros [H1 H2]. specialize (IH H1).
  rewrite do_calls_app, depth_snoc. destruct (do_calls fresh cs) as [s l]. cbn in *. destruct H2 as [-> | ->]; cbn.
  - destruct (nests_pause _ _ IH) as (s' & -> & ?). done.
  - destruct (nests_resume _ _ IH) as (s' & -> & ?). done.
Qed.
(** draining, or stopped *)
Definition over (s : sstate) : Prop := mode s = MDrain ∧ (up s = true → drain s = true).
Lemma over_pause s : over s → pause s = (s, if up s then ABeingDrained else ANoServer).
Proof. intros [Hm Hd]. unfold pause. destruct (up s); cbn; [|done]. by rewrite Hd, Hm. Qed.
Lemma over_resume s : over s → resume s = (s, if up s then ABeingDrained else ANoServer).
Proof. intros [Hm Hd]. unfold resume. destruct (up s); cbn; [|done]. by rewrite Hd, Hm. Qed.
Lemma over_drain s : over s → set_drain s = (s, if up s then AOk false else ANoServer).
Proof. intros [Hm Hd]. unfold set_drain. destruct (up s); cbn; [|done]. by rewrite Hd, Hm. Qed.
Lemma over_call s c : over s → over (do_call s c).1 ∧ (up s = false → up (do_call s c).1 = false).
Proof.
  intros Ho. destruct c; cbn.
  - by rewrite over_pause.
  - by rewrite over_resume.
  - by rewrite over_drain.
  - unfold shut. destruct (up s) eqn:Hu; cbn; [|done]. split; [|done]. done.
Qed.
Lemma over_calls s cs : over s → over (do_calls s cs).1 ∧ (up s = false → up (do_calls s cs).1 = false).
Proof.
  revert s. induction cs as [|c cs IH]; intros s Ho; cbn; [done|]. destruct (over_call s c Ho) as [Ho' Hu].
  destruct (do_call s c) as [s1 a]. cbn in *. specialize (IH s1 Ho'). destruct (do_calls s1 cs) as [s2 l]. cbn in *. naive_solver.
Qed.
Lemma over_not s : over s → ¬ reservable s.
Proof. intros [_ H] [Hu Hd]. rewrite H in Hd; done. Qed.

(** ** Interleavings *)
(** what holds in every interleaving *)
Definition sound (y : system) : Prop :=
  (mode (srv y) = MDrain → up (srv y) = true → drain (srv y) = true) ∧
  (up (srv y) = false → mode (srv y) = MDrain) ∧
  (PStopping ∈ gos y → up (srv y) = false) ∧
  (PDraining ∈ gos y → mode (srv y) = MDrain).
Lemma step_go y i f y' : step y (EGo i f) = Some y' → ∃ p p', gos y !! i = Some p ∧ go (srv y) (running y) p f = Some (srv y', p', running y') ∧ gos y' = <[i := p']> (gos y).
Proof.
  cbn. destruct (gos y !! i) as [p|] eqn:Hp; cbn; [|done]. destruct (go (srv y) (running y) p f) as [[[s p'] n]|] eqn:Hg; cbn; [|done].
  intros [= <-]. exists p, p'. done.
Qed.
Lemma go_facts s n p f s' p' n' : go s n p f = Some (s', p', n') →
  (mode s = MDrain → up s = true → drain s = true) → (up s = false → mode s = MDrain) → (p = PStopping → up s = false) → 
  (mode s' = MDrain → up s' = true → drain s' = true) ∧ (up s' = false → mode s' = MDrain) ∧
  (up s = false → up s' = false) ∧ (mode s = MDrain → mode s' = MDrain) ∧ (p' = PStopping → up s' = false) ∧ (p' = PDraining → mode s' = MDrain).
Proof.
  intros Hg H1 H2 H3. destruct s as [u d m k]. cbn in *.
  destruct p as [q| | | | | | | | | | |r]; cbn in Hg; unfold pause, resume, set_drain, shut, shut_end, dispatch in Hg; cbn in Hg.
  all: destruct u; cbn in Hg; try (specialize (H2 eq_refl)); try (specialize (H3 eq_refl)); try done.
  all: destruct d; cbn in Hg; try destruct m; cbn in Hg; repeat case_bool_decide; cbn in Hg; try destruct q; try destruct f; cbn in Hg; 
    try (injection Hg as <- <- <-); cbn; try done; try naive_solver.
Qed.
Lemma elem_of_insert_or {A} (l : list A) i x z : z ∈ <[i := x]> l → z = x ∨ z ∈ l.
Proof.
  intros [j Hj]%elem_of_list_lookup. apply list_lookup_insert_Some in Hj as [(_ & ? & _)|[_ ?]]; [by left|]. right. by eapply elem_of_list_lookup_2.
Qed.
Lemma sound_step y e y' : sound y → step y e = Some y' → sound y'.
Proof.
  intros (H1 & H2 & H3 & H4) Hs. destruct e as [q|i f|].
  - injection Hs as <-. unfold sound. cbn. split_and!; try done; rewrite elem_of_app, elem_of_list_singleton; naive_solver.
  - apply step_go in Hs as (p & p' & Hp & Hg & Heq). destruct (go_facts _ _ _ _ _ _ _ Hg H1 H2) as (A & B & C & D & E & F).
    { intros ->. apply H3. by eapply elem_of_list_lookup_2. }
    unfold sound. rewrite Heq. split_and!; [done|done| |].
    + intros [<-|Hin]%elem_of_insert_or; [by apply E|]. by apply C, H3.
    + intros [<-|Hin]%elem_of_insert_or; [by apply F|]. by apply D, H4.
  - cbn in Hs. destruct (running y); [done|]. by injection Hs as <-.
Qed.
Lemma run_ind (P : list event → system → Prop) :
  P [] started → (∀ es e y y', run started es = Some y → P es y → step y e = Some y' → P (es ++ [e]) y') →
  ∀ es y, run started es = Some y → P es y.
Proof.
  intros H0 H1 es. induction es as [|e es IH] using rev_ind; intros y Hr; [cbn in Hr; by injection Hr as <-|].
  apply run_snoc in Hr as (y1 & Hr & Hs). eauto.
Qed.
Lemma sound_run es y : run started es = Some y → sound y.
Proof.
  revert es y. apply (run_ind (λ _, sound)); [|intros; by eapply sound_step].
  unfold sound. cbn. split_and!; try done; by rewrite elem_of_nil.
Qed.
Lemma over_step y e y' : sound y → mode (srv y) = MDrain → step y e = Some y' → mode (srv y') = MDrain.
Proof.
  intros (H1 & H2 & H3 & H4) Hm Hs. destruct e as [q|i f|].
  - by injection Hs as <-.
  - apply step_go in Hs as (p & p' & Hp & Hg & Heq). destruct (go_facts _ _ _ _ _ _ _ Hg H1 H2) as (A & B & C & D & E & F); [|by apply D].
    intros ->. apply H3. by eapply elem_of_list_lookup_2.
  - cbn in Hs. destruct (running y); [done|]. by injection Hs as <-.
Qed.
Lemma over_run y es y' : sound y → mode (srv y) = MDrain → run y es = Some y' → sound y' ∧ mode (srv y') = MDrain.
Proof.
  revert y. induction es as [|e es IH]; intros y Hs Hm Hr; cbn in Hr; [by injection Hr as <-|].
  destruct (step y e) as [y1|] eqn:He; cbn in Hr; [|done]. eapply IH; [|by eapply over_step|done]. by eapply sound_step.
Qed.
(** *** jobs are changed while paused *)
Definition holds_pause (p : pc) : bool := match p with PModifying | PPauseBack => true | _ => false end.
Fixpoint owed (l : list pc) : nat := match l with [] => 0 | p :: l => (if holds_pause p then 1 else 0) + owed l end.
Lemma owed_insert l i p p' : l !! i = Some p → (owed (<[i := p']> l) + (if holds_pause p then 1 else 0) = owed l + (if holds_pause p' then 1 else 0))%nat.
Proof.
  revert i. induction l as [|x l IH]; intros [|i] H; [done|done|injection H as ->; change (<[0%nat:=p']> (p :: l)) with (p' :: l)|specialize (IH i H); change (<[S i:=p']> (x :: l)) with (x :: <[i:=p']> l)]; cbn [owed];
    destruct (holds_pause p), (holds_pause p'); lia.
Qed.
Lemma owed_pos l i p : l !! i = Some p → holds_pause p = true → (1 ≤ owed l)%nat.
Proof. revert i. induction l as [|x l IH]; intros [|i] H Hh; [done|done|injection H as ->; cbn; rewrite Hh; lia|]. specialize (IH i H Hh). cbn. lia. Qed.
Lemma owed_app l l' : owed (l ++ l') = (owed l + owed l')%nat.
Proof. induction l; cbn; lia. Qed.
Definition held (y : system) : Prop :=
  Forall (λ p, p ≠ PResume ∧ p ≠ PNew QResume) (gos y) ∧ Z.of_nat (owed (gos y)) ≤ pauses (srv y) ∧
  (up (srv y) = true → drain (srv y) = false → pauses (srv y) = 0).
Lemma held_step y e y' : sound y → held y → step y e = Some y' → (∀ q, e = ERequest q → q ≠ QResume) → held y'.
Proof.
  intros (S1 & S2 & S3 & S4) (H1 & H2 & H3) Hs Hq. destruct e as [q|i f|].
  - injection Hs as <-. unfold held. cbn. split_and!.
    + apply Forall_app. split; [done|]. apply Forall_singleton. specialize (Hq q eq_refl). naive_solver.
    + rewrite owed_app. cbn. lia.
    + done.
  - apply step_go in Hs as (p & p' & Hp & Hg & Heq). pose proof (owed_insert _ _ _ p' Hp) as Ho.
    pose proof (proj1 (Forall_forall _ _) H1 p (elem_of_list_lookup_2 _ _ _ Hp)) as [Hp1 Hp2].
    assert (Hst : p = PStopping → up (srv y) = false) by (intros ->; apply S3; by eapply elem_of_list_lookup_2).
    unfold held. rewrite Heq. clear Heq. 
    pose proof (owed_pos _ _ _ Hp) as How.
    destruct (srv y) as [u d m k] eqn:Hy. cbn in *. 
    revert Hg Ho How Hp1 Hp2 Hst. generalize (srv y') as s', (running y') as n'. intros s' n' Hg Ho How Hp1 Hp2 Hst.
    assert (Hf : ∀ p', p' ≠ PResume ∧ p' ≠ PNew QResume → Forall (λ p, p ≠ PResume ∧ p ≠ PNew QResume) (<[i:=p']> (gos y))) by (intros; by apply Forall_insert).
    destruct p as [q| | | | | | | | | | |r]; cbn in Hg; unfold pause, resume, set_drain, shut, shut_end, dispatch in Hg; cbn in Hg;
      try (specialize (Hst eq_refl)); try done.
    all: destruct u; cbn in Hg; try done; try match type of Hst with true = false => discriminate Hst end; destruct d; cbn in Hg; try destruct m; cbn in Hg; try destruct q; cbn in Hg;
      repeat (match type of Hg with context [bool_decide ?P] => destruct (bool_decide_reflect P) end; cbn in Hg);
      try destruct f; cbn in Hg; try (injection Hg as <- <- <-); cbn in *; try done; 
      try (specialize (How eq_refl)); try (specialize (H3 eq_refl eq_refl));
      (split; [apply Hf; split; discriminate|]); (split; [lia|]); intros; try discriminate; try lia.
  - cbn in Hs. destruct (running y); [done|]. by injection Hs as <-.
Qed.
Lemma requests_snoc es e : requests (es ++ [e]) = requests es ++ match e with ERequest q => [q] | _ => [] end.
Proof. unfold requests. rewrite omap_app. by destruct e. Qed.
Lemma held_run es y : run started es = Some y → QResume ∉ requests es → held y.
Proof.
  revert es y. apply (run_ind (λ es y, QResume ∉ requests es → held y)).
  - intros _. unfold held. cbn. done.
  - intros es e y y' Hr IH Hs Hn. rewrite requests_snoc, not_elem_of_app in Hn. destruct Hn as [Hn1 Hn2].
    eapply held_step; [by eapply sound_run|by apply IH|done|]. intros q -> ->. apply Hn2. by apply elem_of_list_singleton.
Qed.
Lemma modifying_paused es y : run started es = Some y → QResume ∉ requests es → PModifying ∈ gos y → ¬ reservable (srv y).
Proof.
  intros Hr Hn [i Hi]%elem_of_list_lookup [Hu Hd]. destruct (held_run _ _ Hr Hn) as (_ & H2 & H3). specialize (H3 Hu Hd).
  pose proof (owed_pos _ _ _ Hi eq_refl). lia.
Qed.
(** *** a job is given only to a request that came while not paused *)
Lemma go_take s n p f s' p' n' : go s n p f = Some (s', p', n') → p' = PTake ∨ p' = PEnd RJob → p = PTake ∨ (p = PNew QReserve ∧ reservable s).
Proof.
  intros Hg Hp. destruct p as [q| | | | | | | | | | |r]; cbn in Hg.
  - injection Hg as <- <- <-. unfold dispatch, reservable in *. destruct (up s), (drain s); cbn in *; destruct q; naive_solver.
  - destruct (pause s) as [? [[]| |]]; naive_solver.
  - destruct (resume s) as [? ?]; naive_solver.
  - destruct (resume s) as [? [[]| |]]; naive_solver.
  - destruct (set_drain s) as [? [[]| |]]; naive_solver.
  - destruct (pause s) as [? [[]| |]]; naive_solver.
  - destruct (resume s) as [? ?]; naive_solver.
  - by left.
  - case_bool_decide; naive_solver.
  - destruct (shut s) as [? []]; naive_solver.
  - naive_solver.
  - done.
Qed.
Lemma given_when_open es y i p : run started es = Some y → gos y !! i = Some p → p = PTake ∨ p = PEnd RJob →
  ∃ es1 f es2 y1, es = es1 ++ EGo i f :: es2 ∧ run started es1 = Some y1 ∧ gos y1 !! i = Some (PNew QReserve) ∧ reservable (srv y1).
Proof.
  intros Hr. revert i p. revert es y Hr.
  apply (run_ind (λ es y, ∀ i p, gos y !! i = Some p → p = PTake ∨ p = PEnd RJob → ∃ es1 f es2 y1, es = es1 ++ EGo i f :: es2 ∧ run started es1 = Some y1 ∧ gos y1 !! i = Some (PNew QReserve) ∧ reservable (srv y1))); [done|].
  intros es e y y' Hr IH Hs i p Hi Hp.
  assert (Hold : gos y !! i = Some p ∨ (∃ f p0, e = EGo i f ∧ gos y !! i = Some p0 ∧ go (srv y) (running y) p0 f = Some (srv y', p, running y'))).
  { destruct e as [q|j f|].
    - injection Hs as <-. cbn in Hi. apply lookup_app_Some in Hi as [Hi|[_ Hi]]; [by left|]. apply elem_of_list_lookup_2, elem_of_list_singleton in Hi. naive_solver.
    - apply step_go in Hs as (p0 & p' & Hp0 & Hg & Heq). rewrite Heq in Hi. apply list_lookup_insert_Some in Hi as [(<- & <- & _)|[_ ?]]; [right; eauto|by left].
    - cbn in Hs. destruct (running y); [done|]. injection Hs as <-. by left. }
  assert (Hnew : gos y !! i = Some PTake ∨ gos y !! i = Some (PEnd RJob) → ∃ es1 f es2 y1, es ++ [e] = es1 ++ EGo i f :: es2 ∧ run started es1 = Some y1 ∧ gos y1 !! i = Some (PNew QReserve) ∧ reservable (srv y1)).
  { intros H. assert (∃ p', gos y !! i = Some p' ∧ (p' = PTake ∨ p' = PEnd RJob)) as (p1 & H1 & H2) by naive_solver.
    destruct (IH i p1 H1 H2) as (es1 & f & es2 & y1 & -> & ? & ? & ?). exists es1, f, (es2 ++ [e]), y1. split; [|done]. by rewrite <- app_assoc. }
  destruct Hold as [Hold|(f & p0 & -> & Hp0 & Hg)]; [apply Hnew; naive_solver|].
  destruct (go_take _ _ _ _ _ _ _ Hg Hp) as [->|[-> Ho]]; [by apply Hnew; left|]. by exists es, f, [], y.
Qed.
(** *** requests one at a time *)
Definition level (b : bool) : nat := if b then 1 else 0.
Definition at_work (s : sstate) (w : bool) (q : request) (p : pc) : Prop :=
  match p with
  | PNew q' => q' = q ∧ nests s (level w)
  | PPause => q = QPause ∧ nests s (level w)
  | PPauseBack => q = QPause ∧ w = true ∧ nests s 2
  | PResume => q = QResume ∧ nests s (level w)
  | PMod => q = QMod ∧ nests s (level w)
  | PModifying => q = QMod ∧ nests s (S (level w))
  | PTake => q = QReserve ∧ nests s (level w)
  | _ => False
  end.
Definition after (w : bool) (q : request) : bool := match q with QPause => true | QResume => false | _ => w end.
Lemma wanted_snoc qs q : wanted_paused (qs ++ [q]) = after (wanted_paused qs) q.
Proof. unfold wanted_paused. by rewrite foldl_app. Qed.
Lemma at_work_go s n w q p f s' p' n' : q ≠ QDrain → q ≠ QStop → at_work s w q p → go s n p f = Some (s', p', n') →
  at_work s' w q p' ∨ (∃ r, p' = PEnd r) ∧ nests s' (level (after w q)).
Proof.
  intros Hq1 Hq2 Hw Hg. destruct p as [q'| | | | | | | | | | |r]; cbn in Hw; try done; cbn in Hg.
  - destruct Hw as [-> Hn]. injection Hg as <- <- <-. destruct (Hn) as (Hu & _ & Hd & _). unfold dispatch. rewrite Hu. cbn.
    destruct q; cbn; try done; try (by left). destruct (drain s) eqn:?; [right|left]; naive_solver.
  - destruct Hw as [-> Hn]. destruct (nests_pause _ _ Hn) as (s1 & Hp & Hn'). rewrite Hp in Hg. destruct w; cbn in Hg; injection Hg as <- <- <-; [by left|].
    right. split; [by eexists|done].
  - destruct Hw as (-> & -> & Hn). destruct (nests_resume _ _ Hn) as (s1 & Hp & Hn'). rewrite Hp in Hg. injection Hg as <- <- <-. right. split; [by eexists|done].
  - destruct Hw as [-> Hn]. destruct (nests_resume _ _ Hn) as (s1 & Hp & Hn'). rewrite Hp in Hg. injection Hg as <- <- <-. right. split; [by eexists|]. by destruct w.
  - destruct Hw as [-> Hn]. destruct (nests_pause _ _ Hn) as (s1 & Hp & Hn'). rewrite Hp in Hg. injection Hg as <- <- <-. by left.
  - destruct Hw as [-> Hn]. destruct (nests_resume _ _ Hn) as (s1 & Hp & Hn'). rewrite Hp in Hg. injection Hg as <- <- <-. right. split; [by eexists|done].
  - destruct Hw as [-> Hn]. injection Hg as <- <- <-. right. split; [destruct f; by eexists|done].
Qed.
Definition serially (es : list event) (y : system) : Prop :=
  (quiet y ∧ nests (srv y) (level (wanted_paused (requests es)))) ∨
  (∃ l p q qs, gos y = l ++ [p] ∧ Forall (λ p, ∃ r, p = PEnd r) l ∧ requests es = qs ++ [q] ∧ q ≠ QDrain ∧ q ≠ QStop ∧ at_work (srv y) (wanted_paused qs) q p).
Lemma serial_run es y : run started es = Some y → one_at_a_time es → QDrain ∉ requests es → QStop ∉ requests es → serially es y.
Proof.
  revert es y. apply (run_ind (λ es y, one_at_a_time es → QDrain ∉ requests es → QStop ∉ requests es → serially es y)).
  - intros _ _ _. left. split; [by constructor|done].
  - intros es e y y' Hr IH Hs Ho H1 H2. rewrite requests_snoc, not_elem_of_app in H1, H2. destruct H1 as [H1 H1'], H2 as [H2 H2'].
    assert (Hi : serially es y).
    { apply IH; try done. intros es1 q es2 y1 -> Hr1. apply (Ho es1 q (es2 ++ [e])); [|done]. by rewrite <- app_assoc. }
    clear IH. destruct e as [q|i f|].
    + assert (Hqy : quiet y) by (by eapply (Ho es q [])). injection Hs as <-. destruct Hi as [[_ Hn]|(l & p & q' & qs & Hl & _ & _ & _ & _ & Hw)].
      * right. exists (gos y), (PNew q), q, (requests es). rewrite requests_snoc. split_and!; try done; intros ->; [apply H1'|apply H2']; by apply elem_of_list_singleton.
      * exfalso. unfold quiet in Hqy. rewrite Hl in Hqy. apply Forall_app in Hqy as [_ [r Hp]%Forall_singleton]. by subst p.
    + apply step_go in Hs as (p & p' & Hp & Hg & Heq). unfold serially. rewrite requests_snoc, app_nil_r.
      destruct Hi as [[Hqy Hn]|(l & p0 & q & qs & Hl & Hd & Hq & Hq1 & Hq2 & Hw)].
      { unfold quiet in Hqy. destruct (Forall_lookup_1 _ _ _ _ Hqy Hp) as [r Hx]. by rewrite Hx in Hg. }
      rewrite Hl in Hp. apply lookup_app_Some in Hp as [Hp|[Hle Hp]].
      { destruct (Forall_lookup_1 _ _ _ _ Hd Hp) as [r Hx]. by rewrite Hx in Hg. }
      assert (i = length l) as -> by (apply lookup_lt_Some in Hp; cbn in Hp; lia). rewrite Nat.sub_diag in Hp. injection Hp as ->.
      rewrite Hl in Heq. rewrite insert_app_r_alt, Nat.sub_diag in Heq by lia. cbn in Heq.
      destruct (at_work_go _ _ _ _ _ _ _ _ _ Hq1 Hq2 Hw Hg) as [Hw'|[Hr' Hn']].
      * right. by exists l, p', q, qs.
      * left. split; [unfold quiet; rewrite Heq; apply Forall_app; split; [done|by apply Forall_singleton]|]. by rewrite Hq, wanted_snoc.
    + cbn in Hs. destruct (running y); [done|]. injection Hs as <-. unfold serially. by rewrite requests_snoc, app_nil_r.
Qed.
Lemma nests_reservable s d : nests s d → reservable s ↔ d = 0%nat.
Proof. intros (Hu & _ & Hd & _). unfold reservable. rewrite Hu, Hd. destruct d; naive_solver. Qed.
Lemma serial_reservable es y : run started es = Some y → one_at_a_time es → QDrain ∉ requests es → QStop ∉ requests es → quiet y →
  reservable (srv y) ↔ wanted_paused (requests es) = false.
Proof.
  intros Hr Ho H1 H2 Hq. destruct (serial_run _ _ Hr Ho H1 H2) as [[_ Hn]|(l & p & q & qs & Hl & _ & _ & _ & _ & Hw)].
  - rewrite (nests_reservable _ _ Hn). by destruct (wanted_paused _).
  - exfalso. unfold quiet in Hq. rewrite Hl in Hq. apply Forall_app in Hq as [_ [r Hp]%Forall_singleton]. by subst p.
Qed.
(** *** Drain stops the server when no job is running *)
Lemma stop_idle es y : run started es = Some y → QStop ∉ requests es →
  Forall (λ p, p ≠ PNew QStop) (gos y) ∧ (up (srv y) = false ∨ PStop ∈ gos y → ∃ es1 es2 y1, es = es1 ++ es2 ∧ run started es1 = Some y1 ∧ running y1 = 0%nat ∧ mode (srv y1) = MDrain).
Proof.
  revert es y. apply (run_ind (λ es y, QStop ∉ requests es → Forall (λ p, p ≠ PNew QStop) (gos y) ∧ (up (srv y) = false ∨ PStop ∈ gos y → ∃ es1 es2 y1, es = es1 ++ es2 ∧ run started es1 = Some y1 ∧ running y1 = 0%nat ∧ mode (srv y1) = MDrain))).
  - intros _. split; [by constructor|]. cbn. rewrite elem_of_nil. naive_solver.
  - intros es e y y' Hr IH Hs Hn. rewrite requests_snoc, not_elem_of_app in Hn. destruct Hn as [Hn1 Hn2]. destruct (IH Hn1) as [IH1 IH2].
    assert (Hmore : (∃ es1 es2 y1, es = es1 ++ es2 ∧ run started es1 = Some y1 ∧ running y1 = 0%nat ∧ mode (srv y1) = MDrain) → ∃ es1 es2 y1, es ++ [e] = es1 ++ es2 ∧ run started es1 = Some y1 ∧ running y1 = 0%nat ∧ mode (srv y1) = MDrain).
    { intros (es1 & es2 & y1 & -> & ?). exists es1, (es2 ++ [e]), y1. by rewrite <- app_assoc. }
    destruct (sound_run _ _ Hr) as (S1 & S2 & S3 & S4).
    destruct e as [q|i f|].
    + injection Hs as <-. cbn. split.
      * apply Forall_app. split; [done|]. apply Forall_singleton. intros [= ->]. apply Hn2. by apply elem_of_list_singleton.
      * intros H. apply Hmore, IH2. rewrite elem_of_app, elem_of_list_singleton in H. naive_solver.
    + apply step_go in Hs as (p & p' & Hp & Hg & Heq). rewrite Heq. pose proof (Forall_lookup_1 _ _ _ _ IH1 Hp) as Hpn.
      assert (Hpin : p ∈ gos y) by (by eapply elem_of_list_lookup_2).
      assert (Hc : p' ≠ PNew QStop ∧ (up (srv y') = false → up (srv y) = false ∨ p = PStop) ∧ (p' = PStop → p = PDraining ∧ running y = 0%nat)).
      { destruct p as [q| | | | | | | | | | |r]; cbn in Hg; unfold pause, resume, set_drain, shut, shut_end, dispatch in Hg.
        all: destruct (srv y) as [u d m k]; cbn in *; destruct u; cbn in Hg; try destruct d; cbn in Hg; try destruct m; cbn in Hg; try destruct q; cbn in Hg; try done;
          repeat (match type of Hg with context [bool_decide ?P] => destruct (bool_decide_reflect P) end; cbn in Hg); try destruct f; cbn in Hg; try done; injection Hg as Hg1 Hg2 Hg3; rewrite <- Hg1, <- Hg2; cbn; split_and!; try done; try (by right); try (by left). }
      destruct Hc as (Hc1 & Hc2 & Hc3). split; [by apply Forall_insert|].
      intros [Hu|[<-|Hin]%elem_of_insert_or].
      * apply Hmore, IH2. destruct (Hc2 Hu) as [?| ->]; [by left|by right].
      * destruct (Hc3 eq_refl) as [-> Hrun]. exists es, [EGo i f], y. split_and!; try done. by apply S4.
      * apply Hmore, IH2. by right.
    + cbn in Hs. destruct (running y); [done|]. injection Hs as <-. split; [done|]. intros H. apply Hmore, IH2, H.
Qed.
