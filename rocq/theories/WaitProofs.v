(** Proofs of property C53. *)
From Coq Require Import Lia.
From stdpp Require Import base option list.
From RecordUpdate Require Import RecordSet.
From Verif Require Import WaitModel WaitSpec.
Import RecordSetNotations.

(** Requests that will yet make the callback run, or fail. *)
Definition pushing (p : pc) : bool :=
  match p with QUpdates _ | QEnq | QMany | KKick _ => true | _ => false end.
Definition busy (s : wstate) : Prop :=
  callers s ≠ 0 ∨ changing s ≠ 0 ∨ (cb s = CSpawned ∨ cb s = CChecked ∨ cb s = CBody) ∨
  (cb s ≠ CIdle ∧ recall s = true) ∨ ∃ i p, gos s !! i = Some p ∧ pushing p = true.
Definition failing (p : pc) : bool := match p with QFail | KFail _ => true | _ => false end.
Record WI (s : wstate) : Prop := {
  wi_run : racRunning s = true ↔ cb s = CBody;
  wi_wait : waiting s ≠ [] → racPending s = true ∨ racRunning s = true;
  wi_pend : racPending s = true → paused s = true ∨ busy s;
  wi_fail : ∀ i p, gos s !! i = Some p → failing p = false;
}.
Lemma wi_new : WI w_new.
Proof. split; try done. Qed.

Lemma lookup_insert_pc (l : list pc) (i j : nat) (p q : pc) : <[i := p]> l !! j = Some q → q = p ∨ l !! j = Some q.
Proof.
  destruct (decide (i = j)) as [<-|Hn]; [|rewrite list_lookup_insert_ne by done; auto].
  intros H. left. destruct (decide (i < length l)).
  - rewrite list_lookup_insert in H by done. congruence.
  - rewrite list_insert_ge in H by lia. apply lookup_lt_Some in H. lia.
Qed.
Lemma busy_gos s s' i p : gos s !! i = Some p → pushing p = false → (∀ j q, j ≠ i → gos s !! j = Some q → gos s' !! j = Some q) →
  callers s' = callers s → changing s' = changing s → cb s' = cb s → recall s' = recall s → busy s → busy s'.
Proof.
  intros Hi Hp Hg Hc Hch Hcb Hr [H|[H|[H|[H|(j & q & Hj & Hq)]]]]; unfold busy; rewrite Hc, Hch, Hcb, Hr.
  - by left. - by right; left. - by right; right; left. - by right; right; right; left.
  - right; right; right; right. exists j, q. split; [|done]. apply Hg; [|done]. intros ->. congruence.
Qed.
Ltac pcase Hg i :=
  let j := fresh "j" in let q := fresh "q" in let Hj := fresh "Hj" in
  intros j q Hj; apply lookup_insert_pc in Hj as [->|Hj]; [done|by eapply Hg].

Lemma insert_at (l : list pc) i p q : l !! i = Some p → <[i := q]> l !! i = Some q.
Proof. intros H. apply list_lookup_insert. by eapply lookup_lt_Some. Qed.
Lemma wi_step s l s' : WI s → fruitful s l → wstep s l = Some s' → WI s'.
Proof.
  intros [Hrun Hw Hp Hf] Hok Hs. destruct l; cbn in Hs.
  - (* WReserve *) injection Hs as <-. destruct s as [pe ru wa pa c r ca ch g nx]; cbn in *.
    destruct pe, ru; cbn; split; cbn in *; auto; by left + right.
  - injection Hs as <-. destruct s as [pe ru wa pa c r ca ch g nx]; cbn in *. split; cbn; auto.
    + intros H. destruct (Hp H) as [?|Hb]; [by left|]. right. unfold busy in *; cbn in *.
      destruct Hb as [H1|[H1|[H1|[H1|(j & q & Hj & Hq)]]]]; [by left|by right; left|by right; right; left|by right; right; right; left|].
      right; right; right; right. exists j, q. split; [|done]. by apply lookup_app_l_Some.
    + intros i p Hi. apply lookup_app_Some in Hi as [Hi|[_ Hi]]; [by eapply Hf|].
      destruct (i - length g); [by injection Hi as <-|done].
  - injection Hs as <-. destruct s as [pe ru wa pa c r ca ch g nx]; cbn in *. split; cbn; auto.
    + intros H. destruct (Hp H) as [?|Hb]; [by left|]. right. unfold busy in *; cbn in *.
      destruct Hb as [H1|[H1|[H1|[H1|(j & q & Hj & Hq)]]]]; [by left|by right; left|by right; right; left|by right; right; right; left|].
      right; right; right; right. exists j, q. split; [|done]. by apply lookup_app_l_Some.
    + intros i p Hi. apply lookup_app_Some in Hi as [Hi|[_ Hi]]; [by eapply Hf|].
      destruct (i - length g); [by injection Hi as <-|done].
  - (* WGo *) destruct (gos s !! i) as [p|] eqn:Hi; cbn in Hs; [|done].
    destruct Hok as [Herr Hmany].
    destruct s as [pe ru wa pa c r ca ch g nx]; cbn in *.
    pose proof (Hf _ _ Hi) as Hnf.
    destruct p as [n|[|n]| | | |[|n]|n|n|]; cbn in Hs; try done; rewrite ?Herr in Hs; cbn in Hs; injection Hs as <-.
    + split; cbn; auto. * intros _. right. right; right; right; right. exists i, (QUpdates n). cbn. split; [by eapply insert_at|done]. * pcase Hf i.
    + split; cbn; auto. * intros _. right. right; right; right; right. exists i, QEnq. cbn. split; [by eapply insert_at|done]. * pcase Hf i.
    + split; cbn; auto. * intros _. right. right; right; right; right. exists i, (QUpdates n). cbn. split; [by eapply insert_at|done]. * pcase Hf i.
    + split; cbn; auto. * intros _. right. right; right; right; right. exists i, QMany. cbn. split; [by eapply insert_at|done]. * pcase Hf i.
    + destruct (Hmany Hi) as [Ho|Ho].
      * split; cbn; auto. -- intros _. right. left. cbn. rewrite Ho. lia. -- pcase Hf i.
      * split; cbn; auto. -- intros _. right. right; left. cbn. rewrite Ho. lia. -- pcase Hf i.
    + split; cbn; auto.
      * intros H. destruct (Hp H) as [?|Hb]; [by left|]. right.
        eapply (busy_gos (WState pe ru wa pa c r ca ch g nx) _ i (KNext 0)); [exact Hi|done| |done..|exact Hb]. cbn. intros j q Hj Hq. by rewrite list_lookup_insert_ne.
      * pcase Hf i.
    + split; cbn; auto. * intros _. right. right; right; right; right. exists i, (KKick n). cbn. split; [by eapply insert_at|done]. * pcase Hf i.
    + destruct (o_ready o); cbn.
      * split; cbn; auto. -- intros _. right. left. cbn. lia. -- pcase Hf i.
      * split; cbn; auto. -- intros _. right. right; left. cbn. lia. -- pcase Hf i.
  - (* WEvent *) injection Hs as <-. destruct s as [pe ru wa pa c r ca ch g nx]; cbn in *. split; cbn; auto.
    intros H. destruct (Hp H) as [?|Hb]; [by left|]. right. unfold busy in *; cbn in *.
    destruct Hb as [H1|[H1|[H1|[H1|(j & q & Hj & Hq)]]]].
    + left. destruct (o_ready o); lia.
    + right; left. destruct (o_other o); lia.
    + by right; right; left. + by right; right; right; left. + right; right; right; right. by exists j, q.
  - injection Hs as <-. destruct s as [pe ru wa pa c r ca ch g nx]; cbn in *. split; cbn; auto.
  - destruct s as [pe ru wa pa c r ca ch g nx]; cbn in *. destruct pa; injection Hs as <-; split; cbn; auto.
    intros _. right. left. cbn. lia.
  - destruct s as [pe ru wa pa c r ca ch g nx]; cbn in *. destruct ca as [|n]; [done|].
    case_decide as Hc.
    + subst c. injection Hs as <-. split; cbn; auto.
      * split; [intros H; by apply Hrun in H|done].
      * intros _. right. right; right; left. by left.
    + injection Hs as <-. split; cbn; auto. intros H. right. right; right; right; left. by split.
  - destruct s as [pe ru wa pa c r ca ch g nx]; cbn in *. destruct c; try done. injection Hs as <-.
    assert (ru = false) as -> by (destruct ru; [by pose proof (proj1 Hrun eq_refl)|done]).
    split; cbn; auto. { destruct pa; done. }
    intros _. destruct pa; [by left|]. right. right; right; left. by right; left.
  - destruct s as [pe ru wa pa c r ca ch g nx]; cbn in *. destruct c; try done. injection Hs as <-.
    split; cbn; [done|by right| |done]. intros _. right. right; right; left. by right; right.
  - destruct s as [pe ru wa pa c r ca ch g nx]; cbn in *. destruct c; try done. injection Hs as <-.
    split; cbn; auto; done.
  - destruct s as [pe ru wa pa c r ca ch g nx]; cbn in *. destruct c; try done. injection Hs as <-.
    assert (ru = false) as -> by (destruct ru; [by pose proof (proj1 Hrun eq_refl)|done]).
    split; cbn; auto. { destruct r; done. }
    intros H. destruct (Hp H) as [?|Hb]; [by left|]. right. unfold busy in *; cbn in *.
    destruct Hb as [H1|[H1|[[H1|[H1|H1]]|[[_ H1]|(j & q & Hj & Hq)]]]]; try done; [by left|by right; left| |].
    + right; right; right; left. by rewrite H1.
    + right; right; right; right. by exists j, q.
  - destruct s as [pe ru wa pa c r ca ch g nx]; cbn in *. destruct c; try done. injection Hs as <-.
    assert (ru = false) as -> by (destruct ru; [by pose proof (proj1 Hrun eq_refl)|done]).
    split; cbn; auto; [done|]. intros _. right. left. cbn. lia.
  - destruct s as [pe ru wa pa c r ca ch g nx]; cbn in *. destruct ch as [|n]; [done|]. injection Hs as <-.
    destruct pe; split; cbn; auto; done.
Qed.
Lemma wi_steps s ls s' : steps fruitful s ls s' → WI s → WI s'.
Proof. induction 1; [done|]. intros. apply IHsteps. by eapply wi_step. Qed.

Lemma none_held ls s : steps fruitful w_new ls s → at_rest s → paused s = false → waiting s = [].
Proof.
  intros H (Hc & Hcb & Hch & Hg) Hpa. destruct (wi_steps _ _ _ H wi_new) as [Hrun Hw Hp Hf].
  destruct (waiting s) as [|x w]; [done|].
  destruct (Hw ltac:(done)) as [H1|H1].
  - destruct (Hp H1) as [H2|Hb]; [congruence|].
    destruct Hb as [H2|[H2|[[H2|[H2|H2]]|[[H2 _]|(j & q & Hj & Hq)]]]]; try congruence.
    rewrite Forall_lookup in Hg. by rewrite (Hg _ _ Hj) in Hq.
  - apply Hrun in H1. congruence.
Qed.

(** *** Coming to rest *)
Definition weight (p : pc) : nat :=
  match p with
  | QDeps n => 9 * n + 45 | QUpdates n => 9 * n + 36 | QEnq => 27 | QMany => 18 | QFail => 9
  | KNext n => 36 * n + 9 | KKick n => 36 * n + 36 | KFail n => 36 * n + 18 | QDone => 0
  end.
Fixpoint total (g : list pc) : nat := match g with [] => 0 | p :: g => weight p + total g end.
Definition cbweight (c : cbphase) : nat :=
  match c with CIdle => 0 | CSpawned => 6 | CChecked => 5 | CBody => 4 | CReturned => 3 | CPausing => 2 end.
Definition measure (s : wstate) : nat :=
  total (gos s) + 7 * callers s + changing s + cbweight (cb s) + (if recall s then 6 else 0).
Lemma total_insert g i p q : g !! i = Some p → total (<[i := q]> g) + weight p = total g + weight q.
Proof.
  revert i. induction g as [|x g IH]; intros [|i] H; cbn in *; try done.
  - injection H as ->. lia.
  - pose proof (IH i H) as IH'. unfold insert in *. lia.
Qed.
(** A goroutine in the pause before a recall has the recall flag. *)
Definition PI (s : wstate) : Prop := cb s = CPausing → recall s = true.
Lemma pi_step s l s' : PI s → wstep s l = Some s' → PI s'.
Proof.
  unfold PI. intros Hp Hs. destruct s as [pe ru wa pa c r ca ch g nx]. destruct l; cbn in *.
  - injection Hs as <-. destruct (pe || ru); cbn; auto.
  - by injection Hs as <-.
  - by injection Hs as <-.
  - destruct (g !! i) as [p|]; cbn in Hs; [|done]. destruct o as [a b e].
    destruct p as [n|[|n]| | | |[|n]|n|n|]; cbn in Hs; try done; try (by injection Hs as <-); destruct e; cbn in Hs; try (by injection Hs as <-); destruct a; by injection Hs as <-.
  - by injection Hs as <-.
  - by injection Hs as <-.
  - destruct pa; by injection Hs as <-.
  - destruct ca; [done|]. case_decide; injection Hs as <-; done.
  - destruct c; try done. injection Hs as <-. by destruct pa.
  - destruct c; try done. by injection Hs as <-.
  - destruct c; try done. by injection Hs as <-.
  - destruct c; try done. injection Hs as <-. by destruct r.
  - destruct c; try done. by injection Hs as <-.
  - destruct ch; [done|]. injection Hs as <-. by destruct pe.
Qed.
Lemma measure_step s l s' : PI s → internal l → wstep s l = Some s' → measure s' < measure s.
Proof.
  unfold PI. intros Hp Hi Hs. destruct s as [pe ru wa pa c r ca ch g nx]. destruct l; cbn in Hi; try done; cbn in *; unfold measure.
  - destruct (g !! i) as [p|] eqn:Hg; cbn in Hs; [|done]. pose proof (λ q, total_insert g i p q Hg) as Ht. destruct o as [a b e].
    destruct p as [n|[|n]| | | |[|n]|n|n|]; cbn in Hs; try done;
    try (injection Hs as <-; cbn; match goal with |- context [<[i := ?q]> g] => specialize (Ht q) end; cbn in Ht; lia);
    destruct e; cbn in Hs;
    try (injection Hs as <-; cbn; match goal with |- context [<[i := ?q]> g] => specialize (Ht q) end; cbn in Ht; lia);
    destruct a; cbn in Hs;
    try (injection Hs as <-; cbn; match goal with |- context [<[i := ?q]> g] => specialize (Ht q) end; cbn in Ht; destruct b; lia).
  - destruct ca as [|n]; [done|]. case_decide as Hc.
    + injection Hs as <-. subst c. cbn. lia.
    + injection Hs as <-. cbn. destruct r; lia.
  - destruct c; try done. injection Hs as <-. destruct pa; cbn; lia.
  - destruct c; try done. injection Hs as <-. cbn. lia.
  - destruct c; try done. injection Hs as <-. cbn. lia.
  - destruct c; try done. injection Hs as <-. destruct r; cbn; lia.
  - destruct c; try done. injection Hs as <-. cbn in *. rewrite (Hp eq_refl). lia.
  - destruct ch; [done|]. injection Hs as <-. destruct pe; cbn; lia.
Qed.
Lemma not_at_rest s : ¬ at_rest s → ∃ l, internal l ∧ fruitful s l ∧ is_Some (wstep s l).
Proof.
  intros Hn. destruct (callers s) as [|n] eqn:Hc.
  2: { exists WEnter. split; [done|]. split; [done|]. cbn. rewrite Hc. case_decide; by eexists. }
  destruct (changing s) as [|n] eqn:Hch.
  2: { exists WChanged. split; [done|]. split; [done|]. cbn. rewrite Hch. by eexists. }
  destruct (cb s) eqn:Hcb.
  2: { exists WCheck. split; [done|]. split; [done|]. cbn. rewrite Hcb. by eexists. }
  2: { exists WBegin. split; [done|]. split; [done|]. cbn. rewrite Hcb. by eexists. }
  2: { exists WEnd. split; [done|]. split; [done|]. cbn. rewrite Hcb. by eexists. }
  2: { exists WDecide. split; [done|]. split; [done|]. cbn. rewrite Hcb. by eexists. }
  2: { exists WRecall. split; [done|]. split; [done|]. cbn. rewrite Hcb. by eexists. }
  destruct (decide (Forall (λ p, (match p with QDone => true | _ => false end) = true) (gos s))) as [Hg|Hg].
  - destruct Hn. repeat split; try done. eapply Forall_impl; [exact Hg|]. intros []; done.
  - apply not_Forall_Exists in Hg; [|intros ?; apply _]. apply Exists_exists in Hg as (p & Hp & Hne).
    apply elem_of_list_lookup in Hp as [i Hi].
    exists (WGo i (Outcome true false false)). split; [done|]. split; [by split; [|left]|]. cbn. rewrite Hi. cbn.
    destruct p as [n|[|n]| | | |[|n]|n|n|]; cbn; by eexists + destruct Hne.
Qed.
Lemma wrun_pi s ls s' : wrun s ls = Some s' → PI s → PI s'.
Proof.
  revert s. induction ls as [|l ls IH]; cbn; intros s H Hp; [by injection H as <-|].
  destruct (wstep s l) eqn:E; cbn in H; [|done]. eapply IH; [done|]. by eapply pi_step.
Qed.
Lemma wrun_short s ls s' : PI s → Forall internal ls → wrun s ls = Some s' → length ls + measure s' ≤ measure s.
Proof.
  revert s. induction ls as [|l ls IH]; cbn; intros s Hp Hi H; [injection H as <-; lia|].
  apply Forall_cons in Hi as [Hi1 Hi2].
  destruct (wstep s l) as [s1|] eqn:E; cbn in H; [|done].
  pose proof (measure_step _ _ _ Hp Hi1 E). pose proof (IH s1 ltac:(by eapply pi_step) Hi2 H). lia.
Qed.
Lemma comes_to_rest ls s : wrun w_new ls = Some s →
  ∃ n, ∀ ls' s', Forall internal ls' → wrun s ls' = Some s' →
    length ls' ≤ n ∧ (at_rest s' ∨ ∃ l, internal l ∧ is_Some (wstep s' l)).
Proof.
  intros H. exists (measure s). intros ls' s' Hi H'.
  assert (PI s) as Hp by (eapply wrun_pi; [done|by intros ?]).
  pose proof (wrun_short _ _ _ Hp Hi H'). split; [lia|].
  destruct (decide (callers s' = 0 ∧ cb s' = CIdle ∧ changing s' = 0 ∧ Forall (λ p, (match p with QDone => true | _ => false end) = true) (gos s'))) as [(?&?&?&Hg)|Hn].
  - left. repeat split; try done. eapply Forall_impl; [exact Hg|]. intros []; done.
  - right. destruct (not_at_rest s') as (l & ? & ? & ?); [|by exists l].
    intros (?&?&?&Hg). apply Hn. repeat split; try done. eapply Forall_impl; [exact Hg|]. by intros ? ->.
Qed.
Lemma steps_wrun P s ls s' : steps P s ls s' → wrun s ls = Some s'.
Proof. induction 1 as [|s l s1 ls s2 _ H _ IH]; cbn; [done|]. by rewrite H. Qed.
Lemma steps_app P s ls s' ls' s'' : steps P s ls s' → steps P s' ls' s'' → steps P s (ls ++ ls') s''.
Proof. induction 1; cbn; [done|]. intros. econstructor; eauto. Qed.
Lemma internal_paused s l s' : internal l → wstep s l = Some s' → paused s' = paused s.
Proof.
  intros Hi Hs. destruct s as [pe ru wa pa c r ca ch g nx]. destruct l; cbn in Hi; try done; cbn in *.
  - destruct (g !! i) as [p|]; cbn in Hs; [|done]. destruct o as [a b e].
    destruct p as [n|[|n]| | | |[|n]|n|n|]; cbn in Hs; try done; try (by injection Hs as <-); destruct e; cbn in Hs; try (by injection Hs as <-); destruct a; by injection Hs as <-.
  - destruct ca; [done|]. case_decide; by injection Hs as <-.
  - destruct c; try done. by injection Hs as <-.
  - destruct c; try done. by injection Hs as <-.
  - destruct c; try done. by injection Hs as <-.
  - destruct c; try done. by injection Hs as <-.
  - destruct c; try done. by injection Hs as <-.
  - destruct ch; [done|]. injection Hs as <-. by destruct pe.
Qed.
Lemma all_let_go ls s : steps fruitful w_new ls s → paused s = false →
  ∃ n, ∀ ls' s', Forall internal ls' → steps fruitful s ls' s' →
    length ls' ≤ n ∧ (waiting s' = [] ∨ ∃ l, internal l ∧ fruitful s' l ∧ is_Some (wstep s' l)).
Proof.
  intros H Hpa. exists (measure s). intros ls' s' Hi H'.
  assert (PI s) as Hp by (eapply wrun_pi; [by eapply steps_wrun|by intros ?]).
  pose proof (wrun_short _ _ _ Hp Hi (steps_wrun _ _ _ _ H')). split; [lia|].
  assert (paused s' = false) as Hpa'.
  { clear -H' Hi Hpa. induction H' as [|s l s1 ls s2 _ H _ IH]; [done|].
    apply Forall_cons in Hi as [Hi1 Hi2]. apply IH; [|done]. by rewrite (internal_paused _ _ _ Hi1 H). }
  destruct (decide (callers s' = 0 ∧ cb s' = CIdle ∧ changing s' = 0 ∧ Forall (λ p, (match p with QDone => true | _ => false end) = true) (gos s'))) as [(?&?&?&Hg)|Hn].
  - left. eapply none_held; [by eapply steps_app| |done].
    repeat split; try done. eapply Forall_impl; [exact Hg|]. intros []; done.
  - right. apply not_at_rest.
    intros (?&?&?&Hg). apply Hn. repeat split; try done. eapply Forall_impl; [exact Hg|]. by intros ? ->.
Qed.

(** ** which requests are held *)
Definition HI (b : bool) (s : wstate) : Prop := racPending s = b ∧ racRunning s = bool_decide (cb s = CBody).
Lemma hi_step b s l s' : HI b s → wstep s l = Some s' → HI (default b (announces s l)) s'.
Proof.
  intros [H1 H2] H. destruct s as [rp rr w pd c rc cl ch g nx]. unfold HI in *. cbn in H1, H2. subst rp rr.
  destruct l; cbn [wstep announces default] in *; cbn [gos cb callers changing paused recall racPending racRunning] in *.
  - injection H as <-. by destruct (b || _).
  - by injection H as <-.
  - by injection H as <-.
  - destruct (g !! i) as [p|]; cbn [mbind option_bind] in H; [|done].
    destruct p as [n|[|n]| | | |[|n]|n|n| ]; cbn [go mbind option_bind] in H; try done;
      try (destruct (o_err o); cbn [mbind option_bind] in H); try (destruct (o_ready o)); by injection H as <-.
  - by injection H as <-.
  - by injection H as <-.
  - destruct pd; by injection H as <-.
  - destruct cl; [done|]. destruct (decide (c = CIdle)) as [->|]; by injection H as <-.
  - destruct c; try done. injection H as <-. by destruct pd.
  - destruct c; try done. by injection H as <-.
  - destruct c; try done. by injection H as <-.
  - destruct c; try done. injection H as <-. by destruct rc.
  - destruct c; try done. by injection H as <-.
  - destruct ch; [done|]. injection H as <-. by destruct b.
Qed.
Lemma hi_run ls : ∀ b s s', HI b s → wrun s ls = Some s' → HI (announced b s ls) s'.
Proof.
  induction ls as [|l ls IH]; intros b s s' HH H; cbn [wrun announced] in *; [by injection H as <-|].
  destruct (wstep s l) as [s1|] eqn:E; [|done]. cbn [mbind option_bind] in H. eapply IH; [|done]. by eapply hi_step.
Qed.
Lemma held ls s : wrun w_new ls = Some s → ∃ s', wstep s WReserve = Some s' ∧ next s' = S (next s) ∧
  waiting s' = if announced false w_new ls || bool_decide (cb s = CBody) then waiting s ++ [next s] else waiting s.
Proof.
  intros H. assert (HI false w_new) as H0 by done. destruct (hi_run _ _ _ _ H0 H) as [H1 H2].
  cbn [wstep]. rewrite H1, H2. eexists. split; [done|]. by destruct (_ || _).
Qed.
Lemma kept s l s' : wstep s l = Some s' → l ≠ WEnd → l ≠ WChanged → waiting s `prefix_of` waiting s'.
Proof.
  intros H H1 H2. destruct s as [rp rr w pd c rc cl ch g nx].
  destruct l; try done; cbn [wstep] in H; cbn [gos cb callers changing paused recall racPending racRunning] in H.
  - injection H as <-. destruct (rp || rr); cbn; [by eexists|done].
  - by injection H as <-.
  - by injection H as <-.
  - destruct (g !! i) as [p|]; cbn [mbind option_bind] in H; [|done].
    destruct p as [n|[|n]| | | |[|n]|n|n| ]; cbn [go mbind option_bind] in H; try done;
      try (destruct (o_err o); cbn [mbind option_bind] in H); try (destruct (o_ready o)); by injection H as <-.
  - by injection H as <-.
  - by injection H as <-.
  - destruct pd; by injection H as <-.
  - destruct cl; [done|]. destruct (decide (c = CIdle)) as [->|]; by injection H as <-.
  - destruct c; try done. injection H as <-. by destruct pd.
  - destruct c; try done. by injection H as <-.
  - destruct c; try done. injection H as <-. by destruct rc.
  - destruct c; try done. by injection H as <-.
Qed.
