(** Proofs for ExecProps, continued. *)
From Coq Require Import ZArith Lia.
From stdpp Require Import base option list.
From RecordUpdate Require Import RecordSet.
From Verif Require Import ExecModel ExecSpec ExecProofs ExecHist ExecShape.
Import RecordSetNotations.
Open Scope Z_scope.

Section fixed.
Context (cf : econf).
Lemma run_prefix s ls1 ls2 s2 : xrun cf s (ls1 ++ ls2) = Some s2 → ∃ s1, xrun cf s ls1 = Some s1 ∧ xrun cf s1 ls2 = Some s2.
Proof.
  revert s. induction ls1 as [|l ls1 IH]; intros s H; [by exists s|]. cbn [xrun app] in *. destruct (xstep cf s l) as [s'|]; [|done]. cbn [mbind option_bind] in *. by apply IH.
Qed.
Lemma run_app s ls1 s1 ls2 : xrun cf s ls1 = Some s1 → xrun cf s (ls1 ++ ls2) = xrun cf s1 ls2.
Proof.
  revert s. induction ls1 as [|l ls1 IH]; intros s H; [by injection H as ->|]. cbn [xrun app] in *. destruct (xstep cf s l) as [s'|]; [|done]. cbn [mbind option_bind] in *. by apply IH.
Qed.

(** ** C61 *)
Lemma reports_right ls s r d : xrun cf x_new ls = Some s → EReport r d ∈ x_log s → truthful cf ls r ∧ ∀ st, XWait st ∈ ls → fitting cf ls st r.
Proof.
  intros Hr Hin. destruct (hist _ _ _ Hr) as [_ _ _ _ _ H6 H7]. destruct (x_main s); try (exfalso; by eapply H7).
  - by rewrite (H7 _ _ Hin).
  - destruct H7 as (r' & H & H7). by rewrite (H7 _ _ Hin).
Qed.
Lemma reports_same ls s r d r' d' : xrun cf x_new ls = Some s → EReport r d ∈ x_log s → EReport r' d' ∈ x_log s → r = r'.
Proof.
  intros Hr Hin Hin'. destruct (hist _ _ _ Hr) as [_ _ _ _ _ H6 H7]. destruct (x_main s); try (exfalso; by eapply H7).
  - by rewrite (H7 _ _ Hin), (H7 _ _ Hin').
  - destruct H7 as (r0 & H & H7). by rewrite (H7 _ _ Hin), (H7 _ _ Hin').
Qed.
Lemma waited_once ls s st st' : xrun cf x_new ls = Some s → XWait st ∈ ls → XWait st' ∈ ls → st = st'.
Proof.
  revert ls s. apply (xrun_ind cf (λ ls s, XWait st ∈ ls → XWait st' ∈ ls → st = st')); [by intros ?%elem_of_nil|].
  intros ls l s s' Hr IH Hs H1 H2. apply elem_of_app in H1 as [H1|H1%elem_of_list_singleton]; apply elem_of_app in H2 as [H2|H2%elem_of_list_singleton]; subst; try tauto.
  - cbn in Hs. destruct (x_main s) eqn:Em; try done. pose proof (h_wait _ _ _ (hist _ _ _ Hr)) as Hw. rewrite Em in Hw. by destruct (Hw st).
  - cbn in Hs. destruct (x_main s) eqn:Em; try done. pose proof (h_wait _ _ _ (hist _ _ _ Hr)) as Hw. rewrite Em in Hw. by destruct (Hw st').
  - congruence.
Qed.

(** ** C62 *)
Definition over (s : exec) : Prop := finishing s ∨ ∃ r e p, x_main s = MReport r e p.
Lemma over_own s l s' : over s → own l → xstep cf s l = Some s' → over s'.
Proof.
  intros Ho Hl H. destruct s as [m t c sm inst kd sc st pk rm rt rd sg kc rn er lg]. unfold over, finishing in *. cbn in Ho.
  assert (Hm : match m with MStop _ | MFin _ | MLock _ | MKillDone _ | MEnd _ | MReport _ _ _ => True | _ => False end) by (destruct m; try done; naive_solver). clear Ho.
  assert (Hs : match x_main s' with MStop _ | MFin _ | MLock _ | MKillDone _ | MEnd _ | MReport _ _ _ => True | _ => False end).
  { destruct l as [ok did|st0|up w|r did|r| | | |ns mm| |late|]; cbn in *; try done.
    - destruct m; try done; try (case_decide; [|done]); try (destruct c; try done); try (destruct kd; try done); injection H as <-; cbn; try done; by destruct kc.
    - destruct t; try done; try (case_decide; [|done]); try (destruct sm; [done|]); injection H as <-; done.
    - destruct c, sc; try done. by injection H as <-.
    - destruct c; try done; try (destruct sm; [done|]); try (destruct t; try done); by injection H as <-. }
  destruct (x_main s'); try done; eauto.
Qed.
Lemma own_over s n s' : own_steps cf s n s' → over s → over s'.
Proof. induction 1; eauto using over_own. Qed.
Lemma own_run s n s' ls : own_steps cf s n s' → xrun cf x_new ls = Some s → ∃ ls', xrun cf x_new ls' = Some s'.
Proof.
  intros H. revert ls. induction H as [s|s l s' n s'' Ho Hs H IH]; intros ls Hr; [by exists ls|]. apply (IH (ls ++ [l])). apply xrun_snoc. by exists s.
Qed.
Lemma ends_in_report ls s n s' : xrun cf x_new ls = Some s → finishing s → own_steps cf s n s' →
  (n ≤ 16)%nat ∧ ((∀ l s'', own l → xstep cf s' l ≠ Some s'') → ∃ r e p, x_main s' = MReport r e p).
Proof.
  intros Hr Hf Hn. split.
  - pose proof (own_bound _ _ _ _ Hn). assert (weight s ≤ 16)%nat; [|lia]. unfold weight. destruct (x_main s), (x_touch s), (x_check s); cbn; lia.
  - intros Hend. destruct (own_over _ _ _ Hn) as [Hf'|?]; [by left| |done]. destruct (own_run _ _ _ _ Hn Hr) as [ls' Hr'].
    destruct (xstep_progress cf s') as (l & s'' & Ho & Hs); [by eapply ctl|done|]. by destruct (Hend l s'').
Qed.
Lemma touched_while ls s : xrun cf x_new ls = Some s → to_be_touched s → XTouch TouchKill ∉ ls → x_touch s = TLoop.
Proof.
  revert ls s. apply (xrun_ind cf (λ ls s, to_be_touched s → XTouch TouchKill ∉ ls → x_touch s = TLoop)); unfold to_be_touched.
  - cbn. intros H. repeat (apply elem_of_cons in H as [H|H]; [done|]). by apply elem_of_nil in H.
  - intros ls l s s' Hr IH Hs Hb Hn. assert (Hn' : XTouch TouchKill ∉ ls) by (intros ?; by apply Hn, in_snoc).
    pose proof (ctl _ _ _ Hr) as [_ _ _ _ _ _ A7 _ _ A9].
    destruct s as [m t c sm inst kd sc st pk rm rt rd sg kc rn er lg]. destruct l as [ok did|st0|up w|r did|r| | | |ns mm| |late|]; cbn in *.
    + destruct m as [k| | | | | | | |]; try done. destruct ok; [|destruct k; try done; by injection Hs as <-].
      destruct k; injection Hs as <-; cbn in *; try done; try (apply IH; [tmem|done]); try (exfalso; clear -Hb; tin).
    + destruct m; try done. injection Hs as <-. by apply IH.
    + destruct m; try done; try (case_decide; [|done]); try (destruct c; try done); try (destruct kd; try done); injection Hs as <-; cbn in *; try done; by apply IH.
    + destruct m; try done. destruct r; injection Hs as <-; by destruct t.
    + destruct t; try done. destruct r; injection Hs as <-; cbn in *; try done. destruct Hn. apply in_last.
    + destruct t, st; try done. injection Hs as <-. cbn in *. destruct m; try done; cbn in A7; lia.
    + specialize (IH ltac:(destruct t; try done; try (case_decide; [|done]); try (destruct sm; [done|]); by injection Hs as <-) Hn'). by subst t.
    + destruct c; try done. injection Hs as <-. by apply IH.
    + destruct c; try done. destruct ns; [injection Hs as <-; by apply IH|]. destruct sm; [done|]. destruct mm; [|injection Hs as <-; by apply IH].
      destruct (_ <? _); [|injection Hs as <-; by apply IH]. destruct (_ <? _); [|injection Hs as <-; by apply IH]. destruct (kill_for_memory _ _); injection Hs as <-; by apply IH.
    + destruct c, sc; try done. injection Hs as <-. by apply IH.
    + destruct c; try done; try (destruct sm; [done|]); try (injection Hs as <-; by apply IH). destruct t; try done; injection Hs as <-; by apply IH.
    + destruct m; try done. injection Hs as <-. by apply IH.
Qed.
Lemma running_when ls s : xrun cf x_new ls = Some s → x_running s = true → x_main s = MSetup SStarted ∨ x_main s = MRun.
Proof.
  revert ls s. apply (xrun_ind cf (λ ls s, x_running s = true → x_main s = MSetup SStarted ∨ x_main s = MRun)); [done|].
  intros ls l s s' Hr IH Hs Hb. destruct s as [m t c sm inst kd sc st pk rm rt rd sg kc rn er lg]. destruct l as [ok did|st0|up w|r did|r| | | |ns mm| |late|]; cbn in *.
  - destruct m as [k| | | | | | | |]; try done. destruct ok; [|destruct k; try done; injection Hs as <-; cbn in *; try done; by destruct (IH Hb)].
    destruct k; injection Hs as <-; cbn in *; try (by destruct (IH Hb)); auto.
  - destruct m; try done. by injection Hs as <-.
  - destruct m; try done; try (case_decide; [|done]); try (destruct c; try done); try (destruct kd; try done); injection Hs as <-; cbn in *; by destruct (IH Hb).
  - destruct m; try done. destruct r; injection Hs as <-; destruct t; by destruct (IH Hb).
  - destruct t; try done. destruct r; injection Hs as <-; by apply IH.
  - destruct t, st; try done. injection Hs as <-. by apply IH.
  - destruct t; try done; try (case_decide; [|done]); try (destruct sm; [done|]); injection Hs as <-; by apply IH.
  - destruct c; try done. injection Hs as <-. by apply IH.
  - destruct c; try done. destruct ns; [injection Hs as <-; by apply IH|]. destruct sm; [done|]. destruct mm; [|injection Hs as <-; by apply IH].
    destruct (_ <? _); [|injection Hs as <-; by apply IH]. destruct (_ <? _); [|injection Hs as <-; by apply IH]. destruct (kill_for_memory _ _); injection Hs as <-; by apply IH.
  - destruct c, sc; try done. injection Hs as <-. by apply IH.
  - destruct c; try done; try (destruct sm; [done|]); try (injection Hs as <-; by apply IH). destruct t; try done; injection Hs as <-; by apply IH.
  - destruct m; try done. injection Hs as <-. by apply IH.
Qed.
Lemma seen_in e s : kept e → e ∈ seen s ↔ e ∈ x_log s.
Proof. intros H. rewrite elem_of_list_filter. tauto. Qed.
Lemma told ls s e : xrun cf x_new ls = Some s → x_main s = MRet e → (∃ r d, EReport r d ∈ x_log s) ∨ (∃ d, XReply GaveUp d ∈ ls) ∨
  fails_at cf ls SPrepare ∨ fails_at cf ls SLinks ∨ fails_at cf ls SStarted.
Proof.
  intros Hr Em. pose proof (s_shape _ _ _ (sh _ _ _ Hr)) as H. rewrite Em in H. destruct H as [(k & d & Hf & -> & H)|(b & r & p & t & e0 & _ & _ & _ & H)].
  - destruct k; cbn in H; eauto; try (left; match type of H with _ = ?l => match l with context [EReport ?r ?d] => exists r, d end end; apply seen_in; [done|]; rewrite H; tmem).
    destruct Hf as (ls1 & d' & ls2 & s1 & -> & H1 & H2). apply run_prefix in Hr as (s1' & Hr1 & Hr2). replace s1' with s1 in Hr2 by congruence.
    cbn [xrun] in Hr2. cbn in Hr2. rewrite H2 in Hr2. done.
  - destruct H as [[H _]|[[H _]|(_ & _ & ?)]]; [left; exists r, true|left; exists r, false|by auto]; apply seen_in; try done; rewrite H; apply elem_of_app; right; apply elem_of_app; right; left.
Qed.
Lemma unmounted ls s e : xrun cf x_new ls = Some s → x_main s = MRet e → EMount ∈ x_log s → EUnmount ∈ x_log s ∨
  fails_at cf ls SJson ∨ fails_at cf ls SDocker ∨ fails_at cf ls SContainers.
Proof.
  intros Hr Em Hm. apply (seen_in EMount) in Hm; [|done]. pose proof (s_shape _ _ _ (sh _ _ _ Hr)) as H. rewrite Em in H. destruct H as [(k & d & Hf & -> & H)|(b & r & p & t & e0 & _ & _ & _ & H)].
  - rewrite H in Hm. destruct k; cbn in *; eauto; try (left; apply seen_in; [done|]; rewrite H; tmem); exfalso; clear -Hm; first [by apply elem_of_nil in Hm|tin].
  - left. apply seen_in; [done|]. destruct H as [[H _]|[[H _]|[H _]]]; rewrite H; apply elem_of_app; left; unfold ran; tmem.
Qed.

(** ** C63 *)
Ltac xcases s l H :=
  destruct s as [m t c sm inst kd sc st pk rm rt rd sg kc rn er lg]; destruct l as [ok did|st0|up w|r did|r| | | |ns mm| |late|]; cbn in *;
  [ destruct m as [k| | | | | | | |]; try done; destruct ok, k; try done; injection H as <-
  | destruct m; try done; injection H as <-
  | destruct m as [| |st0|st0|st0|st0|st0| |]; try done; try (case_decide; [|done]); try (destruct c; try done); try (destruct kd; try done); injection H as <-
  | destruct m as [| | | | | | |rep e pb|]; try done; destruct r; injection H as <-
  | destruct t; try done; destruct r; injection H as <-
  | destruct t, st; try done; injection H as <-
  | destruct t; try done; try (case_decide; [|done]); try (destruct sm; [done|]); injection H as <-
  | destruct c; try done; injection H as <-
  | destruct c; try done; destruct ns; [injection H as <-|destruct sm; [done|]; destruct mm as [mm|]; [destruct (pk <? mm) eqn:Hpk; [destruct (e_ram cf <? mm) eqn:Hmm;
      [destruct (kill_for_memory cf mm); injection H as <-|injection H as <-]|injection H as <-]|injection H as <-]]
  | destruct c, sc; try done; injection H as <-
  | destruct c; try done; try (destruct sm; [done|]); try (destruct t; try done); injection H as <-
  | destruct m; try done; injection H as <- ]; cbn in *.
Lemma log_grows s l s' : xstep cf s l = Some s' → ∃ es, x_log s' = x_log s ++ es.
Proof.
  intros H. destruct s as [m t c sm inst kd sc st pk rm rt rd sg kc rn er lg]. destruct l as [ok did|st0|up w|r did|r| | | |ns mm| |late|]; cbn in *.
  - destruct m as [k| | | | | | | |]; try done. destruct ok, k; try done; injection H as <-; cbn; rewrite <-?app_assoc; eexists; try done; by rewrite app_nil_r.
  - destruct m; try done. injection H as <-. exists []. cbn. by rewrite app_nil_r.
  - destruct m; try done; try (case_decide; [|done]); try (destruct c; try done); try (destruct kd; try done); injection H as <-; cbn; rewrite <-?app_assoc; eexists; try done; by rewrite app_nil_r.
  - destruct m; try done. destruct r; injection H as <-; destruct t; cbn; rewrite <-?app_assoc; eexists; done.
  - destruct t; try done. destruct r; injection H as <-; cbn; eexists; try done; by rewrite app_nil_r.
  - destruct t, st; try done. injection H as <-. exists []. cbn. by rewrite app_nil_r.
  - destruct t; try done; try (case_decide; [|done]); try (destruct sm; [done|]); injection H as <-; cbn; eexists; try done; by rewrite app_nil_r.
  - destruct c; try done. injection H as <-. by eexists.
  - destruct c; try done. destruct ns; [injection H as <-; by eexists|]. destruct sm; [done|]. destruct mm; [|injection H as <-; exists []; cbn; by rewrite app_nil_r].
    destruct (_ <? _); [|injection H as <-; exists []; cbn; by rewrite app_nil_r]. destruct (_ <? _); [|injection H as <-; exists []; cbn; by rewrite app_nil_r].
    destruct (kill_for_memory _ _); injection H as <-; cbn; eexists; try done; by rewrite app_nil_r.
  - destruct c, sc; try done. injection H as <-. exists []. cbn. by rewrite app_nil_r.
  - destruct c; try done; try (destruct sm; [done|]); try (injection H as <-; exists []; cbn; by rewrite app_nil_r). destruct t; try done; injection H as <-; exists []; cbn; by rewrite app_nil_r.
  - destruct m; try done. injection H as <-. exists []. cbn. by rewrite app_nil_r.
Qed.
Lemma touch_keeps s l s' : Ctl s → xstep cf s l = Some s' → l ≠ XT → x_touch s ≠ TLoop → x_touch s ≠ TNone → x_touch s' = x_touch s.
Proof. intros HC H Hl H1 H2. destruct HC as [_ _ _ _ _ _ _ _ _ A9]. xcases s l H; done. Qed.
Lemma inst_keeps s l s' : xstep cf s l = Some s' → x_installed s = true → x_installed s' = true.
Proof. intros H H1. xcases s l H; done. Qed.
Definition kill_going (n : nat) (s : exec) : Prop :=
  x_installed s = true ∧ ((x_touch s = TKill ∨ x_touch s = TNew ∨ x_touch s = TNew2) ∨
    (x_touch s = TNew3 ∨ x_touch s = TStopC ∨ x_touch s = TEnd) ∧ EKill ∈ drop n (x_log s)).
Lemma kill_going_step n s l s' : Ctl s → (n ≤ length (x_log s))%nat → kill_going n s → xstep cf s l = Some s' → kill_going n s'.
Proof.
  intros HC Hn [Hi Hk] H. split; [by eapply inst_keeps|]. destruct (log_grows _ _ _ H) as [es Hes].
  assert (Hd : EKill ∈ drop n (x_log s) → EKill ∈ drop n (x_log s')). { rewrite Hes, drop_app_le by done. intros. apply elem_of_app. by left. }
  assert (Hcase : l = XT ∨ l ≠ XT) by (destruct l; auto; by right). destruct Hcase as [->|Hl].
  - destruct s as [m t c sm inst kd sc st pk rm rt rd sg kc rn er lg]. cbn in *. subst inst. destruct t; try done; try (case_decide; [|done]); try (destruct sm; [done|]); injection H as <-; cbn in *; clear HC Hes;
      destruct Hk as [[?|[?|?]]|[[?|[?|?]] ?]]; try done; auto 10.
    right. split; [tauto|]. rewrite drop_app_le by done. apply elem_of_app. right. left.
  - rewrite (touch_keeps _ _ _ HC H Hl) by (intros E; destruct Hk as [[?|[?|?]]|[[?|[?|?]] _]]; congruence). tauto.
Qed.
Lemma kill_done ls s s1 ls2 s2 : xrun cf x_new ls = Some s → x_installed s = true → xstep cf s (XTouch TouchKill) = Some s1 → xrun cf s1 ls2 = Some s2 →
  x_touch s2 = TEnd → EKill ∈ drop (length (x_log s)) (x_log s2).
Proof.
  intros Hr Hi H1 H2 Ht. assert (Hs1 : x_log s1 = x_log s ∧ kill_going (length (x_log s)) s1).
  { destruct s as [m t c sm inst kd sc st pk rm rt rd sg kc rn er lg]. cbn in *. destruct t; try done. injection H1 as <-. split; [done|]. split; cbn; auto. }
  destruct Hs1 as [Hlog Hg]. assert (Hn : (length (x_log s) ≤ length (x_log s1))%nat) by (by rewrite Hlog).
  assert (Hr1 : xrun cf x_new (ls ++ [XTouch TouchKill]) = Some s1) by (apply xrun_snoc; eauto).
  assert (HG : kill_going (length (x_log s)) s2).
  { generalize (length (x_log s)), Hg, Hn. clear -H2 Hr1. intros n. generalize (ls ++ [XTouch TouchKill]), Hr1. clear -H2. revert s1 H2. induction ls2 as [|l ls2 IH]; intros s1 H2 ls Hr1 Hg Hn; [by injection H2 as <-|].
    cbn [xrun] in H2. destruct (xstep cf s1 l) as [s1'|] eqn:E; [|done]. cbn [mbind option_bind] in H2. apply (IH s1' H2 (ls ++ [l])).
    - apply xrun_snoc. eauto.
    - eapply kill_going_step; try done. by eapply ctl.
    - destruct (log_grows _ _ _ E) as [es ->]. rewrite app_length. lia. }
  destruct HG as [_ [[?|[?|?]]|[_ ?]]]; congruence || done.
Qed.
Lemma kill_comes ls s : xrun cf x_new ls = Some s → x_main s = MRun → x_touch s ∈ [TKill; TOld; TNew; TNew2; TNew3; TStopC] → ∃ s', xstep cf s XT = Some s'.
Proof.
  intros Hr Em Ht. destruct (ctl _ _ _ Hr) as [A1 A2 A3 A4 A5 A6 A7 A10 A8 A9]. rewrite Em in *. cbn in *.
  repeat (apply elem_of_cons in Ht as [Ht|Ht]; [rewrite Ht in *; cbn in *; rewrite ?A3; try (rewrite decide_True by lia); by eexists|]). by apply elem_of_nil in Ht.
Qed.
(** a quiet end *)
Lemma quiet_prefix ls ls' : quiet cf (ls ++ ls') → quiet cf ls.
Proof. intros (H1 & H2 & H3). split_and!; [intros ?; apply H1|intros m ?; eapply H2|intros m ?; apply H3]; apply elem_of_app; by left. Qed.
Lemma kc_keeps s l s' : xstep cf s l = Some s' → x_killCalled s = true → x_killCalled s' = true.
Proof. intros H H1. xcases s l H; done. Qed.
Lemma kc_touch ls s : xrun cf x_new ls = Some s → x_touch s = TNew2 → x_killCalled s = true.
Proof.
  revert ls s. apply (xrun_ind cf (λ ls s, x_touch s = TNew2 → x_killCalled s = true)); [done|].
  intros ls l s s' Hr IH H Hin. clear Hr. xcases s l H; try done; try (by destruct inst); by apply IH.
Qed.
Lemma quiet_kill ls s : xrun cf x_new ls = Some s → quiet cf ls → EKill ∈ x_log s → x_killCalled s = true ∨ ∃ e, x_main s = MRet e.
Proof.
  revert ls s. apply (xrun_ind cf (λ ls s, quiet cf ls → EKill ∈ x_log s → x_killCalled s = true ∨ ∃ e, x_main s = MRet e)); [by intros _ ?%elem_of_nil|].
  intros ls l s s' Hr IH H Hq Hin. specialize (IH (quiet_prefix _ _ Hq)). pose proof (kc_touch _ _ Hr) as Ht.
  destruct Hq as (Q1 & Q2 & Q3). pose proof (in_last ls l) as Hl. clear Hr.
  assert (Hlast : ∀ e lg, e ≠ EKill → EKill ∈ lg ++ [e] → EKill ∈ lg) by (intros e lg He ?; eapply snoc_in; [done|congruence]).
  xcases s l H; try (right; by eexists); try (by left); try (left; by apply Ht); try (by destruct Q1); try (exfalso; by eapply Q2);
    try (exfalso; apply Z.ltb_lt in Hmm; apply Q3 in Hl; clear -Hmm Hl; lia);
    repeat match type of Hin with EKill ∈ _ ++ [_] => apply Hlast in Hin; [|done] end; (destruct (IH Hin) as [?|[e0 E]]; [by left|]); try done; right; by exists e0.
Qed.
Definition killed_end (st : status) (code : Z) (s : exec) : Prop :=
  x_killCalled s = true ∧ match x_main s with
  | MStop st' | MFin st' | MLock st' | MKillDone st' | MEnd st' => st' = st
  | MReport r _ _ => r = Bury (Some code) FKilled ∧ ∀ r d, EReport r d ∈ x_log s → r = Bury (Some code) FKilled
  | MRet _ => ∀ r d, EReport r d ∈ x_log s → r = Bury (Some code) FKilled
  | _ => False
  end.
Lemma killed_end_step stt code ls s l s' : xrun cf x_new ls = Some s → quiet cf ls → stopped_with stt code → killed_end stt code s → xstep cf s l = Some s' → killed_end stt code s'.
Proof.
  intros Hr Hq Hst [Hk Hm] H. split; [by eapply kc_keeps|]. destruct (hist _ _ _ Hr) as [H1 H2 H3 _ _ _ H7]. destruct Hq as (Q1 & Q2 & Q3).
  assert (Fm : x_ranMem s = false). { destruct (x_ranMem s); [|done]. destruct H1 as (m & ? & ?); [done|]. specialize (Q3 m ltac:(done)). lia. }
  assert (Fd : x_ranDisk s = false). { destruct (x_ranDisk s); [|done]. destruct H2 as (m & ?); [by left|]. by destruct (Q2 m). }
  assert (Fs : x_signalled s = false). { destruct (x_signalled s); [|done]. destruct Q1. apply H3. by left. }
  clear H1 H2 H3 Q1 Q2 Q3.
  assert (Hdec : ∀ up w, decide_end cf stt up w s = Bury (Some code) FKilled).
  { intros up w. destruct Hst as [[-> ->]|(-> & Hne & Hni)]; cbn; rewrite Fm, Fd, Fs, Hk; [done|]. rewrite !decide_False by lia. by destruct code. }
  assert (Hlast : ∀ e lg r d, (∀ r d, e ≠ EReport r d) → EReport r d ∈ lg ++ [e] → EReport r d ∈ lg) by (intros e lg r0 d0 He Hin; by eapply no_report).
  assert (Hrep : ∀ lg b r d, (∀ r d, EReport r d ∈ lg → r = Bury (Some code) FKilled) → EReport r d ∈ lg ++ [EReport (Bury (Some code) FKilled) b] → r = Bury (Some code) FKilled).
  { intros lg b r d Ha [Hin|[= -> ->]%elem_of_list_singleton]%elem_of_app; [by eapply Ha|done]. }
  clear Fm Fd Fs Hr Hst.
  xcases s l H; try done; try (by destruct kc).
  all: try (subst stt; split; [exact (Hdec up w)|]; intros r0 d0 Hin; do 2 (apply Hlast in Hin; [|done]); by destruct (H7 r0 d0)).
  all: try (destruct Hm as [-> Hm]; try (split; [done|]); intros r0 d0 Hin; repeat (apply Hlast in Hin; [|done]); first [by eapply Hm|by eapply Hrep]).
  all: destruct m; try done; try (destruct Hm as [-> Hm]; split; [done|]); intros r0 d0 Hin; repeat (apply Hlast in Hin; [|done]); by eapply Hm.
Qed.
Lemma killed_buried ls1 s1 st code ls2 s2 r d : xrun cf x_new ls1 = Some s1 → EKill ∈ x_log s1 → xrun cf s1 (XWait st :: ls2) = Some s2 → quiet cf (ls1 ++ XWait st :: ls2) →
  stopped_with st code → EReport r d ∈ x_log s2 → r = Bury (Some code) FKilled.
Proof.
  intros H1 Hk H2 Hq Hst Hin. cbn [xrun] in H2. destruct (xstep cf s1 (XWait st)) as [s1'|] eqn:E; [|done]. cbn [mbind option_bind] in H2.
  assert (Hkc : x_killCalled s1 = true). { destruct (quiet_kill _ _ H1 (quiet_prefix _ _ Hq) Hk) as [?|[e Em]]; [done|]. cbn in E. by rewrite Em in E. }
  assert (HE : killed_end st code s1'). { split; [by eapply kc_keeps|]. cbn in E. destruct (x_main s1); try done. by injection E as <-. }
  assert (Hr : xrun cf x_new (ls1 ++ [XWait st]) = Some s1') by (apply xrun_snoc; eauto).
  rewrite (app_assoc _ [XWait st] ls2) in Hq. revert Hr Hq H2 HE. generalize (ls1 ++ [XWait st]). clear -Hst Hin. revert s1'. induction ls2 as [|l ls2 IH]; intros s ls Hr Hq H2 HE.
  - injection H2 as <-. destruct HE as [_ HE]. pose proof (h_log _ _ _ (hist _ _ _ Hr)) as H7. destruct (x_main s); try done; try (exfalso; by eapply H7); [|by eapply HE]. destruct HE as [_ HE]. by eapply HE.
  - cbn [xrun] in H2. destruct (xstep cf s l) as [s'|] eqn:E; [|done]. cbn [mbind option_bind] in H2. apply (IH s' (ls ++ [l])); [apply xrun_snoc; eauto|by rewrite <-app_assoc|done|].
    eapply killed_end_step; try done. by eapply quiet_prefix.
Qed.

(** ** Which reason *)
Record Ex (ls : list xlabel) (s : exec) : Prop := {
  e_1 : ∀ m, XTick false (Some m) ∈ ls → m ≤ x_peak s;
  e_2 : e_ram cf < x_peak s → x_ranMem s = true;
  e_3 : disk_full ls → x_ranDisk s = true ∨ x_check s = CDisk;
  e_4 : XSignal ∈ ls → x_signalled s = true ∨ x_check s = CSig;
  e_5 : match x_main s with
        | MReport r _ _ => ∀ f, reason_of r = Some f → given cf ls f
        | MRet _ => ∀ r d f, EReport r d ∈ x_log s → reason_of r = Some f → given cf ls f
        | _ => True
        end }.
Lemma given_mono ls l f : (∀ n m, l ≠ XTick n m) → l ≠ XSignal → given cf ls f → given cf (ls ++ [l]) f.
Proof.
  intros H1 H2. assert (Ht : too_much cf (ls ++ [l]) ↔ too_much cf ls).
  { unfold too_much. split; intros (m & Hin & ?); exists m; (split; [|done]); [eapply snoc_in; [done|by intros <-; eapply H1]|by apply in_snoc]. }
  assert (Hd : disk_full (ls ++ [l]) ↔ disk_full ls).
  { unfold disk_full. split; intros (m & Hin); exists m; [eapply snoc_in; [done|by intros <-; eapply H1]|by apply in_snoc]. }
  assert (Hs : XSignal ∈ ls ++ [l] ↔ XSignal ∈ ls) by (split; [intros Hin; by eapply snoc_in|by apply in_snoc]).
  destruct f; cbn; rewrite ?Ht, ?Hd, ?Hs; done.
Qed.
Lemma given_end ls s st up w f : Hist cf ls s → Ex ls s → x_check s = CEnd → reason_of (decide_end cf st up w s) = Some f → given cf ls f.
Proof.
  intros [H1 H2 H3 _ _ _ _] [E1 E2 E3 E4 _] Ec. rewrite Ec in *.
  assert (Ht : too_much cf ls ↔ x_ranMem s = true). { split; [|by intros ?%H1]. intros (m & Hin & ?). apply E2. specialize (E1 m Hin). lia. }
  assert (Hd : disk_full ls ↔ x_ranDisk s = true). { split; [intros [?|?]%E3; done|intros ?; apply H2; by left]. }
  assert (Hs : XSignal ∈ ls ↔ x_signalled s = true). { split; [intros [?|?]%E4; done|intros ?; apply H3; by left]. }
  clear H1 H2 H3 E1 E2 E3 E4 Ec.
  assert (Hg : ∀ code, reason_of (if decide (code = 126) then Bury (Some code) FCPerm else if decide (code = 127) then Bury (Some code) FCFound else if decide (code = 128) then Bury (Some code) FCExit
      else if x_ranMem s then Release (Some code) FRAM else if x_ranDisk s then Release (Some code) FDisk
      else if x_signalled s then Release (Some code) (if x_ranTime s then FTime else FSignal) else if x_killCalled s then Bury (Some code) FKilled
      else if (1 <? e_until cf) && (0 <? e_noretries cf) && (e_noretries cf <? w) then Bury (Some code) FExit else Release (Some code) FExit) = Some f → given cf ls f).
  { intros code. do 3 (case_decide; [by intros [= <-]|]). destruct (x_ranMem s); [by intros [= <-]; cbn; rewrite Ht|]. destruct (x_ranDisk s); [intros [= <-]; cbn; by rewrite Ht, Hd|].
    destruct (x_signalled s); [destruct (x_ranTime s); intros [= <-]; cbn; by rewrite Ht, Hd, Hs|]. destruct (x_killCalled s); [intros [= <-]; cbn; by rewrite Ht, Hd, Hs|].
    destruct (_ && _); intros [= <-]; cbn; by rewrite Ht, Hd, Hs. }
  destruct st as [[]| |]; [cbn; destruct up; [by intros [= <-]|done]|apply (Hg (Z.pos p))|apply (Hg (Z.neg p))|apply (Hg (-1))|by intros [= <-]].
Qed.
Lemma ex_step ls l s s' : Ctl s → Hist cf ls s → Ex ls s → xstep cf s l = Some s' → Ex (ls ++ [l]) s'.
Proof.
  intros HC HHi HE H. pose proof (λ st up w f, given_end ls s st up w f HHi HE) as Hend. pose proof HC as [_ A2 _ _ _ _ _ _ _ _]. destruct HE as [E1 E2 E3 E4 E5].
  pose proof (h_log _ _ _ HHi) as H7. clear HC HHi.
  assert (Hl1 : (∀ m, l ≠ XTick false (Some m)) → ∀ m, XTick false (Some m) ∈ ls ++ [l] → m ≤ x_peak s). { intros Hn m Hin. apply E1. eapply snoc_in; [done|]. intros <-. by eapply Hn. }
  assert (Hl3 : (∀ m, l ≠ XTick true m) → disk_full (ls ++ [l]) → x_ranDisk s = true ∨ x_check s = CDisk). { intros Hn [m Hin]. apply E3. exists m. eapply snoc_in; [done|]. intros <-. by eapply Hn. }
  assert (Hl4 : l ≠ XSignal → XSignal ∈ ls ++ [l] → x_signalled s = true ∨ x_check s = CSig). { intros Hn Hin. apply E4. by eapply snoc_in. }
  assert (Hl5 : (∀ n m, l ≠ XTick n m) → l ≠ XSignal → match x_main s with
        | MReport r _ _ => ∀ f, reason_of r = Some f → given cf (ls ++ [l]) f
        | MRet _ => ∀ r d f, EReport r d ∈ x_log s → reason_of r = Some f → given cf (ls ++ [l]) f
        | _ => True end). { intros Ha Hb. destruct (x_main s); try done; intros; eapply given_mono; eauto. }
  assert (Hno : ∀ e lg r d, (∀ r d, e ≠ EReport r d) → EReport r d ∈ lg ++ [e] → EReport r d ∈ lg) by (intros e lg r0 d0 He Hin; by eapply no_report).
  assert (Hone : ∀ e lg r d, EReport r d ∈ lg ++ [e] → EReport r d ∈ lg ∨ EReport r d = e) by (intros e lg r0 d0 [?|?%elem_of_list_singleton]%elem_of_app; auto).
  xcases s l H; split; cbn.
  all: try (by apply Hl1).
  all: try (by apply Hl3).
  all: try (by apply Hl4).
  all: try done.
  all: try (by apply Hl5).
  all: try (intros Hx; destruct (Hl3 ltac:(done) Hx) as [?|?]; [by left|congruence]).
  all: try (intros Hx; destruct (Hl4 ltac:(done) Hx) as [?|?]; [by left|congruence]).
  all: try (by destruct kc).
  all: try (intros r0 d0 f0 Hin Hf; repeat (apply Hone in Hin as [Hin|Hin]; [|first [discriminate Hin|injection Hin as -> ->; injection Hf as <-; exact I]]); by destruct (H7 r0 d0)).
  all: try (intros f0 Hf; apply given_mono; [done|done|]; eapply Hend; [exact A2|exact Hf]).
  all: specialize (Hl5 ltac:(done) ltac:(done)) || clear Hl5.
  all: try (intros r0 d0 f0 Hin Hf; repeat (apply Hno in Hin; [|done]); first [apply Hone in Hin as [Hin|Hin]; [apply H7 in Hin as ->; by apply Hl5|injection Hin as -> ->; by apply Hl5]|apply H7 in Hin as ->; by apply Hl5]).
  all: try (destruct m; try done; intros r0 d0 f0 Hin Hf; apply Hno in Hin; [by eapply Hl5|done]).
  all: try (intros _; by right).
  all: try (intros _; by left).
  all: try (clear -A2; destruct m; try done; try discriminate A2; by destruct A2).
  all: try (intros m0 Hin; apply elem_of_app in Hin as [Hin|Hin]; [apply E1 in Hin|apply elem_of_list_singleton in Hin as [= ->]]; apply Z.ltb_lt in Hpk || apply Z.ltb_ge in Hpk; clear -Hin Hpk; lia).
  all: try (intros m0 Hin; apply elem_of_app in Hin as [Hin|Hin]; [apply E1 in Hin|apply elem_of_list_singleton in Hin as [= ->]]; apply Z.ltb_lt in Hpk || apply Z.ltb_ge in Hpk; clear -Hpk; lia).
  all: try (intros m0 Hin; apply elem_of_app in Hin as [Hin|Hin]; [apply E1 in Hin; apply Z.ltb_lt in Hpk || apply Z.ltb_ge in Hpk; clear -Hin Hpk; lia|apply elem_of_list_singleton in Hin as [= ->]; apply Z.ltb_lt in Hpk || apply Z.ltb_ge in Hpk; clear -Hpk; lia]).
  apply Z.ltb_ge in Hmm. clear -Hmm. lia.
Qed.
Lemma ex ls s : 0 ≤ e_ram cf → xrun cf x_new ls = Some s → Ex ls s.
Proof.
  intros H0. revert ls s. apply (xrun_ind cf Ex).
  - split; cbn; try done; [by intros ? ?%elem_of_nil|lia|by intros [? ?%elem_of_nil]|by intros ?%elem_of_nil].
  - intros ls l s s' Hr HE H. eapply ex_step; try done; [by eapply ctl|by apply hist].
Qed.
Lemma reason_given ls s r d f : 0 ≤ e_ram cf → xrun cf x_new ls = Some s → EReport r d ∈ x_log s → reason_of r = Some f → given cf ls f.
Proof.
  intros H0 Hr Hin Hf. pose proof (e_5 _ _ (ex _ _ H0 Hr)) as H5. pose proof (h_log _ _ _ (hist _ _ _ Hr)) as H7. destruct (x_main s); try (exfalso; by eapply H7).
  - apply H7 in Hin as ->. by apply H5.
  - by eapply H5.
Qed.


(** ** C64 *)
Ltac nomem H := exfalso; cbn in H; repeat (apply elem_of_cons in H as [H|H]; [discriminate H|]); by apply elem_of_nil in H.
Lemma tries_report ls r p t e : Tries ls r p t → e ∈ t → ∃ d, e = EReport r d.
Proof. intros [?|ds _ _] Hin; [by apply elem_of_nil in Hin|]. apply elem_of_list_fmap in Hin as (d & -> & _). eauto. Qed.
(** all that is seen: nothing of behaviours before the command runs; then once what fits its end; then perhaps the failure of it *)
Lemma seen_parts ls s : xrun cf x_new ls = Some s →
  (∀ b ids, EBehave b ids ∉ seen s) ∧ (∀ r d, EReport r d ∈ seen s → ∃ f, r = Bury None f ∨ r = Release None f) ∧ (∀ e, x_main s = MRet e → EStarted ∉ seen s) ∨
  seen s = [EMount; EStarted; EBehave false (bs_trigger false (e_behaviours cf)); EUnmount] ∨
  ∃ b t, good_end ls b ∧ seen s = ran cf b ++ t ∧ ∀ e, e ∈ t → e = EBehave false (bs_trigger false (e_behaviours cf)) ∨ ∃ r d, e = EReport r d.
Proof.
  intros Hr. pose proof (s_shape _ _ _ (sh _ _ _ Hr)) as H. destruct (x_main s) as [k| | | | | | |r e p|e]; cbn in H.
  - left. rewrite H. split; [intros b ids Hin; destruct k; nomem Hin|]. split; [intros r d Hin; destruct k; nomem Hin|done].
  - left. rewrite H. split; [intros b ids Hin; nomem Hin|]. split; [intros r d Hin; nomem Hin|done].
  - left. rewrite H. split; [intros b ids Hin; nomem Hin|]. split; [intros r d Hin; nomem Hin|done].
  - left. rewrite H. split; [intros b ids Hin; nomem Hin|]. split; [intros r d Hin; nomem Hin|done].
  - left. rewrite H. split; [intros b ids Hin; nomem Hin|]. split; [intros r d Hin; nomem Hin|done].
  - left. rewrite H. split; [intros b ids Hin; nomem Hin|]. split; [intros r d Hin; nomem Hin|done].
  - left. rewrite H. split; [intros b ids Hin; nomem Hin|]. split; [intros r d Hin; nomem Hin|done].
  - right. right. destruct H as (b & t & Hb & Ht & _ & ->). exists b, t. split; [done|]. split; [done|]. intros e0 Hin. right. exists r. by eapply tries_report.
  - destruct H as [(k & d & _ & _ & H)|(b & r & p & t & e0 & Hb & Ht & _ & H)].
    + assert (Hk : k = SStarted ∨ k ≠ SStarted) by (destruct k; auto; by right). destruct Hk as [->|Hk].
      * right. left. rewrite H. done.
      * left. rewrite H. clear H. destruct k; cbn in *; try done; (split; [intros b ids Hin; nomem Hin|]);
          (split; [intros r d' Hin|intros _ _ Hin; nomem Hin]); try (by apply elem_of_nil in Hin);
          repeat (apply elem_of_cons in Hin as [Hin|Hin]; [first [discriminate Hin|injection Hin as -> ->; eauto]|]); by apply elem_of_nil in Hin.
    + right. right. destruct H as [[-> _]|[[-> _]|(-> & _)]]; (eexists b, _; split; [done|]; split; [done|]); intros e1 [Hin|Hin]%elem_of_app; try (right; exists r; by eapply tries_report);
        repeat (apply elem_of_cons in Hin as [->|Hin]; [eauto|]); by apply elem_of_nil in Hin.
Qed.
Lemma behave_success ls s ids : xrun cf x_new ls = Some s → EBehave true ids ∈ x_log s → XWait (Exited 0) ∈ ls ∧ XTrouble ∉ ls ∧ ids = bs_trigger true (e_behaviours cf).
Proof.
  intros Hr Hin. apply (seen_in (EBehave true ids)) in Hin; [|done]. destruct (seen_parts _ _ Hr) as [(H & _)|[H|(b & t & Hb & H & Ht)]].
  - by destruct (H true ids).
  - rewrite H in Hin. exfalso. nomem Hin.
  - rewrite H in Hin. apply elem_of_app in Hin as [Hin|Hin]; [|by destruct (Ht _ Hin) as [?|(? & ? & ?)]].
    unfold ran in Hin. repeat (apply elem_of_cons in Hin as [Hin|Hin]; [try done|]); [|by apply elem_of_nil in Hin]. injection Hin as <- ->. destruct Hb as [Hb _]. destruct (Hb eq_refl). done.
Qed.
Lemma behave_ids ls s b ids : xrun cf x_new ls = Some s → EBehave b ids ∈ x_log s → ids = bs_trigger b (e_behaviours cf).
Proof.
  intros Hr Hin. apply (seen_in (EBehave b ids)) in Hin; [|done]. destruct (seen_parts _ _ Hr) as [(H & _)|[H|(b' & t & Hb & H & Ht)]].
  - by destruct (H b ids).
  - rewrite H in Hin. repeat (apply elem_of_cons in Hin as [Hin|Hin]; [try done; by injection Hin as -> ->|]). by apply elem_of_nil in Hin.
  - rewrite H in Hin. apply elem_of_app in Hin as [Hin|Hin]; [|destruct (Ht _ Hin) as [[= -> ->]|(? & ? & ?)]; done].
    unfold ran in Hin. repeat (apply elem_of_cons in Hin as [Hin|Hin]; [try done; by injection Hin as -> ->|]). by apply elem_of_nil in Hin.
Qed.
Lemma filter_split (lg l1 l2 : list event) e : kept e → lg = l1 ++ e :: l2 → filter kept lg = filter kept l1 ++ e :: filter kept l2.
Proof. intros He ->. by rewrite filter_app, filter_cons_True. Qed.
Lemma behave_once ls s l1 ids l2 ids' : xrun cf x_new ls = Some s → x_log s = l1 ++ EBehave true ids :: l2 → EBehave true ids' ∉ l2.
Proof.
  intros Hr Hl Hin. apply (filter_split _ _ _ (EBehave true ids) I) in Hl. assert (Hin' : EBehave true ids' ∈ filter kept l2) by (by apply elem_of_list_filter).
  assert (Hno : ∀ lg1 lg2 lg, lg = lg1 ++ EBehave true ids :: lg2 → EBehave true ids' ∈ lg2 → (∃ b t, lg = ran cf b ++ t ∧ ∀ ids, EBehave true ids ∉ t) → False).
  { clear. intros lg1 lg2 lg -> Hin (b & t & H & Ht). unfold ran in H.
    do 4 (destruct lg1 as [|? lg1]; [cbn in H; simplify_eq; cbn in *; repeat (apply elem_of_cons in Hin as [?|Hin]; [done|]); by eapply Ht|]; cbn in H; injection H as _ H).
    eapply Ht. rewrite <-H. apply elem_of_app. right. left. }
  destruct (seen_parts _ _ Hr) as [(H & _)|[H|(b & t & _ & H & Ht)]].
  - eapply H. rewrite Hl. apply elem_of_app. right. left.
  - eapply Hno; [exact Hl|done|]. exists false, []. split; [exact H|]. intros ? ?%elem_of_nil. done.
  - eapply Hno; [exact Hl|done|]. exists b, t. split; [exact H|]. intros ids0 Hin0. by destruct (Ht _ Hin0) as [?|(? & ? & ?)].
Qed.
Lemma behave_some ls s e : xrun cf x_new ls = Some s → x_main s = MRet e → EStarted ∈ x_log s → ∃ b ids, EBehave b ids ∈ x_log s.
Proof.
  intros Hr Em Hin. apply (seen_in EStarted) in Hin; [|done]. destruct (seen_parts _ _ Hr) as [(_ & _ & H)|[H|(b & t & _ & H & Ht)]].
  - by destruct (H e).
  - exists false, (bs_trigger false (e_behaviours cf)). apply seen_in; [done|]. rewrite H. tmem.
  - exists b, (bs_trigger b (e_behaviours cf)). apply seen_in; [done|]. rewrite H. apply elem_of_app. left. unfold ran. tmem.
Qed.
Lemma behave_before ls s l1 r d l2 : xrun cf x_new ls = Some s → x_log s = l1 ++ EReport r d :: l2 → (∀ f, r ≠ Bury None f ∧ r ≠ Release None f) →
  ∃ l0 b ids l0' l0'', l1 = l0 ++ EBehave b ids :: l0' ++ EUnmount :: l0'' ∧ (b = true ↔ XWait (Exited 0) ∈ ls ∧ XTrouble ∉ ls).
Proof.
  intros Hr Hl Hne. pose proof (filter_split _ _ _ (EReport r d) I Hl) as Hf. destruct (seen_parts _ _ Hr) as [(_ & H & _)|[H|(b & t & Hb & H & Ht)]].
  - destruct (H r d) as (f & [->| ->]); [rewrite Hf; apply elem_of_app; right; left|by destruct (Hne f)|by destruct (Hne f)].
  - exfalso. assert (Hin : EReport r d ∈ seen s) by (rewrite Hf; apply elem_of_app; right; left). rewrite H in Hin. nomem Hin.
  - rewrite H in Hf. unfold ran in Hf. remember (filter kept l1) as f1 eqn:E1. do 4 (destruct f1 as [|? f1]; [done|]; cbn in Hf; injection Hf as <- Hf).
    assert (Hsplit : ∀ l e f, e :: f = filter kept l → ∃ l' l'', l = l' ++ e :: l'' ∧ f = filter kept l'').
    { clear. intros l e f. induction l as [|x l IH]; [done|]. intros E. destruct (decide (kept x)) as [Hx|Hx].
      - rewrite filter_cons_True in E by done. injection E as <- ->. by exists [], l.
      - rewrite filter_cons_False in E by done. destruct (IH E) as (l' & l'' & -> & ->). by exists (x :: l'), l''. }
    apply Hsplit in E1 as (a1 & m1 & -> & E1). apply Hsplit in E1 as (a2 & m2 & -> & E1). apply Hsplit in E1 as (a3 & m3 & -> & E1). apply Hsplit in E1 as (a4 & m4 & -> & E1).
    exists (a1 ++ EMount :: a2 ++ EStarted :: a3), b, (bs_trigger b (e_behaviours cf)), a4, m4. split; [|exact Hb]. by repeat (rewrite <-?app_assoc; cbn).
Qed.

(** ** C65 *)
Lemma stops_only ls s e : xrun cf x_new ls = Some s → x_main s = MRet e → runner_stops e = true → XSignal ∈ ls ∨ ∃ d, XReply Lost d ∈ ls.
Proof.
  intros Hr Em He. pose proof (s_shape _ _ _ (sh _ _ _ Hr)) as H. rewrite Em in H. destruct H as [(k & d & _ & -> & _)|(b & r & p & t & e0 & _ & Ht & Ha & H)]; [done|].
  destruct Ht as [Hn|ds _ Hl]; [|by right]. left. destruct H as [[H Heq]|[[_ ->]|(_ & -> & _)]]; try done. subst e.
  assert (Hin : EReport r true ∈ x_log s). { apply seen_in; [done|]. rewrite H. apply elem_of_app; right; left. }
  destruct (reports_right _ _ _ _ Hr Hin) as [Htr _].
  destruct r as [c|[c|] f|[c|] f]; cbn in Ha, Htr.
  - by subst e0.
  - destruct Htr as [_ Htr]. destruct f; cbn in Ha, Htr; subst e0; try done. by destruct Htr.
  - destruct Htr as [_ ->]. cbn in Ha. by subst e0.
  - destruct (decide (f = FKilled)); by subst e0.
  - destruct (decide (f = FKilled)); by subst e0.
Qed.
Lemma nil_means ls s : xrun cf x_new ls = Some s → x_main s = MRet RNil → XWait (Exited 0) ∈ ls ∧ (EReport (Archive 0) true ∈ x_log s ∨ EReport (Release (Some 0) FUpload) true ∈ x_log s).
Proof.
  intros Hr Em. pose proof (s_shape _ _ _ (sh _ _ _ Hr)) as H. rewrite Em in H. destruct H as [(k & d & _ & ? & _)|(b & r & p & t & e0 & _ & Ht & Ha & H)]; [done|].
  destruct H as [[H Heq]|[[_ ?]|(_ & ? & _)]]; try done.
  assert (Hin : EReport r true ∈ x_log s). { apply seen_in; [done|]. rewrite H. apply elem_of_app; right. apply elem_of_app; right; left. }
  assert (e0 = RNil) as ->. { destruct p; [by destruct e0|done]. }
  destruct (reports_right _ _ _ _ Hr Hin) as [Htr _].
  destruct r as [c|[c|] f|[c|] f]; cbn in Ha, Htr.
  - destruct Htr as [-> ?]. auto.
  - destruct Htr as [He Htr]. destruct f; cbn in Ha, Htr; try done. destruct Htr as [-> _]. split; [|by right]. destruct He as [?|[[? _]|[? _]]]; done.
  - destruct Htr as [_ ->]. done.
  - destruct (decide (f = FKilled)); done.
  - destruct (decide (f = FKilled)); done.
Qed.
Lemma stops_signal ls s e code d : xrun cf x_new ls = Some s → x_main s = MRet e → EReport (Release code FSignal) d ∈ x_log s → (∀ d, XReply Lost d ∉ ls) →
  runner_stops e = true ∨ e = ROther ∧ d = false ∨ ∃ d, XReply GaveUp d ∈ ls.
Proof.
  intros Hr Em Hin Hno. apply (seen_in (EReport _ _)) in Hin; [|done]. pose proof (s_shape _ _ _ (sh _ _ _ Hr)) as H. rewrite Em in H. destruct H as [(k & d' & _ & -> & H)|(b & r & p & t & e0 & _ & Ht & Ha & H)].
  - exfalso. rewrite H in Hin. clear H. destruct k; cbn in Hin; nomem Hin.
  - destruct Ht as [_|ds _ [d' Hl]]; [|by destruct (Hno d')]. cbn [app] in H. destruct H as [[H Heq]|[[H ->]|(_ & _ & ?)]]; [| |by auto].
    + left. rewrite H in Hin. apply elem_of_app in Hin as [Hin|Hin]; [unfold ran in Hin; nomem Hin|]. apply elem_of_list_singleton in Hin as [= <- ->]. cbn in Ha. by subst.
    + right. left. split; [done|]. rewrite H in Hin. apply elem_of_app in Hin as [Hin|Hin]; [unfold ran in Hin; nomem Hin|]. apply elem_of_cons in Hin as [[= _ ->]|Hin]; [done|]. nomem Hin.
Qed.
Lemma stops_lost ls s d0 d : xrun cf x_new (ls ++ [XReply Worked d]) = Some s → XWait (Exited 0) ∈ ls → XReply Lost d0 ∈ ls → x_main s = MRet RStop.
Proof.
  intros (s1 & Hr & H)%xrun_snoc Hw Hl. pose proof (s_shape _ _ _ (sh _ _ _ Hr)) as Hs. pose proof (h_wait _ _ _ (hist _ _ _ Hr)) as Hh. cbn in H. destruct (x_main s1) as [| | | | | | |r e p|]; try done.
  destruct Hh as [_ Hf]. specialize (Hf _ Hw). cbn in Hs, Hf. destruct Hs as (b & t & _ & Ht & Ha & _). injection H as <-. cbn.
  destruct Ht as [Hn|ds _ _]; [by destruct (Hn d0)|]. destruct Hf as [[-> _]|[-> _]]; cbn in Ha; by subst e.
Qed.
End fixed.

(** ** Behaviours *)
Lemma b_trigger_in bit b i : i ∈ b_trigger bit b ↔ b_id b = i ∧ acts b ∧ bit (b_when b) = true.
Proof.
  unfold b_trigger, acts. destruct (bit (b_when b)); [|split; [by intros ?%elem_of_nil|naive_solver]].
  destruct (b_do b); try (split; [by intros ?%elem_of_nil|naive_solver]); rewrite elem_of_list_singleton; naive_solver.
Qed.
Lemma flat_in bit bs i : i ∈ flat_map (b_trigger bit) bs ↔ ∃ b, b ∈ bs ∧ b_id b = i ∧ acts b ∧ bit (b_when b) = true.
Proof.
  induction bs as [|b bs IH]; cbn [flat_map].
  - split; [by intros ?%elem_of_nil|]. intros (b & ?%elem_of_nil & _). done.
  - rewrite elem_of_app, IH, b_trigger_in. split.
    + intros [?|(b' & ? & ?)]; [exists b|exists b']; (split; [|done]); [by left|by right].
    + intros (b' & [->|?]%elem_of_cons & ?); [by left|right; eauto].
Qed.
Definition first_bit (success : bool) : trigger → bool := if success then on_success else on_failure.
Lemma meant_bit success b : meant_for success b ↔ first_bit success (b_when b) = true.
Proof. by destruct success. Qed.
Lemma trigger_which success bs i : i ∈ bs_trigger success bs ↔ ∃ b, b ∈ bs ∧ b_id b = i ∧ acts b ∧ (meant_for success b ∨ on_exit (b_when b) = true).
Proof. unfold bs_trigger. rewrite elem_of_app, !flat_in. setoid_rewrite meant_bit. unfold first_bit. destruct success; naive_solver. Qed.
Lemma flat_nodup bit bs : NoDup (b_id <$> bs) → NoDup (flat_map (b_trigger bit) bs).
Proof.
  induction bs as [|b bs IH]; cbn [flat_map]; intros H; [constructor|]. rewrite fmap_cons in H. apply NoDup_cons in H as [Hn H]. apply NoDup_app. split_and!; [|intros i|by apply IH].
  - unfold b_trigger. destruct (bit _); [destruct (b_do b)|]; try apply NoDup_singleton; constructor.
  - intros (<- & _)%b_trigger_in (b' & Hin & E & _)%flat_in. apply Hn. rewrite <-E. by apply elem_of_list_fmap_1.
Qed.
Lemma trigger_once success bs : NoDup (b_id <$> bs) → (∀ b, b ∈ bs → ¬ (meant_for success b ∧ on_exit (b_when b) = true)) → NoDup (bs_trigger success bs).
Proof.
  intros Hn Hb. unfold bs_trigger. apply NoDup_app. split_and!; [by apply flat_nodup| |by apply flat_nodup].
  intros i (b & Hin & Ei & _ & H1)%flat_in (b' & Hin' & Ei' & _ & H2)%flat_in.
  assert (b = b') as <-.
  { apply elem_of_list_lookup in Hin as [j Hj]. apply elem_of_list_lookup in Hin' as [j' Hj'].
    assert (j = j') as <-; [|congruence]. eapply (NoDup_lookup _ j j' i); [exact Hn|by rewrite list_lookup_fmap, Hj; cbn; rewrite Ei|by rewrite list_lookup_fmap, Hj'; cbn; rewrite Ei']. }
  apply (Hb b Hin). split; [|done]. apply meant_bit. exact H1.
Qed.
Lemma flat_at bit bs1 b bs2 : acts b → bit (b_when b) = true → flat_map (b_trigger bit) (bs1 ++ b :: bs2) = flat_map (b_trigger bit) bs1 ++ b_id b :: flat_map (b_trigger bit) bs2.
Proof.
  intros [H1 H2] H. rewrite flat_map_app. cbn [flat_map]. unfold b_trigger at 2. rewrite H. by destruct (b_do b).
Qed.
Lemma trigger_order success bs1 b1 bs2 b2 bs3 : acts b1 → acts b2 →
  (meant_for success b1 → on_exit (b_when b2) = true → ∃ l1 l2 l3, bs_trigger success (bs1 ++ b1 :: bs2 ++ b2 :: bs3) = l1 ++ b_id b1 :: l2 ++ b_id b2 :: l3) ∧
  (meant_for success b2 → on_exit (b_when b1) = true → ∃ l1 l2 l3, bs_trigger success (bs1 ++ b1 :: bs2 ++ b2 :: bs3) = l1 ++ b_id b2 :: l2 ++ b_id b1 :: l3) ∧
  (meant_for success b1 → meant_for success b2 → ∃ l1 l2 l3, bs_trigger success (bs1 ++ b1 :: bs2 ++ b2 :: bs3) = l1 ++ b_id b1 :: l2 ++ b_id b2 :: l3).
Proof.
  intros A1 A2. unfold bs_trigger. rewrite !meant_bit. change (if success then on_success else on_failure) with (first_bit success). generalize (first_bit success). intros bit.
  generalize on_exit. intros ex. split_and!; intros H1 H2.
  - rewrite (flat_at bit bs1 b1) by done. rewrite (app_comm_cons bs2), (app_assoc bs1), (flat_at ex (bs1 ++ b1 :: bs2) b2) by done.
    exists (flat_map (b_trigger bit) bs1), (flat_map (b_trigger bit) (bs2 ++ b2 :: bs3) ++ flat_map (b_trigger ex) (bs1 ++ b1 :: bs2)), (flat_map (b_trigger ex) bs3).
    by rewrite <-!app_assoc, <-app_comm_cons.
  - rewrite (flat_at ex bs1 b1) by done. rewrite (app_comm_cons bs2), (app_assoc bs1), (flat_at bit (bs1 ++ b1 :: bs2) b2) by done.
    exists (flat_map (b_trigger bit) (bs1 ++ b1 :: bs2)), (flat_map (b_trigger bit) bs3 ++ flat_map (b_trigger ex) bs1), (flat_map (b_trigger ex) (bs2 ++ b2 :: bs3)).
    by rewrite <-!app_assoc, <-app_comm_cons.
  - rewrite (flat_at bit bs1 b1), (flat_at bit bs2 b2) by done.
    exists (flat_map (b_trigger bit) bs1), (flat_map (b_trigger bit) bs2), (flat_map (b_trigger bit) bs3 ++ flat_map (b_trigger ex) (bs1 ++ b1 :: bs2 ++ b2 :: bs3)).
    by rewrite <-!app_assoc, <-!app_comm_cons, <-!app_assoc.
Qed.
