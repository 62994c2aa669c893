(** Proofs for ExecProps, continued: what the history says of the state. *)
From Coq Require Import ZArith Lia.
From stdpp Require Import base option list.
From RecordUpdate Require Import RecordSet.
From Verif Require Import ExecModel ExecSpec ExecProofs.
Import RecordSetNotations.
Open Scope Z_scope.

(** ** What is reported *)
Definition waited (ls : list xlabel) (st : status) : Prop := XWait st ∈ ls ∧ ∀ st', XWait st' ∈ ls → st' = st.
Definition right_report (cf : econf) (ls : list xlabel) (r : report) : Prop := truthful cf ls r ∧ ∀ st, XWait st ∈ ls → fitting cf ls st r.
Record Hist (cf : econf) (ls : list xlabel) (s : exec) : Prop := {
  h_mem : x_ranMem s = true → ∃ m, XTick false (Some m) ∈ ls ∧ e_ram cf < m;
  h_disk : x_ranDisk s = true ∨ x_check s = CDisk → ∃ m, XTick true m ∈ ls;
  h_sig : x_signalled s = true ∨ x_check s = CSig → XSignal ∈ ls;
  h_time : x_ranTime s = true → XC true ∈ ls;
  h_kill : x_killCalled s = true ∨ x_touch s ∈ [TKill; TOld; TNew; TNew2; TNew3; TStopC] → XTouch TouchKill ∈ ls;
  h_wait : match x_main s with
           | MSetup _ | MRun => ∀ st, XWait st ∉ ls
           | MStop st | MFin st | MLock st | MKillDone st | MEnd st => waited ls st
           | MReport r _ _ => right_report cf ls r
           | MRet _ => True
           end;
  h_log : match x_main s with
          | MReport r _ _ => ∀ r' d, EReport r' d ∈ x_log s → r' = r
          | MRet _ => ∃ r, right_report cf ls r ∧ ∀ r' d, EReport r' d ∈ x_log s → r' = r
          | _ => ∀ r' d, EReport r' d ∉ x_log s
          end;
}.
Lemma in_snoc {A} (x : A) l y : x ∈ l → x ∈ l ++ [y].
Proof. intros. apply elem_of_app. by left. Qed.
Lemma snoc_in {A} (x : A) l y : x ∈ l ++ [y] → x ≠ y → x ∈ l.
Proof. intros [?|?%elem_of_list_singleton]%elem_of_app ?; done. Qed.
Lemma in_last {A} (l : list A) y : y ∈ l ++ [y].
Proof. apply elem_of_app. right. by apply elem_of_list_singleton. Qed.
Lemma ended_mono ls l c : ended_with ls c → ended_with (ls ++ [l]) c.
Proof. unfold ended_with. intros [?|[[? ?]|[? ?]]]; eauto using in_snoc. Qed.
Lemma holds_mono cf ls l c f : holds cf ls c f → holds cf (ls ++ [l]) c f.
Proof. destruct f; cbn; try done; naive_solver eauto using in_snoc. Qed.
Lemma right_mono cf ls l r : (∀ st, l ≠ XWait st) → right_report cf ls r → right_report cf (ls ++ [l]) r.
Proof.
  intros Hl [Ht Hf]. split.
  - destruct r as [c|[c|] f|[c|] f]; cbn in *.
    + destruct Ht. eauto using in_snoc.
    + destruct Ht. eauto using ended_mono, holds_mono.
    + destruct Ht as [Ht ->]. split; [|done]. intros st Hin. eapply Ht. eapply snoc_in; [done|]. intros <-. by eapply Hl.
    + destruct Ht. eauto using ended_mono, holds_mono.
    + destruct Ht as [Ht ?]. split; [|done]. intros st Hin. eapply Ht. eapply snoc_in; [done|]. intros <-. by eapply Hl.
  - intros st Hin. assert (Hin' : XWait st ∈ ls). { eapply snoc_in; [done|]. intros <-. by eapply Hl. }
    specialize (Hf st Hin'). destruct st as [n| |]; cbn in *; [|case_decide; [done|]|done].
    + destruct n; [destruct Hf as [[-> [w ?]]|[-> [w ?]]]; [left|right]; eauto using in_snoc| |]; (case_decide; [done|]); destruct Hf as [?|[?|(? & ? & ? & u & w & ? & ?)]]; eauto 10 using in_snoc.
    + destruct Hf as [?|[?|(? & ? & ? & u & w & ? & ?)]]; eauto 10 using in_snoc.
Qed.
Lemma right_decided cf ls st up w s : Hist cf ls s → waited ls st → right_report cf (ls ++ [XMain up w]) (decide_end cf st up w s).
Proof.
  intros [H1 H2 H3 H4 H5 _ _] [Hw Hu]. set (ls' := ls ++ [XMain up w]).
  assert (Hu' : ∀ st', XWait st' ∈ ls' → st' = st). { intros st' Hin. apply Hu. by eapply snoc_in. }
  assert (Hw' : XWait st ∈ ls') by (by apply in_snoc).
  assert (Hx : XMain up w ∈ ls') by apply in_last.
  assert (Hmem : x_ranMem s = true → ∃ m, XTick false (Some m) ∈ ls' ∧ e_ram cf < m). { intros (m & ? & ?)%H1. eauto using in_snoc. }
  assert (Hdisk : x_ranDisk s = true → ∃ m, XTick true m ∈ ls'). { intros ?. destruct H2 as [m ?]; eauto using in_snoc. }
  assert (Hsig : x_signalled s = true → XSignal ∈ ls'). { intros ?. apply in_snoc. apply H3. by left. }
  assert (Htime : x_ranTime s = true → XC true ∈ ls'). { intros ?. by apply in_snoc, H4. }
  assert (Hkill : x_killCalled s = true → XTouch TouchKill ∈ ls'). { intros ?. apply in_snoc, H5. by left. }
  clear H1 H2 H3 H4 H5 Hu Hw. clearbody ls'.
  set (code := match st with Exited n => n | _ => -1 end).
  destruct (decide (st = Odd)) as [->|Hodd].
  { split; [|intros st' ->%Hu'; done]. cbn. unfold ended_with. auto. }
  destruct (decide (st = Exited 0)) as [->|Hne].
  { cbn. destruct up; (split; [cbn; unfold ended_with; eauto|intros st' ->%Hu'; cbn; eauto]). }
  assert (Hc0 : code ≠ 0). { subst code. destruct st as [n| |]; [intros E; apply Hne; by f_equal|done|done]. }
  assert (Hend : ended_with ls' code). { unfold ended_with. subst code. destruct st as [n| |]; auto; done. }
  assert (Hdec : decide_end cf st up w s =
    if decide (code = 126) then Bury (Some code) FCPerm
      else if decide (code = 127) then Bury (Some code) FCFound
      else if decide (code = 128) then Bury (Some code) FCExit
      else if x_ranMem s then Release (Some code) FRAM
      else if x_ranDisk s then Release (Some code) FDisk
      else if x_signalled s then Release (Some code) (if x_ranTime s then FTime else FSignal)
      else if x_killCalled s then Bury (Some code) FKilled
      else if (1 <? e_until cf) && (0 <? e_noretries cf) && (e_noretries cf <? w) then Bury (Some code) FExit
      else Release (Some code) FExit). { destruct st as [[]| |]; done. }
  assert (Hfit : ∀ r, (if decide (126 ≤ code ≤ 128) then ∃ f, r = Bury (Some code) f
      else (∃ f, r = Release (Some code) f) ∨ r = Bury (Some code) FKilled ∨
           r = Bury (Some code) FExit ∧ 1 < e_until cf ∧ 0 < e_noretries cf ∧ ∃ u w, XMain u w ∈ ls' ∧ e_noretries cf < w) → ∀ st', XWait st' ∈ ls' → fitting cf ls' st' r).
  { intros r Hr st' ->%Hu'. destruct st as [[]| |]; done. }
  rewrite Hdec. clear Hdec.
  destruct (decide (code = 126)) as [E|E1]; [split; [cbn; done|apply Hfit; rewrite decide_True by lia; by eexists]|].
  destruct (decide (code = 127)) as [E|E2]; [split; [cbn; done|apply Hfit; rewrite decide_True by lia; by eexists]|].
  destruct (decide (code = 128)) as [E|E3]; [split; [cbn; done|apply Hfit; rewrite decide_True by lia; by eexists]|].
  assert (Hn3 : ¬ 126 ≤ code ≤ 128) by lia. destruct (decide (126 ≤ code ≤ 128)) as [|_]; [done|].
  destruct (x_ranMem s); [split; [cbn; auto|apply Hfit; eauto]|].
  destruct (x_ranDisk s); [split; [cbn; auto|apply Hfit; eauto]|].
  destruct (x_signalled s). { split; [|apply Hfit; eauto]. destruct (x_ranTime s); cbn; auto. }
  destruct (x_killCalled s); [split; [cbn; auto|apply Hfit; eauto]|].
  destruct (_ && _) eqn:E; [|split; [cbn; auto|apply Hfit; eauto]].
  apply andb_true_iff in E as [[E4%Z.ltb_lt E5%Z.ltb_lt]%andb_true_iff E6%Z.ltb_lt]. split; [cbn; auto|]. apply Hfit. right. right. eauto 10.
Qed.
Lemma hist_new cf : Hist cf [] x_new.
Proof.
  split; cbn; try done; try naive_solver; try (intros; by intros ?%elem_of_nil).
  intros [?|H]; [done|]. repeat (apply elem_of_cons in H as [?|H]; [done|]). by apply elem_of_nil in H.
Qed.
Definition wait_st (m : mpc) : option status := match m with MStop st | MFin st | MLock st | MKillDone st | MEnd st => Some st | _ => None end.
(** all but the flags and the log as they were *)
Lemma hist_weak cf ls l s s' : Hist cf ls s → (∀ st, l ≠ XWait st) → x_main s' = x_main s ∨ (∃ st, wait_st (x_main s) = Some st ∧ wait_st (x_main s') = Some st) →
  (∀ r d, EReport r d ∈ x_log s' → EReport r d ∈ x_log s) →
  (x_ranMem s' = true → x_ranMem s = true ∨ ∃ m, XTick false (Some m) ∈ ls ++ [l] ∧ e_ram cf < m) →
  (x_ranDisk s' = true ∨ x_check s' = CDisk → x_ranDisk s = true ∨ x_check s = CDisk ∨ ∃ m, l = XTick true m) →
  (x_signalled s' = true ∨ x_check s' = CSig → x_signalled s = true ∨ x_check s = CSig ∨ l = XSignal) →
  (x_ranTime s' = true → x_ranTime s = true ∨ l = XC true) →
  (x_killCalled s' = true ∨ x_touch s' ∈ [TKill; TOld; TNew; TNew2; TNew3; TStopC] → x_killCalled s = true ∨ x_touch s ∈ [TKill; TOld; TNew; TNew2; TNew3; TStopC] ∨ l = XTouch TouchKill) →
  Hist cf (ls ++ [l]) s'.
Proof.
  intros [H1 H2 H3 H4 H5 H6 H7] Hl Em Elog F1 F2 F3 F4 F5. split.
  - intros [(m & ? & ?)%H1|?]%F1; eauto using in_snoc.
  - intros [?|[?|[m ->]]]%F2; [destruct H2 as [m ?]; [by left|]|destruct H2 as [m ?]; [by right|]|]; eauto using in_snoc, in_last.
  - intros [?|[?| ->]]%F3; [apply in_snoc, H3; by left|apply in_snoc, H3; by right|apply in_last].
  - intros [?| ->]%F4; [by apply in_snoc, H4|apply in_last].
  - intros [?|[?| ->]]%F5; [apply in_snoc, H5; by left|apply in_snoc, H5; by right|apply in_last].
  - assert (Hin : ∀ st, XWait st ∈ ls ++ [l] → XWait st ∈ ls). { intros st Hin. eapply snoc_in; [done|]. intros <-. by eapply Hl. }
    destruct Em as [->|(st & Em1 & Em2)]; [|assert (Hw : waited ls st) by (destruct (x_main s); try done; injection Em1 as ->; exact H6); destruct Hw as [? Hu];
      assert (waited (ls ++ [l]) st) by (split; [by apply in_snoc|intros st' ?%Hin; by apply Hu]); destruct (x_main s'); try done; injection Em2 as ->; done].
    destruct (x_main s); try (intros st' ?%Hin; by eapply H6); try (destruct H6 as [? Hu]; split; [by apply in_snoc|intros st' ?%Hin; by apply Hu]); [by apply right_mono|done].
  - destruct Em as [->|(st & Em1 & Em2)]; [|destruct (x_main s); try done; destruct (x_main s'); try done; intros r' d ?%Elog; by eapply H7].
    destruct (x_main s); try (intros r' d ?%Elog; by eapply H7). destruct H7 as (r & Hr & Hr'). exists r. split; [by apply right_mono|]. intros r' d ?%Elog. by eapply Hr'.
Qed.
Ltac tin := match goal with H : _ ∈ _ :: _ |- _ => repeat (apply elem_of_cons in H as [?|H]; [try done|]); by apply elem_of_nil in H end.
Ltac tmem := repeat (first [by left | right]).
Lemma no_report r d l e : EReport r d ∈ l ++ [e] → (∀ r d, e ≠ EReport r d) → EReport r d ∈ l.
Proof. intros H He. eapply snoc_in; [done|]. intros <-. by eapply He. Qed.
Lemma hist_step cf ls l s s' : Ctl s → Hist cf ls s → xstep cf s l = Some s' → Hist cf (ls ++ [l]) s'.
Proof.
  intros HC HH H. pose proof HH as HH0. destruct l as [ok did|st0|up w|r did|r| | | |ns mm| |late|].
  - (* preparations *)
    assert (Hr0 : ∀ ls, (∀ st, XWait st ∉ ls) → ∀ r, match r with Release None FStart => True | Bury None f => f ∈ [FCwd; FMount; FEnv; FJson; FDocker] | _ => False end → right_report cf ls r).
    { intros ls0 Hn r Hr. split; [|intros st Hin; by destruct (Hn st)]. destruct r as [|[] []|[] []]; try done; cbn; done. }
    destruct HH as [H1 H2 H3 H4 H5 H6 H7]. destruct HC as [A1 A2 A3 A4 A5 A6 A7 A10 A8 A9]. destruct s as [m t c sm inst kd sc st pk rm rt rd sg kc rn er lg]. cbn in *.
    destruct m as [k| | | | | | | |]; try done. subst c.
    assert (Hn : ∀ st, XWait st ∉ ls ++ [XSetup ok did]). { intros st0 Hin. eapply H6. by eapply snoc_in. }
    assert (F1 : rm = true → ∃ m, XTick false (Some m) ∈ ls ++ [XSetup ok did] ∧ e_ram cf < m). { intros (m & ? & ?)%H1. eauto using in_snoc. }
    assert (F2 : rd = true → ∃ m, XTick true m ∈ ls ++ [XSetup ok did]). { intros ?. destruct H2 as [m ?]; eauto using in_snoc. }
    assert (F3 : sg = true → XSignal ∈ ls ++ [XSetup ok did]). { intros ?. apply in_snoc, H3. by left. }
    assert (F4 : rt = true → XC true ∈ ls ++ [XSetup ok did]). { intros ?. by apply in_snoc, H4. }
    assert (F5 : kc = true ∨ t ∈ [TKill; TOld; TNew; TNew2; TNew3; TStopC] → XTouch TouchKill ∈ ls ++ [XSetup ok did]). { intros ?. by apply in_snoc, H5. }
    destruct ok.
    { destruct k; injection H as <-; split; cbn in *; try done; try (intros [?|?]; [by auto|done]);
        try (intros r' d Hin; apply no_report in Hin; [by eapply H7|done]).
      intros [?|?]; [auto|tin]. }
    destruct k; cbn in H; try done; injection H as <-; split; cbn in *; try done; try (intros [?|?]; [by auto|done]).
    all: try (exists (Release None FStart); split; [by apply Hr0|]; intros r' d Hin; repeat (apply no_report in Hin; [|done]); by destruct (H7 r' d)).
    all: try (match goal with |- context [EReport ?r _] => exists r end; split; [apply Hr0; [done|first [exact I|tmem]]|]; intros r' d Hin; repeat (apply no_report in Hin; [|done]);
      apply elem_of_app in Hin as [Hin|Hin%elem_of_list_singleton]; [by destruct (H7 r' d)|congruence]).
    all: try (by auto).
    all: idtac.
  - (* the command ends *)
    destruct HH as [H1 H2 H3 H4 H5 H6 H7]. destruct s as [m t c sm inst kd sc st pk rm rt rd sg kc rn er lg]. cbn in *. destruct m; try done. injection H as <-. split; cbn in *.
    + intros (m & ? & ?)%H1. eauto using in_snoc.
    + intros [m ?]%H2. eauto using in_snoc.
    + intros ?%H3. by apply in_snoc.
    + intros ?%H4. by apply in_snoc.
    + intros ?%H5. by apply in_snoc.
    + split; [apply in_last|]. intros st' [Hin|[= ->]%elem_of_list_singleton]%elem_of_app; [by destruct (H6 st')|done].
    + done.
  - (* the caller *)
    pose proof (λ st, right_decided cf ls st up w s HH) as Hdec.
    destruct (x_main s) as [k| |st|st|st|st|st|rep e pb|e] eqn:Em; cbn in H; rewrite Em in H; try done.
    + case_decide; [|done]. injection H as <-. destruct s. apply (hist_weak cf ls _ _ _ HH); cbn in *; subst; eauto; tauto.
    + destruct (x_check s) eqn:Ec; try done. injection H as <-. destruct s. apply (hist_weak cf ls _ _ _ HH); cbn in *; subst; eauto; naive_solver.
    + injection H as <-. destruct s. apply (hist_weak cf ls _ _ _ HH); cbn in *; subst; eauto; try tauto. right. exists st. by destruct x_killCalled.
    + destruct (x_killdone s); [done|]. injection H as <-. destruct s. apply (hist_weak cf ls _ _ _ HH); cbn in *; subst; eauto; tauto.
    + case_decide; [|done]. injection H as <-. specialize (Hdec st). destruct HH as [H1 H2 H3 H4 H5 H6 H7]. rewrite Em in *. specialize (Hdec H6).
      destruct s. split; cbn in *.
      * intros (m & ? & ?)%H1. eauto using in_snoc.
      * intros [m ?]%H2. eauto using in_snoc.
      * intros ?%H3. by apply in_snoc.
      * intros ?%H4. by apply in_snoc.
      * intros ?%H5. by apply in_snoc.
      * exact Hdec.
      * intros r' d Hin. repeat (apply no_report in Hin; [|done]). by destruct (H7 r' d).
  - (* the manager answers *)
    destruct HH as [H1 H2 H3 H4 H5 H6 H7]. destruct s as [m t c sm inst kd sc st pk rm rt rd sg kc rn er lg]. cbn in *. destruct m as [| | | | | | |rep e pb|]; try done.
    assert (F1 : rm = true → ∃ m, XTick false (Some m) ∈ ls ++ [XReply r did] ∧ e_ram cf < m). { intros (m & ? & ?)%H1. eauto using in_snoc. }
    assert (F2 : rd = true ∨ c = CDisk → ∃ m, XTick true m ∈ ls ++ [XReply r did]). { intros [m ?]%H2. eauto using in_snoc. }
    assert (F3 : sg = true ∨ c = CSig → XSignal ∈ ls ++ [XReply r did]). { intros ?. by apply in_snoc, H3. }
    assert (F4 : rt = true → XC true ∈ ls ++ [XReply r did]). { intros ?. by apply in_snoc, H4. }
    assert (F5 : kc = true ∨ t ∈ [TKill; TOld; TNew; TNew2; TNew3; TStopC] → XTouch TouchKill ∈ ls ++ [XReply r did]). { intros ?. by apply in_snoc, H5. }
    assert (F6 : right_report cf (ls ++ [XReply r did]) rep) by (by apply right_mono).
    assert (F7 : ∀ b r' d, EReport r' d ∈ lg ++ [EReport rep b] → r' = rep).
    { intros b r' d [Hin|Hin%elem_of_list_singleton]%elem_of_app; [by eapply H7|congruence]. }
    destruct r; injection H as <-; split; cbn in *; eauto.
    all: try (exists rep; split; [done|]; intros r' d Hin; repeat (apply no_report in Hin; [|done]); by eauto).
  - (* touching *)
    destruct (x_touch s) eqn:Et; cbn in H; rewrite Et in H; try done. destruct r; injection H as <-; destruct s; apply (hist_weak cf ls _ _ _ HH); cbn in *; subst; eauto; try tauto.
    intros r d Hin. by apply no_report in Hin.
  - destruct (x_touch s) eqn:Et; cbn in H; rewrite Et in H; try done. destruct (x_stopt s); [done|]. injection H as <-. destruct s; apply (hist_weak cf ls _ _ _ HH); cbn in *; subst; eauto; try tauto.
    intros [?|?]; [by left|tin].
  - destruct (x_touch s) eqn:Et; cbn in H; rewrite Et in H; try done; try (case_decide; [|done]); try (destruct (x_smutex s); [done|]); injection H as <-; destruct s; apply (hist_weak cf ls _ _ _ HH); cbn in *; subst; eauto; try tauto;
      try (intros _; right; left; tmem).
    intros r d Hin. by apply no_report in Hin.
  - destruct (x_check s) eqn:Ec; cbn in H; rewrite Ec in H; try done. injection H as <-. destruct s; apply (hist_weak cf ls _ _ _ HH); cbn in *; subst; eauto; try tauto; try naive_solver.
    intros r d Hin. by apply no_report in Hin.
  - destruct (x_check s) eqn:Ec; cbn in H; rewrite Ec in H; try done. destruct ns.
    { injection H as <-. destruct s; apply (hist_weak cf ls _ _ _ HH); cbn in *; subst; eauto; try tauto; try naive_solver. intros r d Hin. by apply no_report in Hin. }
    destruct (x_smutex s); [done|]. destruct mm as [mm|]; [|injection H as <-; destruct s; apply (hist_weak cf ls _ _ _ HH); cbn in *; subst; eauto; tauto].
    destruct (x_peak s <? mm); [|injection H as <-; destruct s; apply (hist_weak cf ls _ _ _ HH); cbn in *; subst; eauto; tauto].
    destruct (Z.ltb_spec (e_ram cf) mm); [|injection H as <-; destruct s; apply (hist_weak cf ls _ _ _ HH); cbn in *; subst; eauto; tauto].
    destruct (kill_for_memory cf mm); injection H as <-; destruct s; apply (hist_weak cf ls _ _ _ HH); cbn in *; subst; eauto using in_last; try tauto; try naive_solver.
    intros r d Hin. by apply no_report in Hin.
  - destruct (x_check s) eqn:Ec; cbn in H; rewrite Ec in H; try done. destruct (x_stopc s); [done|]. injection H as <-. destruct s; apply (hist_weak cf ls _ _ _ HH); cbn in *; subst; eauto; try tauto; naive_solver.
  - destruct (x_check s) eqn:Ec; cbn in H; rewrite Ec in H; try done.
    + assert (Some (s <| x_check := CLoop |> <| x_installed := true |>) = Some s') as [= <-] by (destruct (x_touch s); done || exact H). destruct s; apply (hist_weak cf ls _ _ _ HH); cbn in *; subst; eauto; try tauto; naive_solver.
    + destruct (x_smutex s); [done|]. injection H as <-. destruct s; apply (hist_weak cf ls _ _ _ HH); cbn in *; subst; eauto; try tauto; try naive_solver. destruct late; cbn; naive_solver.
    + destruct (x_smutex s); [done|]. injection H as <-. destruct s; apply (hist_weak cf ls _ _ _ HH); cbn in *; subst; eauto; try tauto; naive_solver.
  - destruct (x_main s) eqn:Em; cbn in H; rewrite Em in H; try done. injection H as <-. destruct s; apply (hist_weak cf ls _ _ _ HH); cbn in *; subst; eauto; try tauto.
Qed.
Lemma hist cf ls s : xrun cf x_new ls = Some s → Hist cf ls s.
Proof. revert ls s. apply xrun_ind; [apply hist_new|]. intros ls l s s' Hr HH H. eapply hist_step; try done. by eapply ctl. Qed.
