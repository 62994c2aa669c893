(** Proofs for ExecProps, continued: the order of what others see of Execute. *)
From Coq Require Import ZArith Lia.
From stdpp Require Import base option list.
From RecordUpdate Require Import RecordSet.
From Verif Require Import ExecModel ExecSpec ExecProofs ExecHist.
Import RecordSetNotations.
Open Scope Z_scope.

Definition kept (e : event) : Prop := match e with EKill | ETouch => False | _ => True end.
Global Instance kept_dec e : Decision (kept e).
Proof. destruct e; cbn; apply _. Defined.
Notation seen s := (filter kept (x_log s)).
(** before the preparation *)
Definition pre (k : setup) : list event :=
  match k with SPrepare | SCwd | SDir | STouch | SLsf | SLinks | SMount => [] | SStarted => [EMount; EStarted] | _ => [EMount] end.
Definition post (k : setup) (did : bool) (bs : list behaviour) : list event :=
  match k with
  | SPrepare | STouch | SLinks => []
  | SCwd | SDir | SLsf => [EReport (Bury None FCwd) did]
  | SMount => [EReport (Bury None FMount) did]
  | SEnv => [EReport (Bury None FEnv) did; EUnmount]
  | SJson => [EReport (Bury None FJson) did]
  | SDocker | SContainers => [EReport (Bury None FDocker) did]
  | SStart => [EReport (Release None FStart) did; EUnmount]
  | SStarted => [EBehave false (bs_trigger false bs); EUnmount]
  end.
(** what goes before the reports; whether it counts as a success *)
Definition ran (cf : econf) (b : bool) : list event := [EMount; EStarted; EBehave b (bs_trigger b (e_behaviours cf)); EUnmount].
Arguments ran _ _ : simpl never.
Definition good_end (ls : list xlabel) (b : bool) : Prop := b = true ↔ XWait (Exited 0) ∈ ls ∧ XTrouble ∉ ls.
Definition agree (r : report) (e : result) : Prop :=
  match r with
  | Archive _ | Release _ FUpload => e = RNil
  | Release _ f => e = if decide (f ∈ [FRAM; FDisk; FTime; FSignal]) then RReason f else ROther
  | Bury _ f => e = if decide (f = FKilled) then RReason FKilled else ROther
  end.
Inductive Tries (ls : list xlabel) (r : report) : bool → list event → Prop :=
| t_nil : (∀ d, XReply Lost d ∉ ls) → Tries ls r false []
| t_lost ds : ds ≠ [] → (∃ d, XReply Lost d ∈ ls) → Tries ls r true (EReport r <$> ds).
Definition shape (cf : econf) (ls : list xlabel) (m : mpc) (lg : list event) : Prop :=
  match m with
  | MSetup k => lg = pre k
  | MReport r e p => ∃ b t, good_end ls b ∧ Tries ls r p t ∧ agree r e ∧ lg = ran cf b ++ t
  | MRet e =>
      (∃ k did, fails_at cf ls k ∧ e = ROther ∧ lg = pre k ++ post k did (e_behaviours cf)) ∨
      (∃ b r p t e0, good_end ls b ∧ Tries ls r p t ∧ agree r e0 ∧
         (lg = ran cf b ++ t ++ [EReport r true] ∧ e = (if p then match e0 with RNil => RStop | _ => ROther end else e0) ∨
          lg = ran cf b ++ t ++ [EReport r false; EBehave false (bs_trigger false (e_behaviours cf))] ∧ e = ROther ∨
          lg = ran cf b ++ t ++ [EBehave false (bs_trigger false (e_behaviours cf))] ∧ e = ROther ∧ ∃ d, XReply GaveUp d ∈ ls))
  | _ => lg = [EMount; EStarted]
  end.
Record Sh (cf : econf) (ls : list xlabel) (s : exec) : Prop := {
  s_err : x_err s = true ↔ XTrouble ∈ ls;
  s_setup : match x_main s with MSetup _ => x_err s = false | _ => True end;
  s_early : match x_main s with MReport _ _ _ | MRet _ => True | _ => ∀ r d, XReply r d ∉ ls end;
  s_shape : shape cf ls (x_main s) (seen s) }.
Lemma agree_end cf st up w s : agree (decide_end cf st up w s) (error_end st s).
Proof.
  destruct st as [n| |]; cbn; try done.
  - destruct (decide (n = 0)) as [->|Hn]; [by destruct up|].
    assert (H : ∀ n, agree (if decide (n = 126) then Bury (Some n) FCPerm else if decide (n = 127) then Bury (Some n) FCFound else if decide (n = 128) then Bury (Some n) FCExit
      else if x_ranMem s then Release (Some n) FRAM else if x_ranDisk s then Release (Some n) FDisk
      else if x_signalled s then Release (Some n) (if x_ranTime s then FTime else FSignal) else if x_killCalled s then Bury (Some n) FKilled
      else if (1 <? e_until cf) && (0 <? e_noretries cf) && (e_noretries cf <? w) then Bury (Some n) FExit else Release (Some n) FExit)
      (if decide (126 ≤ n ≤ 128) then ROther else if x_ranMem s then RReason FRAM else if x_ranDisk s then RReason FDisk
      else if x_signalled s then RReason (if x_ranTime s then FTime else FSignal) else if x_killCalled s then RReason FKilled else ROther)).
    { clear. intros n. destruct (decide (126 ≤ n ≤ 128)).
      - destruct (decide (n = 126)); [done|]. destruct (decide (n = 127)); [done|]. destruct (decide (n = 128)); [done|lia].
      - rewrite !decide_False by lia. destruct (x_ranMem s), (x_ranDisk s), (x_signalled s), (x_ranTime s), (x_killCalled s); try done; by destruct (_ && _). }
    by destruct n; [|apply (H (Z.pos p))|apply (H (Z.neg p))].
  - destruct (x_ranMem s), (x_ranDisk s), (x_signalled s), (x_ranTime s), (x_killCalled s); try done; by destruct (_ && _).
Qed.
Lemma fails_mono cf ls l k : fails_at cf ls k → fails_at cf (ls ++ [l]) k.
Proof. intros (ls1 & d & ls2 & s & -> & H). exists ls1, d, (ls2 ++ [l]), s. by rewrite <-app_assoc. Qed.
Lemma fails_new cf ls s k d : xrun cf x_new ls = Some s → x_main s = MSetup k → fails_at cf (ls ++ [XSetup false d]) k.
Proof. intros H1 H2. by exists ls, d, [], s. Qed.
Lemma good_mono ls l b : (∀ st, l ≠ XWait st) → l ≠ XTrouble → good_end ls b → good_end (ls ++ [l]) b.
Proof.
  unfold good_end. intros H1 H2 ->. split; intros [Ha Hb]; (split; [|intros Hc]).
  - by apply in_snoc.
  - apply Hb. by eapply snoc_in.
  - eapply snoc_in; [done|]. intros <-. by eapply H1.
  - by apply Hb, in_snoc.
Qed.
Lemma tries_mono ls l r p t : (∀ d, l ≠ XReply Lost d) → Tries ls r p t → Tries (ls ++ [l]) r p t.
Proof.
  intros Hl [H|ds H [d H']]; constructor; eauto using in_snoc. intros d Hin. eapply H. eapply snoc_in; [done|]. by intros <-; eapply Hl.
Qed.
Lemma shape_mono cf ls l m lg : (∀ st, l ≠ XWait st) → l ≠ XTrouble → (∀ r d, l ≠ XReply r d) → shape cf ls m lg → shape cf (ls ++ [l]) m lg.
Proof.
  intros H1 H2 H3. destruct m; cbn; try done.
  - intros (b & t & ? & ? & ? & ?). exists b, t. split_and!; eauto using good_mono, tries_mono.
  - intros [(k & d & ? & ? & ?)|(b & r & p & t & e0 & ? & ? & ? & H)]; [left; eauto 6 using fails_mono|]. right. exists b, r, p, t, e0.
    split_and!; eauto using good_mono, tries_mono. destruct H as [?|[?|(? & ? & d & ?)]]; eauto 10 using in_snoc.
Qed.
Lemma sh_weak cf ls l s s' : Sh cf ls s → (∀ st, l ≠ XWait st) → l ≠ XTrouble → (∀ r d, l ≠ XReply r d) →
  x_main s' = x_main s ∨ (∃ st, wait_st (x_main s) = Some st ∧ wait_st (x_main s') = Some st) → x_err s' = x_err s → seen s' = seen s → Sh cf (ls ++ [l]) s'.
Proof.
  intros [S1 S2 S3 S4] H1 H2 H3 Hm He Hs. split.
  - rewrite He, S1. split; [by apply in_snoc|intros ?; by eapply snoc_in].
  - destruct Hm as [->|(st & Em1 & Em2)]; [by rewrite He|by destruct (x_main s')].
  - assert (Hin : ∀ r d, XReply r d ∈ ls ++ [l] → XReply r d ∈ ls). { intros r d Hin. eapply snoc_in; [done|]. intros <-. by eapply H3. }
    destruct Hm as [->|(st & Em1 & Em2)]; [destruct (x_main s); try done; naive_solver|].
    destruct (x_main s); try done; destruct (x_main s'); try done; naive_solver.
  - rewrite Hs. apply shape_mono; [done..|]. destruct Hm as [->|(st & Em1 & Em2)]; [done|]. destruct (x_main s); try done; by destruct (x_main s').
Qed.
Lemma seen_kept lg e : kept e → filter kept (lg ++ [e]) = filter kept lg ++ [e].
Proof. intros H. by rewrite filter_app, filter_cons_True, filter_nil by done. Qed.
Lemma seen_gone lg e : ¬ kept e → filter kept (lg ++ [e]) = filter kept lg.
Proof. intros H. by rewrite filter_app, filter_cons_False, filter_nil, app_nil_r by done. Qed.
Lemma sh_new cf : Sh cf [] x_new.
Proof. split; cbn; try done; [split; [done|by intros ?%elem_of_nil]|by intros ? ? ?%elem_of_nil]. Qed.
Ltac weak HH := apply (sh_weak _ _ _ _ _ HH); cbn in *; subst; eauto; try (by apply seen_gone; cbn; auto).
Lemma sh_step cf ls l s s' : xrun cf x_new ls = Some s → Ctl s → Hist cf ls s → Sh cf ls s → xstep cf s l = Some s' → Sh cf (ls ++ [l]) s'.
Proof.
  intros Hr HC HHi HH H. destruct l as [ok did|st0|up w|r did|r| | | |ns mm| |late|].
  - (* preparations *)
    assert (Hf : ∀ k, x_main s = MSetup k → fails_at cf (ls ++ [XSetup false did]) k) by (intros k; by apply (fails_new _ _ s)).
    destruct HH as [S1 S2 S3 S4]. destruct s as [m t c sm inst kd sc st pk rm rt rd sg kc rn er lg]. cbn in *.
    destruct m as [k| | | | | | | |]; try done. cbn in *.
    assert (Her : er = true ↔ XTrouble ∈ ls ++ [XSetup ok did]). { rewrite S1. split; [by apply in_snoc|intros ?; by eapply snoc_in]. }
    assert (Hnr : ∀ r d, XReply r d ∉ ls ++ [XSetup ok did]). { intros r d Hin. eapply S3. by eapply snoc_in. }
    specialize (Hf k eq_refl). clear S1 S3. destruct ok.
    + destruct k; injection H as <-; split; cbn in *; try done; rewrite seen_kept by done; by rewrite S4.
    + destruct k; try done; injection H as <-; split; cbn in *; try done; left; eexists _, did; (split; [exact Hf|]); (split; [done|]); cbn;
        rewrite ?seen_kept, ?seen_gone by (cbn; auto); rewrite S4; try done; by rewrite ?app_nil_r.
  - (* the command ends *)
    destruct HH as [S1 S2 S3 S4]. destruct s as [m t c sm inst kd sc st pk rm rt rd sg kc rn er lg]. cbn in *. destruct m; try done. injection H as <-. split; cbn in *; try done.
    + rewrite S1. split; [by apply in_snoc|intros ?; by eapply snoc_in].
    + intros r d Hin. eapply S3. by eapply snoc_in.
  - (* the caller *)
    destruct (x_main s) as [k| |st|st|st|st|st|rep e pb|e] eqn:Em; cbn in H; rewrite Em in H; try done.
    + case_decide; [|done]. injection H as <-. destruct s. weak HH.
    + destruct (x_check s) eqn:Ec; try done. injection H as <-. destruct s. weak HH.
    + injection H as <-. destruct s. weak HH. right. exists st. by destruct x_killCalled.
    + destruct (x_killdone s); [done|]. injection H as <-. destruct s. weak HH.
    + case_decide; [|done]. injection H as <-. destruct HH as [S1 S2 S3 S4]. pose proof (h_wait _ _ _ HHi) as Hw. rewrite Em in *. destruct Hw as [Hw Hu].
      assert (Hx : XTrouble ∈ ls ++ [XMain up w] ↔ x_err s = true). { rewrite S1. split; [intros ?; by eapply snoc_in|by apply in_snoc]. }
      assert (Hg : good_end (ls ++ [XMain up w]) (match st with Exited 0 => negb (x_err s) | _ => false end)).
      { unfold good_end. rewrite Hx. assert (Hst : XWait (Exited 0) ∈ ls ++ [XMain up w] ↔ st = Exited 0).
        { split; [intros Hin; symmetry; apply Hu; by eapply snoc_in|intros ->; by apply in_snoc]. }
        rewrite Hst. clear. destruct st as [[]| |], (x_err s); cbn; naive_solver. }
      assert (Ht : Tries (ls ++ [XMain up w]) (decide_end cf st up w s) false []). { constructor. intros d Hin. eapply S3. by eapply snoc_in. }
      pose proof (agree_end cf st up w s) as Ha.
      destruct s. split; cbn in *.
      * by rewrite Hx.
      * done.
      * done.
      * rewrite !seen_kept by done. rewrite S4. eexists _, []. split; [exact Hg|]. split; [exact Ht|]. split; [exact Ha|]. done.
  - (* the manager answers *)
    destruct HH as [S1 S2 S3 S4]. destruct s as [m t c sm inst kd sc st pk rm rt rd sg kc rn er lg]. cbn in *. destruct m as [| | | | | | |rep e pb|]; try done.
    assert (Her : er = true ↔ XTrouble ∈ ls ++ [XReply r did]). { rewrite S1. split; [by apply in_snoc|intros ?; by eapply snoc_in]. }
    cbn in S4. destruct S4 as (b & tr & Hb & Ht & Ha & Hl).
    assert (Hb' : good_end (ls ++ [XReply r did]) b) by (by apply good_mono).
    destruct r.
    + injection H as <-. split; cbn in *; try done; right; exists b, rep, pb, tr, e; (split; [done|]); (split; [by apply tries_mono|]); (split; [done|]); left;
        (split; [by rewrite seen_kept, Hl, app_assoc|done]).
    + injection H as <-. split; cbn in *; try done; right; exists b, rep, pb, tr, e; (split; [done|]); (split; [by apply tries_mono|]); (split; [done|]); right; left;
        (split; [rewrite !seen_kept, Hl by done; by rewrite <-!app_assoc|done]).
    + injection H as <-. split; cbn in *; try done. exists b, (tr ++ [EReport rep did]). split; [done|]. split; [|split; [done|by rewrite seen_kept, Hl, app_assoc]].
      destruct Ht as [Hn|ds Hne [d Hd]].
      * apply (t_lost _ _ [did]); [done|]. exists did. apply in_last.
      * replace ((EReport rep <$> ds) ++ [EReport rep did]) with (EReport rep <$> (ds ++ [did])) by (by rewrite fmap_app). constructor; [by destruct ds|]. exists did. apply in_last.
    + injection H as <-. split; cbn in *; try done; right; exists b, rep, pb, tr, e; (split; [done|]); (split; [by apply tries_mono|]); (split; [done|]); right; right;
        (split; [rewrite !seen_kept, Hl by done; by rewrite <-!app_assoc|split; [done|exists did; apply in_last]]).
  - destruct (x_touch s) eqn:Et; cbn in H; rewrite Et in H; try done. destruct r; injection H as <-; destruct s; weak HH.
  - destruct (x_touch s) eqn:Et; cbn in H; rewrite Et in H; try done. destruct (x_stopt s); [done|]. injection H as <-. destruct s; weak HH.
  - destruct (x_touch s) eqn:Et; cbn in H; rewrite Et in H; try done; try (case_decide; [|done]); try (destruct (x_smutex s); [done|]); injection H as <-; destruct s; weak HH.
  - destruct (x_check s) eqn:Ec; cbn in H; rewrite Ec in H; try done. injection H as <-. destruct s; weak HH.
  - destruct (x_check s) eqn:Ec; cbn in H; rewrite Ec in H; try done. destruct ns; [injection H as <-; destruct s; weak HH|].
    destruct (x_smutex s); [done|]. destruct mm as [mm|]; [|injection H as <-; destruct s; weak HH].
    destruct (x_peak s <? mm); [|injection H as <-; destruct s; weak HH].
    destruct (e_ram cf <? mm); [|injection H as <-; destruct s; weak HH].
    destruct (kill_for_memory cf mm); injection H as <-; destruct s; weak HH.
  - destruct (x_check s) eqn:Ec; cbn in H; rewrite Ec in H; try done. destruct (x_stopc s); [done|]. injection H as <-. destruct s; weak HH.
  - destruct (x_check s) eqn:Ec; cbn in H; rewrite Ec in H; try done.
    + assert (Some (s <| x_check := CLoop |> <| x_installed := true |>) = Some s') as [= <-] by (destruct (x_touch s); done || exact H). destruct s; weak HH.
    + destruct (x_smutex s); [done|]. injection H as <-. destruct s; weak HH.
    + destruct (x_smutex s); [done|]. injection H as <-. destruct s; weak HH.
  - destruct (x_main s) eqn:Em; cbn in H; rewrite Em in H; try done. injection H as <-. destruct HH as [S1 S2 S3 S4]. destruct s. cbn in *. subst. split; cbn in *; try done.
    + split; [intros _; apply in_last|done].
    + intros r d Hin. eapply S3. by eapply snoc_in.
Qed.
Lemma sh cf ls s : xrun cf x_new ls = Some s → Sh cf ls s.
Proof. revert ls s. apply xrun_ind; [apply sh_new|]. intros ls l s s' Hr HH H. eapply sh_step; try done; [by eapply ctl|by apply hist]. Qed.
