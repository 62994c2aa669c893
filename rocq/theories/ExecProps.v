(** C61 to C65: executing a job. *)
From Coq Require Import ZArith Lia.
From stdpp Require Import base option list.
From RecordUpdate Require Import RecordSet.
From Verif Require Import ExecModel ExecSpec ExecProofs ExecHist ExecShape ExecEnd.
Import RecordSetNotations.
Open Scope Z_scope.

(** For the cases: a job of 100 MB with a behaviour on success, one on failure and one on exit. *)
Definition cf1 : econf :=
  EConf 100 0 [Behaviour (Trigger true false false) Cleanup 1; Behaviour (Trigger false true false) Run 2; Behaviour (Trigger false false true) Run 3] 3 0.
Definition prepared : list xlabel := replicate 13 (XSetup true true) ++ [XC false].
Definition finished : list xlabel := [XMain false 5; XStopCheck; XMain false 5; XMain false 5; XMain false 5].
(** the command used 200 MB, was told to stop and was ended by that *)
Definition killed_run (mem : Z) : list xlabel :=
  prepared ++ [XTick false (Some mem); XTouch TouchKill; XT; XT; XT; XT; XT; XWait Signalled; XMain false 5; XStopCheck; XMain false 5; XMain false 5; XMain false 5; XMain false 5; XReply Worked true].

(** ** C61: what a runner reports is what happened *)
Theorem C61_report_true cf ls s r d : xrun cf x_new ls = Some s → EReport r d ∈ x_log s → truthful cf ls r ∧ ∀ st, XWait st ∈ ls → fitting cf ls st r.
Proof. exact (reports_right cf ls s r d). Qed.
Print Assumptions C61_report_true.
(** However often it has to be told, the manager is told the same. *)
Theorem C61_one_story cf ls s r d r' d' : xrun cf x_new ls = Some s → EReport r d ∈ x_log s → EReport r' d' ∈ x_log s → r = r'.
Proof. exact (reports_same cf ls s r d r' d'). Qed.
Print Assumptions C61_one_story.
(** Of several reasons the same one is always given: memory, then disk, then the signal, then the kill or the exit code. *)
Theorem C61_reason cf ls s r d f : 0 ≤ e_ram cf → xrun cf x_new ls = Some s → EReport r d ∈ x_log s → reason_of r = Some f → given cf ls f.
Proof. exact (reason_given cf ls s r d f). Qed.
Print Assumptions C61_reason.
Example C61_reason_case : ∃ s, xrun cf1 x_new (prepared ++ [XTick false (Some 200); XTick false (Some 150); XSignal; XC false; XWait Signalled; XMain false 5; XMain false 5; XMain false 5; XMain false 5; XReply Worked true]) = Some s ∧
  EReport (Release (Some (-1)) FRAM) true ∈ x_log s.
Proof. eexists. split; [by vm_compute|cbn; repeat (first [by left|right])]. Qed.
(** told twice, because the first answer was lost *)
Example C61_case : ∃ s, xrun cf1 x_new (prepared ++ XWait (Exited 3) :: finished ++ [XReply Lost true; XReply Worked true]) = Some s ∧
  EReport (Release (Some 3) FExit) true ∈ x_log s ∧ x_log s = [EMount; EStarted; EBehave false [3%nat; 1%nat]; EUnmount; EReport (Release (Some 3) FExit) true; EReport (Release (Some 3) FExit) true].
Proof. eexists. split; [by vm_compute|]. split; [cbn; repeat (first [by left|right])|by vm_compute]. Qed.
(** Execute returns nil only of a command that exited 0 and was archived, or whose files could not be uploaded. *)
Theorem C61_nil_partial cf ls s : xrun cf x_new ls = Some s → x_main s = MRet RNil → XWait (Exited 0) ∈ ls ∧ (EReport (Archive 0) true ∈ x_log s ∨ EReport (Release (Some 0) FUpload) true ∈ x_log s).
Proof. exact (nil_means cf ls s). Qed.
Print Assumptions C61_nil_partial.
(** A command that exited 0 but whose files could not be uploaded: the manager is told to
    release it, with exit code 0; but Execute returns nil, as it does for success. *)
Theorem C61_upload_refuted : ∃ cf ls s, xrun cf x_new ls = Some s ∧ x_main s = MRet RNil ∧ EReport (Release (Some 0) FUpload) true ∈ x_log s ∧ ∀ c d, EReport (Archive c) d ∉ x_log s.
Proof.
  exists cf1, (prepared ++ XWait (Exited 0) :: [XMain false 5; XStopCheck; XMain false 5; XMain false 5; XMain true 5; XReply Worked true]).
  eexists. split; [by vm_compute|]. cbn. split; [done|]. split; [repeat (first [by left|right])|]. intros c d H. repeat (apply elem_of_cons in H as [H|H]; [discriminate H|]). by apply elem_of_nil in H.
Qed.
Print Assumptions C61_upload_refuted.

(** ** C62: Execute comes to an end and tells the manager *)
(** When the command has ended, Execute gets to tell the manager in at most 16 steps of its
    goroutines, whichever they are, and there is always one to take. *)
Theorem C62_comes_to_tell cf ls s n s' : xrun cf x_new ls = Some s → finishing s → own_steps cf s n s' →
  (n ≤ 16)%nat ∧ (finishing s' → ∃ l s'', own l ∧ xstep cf s' l = Some s'') ∧
  ((∀ l s'', own l → xstep cf s' l ≠ Some s'') → ∃ r e p, x_main s' = MReport r e p).
Proof.
  intros Hr Hf Hn. destruct (ends_in_report cf ls s n s' Hr Hf Hn) as [? ?]. split; [done|]. split; [|done].
  intros Hf'. destruct (own_run cf _ _ _ _ Hn Hr) as [ls' Hr']. apply xstep_progress; [by eapply ctl|done].
Qed.
Print Assumptions C62_comes_to_tell.
Example C62_comes_to_tell_case : ∃ s, xrun cf1 x_new (prepared ++ [XTouch TouchKill; XWait (Exited 3)]) = Some s ∧ finishing s.
Proof. eexists. split; [by vm_compute|done]. Qed.
(** When it has returned, the goroutines it started come to their ends. *)
Theorem C62_leaves_nothing cf ls s e : xrun cf x_new ls = Some s → x_main s = MRet e →
  x_running s = false ∧ ((x_touch s = TNone ∨ x_touch s = TEnd) ∧ (x_check s = CNone ∨ x_check s = CEnd) ∨ ∃ l s', (own l ∨ l = XStopTouch) ∧ xstep cf s l = Some s').
Proof.
  intros Hr Em. split; [|by eapply returned_progress; [by eapply ctl|]]. destruct (x_running s) eqn:E; [|done]. destruct (running_when cf ls s Hr E) as [E'|E']; congruence.
Qed.
Print Assumptions C62_leaves_nothing.
(** No send to the channel that ends the touching blocks. *)
Theorem C62_stop_fits cf ls s : xrun cf x_new ls = Some s → (x_stopt s ≤ 2)%nat.
Proof. intros Hr. destruct (ctl cf ls s Hr) as [_ _ _ _ _ _ A7 _ _ _]. destruct (x_main s); cbn in A7; lia. Qed.
Print Assumptions C62_stop_fits.
Example C62_leaves_nothing_case : ∃ s, xrun cf1 x_new (prepared ++ XWait (Exited 0) :: finished ++ [XReply Worked true]) = Some s ∧ x_main s = MRet RNil ∧ x_stopt s = 2%nat.
Proof. eexists. split; [by vm_compute|done]. Qed.
(** Unless the manager said that the job was killed, it is touched until the manager is told of its end. *)
Theorem C62_touched cf ls s : xrun cf x_new ls = Some s → to_be_touched s → XTouch TouchKill ∉ ls → x_touch s = TLoop ∧ ∃ s', xstep cf s (XTouch TouchOk) = Some s' ∧ x_log s' = x_log s ++ [ETouch].
Proof.
  intros Hr Hb Hn. pose proof (touched_while cf ls s Hr Hb Hn) as Ht. split; [done|]. cbn. rewrite Ht. eexists. split; [done|]. by destruct s.
Qed.
Print Assumptions C62_touched.
Example C62_touched_case : ∃ s, xrun cf1 x_new (prepared ++ [XTouch TouchErr; XWait (Exited 0); XMain false 5]) = Some s ∧ to_be_touched s.
Proof. eexists. split; [by vm_compute|done]. Qed.
(** When Execute has returned, the manager was told, or not within a day, or it is one of three preparations that failed. *)
Theorem C62_told_partial cf ls s e : xrun cf x_new ls = Some s → x_main s = MRet e → (∃ r d, EReport r d ∈ x_log s) ∨ (∃ d, XReply GaveUp d ∈ ls) ∨
  fails_at cf ls SPrepare ∨ fails_at cf ls SLinks ∨ fails_at cf ls SStarted.
Proof. exact (told cf ls s e). Qed.
Print Assumptions C62_told_partial.
(** When it has returned, what it mounted is unmounted, unless it is one of three others. *)
Theorem C62_unmounted_partial cf ls s e : xrun cf x_new ls = Some s → x_main s = MRet e → EMount ∈ x_log s →
  EUnmount ∈ x_log s ∨ fails_at cf ls SJson ∨ fails_at cf ls SDocker ∨ fails_at cf ls SContainers.
Proof. exact (unmounted cf ls s e). Qed.
Print Assumptions C62_unmounted_partial.
Example C62_unmounted_case : ∃ s, xrun cf1 x_new (replicate 7 (XSetup true true) ++ [XSetup false true]) = Some s ∧ x_main s = MRet ROther ∧ EMount ∈ x_log s.
Proof. eexists. split; [by vm_compute|]. split; [done|]. cbn. left. Qed.
(** Making the links for LSF emulation (or the pipes) fails: the manager is not told. *)
Theorem C62_told_refuted : ∃ cf ls s, xrun cf x_new ls = Some s ∧ x_main s = MRet ROther ∧ (∀ r d, EReport r d ∉ x_log s) ∧ ∀ r d, XReply r d ∉ ls.
Proof.
  exists cf1, (replicate 5 (XSetup true true) ++ [XSetup false true]). eexists. split; [by vm_compute|]. split; [done|]. split; [intros r d H; by apply elem_of_nil in H|].
  intros r d H. cbn in H. repeat (apply elem_of_cons in H as [H|H]; [discriminate H|]). by apply elem_of_nil in H.
Qed.
Print Assumptions C62_told_refuted.
(** The JSON of the job cannot be made (or docker cannot be asked): what was mounted stays. *)
Theorem C62_unmounted_refuted : ∃ cf ls s, xrun cf x_new ls = Some s ∧ x_main s = MRet ROther ∧ EMount ∈ x_log s ∧ EUnmount ∉ x_log s.
Proof.
  exists cf1, (replicate 8 (XSetup true true) ++ [XSetup false true]). eexists. split; [by vm_compute|]. split; [done|]. cbn. split; [left|].
  intros H. repeat (apply elem_of_cons in H as [H|H]; [discriminate H|]). by apply elem_of_nil in H.
Qed.
Print Assumptions C62_unmounted_refuted.

(** ** C63: a killed job stops and is buried *)
(** The manager answers a touch with "killed", the command being watched: when the goroutine
    that touches has ended, the command has been killed since, and it does end while the command runs. *)
Theorem C63_killed_partial cf ls s s1 ls2 s2 : xrun cf x_new ls = Some s → x_installed s = true → xstep cf s (XTouch TouchKill) = Some s1 → xrun cf s1 ls2 = Some s2 →
  (x_touch s2 = TEnd → EKill ∈ since s s2) ∧ (x_main s2 = MRun → x_touch s2 ∈ [TKill; TOld; TNew; TNew2; TNew3; TStopC] → ∃ s3, xstep cf s2 XT = Some s3).
Proof.
  intros Hr Hi H1 H2. split; [exact (kill_done cf ls s s1 ls2 s2 Hr Hi H1 H2)|]. apply (kill_comes cf (ls ++ XTouch TouchKill :: ls2)).
  rewrite (run_app cf x_new ls s _ Hr). cbn [xrun]. by rewrite H1.
Qed.
Print Assumptions C63_killed_partial.
(** A command that was killed before it ended, where neither a signal to the runner nor memory nor disk can be why, is buried as killed. *)
Theorem C63_buried_partial cf ls1 s1 st code ls2 s2 r d : xrun cf x_new ls1 = Some s1 → EKill ∈ x_log s1 → xrun cf s1 (XWait st :: ls2) = Some s2 → quiet cf (ls1 ++ XWait st :: ls2) →
  stopped_with st code → EReport r d ∈ x_log s2 → r = Bury (Some code) FKilled.
Proof. exact (killed_buried cf ls1 s1 st code ls2 s2 r d). Qed.
Print Assumptions C63_buried_partial.
Example C63_case : ∃ s, xrun cf1 x_new (killed_run 50) = Some s ∧ EReport (Bury (Some (-1)) FKilled) true ∈ x_log s ∧ EKill ∈ x_log s ∧ x_main s = MRet (RReason FKilled).
Proof. eexists. split; [by vm_compute|]. cbn. split; [repeat (first [by left|right])|]. split; [repeat (first [by left|right])|done]. Qed.
(** The same with a command that uses more memory than it said it would: it is released, to be run again. *)
Theorem C63_memory_refuted : ∃ cf ls s, xrun cf x_new ls = Some s ∧ XTouch TouchKill ∈ ls ∧ EKill ∈ x_log s ∧ XWait Signalled ∈ ls ∧ EReport (Release (Some (-1)) FRAM) true ∈ x_log s.
Proof.
  exists cf1, (killed_run 200). eexists. split; [by vm_compute|]. cbn. split; [repeat (first [by left|right])|]. split; [repeat (first [by left|right])|].
  split; repeat (first [by left|right]).
Qed.
Print Assumptions C63_memory_refuted.
(** The manager says "killed" while Execute still prepares: the command is started, is not killed, is neither watched nor touched, and runs to its end. *)
Theorem C63_early_refuted : ∃ cf ls1 s1 ls2 s2, xrun cf x_new (ls1 ++ [XTouch TouchKill]) = Some s1 ∧ EStarted ∉ x_log s1 ∧
  xrun cf s1 ls2 = Some s2 ∧ x_running s2 = true ∧ x_touch s2 = TEnd ∧ x_check s2 = CDone ∧ (∀ l s3, xstep cf s2 l = Some s3 → l = XTrouble ∨ ∃ st, l = XWait st) ∧
  ∃ s, xrun cf s2 (XWait (Exited 0) :: [XMain false 5; XMain false 5; XMain false 5; XMain false 5; XReply Worked true]) = Some s ∧ EReport (Archive 0) true ∈ x_log s ∧ EKill ∉ x_log s.
Proof.
  exists cf1, (replicate 5 (XSetup true true)). eexists. exists ([XT; XT; XT] ++ replicate 8 (XSetup true true) ++ [XC false; XStopCheck]). eexists.
  split; [by vm_compute|]. split; [cbn; intros H; by apply elem_of_nil in H|]. split; [by vm_compute|]. split; [done|]. split; [done|]. split; [done|].
  split. { intros l s3 H. destruct l; cbn in H; try done; eauto. }
  eexists. split; [by vm_compute|]. cbn. split; [repeat (first [by left|right])|]. intros H. repeat (apply elem_of_cons in H as [H|H]; [discriminate H|]). by apply elem_of_nil in H.
Qed.
Print Assumptions C63_early_refuted.

(** ** C64: behaviours *)
(** What triggers: each that is meant for such an end or for any, and does something. *)
Theorem C64_which success bs i : i ∈ bs_trigger success bs ↔ ∃ b, b ∈ bs ∧ b_id b = i ∧ acts b ∧ (meant_for success b ∨ on_exit (b_when b) = true).
Proof. exact (trigger_which success bs i). Qed.
Print Assumptions C64_which.
(** Each once, if none is meant both for such an end and for any. *)
Theorem C64_each_once_partial success bs : NoDup (b_id <$> bs) → (∀ b, b ∈ bs → ¬ (meant_for success b ∧ on_exit (b_when b) = true)) → NoDup (bs_trigger success bs).
Proof. exact (trigger_once success bs). Qed.
Print Assumptions C64_each_once_partial.
Theorem C64_each_once_refuted : ∃ b, acts b ∧ bs_trigger true [b] = [b_id b; b_id b].
Proof. by exists (Behaviour (Trigger true true false) Run 1). Qed.
Print Assumptions C64_each_once_refuted.
(** Those for any end come after those for such an end, and otherwise in the order given. *)
Theorem C64_order success bs1 b1 bs2 b2 bs3 : acts b1 → acts b2 →
  (meant_for success b1 → on_exit (b_when b2) = true → ∃ l1 l2 l3, bs_trigger success (bs1 ++ b1 :: bs2 ++ b2 :: bs3) = l1 ++ b_id b1 :: l2 ++ b_id b2 :: l3) ∧
  (meant_for success b2 → on_exit (b_when b1) = true → ∃ l1 l2 l3, bs_trigger success (bs1 ++ b1 :: bs2 ++ b2 :: bs3) = l1 ++ b_id b2 :: l2 ++ b_id b1 :: l3) ∧
  (meant_for success b1 → meant_for success b2 → ∃ l1 l2 l3, bs_trigger success (bs1 ++ b1 :: bs2 ++ b2 :: bs3) = l1 ++ b_id b1 :: l2 ++ b_id b2 :: l3).
Proof. exact (trigger_order success bs1 b1 bs2 b2 bs3). Qed.
Print Assumptions C64_order.
Example C64_case : bs_trigger true (e_behaviours cf1) = [2%nat; 1%nat] ∧ bs_trigger false (e_behaviours cf1) = [3%nat; 1%nat].
Proof. by vm_compute. Qed.
(** Those for success trigger only if the command exited 0, and once. *)
Theorem C64_success cf ls s l1 ids l2 : xrun cf x_new ls = Some s → x_log s = l1 ++ EBehave true ids :: l2 →
  XWait (Exited 0) ∈ ls ∧ ids = bs_trigger true (e_behaviours cf) ∧ ∀ ids', EBehave true ids' ∉ l2.
Proof.
  intros Hr Hl. assert (Hin : EBehave true ids ∈ x_log s) by (rewrite Hl; apply elem_of_app; right; left).
  destruct (behave_success cf ls s ids Hr Hin) as (? & ? & ?). split_and!; [done..|]. intros ids'. by eapply behave_once.
Qed.
Print Assumptions C64_success.
(** A command that was started has its behaviours triggered before Execute returns, *)
Theorem C64_triggered cf ls s e : xrun cf x_new ls = Some s → x_main s = MRet e → EStarted ∈ x_log s → ∃ b, EBehave b (bs_trigger b (e_behaviours cf)) ∈ x_log s.
Proof. intros Hr Em Hin. destruct (behave_some cf ls s e Hr Em Hin) as (b & ids & Hb). exists b. by rewrite <-(behave_ids cf ls s b ids Hr Hb). Qed.
Print Assumptions C64_triggered.
(** and before the file systems are unmounted and the manager is told of its end; as success just if it exited 0 with no error kept while it ran. *)
Theorem C64_before_report cf ls s l1 r d l2 : xrun cf x_new ls = Some s → x_log s = l1 ++ EReport r d :: l2 → (∀ f, r ≠ Bury None f ∧ r ≠ Release None f) →
  ∃ l0 b ids l0' l0'', l1 = l0 ++ EBehave b ids :: l0' ++ EUnmount :: l0'' ∧ (b = true ↔ XWait (Exited 0) ∈ ls ∧ XTrouble ∉ ls).
Proof. exact (behave_before cf ls s l1 r d l2). Qed.
Print Assumptions C64_before_report.
Example C64_before_report_case : ∃ s, xrun cf1 x_new (prepared ++ XWait (Exited 0) :: finished ++ [XReply Worked true]) = Some s ∧
  x_log s = [EMount; EStarted; EBehave true [2%nat; 1%nat]; EUnmount; EReport (Archive 0) true].
Proof. eexists. split; by vm_compute. Qed.
(** A job that is archived has its behaviours for failure triggered: because of an error
    that was kept while it ran, or because the answer of the manager was lost and the next
    try was refused, the job being gone; then those for success have been triggered too. *)
Theorem C64_failure_refuted : ∃ cf ls1 s1 ls2 s2, xrun cf x_new ls1 = Some s1 ∧ EReport (Archive 0) true ∈ x_log s1 ∧ EBehave false [3%nat; 1%nat] ∈ x_log s1 ∧ XReply Worked true ∈ ls1 ∧
  xrun cf x_new ls2 = Some s2 ∧ EReport (Archive 0) true ∈ x_log s2 ∧ EBehave true [2%nat; 1%nat] ∈ x_log s2 ∧ EBehave false [3%nat; 1%nat] ∈ x_log s2.
Proof.
  exists cf1, (prepared ++ XTrouble :: XWait (Exited 0) :: finished ++ [XReply Worked true]). eexists. exists (prepared ++ XWait (Exited 0) :: finished ++ [XReply Lost true; XReply Permanent false]). eexists.
  do 3 (split; [first [by vm_compute|cbn; repeat (first [by left|right])]|]). split; [cbn; repeat (first [by left|right])|].
  split; [by vm_compute|]. split; [cbn; repeat (first [by left|right])|]. split; cbn; repeat (first [by left|right]).
Qed.
Print Assumptions C64_failure_refuted.

(** ** C65: when a runner takes no further jobs *)
(** It stops only if it was signalled or lost its manager; *)
Theorem C65_only cf ls s e : xrun cf x_new ls = Some s → x_main s = MRet e → runner_stops e = true → XSignal ∈ ls ∨ ∃ d, XReply Lost d ∈ ls.
Proof. exact (stops_only cf ls s e). Qed.
Print Assumptions C65_only.
(** it does if it told the manager that a signal ended the command, the manager being there; *)
Theorem C65_signal_partial cf ls s e code : xrun cf x_new ls = Some s → x_main s = MRet e → EReport (Release code FSignal) true ∈ x_log s → (∀ r d, XReply r d ∈ ls → r = Worked) →
  runner_stops e = true.
Proof.
  intros Hr Em Hin Hw. destruct (stops_signal cf ls s e code true Hr Em Hin) as [?|[[_ ?]|[d Hd]]]; [|done|done|by apply Hw in Hd].
  intros d Hd. by apply Hw in Hd.
Qed.
Print Assumptions C65_signal_partial.
(** and if it lost the manager before it could tell it of a success. *)
Theorem C65_lost_partial cf ls s d0 d : xrun cf x_new (ls ++ [XReply Worked d]) = Some s → XWait (Exited 0) ∈ ls → XReply Lost d0 ∈ ls → ∃ e, x_main s = MRet e ∧ runner_stops e = true.
Proof. intros Hr Hw Hl. exists RStop. split; [by eapply stops_lost|done]. Qed.
Print Assumptions C65_lost_partial.
Definition signalled (late : bool) (mem : Z) (rs : list xlabel) : list xlabel :=
  prepared ++ [XTick false (Some mem); XSignal; XC late; XWait Signalled; XMain false 5; XMain false 5; XMain false 5; XMain false 5] ++ rs.
Example C65_case : (∃ s, xrun cf1 x_new (signalled false 50 [XReply Worked true]) = Some s ∧ EReport (Release (Some (-1)) FSignal) true ∈ x_log s ∧ x_main s = MRet (RReason FSignal)) ∧
  ∃ s, xrun cf1 x_new ((prepared ++ XWait (Exited 0) :: finished ++ [XReply Lost false]) ++ [XReply Worked true]) = Some s.
Proof. split; eexists; [split; [by vm_compute|]; split; [cbn; repeat (first [by left|right])|done]|by vm_compute]. Qed.
(** A runner that was signalled goes on if the job had been running for longer than expected or had used more memory; and one that lost its manager if the command failed. *)
Theorem C65_stops_refuted : ∃ cf ls1 s1 e1 ls2 s2 e2 ls3 s3 e3,
  xrun cf x_new ls1 = Some s1 ∧ x_main s1 = MRet e1 ∧ XSignal ∈ ls1 ∧ EReport (Release (Some (-1)) FTime) true ∈ x_log s1 ∧ runner_stops e1 = false ∧
  xrun cf x_new ls2 = Some s2 ∧ x_main s2 = MRet e2 ∧ XSignal ∈ ls2 ∧ EReport (Release (Some (-1)) FRAM) true ∈ x_log s2 ∧ runner_stops e2 = false ∧
  xrun cf x_new ls3 = Some s3 ∧ x_main s3 = MRet e3 ∧ XReply Lost false ∈ ls3 ∧ EReport (Release (Some 3) FExit) true ∈ x_log s3 ∧ runner_stops e3 = false.
Proof.
  exists cf1, (signalled true 50 [XReply Worked true]). eexists _, _. exists (signalled false 200 [XReply Worked true]). eexists _, _.
  exists (prepared ++ XWait (Exited 3) :: finished ++ [XReply Lost false; XReply Worked true]). eexists _, _.
  split; [by vm_compute|]. split; [done|]. split; [cbn; repeat (first [by left|right])|]. split; [cbn; repeat (first [by left|right])|]. split; [done|].
  split; [by vm_compute|]. split; [done|]. split; [cbn; repeat (first [by left|right])|]. split; [cbn; repeat (first [by left|right])|]. split; [done|].
  split; [by vm_compute|]. split; [done|]. split; [cbn; repeat (first [by left|right])|]. split; [cbn; repeat (first [by left|right])|]. done.
Qed.
Print Assumptions C65_stops_refuted.
