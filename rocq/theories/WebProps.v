(** C99, C100, C101, C102: what the status web page does and shows, and killing the jobs of
    hosts. *)
From Coq Require Import ZArith Lia String Ascii.
From stdpp Require Import base option strings gmap list.
From RecordUpdate Require Import RecordSet.
From Verif Require Import GoHeap QueueModel ServerModel ServerSpec ServerLimSpec ServerKey ServerDemo ListModel ListSpec RestModel RestSpec RestProps WebModel WebSpec WebProofs.
Import RecordSetNotations.
Open Scope Z_scope.
Open Scope string_scope.

(** ** C99 Retrying *)
(** Retrying puts exactly the buried jobs the request is about back in the queue, with
    all of their tries; nothing happens to other jobs. *)
Theorem C99_retry es s now od la r : reachable spares_busy es s → any_orders od →
  ∃ s' l, web_act now od la WRetry r s = Some (s', l) ∧ live (sdb s') = live (sdb s) ∧ complete (sdb s') = complete (sdb s) ∧
    ∀ k, (asked la [SBury] r s k → retried s s' k) ∧ (¬ asked la [SBury] r s k → seen s' k = seen s k).
Proof. intros Hr. apply web_retry. by apply (reach_good spares_busy es). Qed.
Print Assumptions C99_retry.
(** The same goes for jobs named by their keys ("wr retry"). *)
Theorem C99_kick es s ks : reachable spares_busy es s →
  ∃ s' n, s_kick ks s = Some (s', SCount n, []) ∧ live (sdb s') = live (sdb s) ∧ complete (sdb s') = complete (sdb s) ∧
    ∀ k, (k ∈ ks → (∃ j, seen s k = Some (SBury, j)) → retried s s' k) ∧
         (¬ (k ∈ ks ∧ ∃ j, seen s k = Some (SBury, j)) → seen s' k = seen s k).
Proof. intros Hr. assert (HG : Good s) by (by apply (reach_good spares_busy es)). destruct HG as [HS HD _ _]. by apply kick_all. Qed.
Print Assumptions C99_kick.
(** *** The cases *)
Definition web_case (o : web_op) (r : web_request) (f : sstate → sstate → bool) (s : sstate) : bool :=
  match web_act (sec 300) od0 la0 o r s with Some (s', _) => f s s' | None => false end.
Lemma web_reach ops o r f : shown serving_b (s_new (sec 1)) ops (λ _ s, web_case o r f s) = true →
  ∃ es s s' l, reachable serving es s ∧ web_act (sec 300) od0 la0 o r s = Some (s', l) ∧ f s s' = true.
Proof.
  intros H. destruct (shown_hist serving serving_b (s_new (sec 1)) ops _ serving_b_ok H) as (es & s & Hh & Hf).
  unfold web_case in Hf. destruct (web_act (sec 300) od0 la0 o r s) as [[s' l]|] eqn:E; [|done].
  exists es, s, s', l. split; [by exists (sec 1)|done].
Qed.
(** jobs 1 and 3 failed, with exit codes 1 and 2, and have no tries left *)
Definition two_buried : list sop :=
  [AAdd (sec 1) [plain_job key1 0 [] [] [] "r"; plain_job key3 0 [] [] [] "s"] false;
   AReserve (sec 2) 1 "r" true 0; AStart (sec 3) 1 key1 true; ARelease (sec 4) 1 key1 (ended 1 4);
   AReserve (sec 5) 1 "s" true 0; AStart (sec 6) 1 key3 true; ARelease (sec 7) 1 key3 (ended 2 7)].
Definition retry_req : web_request := WebRequest "rg" "" 1 "".
Definition exit_in (s : sstate) (k : key) (i : istate) (e : Z) (u : N) : bool :=
  match seen s k with Some (i', j) => bool_decide (i' = i) && (jexit j =? e)%Z && (juntil j =? u)%N | None => false end.
Example C99_case : ∃ es s s' l, reachable serving es s ∧ web_act (sec 300) od0 la0 WRetry retry_req s = Some (s', l) ∧
  asked la0 [SBury] retry_req s key1 ∧ ¬ asked la0 [SBury] retry_req s key3 ∧
  exit_in s key1 SBury 1 0 = true ∧ exit_in s' key1 SReady 1 1 = true ∧ exit_in s' key3 SBury 2 0 = true.
Proof.
  destruct (web_reach two_buried WRetry retry_req (λ s s', exit_in s key1 SBury 1 0 && exit_in s key3 SBury 2 0 && exit_in s' key1 SReady 1 1 && exit_in s' key3 SBury 2 0)
    ltac:(by vm_compute)) as (es & s & s' & l & Hr & Hc & Hf).
  apply andb_true_iff in Hf as [[[H1 H2]%andb_true_iff H3]%andb_true_iff H4]. exists es, s, s', l. split; [done|]. split; [done|].
  split; [|split; [|done]]; unfold asked.
  - unfold exit_in in H1. destruct (seen s key1) as [[i j]|]; [|done]. apply andb_true_iff in H1 as [[->%bool_decide_eq_true H1%Z.eqb_eq]%andb_true_iff _].
    exists SBury, j. split; [done|]. split; [left|]. left. done.
  - unfold exit_in in H2. destruct (seen s key3) as [[i j]|]; [|done]. apply andb_true_iff in H2 as [[_ H2%Z.eqb_eq]%andb_true_iff _].
    intros (i' & j' & [= <- <-] & _ & [(_ & _ & E & _)|[? _]]); [|done]. rewrite H2 in E. done.
Qed.

(** ** C100 Removing *)
(** Removing takes only jobs the request is about, and none that runs; whoever waited for
    one of them is removed as well. Jobs the request is about all go if whoever waits for
    one of them is among them. Nothing else changes. *)
Theorem C100_remove es s now od la r (idle := [SBury; SDelay; SDep; SReady]) : reachable spares_busy es s → any_orders od →
  ∃ s', web_act now od la WRemove r s = Some (s', []) ∧
    (∀ k, removed s s' k → asked la idle r s k ∧ (∀ k', is_Some (seen s' k') → k ∉ waits_for s k') ∧ live (sdb s') !! k = None) ∧
    (∀ k, ¬ removed s s' k → untouched s s' k) ∧ complete (sdb s') = complete (sdb s) ∧
    (∀ (rank : key → nat) (R : list key), NoDup R → (∀ k, k ∈ R → asked la idle r s k) →
       (∀ k k', k ∈ R → k ∈ waits_for s k' → k' ∈ R ∧ (rank k < rank k')%nat) → ∀ k, k ∈ R → removed s s' k).
Proof. intros Hr. apply web_remove. by apply (reach_good spares_busy es). Qed.
Print Assumptions C100_remove.
Definition gone_from (s : sstate) (k : key) : bool := match seen s k with None => true | _ => false end.
(** job 2 is ready and waits for nothing; the running job 1 cannot be removed *)
Example C100_case : ∃ es s s' l, reachable serving es s ∧ web_act (sec 300) od0 la0 WRemove (WebRequest "" key2 0 "") s = Some (s', l) ∧
  asked la0 [SBury; SDelay; SDep; SReady] (WebRequest "" key2 0 "") s key2 ∧ seen s' key2 = None ∧ (∃ j, seen s' key1 = Some (SRun, j)).
Proof.
  destruct (web_reach two_running WRemove (WebRequest "" key2 0 "") (λ s s', job_of s key2 SReady false false && gone_from s' key2 && job_of s' key1 SRun false false)
    ltac:(by vm_compute)) as (es & s & s' & l & Hr & Hc & Hf).
  apply andb_true_iff in Hf as [[(j & Hj & _)%job_of_ok H2]%andb_true_iff (j' & Hj' & _)%job_of_ok]. exists es, s, s', l. split; [done|]. split; [done|].
  split; [|split; [|by exists j']].
  - exists SReady, j. split; [done|]. split; [do 3 right; left|]. right. done.
  - unfold gone_from in H2. by destruct (seen s' key2).
Qed.
Example C100_running_case : ∃ es s s' l, reachable serving es s ∧ web_act (sec 300) od0 la0 WRemove (WebRequest "" key1 0 "") s = Some (s', l) ∧
  ¬ asked la0 [SBury; SDelay; SDep; SReady] (WebRequest "" key1 0 "") s key1 ∧ (∃ j, seen s' key1 = Some (SRun, j)).
Proof.
  destruct (web_reach two_running WRemove (WebRequest "" key1 0 "") (λ s s', job_of s key1 SRun false false && job_of s' key1 SRun false false)
    ltac:(by vm_compute)) as (es & s & s' & l & Hr & Hc & Hf).
  apply andb_true_iff in Hf as [(j & Hj & _)%job_of_ok (j' & Hj' & _)%job_of_ok]. exists es, s, s', l. split; [done|]. split; [done|].
  split; [|by exists j']. intros (i & j2 & Hs & Hi & _). rewrite Hj in Hs. injection Hs as <- <-.
  repeat (apply elem_of_cons in Hi as [Hi|Hi]; [done|]). by apply elem_of_nil in Hi.
Qed.

(** ** C101 Killing *)
(** Killing tells exactly the running jobs the request is about to stop, and takes those
    of them that were lost out of the running ones. Nothing else changes. *)
Theorem C101_kill es s now od la r : reachable spares_busy es s → any_orders od →
  ∃ s' l, web_act now od la WKill r s = Some (s', l) ∧ live (sdb s') = live (sdb s) ∧ complete (sdb s') = complete (sdb s) ∧
    ∀ k, (asked la [SRun] r s k → stopping s s' k) ∧ (¬ asked la [SRun] r s k → seen s' k = seen s k).
Proof. intros Hr. apply web_kill. by apply (reach_good spares_busy es). Qed.
Print Assumptions C101_kill.
(** Once hosts are confirmed to be dead, exactly the jobs that run on them are killed, and
    told of. *)
Theorem C101_hosts es s now od la host ids : reachable spares_busy es s → any_orders od →
  ∃ s' h l, kill_on now od la host ids s = Some (s', h, l) ∧ live (sdb s') = live (sdb s) ∧ complete (sdb s') = complete (sdb s) ∧
    ∀ k, (k ∈ h ↔ host k ∈ ids ∧ ∃ j, seen s k = Some (SRun, j)) ∧ (k ∈ h → stopping s s' k) ∧ (k ∉ h → seen s' k = seen s k).
Proof. intros Hr. apply kill_hosts. by apply (reach_good spares_busy es). Qed.
Print Assumptions C101_hosts.
(** job 1 runs on host h1, and job 3, which was lost, on h2 *)
Example C101_case : ∃ es s s' l, reachable serving es s ∧ web_act (sec 300) od0 la0 WKill (WebRequest "" key3 0 "") s = Some (s', l) ∧
  asked la0 [SRun] (WebRequest "" key3 0 "") s key3 ∧ (∃ j, seen s key3 = Some (SRun, j) ∧ jlost j = true) ∧ (∃ j, seen s' key1 = Some (SRun, j) ∧ jkilled j = false).
Proof.
  destruct (web_reach two_running WKill (WebRequest "" key3 0 "") (λ s s', job_of s key3 SRun true false && job_of s' key1 SRun false false)
    ltac:(by vm_compute)) as (es & s & s' & l & Hr & Hc & Hf).
  apply andb_true_iff in Hf as [(j & Hj & Hl & _)%job_of_ok (j' & Hj' & _ & Hk)%job_of_ok]. exists es, s, s', l. split; [done|]. split; [done|].
  split; [|split; [by exists j|by exists j']]. exists SRun, j. split; [done|]. split; [left|]. by right.
Qed.
Definition host0 (k : key) : string := if bool_decide (k = key1) then "h1" else "h2".
Definition hosts_case (s : sstate) : bool :=
  match kill_on (sec 300) od0 la0 host0 ["h1"; "h3"] s with
  | Some (s', h, _) => bool_decide (h = [key1]) && job_of s' key1 SRun false true && job_of s' key3 SRun true false
  | None => false
  end.
Example C101_hosts_case : ∃ es s s' l, reachable serving es s ∧ kill_on (sec 300) od0 la0 host0 ["h1"; "h3"] s = Some (s', [key1], l) ∧
  (∃ j, seen s' key1 = Some (SRun, j) ∧ jkilled j = true) ∧ (∃ j, seen s' key3 = Some (SRun, j) ∧ jkilled j = false).
Proof.
  destruct (shown_hist serving serving_b (s_new (sec 1)) two_running (λ _ s, hosts_case s) serving_b_ok ltac:(by vm_compute)) as (es & s & Hh & Hf).
  unfold hosts_case in Hf. destruct (kill_on (sec 300) od0 la0 host0 ["h1"; "h3"] s) as [[[s' h] l]|] eqn:E; [|done].
  apply andb_true_iff in Hf as [[->%bool_decide_eq_true (j & Hj & _ & Hk)%job_of_ok]%andb_true_iff (j' & Hj' & _ & Hk')%job_of_ok].
  exists es, s, s', l. split; [by exists (sec 1)|]. split; [done|]. split; [by exists j|by exists j'].
Qed.

(** ** C102 Counts *)
(** The page is told, for every state, the number of jobs of the queue that are in it,
    if there are any; reserved jobs count as running. What is missing: reserved jobs an
    earlier run of which was lost count as lost (C102_reserved_refuted). *)
Theorem C102_counts_partial es s od st : reachable spares_busy es s → any_orders od →
  ∃ ks, NoDup ks ∧ (∀ k, k ∈ ks ↔ on_page s k st) ∧ all_counts od s !! st = match length ks with O => None | n => Some n end.
Proof. intros Hr Hod. apply counts_ok; [|done]. by apply (g_s s), (reach_good spares_busy es). Qed.
Print Assumptions C102_counts_partial.
Definition counted (_ : list entry) (s : sstate) : bool :=
  forallb (λ '(st, n), bool_decide (all_counts od0 s !! st = n)) [("running", Some 1%nat); ("lost", Some 1%nat); ("ready", Some 1%nat); ("reserved", None); ("buried", None)].
Example C102_case : ∃ es s, reachable serving es s ∧ all_counts od0 s !! "running" = Some 1%nat ∧ all_counts od0 s !! "lost" = Some 1%nat ∧
  all_counts od0 s !! "ready" = Some 1%nat ∧ all_counts od0 s !! "reserved" = None ∧ all_counts od0 s !! "buried" = None.
Proof.
  destruct (shown_hist serving serving_b (s_new (sec 1)) two_running counted serving_b_ok ltac:(by vm_compute)) as (es & s & Hh & Hf).
  exists es, s. split; [by exists (sec 1)|]. unfold counted in Hf. rewrite forallb_forall in Hf.
  assert (Hst : ∀ st n, In (st, n) [("running", Some 1%nat); ("lost", Some 1%nat); ("ready", Some 1%nat); ("reserved", None); ("buried", None)] →
    all_counts od0 s !! st = n) by (intros st n Hin; exact (bool_decide_eq_true_1 _ (Hf (st, n) Hin))).
  split_and!; apply Hst; cbn; tauto.
Qed.
(** Reserving a job does not clear that an earlier run of it was lost: while its new
    runner prepares to start it, the page counts it as lost, and killing it takes it away
    from the runner. *)
Definition lost_before : list sop :=
  [AAdd (sec 1) [plain_job key1 1 [] [] [] "r"] false; AReserve (sec 2) 1 "r" true 0; AStart (sec 3) 1 key1 true; ATickTTR (sec 300);
   AKill (sec 301) key1; ATickDelay (sec 900); AReserve (sec 901) 2 "r" true 0].
Definition stale (s : sstate) : bool :=
  match seen s key1 with Some (SRun, j) => (jreserved j =? 2)%N && (jstart j =? 0)%Z | _ => false end &&
  bool_decide (all_counts od0 s !! "lost" = Some 1%nat) && bool_decide (all_counts od0 s !! "running" = None).
Definition stale_kill (_ : list entry) (s : sstate) : bool := stale s &&
  match web_act (sec 902) od0 la0 WKill (WebRequest "" key1 0 "") s with
  | Some (s', _) => match seen s' key1 with Some (i, _) => negb (bool_decide (i = SRun)) | None => false end
  | None => false
  end.
Theorem C102_reserved_refuted : ∃ es s j s' l i j', reachable serving es s ∧ seen s key1 = Some (SRun, j) ∧ jreserved j = 2%N ∧ jstart j = 0%Z ∧
  all_counts od0 s !! "lost" = Some 1%nat ∧ all_counts od0 s !! "running" = None ∧
  web_act (sec 902) od0 la0 WKill (WebRequest "" key1 0 "") s = Some (s', l) ∧ seen s' key1 = Some (i, j') ∧ i ≠ SRun.
Proof.
  destruct (shown_hist serving serving_b (s_new (sec 1)) lost_before stale_kill serving_b_ok ltac:(by vm_compute)) as (es & s & Hh & Hf).
  unfold stale_kill in Hf. apply andb_true_iff in Hf as [Hf Hw]. unfold stale in Hf.
  apply andb_true_iff in Hf as [[Hf Hl%bool_decide_eq_true]%andb_true_iff Hn%bool_decide_eq_true].
  destruct (seen s key1) as [[[] j]|] eqn:Hj; try done. apply andb_true_iff in Hf as [H1%N.eqb_eq H2%Z.eqb_eq].
  destruct (web_act (sec 902) od0 la0 WKill (WebRequest "" key1 0 "") s) as [[s' l]|] eqn:E; [|done]. destruct (seen s' key1) as [[i j']|] eqn:Hj'; [|done].
  apply negb_true_iff, bool_decide_eq_false in Hw. exists es, s, j, s', l, i, j'. split; [by exists (sec 1)|]. done.
Qed.
Print Assumptions C102_reserved_refuted.
