(** The properties of the server's job state transitions (C26-C30). *)
From Coq Require Import ZArith Lia String Ascii.
From stdpp Require Import base option strings gmap list.
From RecordUpdate Require Import RecordSet.
From Verif Require Import LimiterModel LimiterSpec LimiterProps GoHeap QueueModel ServerModel ServerSpec ServerLimSpec
  ServerKey ServerProofs ServerProofs2 ServerProofs3 ServerProofs4 ServerLim ServerLim2 ServerDemo.
Import RecordSetNotations.
Open Scope Z_scope.
Open Scope string_scope.

(** *** The cases *)
Definition new0 : sstate := s_new (sec 1).
Definition anyb (s : sstate) (o : sop) : bool := true.
(** job A (one retry) fails twice; B is added with it *)
Definition fails_twice : list sop :=
  [AAdd (sec 1) [jobA; jobB] false; AReserve (sec 2) 1 "r~lg" true 0; AStart (sec 3) 1 "A" true;
   ARelease (sec 4) 1 "A" (ended 1 4); ATickDelay (sec 5); AReserve (sec 6) 2 "r~lg" true 0; AStart (sec 7) 2 "A" true;
   ARelease (sec 8) 2 "A" (ended 1 8)].
(** B runs and is archived *)
Definition b_runs : list sop := [AAdd (sec 1) [jobA; jobB] false; AReserve (sec 2) 1 "r" true 0; AStart (sec 3) 1 "B" true].
Lemma demo_reach (ok : sstate → sop → Prop) b ops f : (∀ s o, b s o = true → ok s o) → shown b new0 ops f = true →
  ∃ es s, reachable ok es s ∧ f es s = true.
Proof. intros Hb H. destruct (shown_hist ok b new0 ops f Hb H) as (es & s & ? & ?). exists es, s. split; [by exists (sec 1)|done]. Qed.
Lemma any_ok s o : anyb s o = true → True.
Proof. done. Qed.

(** ** C26 *)
(** A job that came to the queue in [es] is started at most Retries+1 times after
    it was added or kicked; as long as it was started and failed at most Retries
    times it is not buried, unless its client asked for that, and with failure
    Retries+1 it is buried. Missing: see the refutations below, and server crashes
    in [es] (there may be any number of them before). *)
Theorem C26_retried_then_buried_partial es0 s0 k es s st j :
  reachable spares_busy es0 s0 → seen s0 k = None →
  hist (λ s o, serving s o ∧ spares k s o ∧ honest k s o ∧ small_retries o) s0 es s →
  seen s k = Some (st, j) →
  (attempts k es ≤ N.to_nat (jretries j) + 1)%nat ∧
  (st ≠ SBury → (failures k es ≤ N.to_nat (jretries j))%nat) ∧
  (st = SBury → failures k es = (N.to_nat (jretries j) + 1)%nat ∨ put_aside k es).
Proof.
  intros (t & H0) Hn Hh. apply (retries_bounded s0 k es s st j); [|done|done].
  apply (hist_good spares_busy (s_new t) es0); [done|apply good_new|done].
Qed.
Print Assumptions C26_retried_then_buried_partial.
Example C26_case : ∃ es0 s0 es s j,
  reachable spares_busy es0 s0 ∧ seen s0 "A" = None ∧
  hist (λ s o, serving s o ∧ spares "A" s o ∧ honest "A" s o ∧ small_retries o) s0 es s ∧
  seen s "A" = Some (SBury, j) ∧ jretries j = 1%N ∧ failures "A" es = 2%nat ∧ attempts "A" es = 2%nat.
Proof.
  destruct (shown_hist _ (retry_b "A") new0 fails_twice
    (λ es s, match seen s "A" with
             | Some (SBury, j) => (jretries j =? 1)%N && (failures "A" es =? 2)%nat && (attempts "A" es =? 2)%nat
             | _ => false
             end) (retry_b_ok "A") ltac:(by vm_compute)) as (es & s & Hh & Hf).
  destruct (seen s "A") as [[[] j]|] eqn:Hs; try discriminate Hf.
  apply andb_true_iff in Hf as [[H1 H2]%andb_true_iff H3].
  exists [], new0, es, s, j. split; [exists (sec 1); constructor|]. split; [by vm_compute|]. split; [done|]. split; [done|].
  split; [by apply N.eqb_eq|]. split; by apply Nat.eqb_eq.
Qed.
(** The full statement does not hold: a client that asks to archive a failed
    attempt, and then vanishes, gives the job an extra attempt (a job with no
    retries is started twice) *)
Definition refused_then_silent : list sop :=
  [AAdd (sec 1) [jobB] false; AReserve (sec 2) 1 "r" true 0; AStart (sec 3) 1 "B" true; AArchive 1 "B" (ended 1 4) [];
   ATickTTR (sec 200); ATickDelay (sec 300); AReserve (sec 400) 2 "r" true 0; AStart (sec 401) 2 "B" true].
Theorem C26_refused_archive_refuted : ∃ es s st j, reachable serving es s ∧ seen s "B" = Some (st, j) ∧ jretries j = 0%N ∧
  attempts "B" es = 2%nat.
Proof.
  destruct (demo_reach serving serving_b refused_then_silent
    (λ es s, match seen s "B" with Some (st, j) => (jretries j =? 0)%N && (attempts "B" es =? 2)%nat | _ => false end)
    serving_b_ok ltac:(by vm_compute)) as (es & s & Hh & Hf).
  destruct (seen s "B") as [[st j]|] eqn:Hs; [|discriminate Hf]. apply andb_true_iff in Hf as [H1 H2]. exists es, s, st, j.
  split; [done|]. split; [done|]. split; [by apply N.eqb_eq|by apply Nat.eqb_eq].
Qed.
(** nor across a crash: the write of the first failure was still to come, and the
    job (one retry) is started a third time *)
Definition lost_write : list sop :=
  [AAdd (sec 1) [jobA] false; AReserve (sec 2) 1 "r~lg" true 0; AStart (sec 3) 1 "A" true; ARelease (sec 4) 1 "A" (ended 1 4);
   ACrash CutNone (sec 5) (λ _, true); AReserve (sec 6) 2 "" true 0; AStart (sec 7) 2 "A" true; ARelease (sec 8) 2 "A" (ended 1 8);
   AReserve (sec 9) 2 "" true 0; AStart (sec 10) 2 "A" true].
Theorem C26_crash_refuted : ∃ es s st j, reachable spares_busy es s ∧ seen s "A" = Some (st, j) ∧ jretries j = 1%N ∧
  attempts "A" es = 3%nat.
Proof.
  destruct (demo_reach spares_busy spares_b lost_write
    (λ es s, match seen s "A" with Some (st, j) => (jretries j =? 1)%N && (attempts "A" es =? 3)%nat | _ => false end)
    spares_b_ok ltac:(by vm_compute)) as (es & s & Hh & Hf).
  destruct (seen s "A") as [[st j]|] eqn:Hs; [|discriminate Hf]. apply andb_true_iff in Hf as [H1 H2]. exists es, s, st, j.
  split; [done|]. split; [done|]. split; [by apply N.eqb_eq|by apply Nat.eqb_eq].
Qed.
(** nor for a complete job that runs again because a job was added to the group
    it depends on: it has the retries left over from its first run *)
Definition jobM : job := plain_job "M" 0 [] ["g"] [] "r".
Definition jobD : job := plain_job "D" 1 [] [] [DGroup "g"] "r".
Definition runs_again : list sop :=
  [AAdd (sec 1) [jobD] false; AReserve (sec 2) 1 "r" true 0; AStart (sec 3) 1 "D" true; ARelease (sec 4) 1 "D" (ended 1 4);
   AReserve (sec 5) 1 "r" true 0; AStart (sec 6) 1 "D" true; AArchive 1 "D" (ended 0 7) [];
   AAdd (sec 8) [jobM] false; AReserve (sec 9) 1 "r" true 0; AStart (sec 9) 1 "M" true; AArchive 1 "M" (ended 0 10) ["D"];
   AReserve (sec 11) 1 "" true 0; AStart (sec 12) 1 "D" true; ARelease (sec 13) 1 "D" (ended 1 13)].
Fixpoint put_asideb (k : key) (es : list entry) : bool :=
  match es with
  | [] => false
  | Entry s o r l s' :: es =>
      match seen s k, seen s' k with
      | Some (SRun, _), Some (SBury, _) => match o with ABury _ _ k' _ => bool_decide (k' = k) | _ => false end
      | _, _ => put_asideb k es
      end
  end.
Lemma put_asideb_ok k es : put_aside k es → put_asideb k es = true.
Proof.
  induction es as [|[s o r l s'] es IH]; [done|]. cbn. destruct (seen s k) as [[[] ?]|]; try done.
  destruct (seen s' k) as [[[] ?]|]; try done. destruct o; try done. by intros ->; apply bool_decide_eq_true.
Qed.
Theorem C26_resurrected_refuted : ∃ es s j, reachable serving es s ∧ seen s "D" = Some (SBury, j) ∧ jretries j = 1%N ∧
  failures "D" es = 1%nat ∧ ¬ put_aside "D" es.
Proof.
  destruct (demo_reach serving serving_b runs_again
    (λ es s, match seen s "D" with
             | Some (SBury, j) => (jretries j =? 1)%N && (failures "D" es =? 1)%nat && negb (put_asideb "D" es)
             | _ => false
             end) serving_b_ok ltac:(by vm_compute)) as (es & s & Hh & Hf).
  destruct (seen s "D") as [[[] j]|] eqn:Hs; try discriminate Hf. apply andb_true_iff in Hf as [[H1 H2]%andb_true_iff H3]. exists es, s, j.
  split; [done|]. split; [done|]. split; [by apply N.eqb_eq|]. split; [by apply Nat.eqb_eq|].
  intros H%put_asideb_ok. by rewrite H in H3.
Qed.

(** ** C27 *)
(** The complete jobs change only when the client that made the job's latest
    reservation asks to archive it while it is running, having started it, and the
    exit code it reported first is 0; the job is then neither live nor in the
    queue. [s0] is any state, for example that of a server that was just
    restarted; [es] are the requests since. Missing: requests that touch running
    or buried jobs (see C28). *)
Theorem C27_completed_by_its_client_partial es0 s0 es s o s' r l k :
  reachable spares_busy es0 s0 → hist serving s0 es s → spares_busy s o → ¬ is_crash o →
  sstep s o = Some (s', r, l) → complete (sdb s') !! k ≠ complete (sdb s) !! k →
  ∃ c jes ord, o = AArchive c k jes ord ∧ r = SOk ∧ (∃ j, seen s k = Some (SRun, j)) ∧
    c = holder k (reserver s0 k) es ∧ started k (was_started s0 k) es = true ∧
    match reported k (had_exited s0 k) es with Some x => Some x | None => exit_of jes end = Some 0 ∧
    live (sdb s') !! k = None ∧ seen s' k = None.
Proof.
  intros (t & H0). apply completes. apply (hist_good spares_busy (s_new t) es0); [done|apply good_new|done].
Qed.
Print Assumptions C27_completed_by_its_client_partial.
Definition newly_complete (s : sstate) (o : sop) : bool :=
  match sstep s o with
  | Some (s', SOk, _) => match complete (sdb s') !! "B", complete (sdb s) !! "B" with Some _, None => true | _, _ => false end
  | _ => false
  end.
Lemma newly_complete_ok s o : newly_complete s o = true → ∃ s' l, sstep s o = Some (s', SOk, l) ∧
  complete (sdb s') !! "B" ≠ complete (sdb s) !! "B".
Proof.
  unfold newly_complete. destruct (sstep s o) as [[[s' []] l]|]; intros H; try discriminate H. exists s', l. split; [done|].
  intros E. rewrite E in H. by destruct (complete (sdb s) !! "B").
Qed.
Example C27_case : ∃ es s s' l, hist serving new0 es s ∧ sstep s (AArchive 1 "B" (ended 0 4) []) = Some (s', SOk, l) ∧
  complete (sdb s') !! "B" ≠ complete (sdb s) !! "B".
Proof.
  destruct (shown_hist serving serving_b new0 b_runs
    (λ _ s, newly_complete s (AArchive 1 "B" (ended 0 4) [])) serving_b_ok ltac:(by vm_compute)) as (es & s & Hh & Hf).
  destruct (newly_complete_ok _ _ Hf) as (s' & l & ? & ?). by exists es, s, s', l.
Qed.
(** A crash adds nothing to the complete jobs but what the request that it cut
    short would have added. *)
Theorem C27_completed_by_cut_request_partial es0 s c now gr s' r l k :
  reachable spares_busy es0 s → sstep s (ACrash c now gr) = Some (s', r, l) →
  complete (sdb s') !! k ≠ complete (sdb s) !! k →
  ∃ cl jes s1 l1, c = CutArchive cl k jes ∧ sstep s (AArchive cl k jes []) = Some (s1, SOk, l1) ∧
    complete (sdb s1) !! k ≠ complete (sdb s) !! k ∧ live (sdb s') !! k = None ∧ seen s' k = None.
Proof.
  intros (t & H0) Hs Hne.
  destruct (complete_crash s c now gr s' r l k) as (cl & jes & s1 & l1 & ? & ? & ? & ? & Hl); try done.
  - apply (hist_good spares_busy (s_new t) es0); [done|apply good_new|done].
  - exists cl, jes, s1, l1. by rewrite seen_look.
Qed.
Print Assumptions C27_completed_by_cut_request_partial.
Example C27_cut_case : ∃ es s s' l, reachable spares_busy es s ∧
  sstep s (ACrash (CutArchive 1 "B" (ended 0 4)) (sec 5) (λ _, true)) = Some (s', SOk, l) ∧
  complete (sdb s') !! "B" ≠ complete (sdb s) !! "B".
Proof.
  destruct (demo_reach spares_busy spares_b b_runs
    (λ _ s, newly_complete s (ACrash (CutArchive 1 "B" (ended 0 4)) (sec 5) (λ _, true))) spares_b_ok ltac:(by vm_compute)) as (es & s & Hh & Hf).
  destruct (newly_complete_ok _ _ Hf) as (s' & l & ? & ?). by exists es, s, s', l.
Qed.
(** A job that is gone stays away, and the record of its completion stays, until
    an add request concerns it; crashes included. *)
Theorem C27_gone_for_good_partial es0 s0 es s k :
  reachable spares_busy es0 s0 → seen s0 k = None →
  hist (λ s o, spares_busy s o ∧ ¬ adds k s o) s0 es s →
  seen s k = None ∧ complete (sdb s) !! k = complete (sdb s0) !! k.
Proof.
  intros (t & H0) Hn Hh.
  assert (HG : Good s0) by (apply (hist_good spares_busy (s_new t) es0); [done|apply good_new|done]).
  induction Hh as [|es s o s' r l Hh IH [Hsp Hna] Hs]; [done|]. destruct IH as [IH1 IH2].
  assert (HGs : Good s).
  { apply (hist_good (λ s o, spares_busy s o ∧ ¬ adds k s o) s0 es); [by intros ? ? [? _]|done|done]. }
  destruct (stays_away s o s' r l k HGs Hsp Hs Hna IH1) as (? & _ & E). split; [done|]. by rewrite E.
Qed.
Print Assumptions C27_gone_for_good_partial.
Definition not_adding_b (s : sstate) (o : sop) : bool :=
  spares_b s o && match o with AAdd _ _ _ | ACrash (CutAdd _ _ _ _ _) _ _ => false | _ => true end.
Lemma not_adding_b_ok k s o : not_adding_b s o = true → spares_busy s o ∧ ¬ adds k s o.
Proof.
  intros [H1 H2]%andb_true_iff. split; [by apply spares_b_ok|]. destruct o as [| | | | | | | | | | | | | | |c ? ?]; try (by intros []).
  destruct c; try done; by intros [].
Qed.
Definition after_b : list sop :=
  [ACrash CutNone (sec 5) (λ _, true); AReserve (sec 6) 1 "" true 0; AStart (sec 7) 1 "A" true].
Definition gone_then (f : list entry → sstate → bool) (s : sstate) : bool :=
  match seen s "B", complete (sdb s) !! "B" with None, Some _ => shown not_adding_b s after_b f | _, _ => false end.
Lemma gone_then_ok f s : gone_then f s = true →
  seen s "B" = None ∧ is_Some (complete (sdb s) !! "B") ∧ shown not_adding_b s after_b f = true.
Proof.
  unfold gone_then. destruct (seen s "B"); intros H; [discriminate H|]. destruct (complete (sdb s) !! "B"); [|discriminate H].
  split; [done|]. by split; [eexists|].
Qed.
Example C27_gone_case : ∃ es0 s0 es s, reachable spares_busy es0 s0 ∧ seen s0 "B" = None ∧ is_Some (complete (sdb s0) !! "B") ∧
  hist (λ s o, spares_busy s o ∧ ¬ adds "B" s o) s0 es s ∧ (length es = 3)%nat ∧ is_Some (seen s "A").
Proof.
  destruct (demo_reach spares_busy spares_b (b_runs ++ [AArchive 1 "B" (ended 0 4) []])%list
    (λ _, gone_then (λ es s, (length es =? 3)%nat && match seen s "A" with Some _ => true | None => false end))
    spares_b_ok ltac:(by vm_compute)) as (es0 & s0 & Hh & Hf).
  destruct (gone_then_ok _ _ Hf) as (E1 & E2 & Hf').
  destruct (shown_hist _ not_adding_b s0 _ _ (not_adding_b_ok "B") Hf') as (es & s & Hh' & [H1 H2]%andb_true_iff).
  exists es0, s0, es, s. split; [done|]. split; [done|]. split; [done|]. split; [done|]. split; [by apply Nat.eqb_eq|].
  destruct (seen s "A"); [by eexists|discriminate H2].
Qed.

(** ** C28 *)
(** A start, touch, archive, release or bury of a running job that does not come
    from the client that made its latest reservation (or the one recorded at [s0])
    is refused and changes nothing. Missing: add requests that touch a running or
    buried job; [s0] may be after crashes. *)
Theorem C28_foreign_refused_partial es0 s0 es s k j c o :
  reachable spares_busy es0 s0 → hist serving s0 es s → seen s k = Some (SRun, j) → asks c k o →
  c ≠ holder k (reserver s0 k) es → sstep s o = Some (s, SErr EMustReserve, []).
Proof.
  intros (t & H0) Hh Hs Ha Hc. apply (foreign_refused s k SRun j c o); [done|done| |done].
  rewrite (holds s0 k es s) with (st := SRun); [done| |done|done|by left].
  apply (hist_good spares_busy (s_new t) es0); [done|apply good_new|done].
Qed.
Print Assumptions C28_foreign_refused_partial.
(** A job that is not running: a start, touch or archive is refused and changes
    nothing, a release or bury does not move it. *)
Theorem C28_idle_not_moved_partial es0 s k c o s' r l :
  reachable spares_busy es0 s → (∀ j, seen s k ≠ Some (SRun, j)) → asks c k o → sstep s o = Some (s', r, l) →
  fst <$> seen s' k = fst <$> seen s k ∧ (needs_running o → s' = s ∧ r = SErr EBadJob ∧ l = []).
Proof.
  intros (t & H0) Hr Ha Hs.
  assert (HG : Good s) by (apply (hist_good spares_busy (s_new t) es0); [done|apply good_new|done]).
  split; [by apply (idle_not_moved s k c o s' r l)|]. intros Hn.
  rewrite (not_running_refused s k c o Ha Hn Hr (g_s _ HG)) in Hs. by simplify_eq.
Qed.
Print Assumptions C28_idle_not_moved_partial.
Example C28_case : ∃ es s j, hist serving new0 es s ∧ seen s "B" = Some (SRun, j) ∧ holder "B" (reserver new0 "B") es = 1%N ∧
  asks 2 "B" (AArchive 2 "B" (ended 0 4) []) ∧ (∀ j, seen s "A" ≠ Some (SRun, j)) ∧ asks 2 "A" (ARelease (sec 4) 2 "A" None).
Proof.
  destruct (shown_hist serving serving_b new0 b_runs
    (λ es s, match seen s "B", seen s "A" with
             | Some (SRun, _), Some (SReady, _) => (holder "B" (reserver new0 "B") es =? 1)%N
             | _, _ => false
             end) serving_b_ok ltac:(by vm_compute)) as (es & s & Hh & Hf).
  destruct (seen s "B") as [[[] j]|] eqn:Hs; try discriminate Hf.
  destruct (seen s "A") as [[[] ?]|] eqn:Hs'; try discriminate Hf.
  exists es, s, j. split; [done|]. split; [done|]. split; [by apply N.eqb_eq|]. split; [done|]. split; [|done].
  intros ? ?. congruence.
Qed.
(** Across a crash the full statement fails: job B was reserved by client 2 after
    client 1's attempt; the write of client 2's start had not landed, and after the
    restart client 2 is refused while client 1 can release the job. *)
Definition stale_reserver : list sop :=
  [AAdd (sec 1) [jobB] false; AReserve (sec 2) 1 "r" true 0; AStart (sec 3) 1 "B" true; ALand 0; ARelease (sec 4) 1 "B" (ended 1 4);
   AKick ["B"]; AReserve (sec 6) 2 "r" true 0; AStart (sec 7) 2 "B" true; ACrash CutNone (sec 8) (λ _, true)].
Definition stale_test (es : list entry) (s : sstate) : bool :=
  match seen s "B" with Some (SRun, _) => (holder "B" 0 es =? 2)%N | _ => false end &&
  match sstep s (ARelease (sec 9) 1 "B" None) with
  | Some (s', SOk, _) => match seen s' "B" with Some (SRun, _) => false | _ => true end
  | _ => false
  end &&
  match sstep s (ATouch (sec 9) 2 "B") with Some (_, SErr EMustReserve, _) => true | _ => false end.
Theorem C28_restart_refuted : ∃ es s j s' l, reachable spares_busy es s ∧ seen s "B" = Some (SRun, j) ∧ holder "B" 0 es = 2%N ∧
  sstep s (ARelease (sec 9) 1 "B" None) = Some (s', SOk, l) ∧ (∀ j', seen s' "B" ≠ Some (SRun, j')) ∧
  ∃ s2 l2, sstep s (ATouch (sec 9) 2 "B") = Some (s2, SErr EMustReserve, l2).
Proof.
  destruct (demo_reach spares_busy spares_b stale_reserver stale_test spares_b_ok ltac:(by vm_compute)) as (es & s & Hh & Hf).
  apply andb_true_iff in Hf as [[H1 H2]%andb_true_iff H3].
  destruct (seen s "B") as [[[] j]|] eqn:Hs; try discriminate H1.
  destruct (sstep s (ARelease _ _ _ _)) as [[[s' []] l]|] eqn:Hr; try discriminate H2.
  destruct (sstep s (ATouch _ _ _)) as [[[s2 []] l2]|] eqn:Ht; try discriminate H3. destruct e; try discriminate H3.
  exists es, s, j, s', l. split; [done|]. split; [done|]. split; [by apply N.eqb_eq|]. split; [done|]. split; [|by exists s2, l2].
  intros j' E. by rewrite E in H2.
Qed.
(** and an add request by anyone moves a running job to the dependent ones: M is
    added to the group that running job E depends on *)
Definition jobE : job := plain_job "E" 1 ["lg"] [] [DGroup "g"] "r~lg".
Definition e_runs : list sop := [AAdd (sec 1) [jobE] false; AReserve (sec 2) 1 "r~lg" true 0; AStart (sec 3) 1 "E" true].
Definition moved_test (es : list entry) (s : sstate) : bool :=
  match seen s "E", sstep s (AAdd (sec 4) [jobM] false) with
  | Some (SRun, _), Some (s', _, _) => match seen s' "E" with Some (SDep, _) => true | _ => false end
  | _, _ => false
  end.
Theorem C28_add_moves_running_refuted : ∃ es s j s' r l j', reachable (λ s o, serving s o) es s ∧ seen s "E" = Some (SRun, j) ∧
  sstep s (AAdd (sec 4) [jobM] false) = Some (s', r, l) ∧ seen s' "E" = Some (SDep, j').
Proof.
  destruct (demo_reach serving serving_b e_runs moved_test serving_b_ok ltac:(by vm_compute)) as (es & s & Hh & Hf).
  unfold moved_test in Hf. destruct (seen s "E") as [[[] j]|] eqn:Hs; try discriminate Hf.
  destruct (sstep s _) as [[[s' r] l]|] eqn:Hr; [|discriminate Hf].
  destruct (seen s' "E") as [[[] j']|] eqn:Hs'; try discriminate Hf. by exists es, s, j, s', r, l, j'.
Qed.

(** ** C29 *)
(** A job whose addition was answered, and that was since neither archived nor
    deleted, is in the live bucket and in the queue, whatever crashes there were
    and wherever they cut requests short. Missing: add requests that touch a
    running or buried job. *)
Theorem C29_owed_in_queue_partial es s k : reachable spares_busy es s → owed k es →
  is_Some (live (sdb s) !! k) ∧ ∃ st j, seen s k = Some (st, j).
Proof.
  intros Hr Ho. pose proof (owed_live es s k Hr Ho) as Hl. split; [done|]. apply live_in_queue; [|done].
  destruct Hr as (t & H). apply (hist_good spares_busy (s_new t) es); [done|apply good_new|done].
Qed.
Print Assumptions C29_owed_in_queue_partial.
(** A job whose addition was answered, and that no delete request named since, is
    live or complete. *)
Theorem C29_never_lost_partial es s k : reachable spares_busy es s → kept k es →
  is_Some (live (sdb s) !! k) ∨ is_Some (complete (sdb s) !! k).
Proof. exact (never_lost es s k). Qed.
Print Assumptions C29_never_lost_partial.
(** After a restart the queue has just the jobs that are in the live bucket, and
    if no request was being served the buckets are those before the crash. *)
Theorem C29_restart_partial es s c now gr s' r l : reachable spares_busy es s → sstep s (ACrash c now gr) = Some (s', r, l) →
  (∀ k, is_Some (seen s' k) ↔ is_Some (live (sdb s') !! k)) ∧
  (c = CutNone → live (sdb s') = live (sdb s) ∧ complete (sdb s') = complete (sdb s)).
Proof.
  intros (t & H) Hs.
  assert (HG : Good s) by (apply (hist_good spares_busy (s_new t) es); [done|apply good_new|done]).
  destruct (crash_sdb s c now gr s' r l HG Hs) as [Hdb Hk]. split.
  - intros k. specialize (Hk k). rewrite <- seen_look in Hk. destruct (seen s' k), (live (sdb s') !! k); try done;
      split; intros [? ?]; try done; by eexists.
  - intros ->. by rewrite Hdb.
Qed.
Print Assumptions C29_restart_partial.
(** Every job in the queue, live or complete, was named by an add request, and has
    the key, retries, limit groups, dep groups and dependencies given there. *)
Theorem C29_nothing_invented_partial es s k j : reachable spares_busy es s →
  (∃ st, seen s k = Some (st, j)) ∨ live (sdb s) !! k = Some j ∨ complete (sdb s) !! k = Some j →
  ∃ e i, e ∈ es ∧ i ∈ requested (e_op e) ∧ definition_of j = definition_of i.
Proof.
  intros Hr Hj. apply (defined spares_busy es s j); [done|done|].
  destruct Hj as [[st Hj]|[Hj|Hj]]; [by eapply r_seen|by eapply r_live|by eapply r_comp].
Qed.
Print Assumptions C29_nothing_invented_partial.
(** A is reserved and started, B is archived; the server dies while A is deleted
    (refused as it runs), is restarted, and dies again while C is added, of which
    nothing is stored. *)
Definition crashes : list sop :=
  [AAdd (sec 1) [jobA; jobB] false; AReserve (sec 2) 1 "r" true 0; AStart (sec 3) 1 "B" true;
   AReserve (sec 3) 2 "r~lg" true 0; AStart (sec 3) 2 "A" true; ALand 0;
   ACrash (CutArchive 1 "B" (ended 0 4)) (sec 5) (λ _, true); AKick ["A"];
   ACrash (CutAdd [plain_job "C" 0 [] [] [] "r"] false (λ _, false) (λ _, false) (λ _, false)) (sec 7) (λ _, true)].
Example C29_case : ∃ es s, reachable spares_busy es s ∧ owed "A" es ∧ kept "B" es ∧ ¬ owed "B" es ∧
  seen s "C" = None ∧ is_Some (complete (sdb s) !! "B") ∧ (length es = 9)%nat.
Proof.
  assert (shown spares_b new0 crashes (λ es s,
    match es with
    | [Entry _ o1 _ _ _; Entry _ o2 _ _ _; Entry _ o3 _ _ _; Entry _ o4 _ _ _; Entry _ o5 _ _ _; Entry _ o6 _ _ _;
       Entry _ o7 _ _ _; Entry _ o8 _ _ _; Entry _ o9 _ _ _] =>
        match seen s "C" with None => true | Some _ => false end && bool_decide (is_Some (complete (sdb s) !! "B"))
    | _ => false
    end) = true) as Hf by (vm_compute; reflexivity).
  unfold shown in Hf. destruct (trace spares_b new0 [] crashes) as [[es s]|] eqn:Ht; [|discriminate Hf].
  assert (Hr : reachable spares_busy es s).
  { exists (sec 1). eapply trace_hist; [apply spares_b_ok|constructor|exact Ht]. }
  exists es, s. split; [done|].
  assert (He : e_op <$> es = reverse crashes).
  { revert Ht. clear. intros Ht.
    assert (∀ ops b s es es' s', trace b s es ops = Some (es', s') → e_op <$> es' = (reverse ops ++ (e_op <$> es))%list) as Hg.
    { induction ops as [|o ops IH]; intros b s1 es1 es1' s1'; cbn [trace]; [by intros [= <- <-]|].
      destruct (b s1 o); [|done]. destruct (sstep s1 o) as [[[s2 r2] l2]|]; [|done]. intros H%IH. rewrite H.
      by rewrite fmap_cons, reverse_cons, <- app_assoc. }
    rewrite (Hg _ _ _ _ _ _ Ht). cbn [fmap list_fmap]. by rewrite app_nil_r. }
  destruct es as [|[? o1 ? ? ?] [|[? o2 ? ? ?] [|[? o3 ? ? ?] [|[? o4 ? ? ?] [|[? o5 ? ? ?] [|[? o6 ? ? ?] [|[? o7 ? ? ?] [|[? o8 ? ? ?] [|[? o9 ? ? ?] [|]]]]]]]]]]; try discriminate Hf.
  clear Ht. cbn in He. injection He as -> -> -> -> -> -> -> -> ->.
  apply andb_true_iff in Hf as [H1 H2]. apply bool_decide_eq_true in H2.
  assert (HA : ∀ d, "A" ∈ jkey <$> really_added d [jobA; jobB] false) by (intros d; by left).
  assert (HB : ∀ d, "B" ∈ jkey <$> really_added d [jobA; jobB] false) by (intros d; right; by left).
  split; [cbn [owed]; split; [left; apply HA|done]|].
  split; [cbn [kept]; left; apply HB|]. split; [cbn [owed]; intros [_ H]; by apply H|].
  split; [destruct (seen s "C"); [discriminate H1|reflexivity]|]. split; [exact H2|reflexivity].
Qed.

(** ** C30 *)
(** Every increment made for a reservation is undone once, when the job stops
    running or its exit is reported: for each group, the calls of Increment and
    Decrement since the server was started add up to the running jobs counted in
    it, and no other job is counted. Missing: add requests that touch a running or
    buried job, and restarts that find a job recorded as running that has exited
    or has unfinished dependencies; see the refutations. *)
Theorem C30_counted_once_partial es s : reachable counting es s →
  (∀ g, running_in g s = net g (calls es)) ∧
  (∀ k st j, seen s k = Some (st, j) → st ≠ SRun → jincr j = []).
Proof.
  intros Hr. destruct (counted es s Hr) as [HL Hw]. split.
  - intros g. by rewrite (running_weight g s HL).
  - intros k st j Hs Hst. specialize (HL k). rewrite Hs in HL. destruct HL as [HL _]; by apply HL.
Qed.
Print Assumptions C30_counted_once_partial.
(** What a running job is counted in are the limit groups named in the scheduler
    group it was reserved with, until its exit is reported. Missing: crashes, after
    which the job's own limit groups are counted, and add requests that touch a
    running or buried job. *)
Theorem C30_charged_for_its_reservation_partial es s k j : reachable serving es s → seen s k = Some (SRun, j) →
  jincr j = charged k es.
Proof.
  intros (t & Hh) Hs. destruct (charged_incr (s_new t) k es s) as [_ H]; [apply good_new|apply linv_new| |done|by apply H].
  unfold seen. cbn. by rewrite lookup_empty.
Qed.
Print Assumptions C30_charged_for_its_reservation_partial.
(** The limit groups named in the scheduler group of a job are the job's limit
    groups, if no name has a comma or a tilde in it. *)
Theorem C30_scheduler_group_partial req lgs : lacks "~" req → Forall (lacks "~") lgs → Forall (lacks ",") lgs →
  sched_limits (sched_group req lgs) = lgs.
Proof. exact (limits_of_group req lgs). Qed.
Print Assumptions C30_scheduler_group_partial.
Example C30_scheduler_group_case : lacks "~" "1024:60:1:0" ∧ Forall (lacks "~") ["irods"; "lustre"] ∧
  Forall (lacks ",") ["irods"; "lustre"] ∧ sched_group "1024:60:1:0" ["irods"; "lustre"] = "1024:60:1:0~irods,lustre".
Proof. repeat split; done || (repeat constructor; done). Qed.
(** With a tilde in the name of a limit group the job is not limited at all. *)
Theorem C30_tilde_refuted : ∃ req lgs, lgs ≠ [] ∧ sched_limits (sched_group req lgs) = [].
Proof. exists "1024:60:1:0", ["a~b"]. split; [done|]. by vm_compute. Qed.
(** With the limiter: when its increments and decrements are those of the server,
    the count of each count group is the number of running jobs counted in it, and
    this is at most the limit. Missing besides: what is missing for C18. *)
Theorem C30_running_within_limits_partial es s ops ls rs L g lim : reachable counting es s →
  lrun l_new ops = (ls, rs) → grants l_new ops = calls es → Forall (constant_groups L) ops →
  lalways (λ s o, increments_properly s o ∧ sets_properly s o ∧ answers_properly o) l_new ops →
  L g = true → limit_of ls g = Some lim → running_in g s ≤ lim ∧ count ls g = running_in g s.
Proof.
  intros Hr Ho Hg Hc Ha HL Hl. pose proof (counted_in_limiter es s ops L Hr Hg Hc g HL) as E. rewrite Ho in E. cbn in E.
  rewrite <- E. split; [|done]. by apply (C18_never_exceeded_partial ops ls rs Ho Ha).
Qed.
Print Assumptions C30_running_within_limits_partial.
(** Jobs P and Q are limited by a, which has a limit of two; both run, then P
    fails. *)
Definition jobP : job := plain_job "P" 1 ["a"] [] [] "r~a".
Definition jobQ : job := plain_job "Q" 1 ["a"] [] [] "r~a".
Definition limited : list sop :=
  [AAdd (sec 1) [jobP; jobQ] false; AReserve (sec 2) 1 "r~a" true 0; AStart (sec 3) 1 "P" true;
   AReserve (sec 3) 2 "r~a" true 0; AReserve (sec 3) 3 "r~a" false 0].
Definition limiter_ops : list lop := [LIncrement demo_cb demo_clk ["a"] false; LIncrement demo_cb demo_clk ["a"] false;
  LIncrement demo_cb demo_clk ["a"] false].
#[local] Instance lcall_eq_dec : EqDecision lcall.
Proof. solve_decision. Defined.
Example C30_case : ∃ es s, reachable counting es s ∧ reachable serving es s ∧ (∃ j, seen s "Q" = Some (SRun, j)) ∧
  charged "Q" es = ["a"] ∧ running_in "a" s = 2 ∧
  grants l_new limiter_ops = calls es ∧ Forall (constant_groups (λ g, bool_decide (g = "a" ∨ g = "b"))) limiter_ops ∧
  lalways (λ s o, increments_properly s o ∧ sets_properly s o ∧ answers_properly o) l_new limiter_ops ∧
  limit_of (lrun l_new limiter_ops).1 "a" = Some 2.
Proof.
  destruct (demo_reach (λ s o, counting s o ∧ serving s o) (λ s o, counting_b s o && serving_b s o) limited
    (λ es s, match seen s "Q" with Some (SRun, _) => true | _ => false end && bool_decide (charged "Q" es = ["a"]) &&
             (running_in "a" s =? 2)%Z && bool_decide (calls es = [CInc ["a"]; CInc ["a"]])))
    as (es & s & (t & Hh) & Hf).
  { intros s o [? ?]%andb_true_iff. split; [by apply counting_b_ok|by apply serving_b_ok]. }
  { vm_compute. reflexivity. }
  apply andb_true_iff in Hf as [[[H1 H2]%andb_true_iff H3]%andb_true_iff H4].
  apply bool_decide_eq_true in H2, H4. apply Z.eqb_eq in H3.
  exists es, s. split. { exists t. eapply hist_weaken; [|exact Hh]. by intros ? ? [? _]. }
  split. { exists t. eapply hist_weaken; [|exact Hh]. by intros ? ? [_ ?]. }
  split. { destruct (seen s "Q") as [[[] j]|]; try discriminate H1. by exists j. }
  split; [done|]. split; [done|]. split; [rewrite H4; vm_compute; reflexivity|].
  split. { repeat constructor; intros Hn; unfold demo_cb, demo_f.
    all: try apply bool_decide_eq_true in Hn; try apply bool_decide_eq_false in Hn.
    all: try (destruct Hn as [-> | ->]; by eexists).
    all: intros d; rewrite !decide_False by tauto; destruct (decide (name = "w")); by intros [= <-]. }
  split; [|by vm_compute].
  assert (∀ n name d, demo_cb n name = Some d → dmode d = MCount → 0 ≤ dlimit d) as Ha.
  { intros n name d. unfold demo_cb, demo_f. repeat destruct (decide _); intros [= <-]; done. }
  assert (∃ f, stable demo_cb f ∧ fresh f) as Hst by (exists demo_f; split; [done|apply demo_fresh]).
  assert (NoDup ["a"]) as N1 by (apply (bool_decide_unpack _); by vm_compute).
  split; [split; [by split|by split]|]. split; [split; [by split|by split]|]. split; [split; [by split|by split]|]. exact I.
Qed.
(** A restarted server that finds a job recorded as running which has exited
    counts it, and never uncounts it: the job is buried, nothing runs, and group lg
    has lost one place. *)
Definition restart_leak : list sop :=
  [AAdd (sec 1) [jobA] false; AReserve (sec 2) 1 "r~lg" true 0; AStart (sec 3) 1 "A" true; AArchive 1 "A" (ended 1 4) [];
   AStart (sec 5) 1 "A" true; ALand 0; ALand 0; ALand 0; ACrash CutNone (sec 6) (λ _, true); ABury (sec 7) 1 "A" (ended 1 7)].
Theorem C30_restart_leak_refuted : ∃ es s, reachable spares_busy es s ∧ running_in "lg" s = 0 ∧ net "lg" (calls es) = 1 ∧
  ∃ j, seen s "A" = Some (SBury, j).
Proof.
  destruct (demo_reach spares_busy spares_b restart_leak
    (λ es s, match seen s "A" with Some (SBury, _) => true | _ => false end && (running_in "lg" s =? 0)%Z && (net "lg" (calls es) =? 1)%Z)
    spares_b_ok ltac:(by vm_compute)) as (es & s & Hh & Hf).
  apply andb_true_iff in Hf as [[H1 H2]%andb_true_iff H3]. apply Z.eqb_eq in H2, H3. exists es, s. split; [done|].
  split; [done|]. split; [done|]. destruct (seen s "A") as [[[] j]|]; try discriminate H1. by exists j.
Qed.
(** Adding a job to a group that a running job depends on does the same without a
    restart. *)
Theorem C30_touched_leak_refuted : ∃ es s, reachable (λ _ _, True) es s ∧ running_in "lg" s = 0 ∧ net "lg" (calls es) = 1.
Proof.
  destruct (demo_reach (λ _ _, True) anyb (e_runs ++ [AAdd (sec 4) [jobM] false])%list
    (λ es s, (running_in "lg" s =? 0)%Z && (net "lg" (calls es) =? 1)%Z)
    ltac:(done) ltac:(by vm_compute)) as (es & s & Hh & Hf).
  apply andb_true_iff in Hf as [H2 H3]. apply Z.eqb_eq in H2, H3. by exists es, s.
Qed.
