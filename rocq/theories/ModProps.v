(** The properties of modifying jobs (C58). *)
From Coq Require Import ZArith Lia String.
From stdpp Require Import base option strings gmap list.
From RecordUpdate Require Import RecordSet.
From Verif Require Import GoHeap QueueModel ServerModel ServerSpec ServerKey ServerDemo ModModel ModSpec ModProofs.
Import RecordSetNotations.
Open Scope Z_scope.
Open Scope string_scope.

(** ** C58 *)
(** Whatever the server has done so far, a request to modify jobs is served, and
    [Outcome] holds: the jobs that are answered have the new values, in memory and on
    disk, in the state they were in and nothing else about them is changed; they were
    asked for and not running; a job is left out only because of the key it would get;
    all other jobs are as they were; and a job waiting for a job that got a new key
    waits for it under its new key.

    Missing: setting priorities and dependencies, after which the waiting is computed
    anew (see [C58_dependency_lost_refuted]); histories with more than one modification;
    requests that touched running or buried jobs before (see C28). *)
Theorem C58_modified_partial es s now m ks ord1 ord2 : reachable spares_busy es s → settled m → no_requeue m →
  reorders ord1 → reorders ord2 →
  ∃ s' mp, s_modify now m ks ord1 ord2 s = Some (s', mp) ∧ Outcome m ks s s' mp.
Proof.
  intros H Hm Hn H1 H2. pose proof (reach_good _ _ _ (λ _ _ H, H) H) as HG.
  destruct (modify_request now m ks ord1 ord2 s HG Hm H1 H2 Hn) as (s' & mp & ? & ? & _). by exists s', mp.
Qed.
Print Assumptions C58_modified_partial.

(** A job that is waited for gets a new key and more retries. *)
Definition jobE : job := plain_job "E" 0 [] [] [DJob "A"] "r".
Definition new_key (a b : key) : modifier :=
  Mod (λ k, if bool_decide (k = a) then b else k) None (Some 4%N) None None None.
Definition waited : list sop := [AAdd (sec 1) [jobA; jobB; jobE] false].
Definition waited_test (_ : list entry) (s : sstate) : bool :=
  bool_decide (waits_for s "E" = {["A"]}) &&
  match s_modify (sec 2) (new_key "A" "A2") ["A"; "B"] id reverse s with
  | Some (s', mp) => bool_decide (mp = [("A2", "A"); ("B", "B")]) && bool_decide (waits_for s' "E" = {["A2"]}) &&
      match seen s' "A2" with Some (SReady, j) => (jretries j =? 4)%N | _ => false end
  | None => false
  end.
Example C58_case : ∃ es s s' mp j, reachable spares_busy es s ∧ settled (new_key "A" "A2") ∧ no_requeue (new_key "A" "A2") ∧
  reorders id ∧ reorders reverse ∧ waits_for s "E" = {["A"]} ∧
  s_modify (sec 2) (new_key "A" "A2") ["A"; "B"] id reverse s = Some (s', mp) ∧ mp = [("A2", "A"); ("B", "B")] ∧
  seen s' "A2" = Some (SReady, j) ∧ jretries j = 4%N ∧ waits_for s' "E" = {["A2"]}.
Proof.
  destruct (shown_hist spares_busy spares_b (s_new (sec 1)) waited waited_test spares_b_ok ltac:(by vm_compute)) as (es & s & Hh & Hf).
  unfold waited_test in Hf. apply andb_true_iff in Hf as [H1 H2].
  destruct (s_modify _ _ _ _ _ s) as [[s' mp]|] eqn:E; [|discriminate H2].
  apply andb_true_iff in H2 as [[H2 H3]%andb_true_iff H4]. apply bool_decide_eq_true in H1, H2, H3.
  destruct (seen s' "A2") as [[[] j]|] eqn:E2; try discriminate H4. apply N.eqb_eq in H4.
  exists es, s, s', mp, j. split; [by exists (sec 1)|]. split_and!; try done.
  - intros k. cbn. destruct (decide (k = "A")) as [->|Hk]; [done|]. rewrite (bool_decide_eq_false_2 (k = "A")) by done.
    by rewrite bool_decide_eq_false_2.
  - intros l. apply Permutation_refl.
  - intros l. apply reverse_Permutation.
Qed.

(** *** What does not hold of the waiting *)
(** E depends on A; A gets a new key, which E then waits for; E gets another priority
    and is ready, though A has not run. *)
Definition prio (n : N) : modifier := Mod id (Some n) None None None None.
Definition renamed : list mop := [MServe (AAdd (sec 1) [jobA; jobE] false); MModify (sec 2) (new_key "A" "A2") ["A"]].
Definition waiting (s : sstate) : bool := bool_decide (waits_for s "E" = {["A2"]}).
Definition both_ready (s : sstate) : bool :=
  match seen s "A2", seen s "E" with Some (SReady, _), Some (SReady, _) => true | _, _ => false end.
Theorem C58_dependency_lost_refuted : ∃ s0 s a e, mrun (s_new 0) renamed = Some s0 ∧ waits_for s0 "E" = {["A2"]} ∧
  mrun s0 [MModify (sec 3) (prio 7) ["E"]] = Some s ∧ seen s "A2" = Some (SReady, a) ∧ seen s "E" = Some (SReady, e).
Proof.
  assert (H : match mrun (s_new 0) renamed with
              | Some s0 => waiting s0 && match mrun s0 [MModify (sec 3) (prio 7) ["E"]] with Some s => both_ready s | None => false end
              | None => false end = true) by (by vm_compute).
  destruct (mrun (s_new 0) renamed) as [s0|]; [|discriminate H]. apply andb_true_iff in H as [H1 H2].
  destruct (mrun s0 _) as [s|] eqn:E; [|discriminate H2]. unfold both_ready in H2.
  destruct (seen s "A2") as [[[] a]|] eqn:Ea; try discriminate H2. destruct (seen s "E") as [[[] e]|] eqn:Ee; try discriminate H2.
  exists s0, s, a, e. split_and!; try done. by apply bool_decide_eq_true in H1.
Qed.
(** So it is after a restart. *)
Theorem C58_restart_refuted : ∃ s0 s a e, mrun (s_new 0) renamed = Some s0 ∧ waits_for s0 "E" = {["A2"]} ∧
  mrun s0 [MServe (ACrash CutNone (sec 3) (λ _, true))] = Some s ∧ seen s "A2" = Some (SReady, a) ∧ seen s "E" = Some (SReady, e).
Proof.
  assert (H : match mrun (s_new 0) renamed with
              | Some s0 => waiting s0 && match mrun s0 [MServe (ACrash CutNone (sec 3) (λ _, true))] with Some s => both_ready s | None => false end
              | None => false end = true) by (by vm_compute).
  destruct (mrun (s_new 0) renamed) as [s0|]; [|discriminate H]. apply andb_true_iff in H as [H1 H2].
  destruct (mrun s0 _) as [s|] eqn:E; [|discriminate H2]. unfold both_ready in H2.
  destruct (seen s "A2") as [[[] a]|] eqn:Ea; try discriminate H2. destruct (seen s "E") as [[[] e]|] eqn:Ee; try discriminate H2.
  exists s0, s, a, e. split_and!; try done. by apply bool_decide_eq_true in H1.
Qed.

(** *** nor of the other jobs *)
(** C, which depends on the group g, is complete. B is put in g: C is stored as a job
    to do, but not queued. F, added later, depends on C and waits for it; no job of that
    key is in the queue. *)
Definition jobC : job := plain_job "C" 0 [] [] [DGroup "g"] "r".
Definition jobF : job := plain_job "F" 0 [] [] [DJob "C"] "r".
Definition in_group (g : string) : modifier := Mod id None None None (Some [g]) None.
Definition c_complete : list mop :=
  [MServe (AAdd (sec 1) [jobC] false); MServe (AReserve (sec 2) 1 "r" true 0); MServe (AStart (sec 3) 1 "C" true);
   MServe (AArchive 1 "C" (ended 0 4) []); MServe (AAdd (sec 5) [jobB] false)].
Theorem C58_raised_refuted : ∃ s0 s f, mrun (s_new 0) c_complete = Some s0 ∧ is_Some (complete (sdb s0) !! "C") ∧
  live (sdb s0) !! "C" = None ∧
  mrun s0 [MModify (sec 6) (in_group "g") ["B"]; MServe (AAdd (sec 7) [jobF] false)] = Some s ∧
  is_Some (complete (sdb s) !! "C") ∧ is_Some (live (sdb s) !! "C") ∧
  seen s "F" = Some (SDep, f) ∧ waits_for s "F" = {["C"]} ∧ seen s "C" = None.
Proof.
  set (more := [MModify (sec 6) (in_group "g") ["B"]; MServe (AAdd (sec 7) [jobF] false)]).
  assert (H : match mrun (s_new 0) c_complete with
              | Some s0 => bool_decide (is_Some (complete (sdb s0) !! "C")) && bool_decide (¬ is_Some (live (sdb s0) !! "C")) &&
                  match mrun s0 more with
                  | Some s => bool_decide (is_Some (complete (sdb s) !! "C")) && bool_decide (is_Some (live (sdb s) !! "C")) &&
                      match seen s "F" with Some (SDep, _) => bool_decide (waits_for s "F" = {["C"]}) | _ => false end &&
                      match seen s "C" with None => true | _ => false end
                  | None => false end
              | None => false end = true) by (by vm_compute).
  destruct (mrun (s_new 0) c_complete) as [s0|]; [|discriminate H]. apply andb_true_iff in H as [[H1 H2]%andb_true_iff H].
  destruct (mrun s0 more) as [s|] eqn:E; [|discriminate H]. apply andb_true_iff in H as [[[H3 H4]%andb_true_iff H5]%andb_true_iff H6].
  destruct (seen s "F") as [[[] f]|] eqn:Ef; try discriminate H5. destruct (seen s "C") eqn:Ec; [discriminate H6|].
  apply bool_decide_eq_true in H1, H2, H3, H4, H5. exists s0, s, f. split_and!; try done. by apply eq_None_not_Some.
Qed.

(** *** nor of the retries *)
(** B, added with no retries, is given 3. It is buried the first time that it fails. *)
Definition retries (n : N) : modifier := Mod id None (Some n) None None None.
Definition one_failure : list mop :=
  [MServe (AReserve (sec 3) 1 "r" true 0); MServe (AStart (sec 4) 1 "B" true); MServe (ARelease (sec 5) 1 "B" (ended 1 5))].
Theorem C58_retries_refuted : ∃ s0 s b0 b, mrun (s_new 0) [MServe (AAdd (sec 1) [jobB] false); MModify (sec 2) (retries 3) ["B"]] = Some s0 ∧
  seen s0 "B" = Some (SReady, b0) ∧ jretries b0 = 3%N ∧ mrun s0 one_failure = Some s ∧ seen s "B" = Some (SBury, b).
Proof.
  set (first := [MServe (AAdd (sec 1) [jobB] false); MModify (sec 2) (retries 3) ["B"]]).
  assert (H : match mrun (s_new 0) first with
              | Some s0 => match seen s0 "B" with Some (SReady, b) => (jretries b =? 3)%N | _ => false end &&
                  match mrun s0 one_failure with Some s => match seen s "B" with Some (SBury, _) => true | _ => false end | None => false end
              | None => false end = true) by (by vm_compute).
  destruct (mrun (s_new 0) first) as [s0|]; [|discriminate H]. apply andb_true_iff in H as [H1 H2].
  destruct (seen s0 "B") as [[[] b0]|] eqn:E0; try discriminate H1. apply N.eqb_eq in H1.
  destruct (mrun s0 one_failure) as [s|] eqn:E; [|discriminate H2]. destruct (seen s "B") as [[[] b]|] eqn:Eb; try discriminate H2.
  by exists s0, s, b0, b.
Qed.

(** *** nor of the priority *)
(** P has failed and is given priority 7, B has priority 5; the next to be reserved is B. *)
Definition jobP : job := plain_job "P" 1 [] [] [] "r".
Definition p_delayed : list mop :=
  [MServe (AAdd (sec 1) [jobP] false); MServe (AReserve (sec 2) 1 "r" true (sec 30)); MServe (AStart (sec 3) 1 "P" true);
   MServe (ARelease (sec 4) 1 "P" (ended 1 4)); MServe (AAdd (sec 5) [jobB] false); MModify (sec 5) (prio 5) ["B"];
   MModify (sec 6) (prio 7) ["P"]; MServe (ATickDelay (sec 7))].
Theorem C58_priority_refuted : ∃ s p b s' l, mrun (s_new 0) p_delayed = Some s ∧ seen s "P" = Some (SReady, p) ∧ jprio p = 7%N ∧
  seen s "B" = Some (SReady, b) ∧ jprio b = 5%N ∧ jsched p = "r" ∧ jsched b = "r" ∧
  sstep s (AReserve (sec 8) 2 "r" true 0) = Some (s', SReserved "B", l).
Proof.
  assert (H : match mrun (s_new 0) p_delayed with
              | Some s => match seen s "P" with Some (SReady, p) => (jprio p =? 7)%N && bool_decide (jsched p = "r") | _ => false end &&
                  match seen s "B" with Some (SReady, b) => (jprio b =? 5)%N && bool_decide (jsched b = "r") | _ => false end &&
                  match sstep s (AReserve (sec 8) 2 "r" true 0) with Some (_, SReserved k, _) => bool_decide (k = "B") | _ => false end
              | None => false end = true) by (by vm_compute).
  destruct (mrun (s_new 0) p_delayed) as [s|]; [|discriminate H]. apply andb_true_iff in H as [[H1 H2]%andb_true_iff H3].
  destruct (seen s "P") as [[[] p]|] eqn:Ep; try discriminate H1. apply andb_true_iff in H1 as [H1 H1'].
  destruct (seen s "B") as [[[] b]|] eqn:Eb; try discriminate H2. apply andb_true_iff in H2 as [H2 H2'].
  destruct (sstep s _) as [[[s' []] l]|] eqn:E; try discriminate H3. apply N.eqb_eq in H1, H2. apply bool_decide_eq_true in H1', H2', H3.
  subst. exists s, p, b, s', l. by split_and!.
Qed.
(** *** nor is every request served *)
(** B is buried and is made to depend on P, then on nothing: the manager panics. *)
Definition deps (l : list dependency) : modifier := Mod id None None None None (Some l).
Definition b_buried : list mop :=
  [MServe (AAdd (sec 1) [jobB; jobP] false); MServe (AReserve (sec 2) 1 "r" true (sec 30)); MServe (AStart (sec 3) 1 "B" true);
   MServe (ARelease (sec 4) 1 "B" (ended 1 4)); MModify (sec 5) (deps [DJob "P"]) ["B"]].
Theorem C58_panics_refuted : ∃ s b, mrun (s_new 0) b_buried = Some s ∧ seen s "B" = Some (SBury, b) ∧
  settled (deps []) ∧ s_modify (sec 6) (deps []) ["B"] id id s = None.
Proof.
  assert (H : match mrun (s_new 0) b_buried with
              | Some s => match seen s "B" with Some (SBury, _) => true | _ => false end &&
                          match s_modify (sec 6) (deps []) ["B"] id id s with None => true | Some _ => false end
              | None => false end = true) by (by vm_compute).
  destruct (mrun (s_new 0) b_buried) as [s|]; [|discriminate H]. apply andb_true_iff in H as [H1 H2].
  destruct (seen s "B") as [[[] b]|] eqn:Eb; try discriminate H1. destruct (s_modify _ _ _ _ _ s) eqn:E; [discriminate H2|].
  by exists s, b.
Qed.
(** *** nor of what is on disk *)
(** A fails; before what is known of that is written, A is given 9 retries. That is
    written, then, late, the old job: on disk A has the one retry it had. *)
Definition a_fails : list mop :=
  [MServe (AAdd (sec 1) [jobA] false); MServe (AReserve (sec 2) 1 "r~lg" true 0); MServe (AStart (sec 3) 1 "A" true);
   MServe (ARelease (sec 4) 1 "A" (ended 1 4)); MModify (sec 5) (retries 9) ["A"]].
Theorem C58_old_write_refuted : ∃ s0 i0 s i a, mrun (s_new 0) a_fails = Some s0 ∧ live (sdb s0) !! "A" = Some i0 ∧ jretries i0 = 9%N ∧
  mrun s0 [MServe (ALand 0); MServe (ALand 0)] = Some s ∧ live (sdb s) !! "A" = Some i ∧ jretries i = 1%N ∧
  seen s "A" = Some (SReady, a) ∧ jretries a = 9%N.
Proof.
  assert (H : match mrun (s_new 0) a_fails with
              | Some s0 => match live (sdb s0) !! "A" with Some i => (jretries i =? 9)%N | None => false end &&
                  match mrun s0 [MServe (ALand 0); MServe (ALand 0)] with
                  | Some s => match live (sdb s) !! "A" with Some i => (jretries i =? 1)%N | None => false end &&
                      match seen s "A" with Some (SReady, a) => (jretries a =? 9)%N | _ => false end
                  | None => false end
              | None => false end = true) by (by vm_compute).
  destruct (mrun (s_new 0) a_fails) as [s0|]; [|discriminate H]. apply andb_true_iff in H as [H1 H].
  destruct (live (sdb s0) !! "A") as [i0|] eqn:E0; [|discriminate H1]. apply N.eqb_eq in H1.
  destruct (mrun s0 _) as [s|] eqn:E; [|discriminate H]. apply andb_true_iff in H as [H2 H3].
  destruct (live (sdb s) !! "A") as [i|] eqn:Ei; [|discriminate H2]. apply N.eqb_eq in H2.
  destruct (seen s "A") as [[[] a]|] eqn:Ea; try discriminate H3. apply N.eqb_eq in H3. by exists s0, i0, s, i, a.
Qed.
Print Assumptions C58_old_write_refuted.
