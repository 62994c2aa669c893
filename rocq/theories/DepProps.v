(** The properties of deletion and of dependencies (C32, C46). *)
From Coq Require Import ZArith Lia String Ascii.
From stdpp Require Import base option strings gmap list.
From RecordUpdate Require Import RecordSet.
From Verif Require Import GoHeap QueueModel ServerModel ServerSpec ServerKey ServerDep ServerWait ServerDemo.
Import RecordSetNotations.
Open Scope Z_scope.
Open Scope string_scope.

(** *** The cases *)
Definition d_new : sstate := s_new (sec 1).
Definition dep_job (k : key) (depgroups : list string) (deps : list dependency) : job := plain_job k 0 [] depgroups deps "r".
Lemma d_reach (ok : sstate → sop → Prop) b ops f : (∀ s o, b s o = true → ok s o) → shown b d_new ops f = true →
  ∃ es s, reachable ok es s ∧ f es s = true.
Proof. intros Hb H. destruct (shown_hist ok b d_new ops f Hb H) as (es & s & ? & ?). exists es, s. split; [by exists (sec 1)|done]. Qed.
(** C depends on B and B on A; D depends on X *)
Definition chain : list sop :=
  [AAdd (sec 1) [dep_job "A" [] []; dep_job "B" [] [DJob "A"]; dep_job "C" [] [DJob "B"];
                 dep_job "X" [] []; dep_job "D" [] [DJob "X"]] false].
Definition chain_rank (k : key) : nat := if decide (k = "A") then 0 else if decide (k = "B") then 1 else 2.
(** all of [R] requested, queued and not running, and their waiters are among them with a higher rank *)
Definition closed_b (s : sstate) (ks R : list key) (rank : key → nat) : bool :=
  bool_decide (NoDup R) && forallb (λ k, bool_decide (k ∈ ks)) R &&
  forallb (λ k, match seen s k with Some (SRun, _) | None => false | _ => true end) R &&
  forallb (λ k, forallb (λ k', negb (bool_decide (k ∈ waits_for s k')) || (bool_decide (k' ∈ R) && (rank k <? rank k')%nat))
    (elements (dom (items (sq s))))) R.
Lemma waits_queued_key s k k' : k ∈ waits_for s k' → k' ∈ elements (dom (items (sq s))).
Proof.
  unfold waits_for. destruct (items (sq s) !! k') eqn:E; [|by intros ?%elem_of_empty].
  intros _. apply elem_of_elements, elem_of_dom. by eexists.
Qed.
Lemma closed_b_ok s ks R rank : closed_b s ks R rank = true →
  NoDup R ∧ R ⊆ ks ∧ (∀ k, k ∈ R → ∃ st j, seen s k = Some (st, j) ∧ st ≠ SRun) ∧
  (∀ k k', k ∈ R → k ∈ waits_for s k' → k' ∈ R ∧ (rank k < rank k')%nat).
Proof.
  unfold closed_b. intros [[[H1 H2]%andb_true_iff H3]%andb_true_iff H4]%andb_true_iff.
  rewrite forallb_forall in H2, H3, H4. apply bool_decide_eq_true in H1. split; [done|]. split_and!.
  - intros k Hk. apply elem_of_list_In, H2, bool_decide_eq_true in Hk. done.
  - intros k Hk. apply elem_of_list_In, H3 in Hk. destruct (seen s k) as [[st j]|]; [|done]. exists st, j.
    split; [done|]. by destruct st.
  - intros k k' Hk Hw. apply elem_of_list_In, H4 in Hk. rewrite forallb_forall in Hk.
    specialize (Hk k' (proj1 (elem_of_list_In _ _) (waits_queued_key _ _ _ Hw))).
    rewrite bool_decide_true in Hk by done. cbn in Hk. apply andb_true_iff in Hk as [?%bool_decide_eq_true ?%Nat.ltb_lt]. done.
Qed.

(** ** C32 *)
(** A delete request is answered with the number of jobs that it removed. It
    removes only jobs that were requested and not running, and whoever waited for
    a removed job has been removed as well: no job left in the queue waited for
    one. Everything else is as before: the jobs, their states, what they wait
    for, and the records. *)
Theorem C32_delete_safe es s ks ord :
  reachable spares_busy es s →
  ∃ s' n, sstep s (ADelete ks ord) = Some (s', SCount n, []) ∧
    (∀ k, removed s s' k →
       k ∈ ks ∧ (∃ st j, seen s k = Some (st, j) ∧ st ≠ SRun) ∧
       (∀ k', is_Some (seen s' k') → k ∉ waits_for s k') ∧ live (sdb s') !! k = None) ∧
    (∀ k, ¬ removed s s' k →
       seen s' k = seen s k ∧ waits_for s' k = waits_for s k ∧ live (sdb s') !! k = live (sdb s) !! k) ∧
    complete (sdb s') = complete (sdb s) ∧
    ∃ del : list key, NoDup del ∧ length del = n ∧ ∀ k, k ∈ del ↔ removed s s' k.
Proof.
  intros Hr. assert (HG : Good s) by (by apply (reach_good spares_busy es)).
  destruct (delete_answered s ks ord HG) as [[[s' r] l] Hs].
  destruct (delete_request _ _ _ _ _ _ HG Hs) as (del & Hnd & -> & -> & Hrem & Hin & Hfree & Hout & Hlive & Hcomp).
  exists s', (length del). split; [done|]. split; [|split; [|split; [done|by exists del]]].
  - intros k Hk%Hrem. destruct (Hin k Hk) as [? ?]. split; [done|]. split; [done|]. split.
    + intros k' Hk' Hw. apply (Hfree k k' Hk), Hrem in Hw as [_ Hn]. rewrite Hn in Hk'. by destruct Hk'.
    + by rewrite Hlive, decide_True.
  - intros k Hk. assert (Hkd : k ∉ del) by (intros ?; by apply Hk, Hrem).
    destruct (Hout k Hkd). split; [done|]. split; [done|]. by rewrite Hlive, decide_False.
Qed.
Print Assumptions C32_delete_safe.
(** X is asked for but D waits for it; A, B and C go. *)
Definition safe_test (_ : list entry) (s : sstate) : bool :=
    match sstep s (ADelete ["X"; "A"; "B"; "C"] []) with
    | Some (s', SCount n, []) => (n =? 3)%nat && bool_decide (waits_for s "D" = {["X"]}) && bool_decide (is_Some (st_of s' "X")) &&
        bool_decide (is_Some (st_of s' "D")) && bool_decide (is_Some (st_of s "A")) && negb (bool_decide (is_Some (st_of s' "A")))
    | _ => false
    end.
Example C32_delete_safe_case : ∃ es s s', reachable spares_busy es s ∧
  sstep s (ADelete ["X"; "A"; "B"; "C"] []) = Some (s', SCount 3, []) ∧
  waits_for s "D" = {["X"]} ∧ is_Some (seen s' "X") ∧ is_Some (seen s' "D") ∧ removed s s' "A".
Proof.
  destruct (d_reach spares_busy spares_b chain safe_test spares_b_ok ltac:(by vm_compute)) as (es & s & Hh & Hf).
  unfold safe_test in Hf. destruct (sstep s _) as [[[s' r] l]|] eqn:Hs; [|discriminate Hf].
  destruct r as [| | | | | |n]; try discriminate Hf. destruct l; [|discriminate Hf].
  apply andb_true_iff in Hf as [[[[[->%Nat.eqb_eq H1]%andb_true_iff H2]%andb_true_iff H3]%andb_true_iff H4]%andb_true_iff H5].
  apply bool_decide_eq_true in H1, H2, H3, H4. apply negb_true_iff, bool_decide_eq_false in H5.
  unfold st_of in *. rewrite fmap_is_Some in H2, H3, H4, H5. exists es, s, s'. split_and!; try done.
  split; [done|]. by apply eq_None_not_Some.
Qed.

(** Requested jobs that are not running and whose waiters, and the waiters of
    these, are all requested and not running either, are removed, whatever the
    order of the request; if they do not wait for each other in a circle ([rank]). *)
Theorem C32_delete_complete_partial es s ks ord s' r l (R : list key) (rank : key → nat) :
  reachable spares_busy es s → sstep s (ADelete ks ord) = Some (s', r, l) →
  NoDup R → R ⊆ ks → (∀ k, k ∈ R → ∃ st j, seen s k = Some (st, j) ∧ st ≠ SRun) →
  (∀ k k', k ∈ R → k ∈ waits_for s k' → k' ∈ R ∧ (rank k < rank k')%nat) →
  ∀ k, k ∈ R → removed s s' k.
Proof.
  intros Hr Hs HN HR Hp Hc k Hk. assert (HG : Good s) by (by apply (reach_good spares_busy es)). split.
  - destruct (Hp k Hk) as (st & j & Hst & _). by eexists.
  - exact (delete_all s ks ord s' r l rank R HG Hs HN HR Hp Hc k Hk).
Qed.
Print Assumptions C32_delete_complete_partial.
Definition complete_test (_ : list entry) (s : sstate) : bool :=
    match sstep s (ADelete ["X"; "A"; "B"; "C"] []) with
    | Some _ => bool_decide (waits_for s "C" = {["B"]}) && closed_b s ["X"; "A"; "B"; "C"] ["A"; "B"; "C"] chain_rank
    | _ => false
    end.
Example C32_delete_complete_case : ∃ es s s' r l, reachable spares_busy es s ∧
  sstep s (ADelete ["X"; "A"; "B"; "C"] []) = Some (s', r, l) ∧ waits_for s "C" = {["B"]} ∧
  NoDup ["A"; "B"; "C"] ∧ ["A"; "B"; "C"] ⊆ ["X"; "A"; "B"; "C"] ∧
  (∀ k, k ∈ ["A"; "B"; "C"] → ∃ st j, seen s k = Some (st, j) ∧ st ≠ SRun) ∧
  (∀ k k', k ∈ ["A"; "B"; "C"] → k ∈ waits_for s k' → k' ∈ ["A"; "B"; "C"] ∧ (chain_rank k < chain_rank k')%nat).
Proof.
  destruct (d_reach spares_busy spares_b chain complete_test spares_b_ok ltac:(by vm_compute)) as (es & s & Hh & Hf).
  unfold complete_test in Hf. destruct (sstep s _) as [[[s' r] l]|] eqn:Hs; [|discriminate Hf].
  apply andb_true_iff in Hf as [H1%bool_decide_eq_true H2%closed_b_ok].
  exists es, s, s', r, l. done.
Qed.

(** Without that last condition it fails: jobs that wait for each other in a
    circle cannot be deleted, although nobody else waits for them. Likewise a job
    that is in a dependency group which it depends on. *)
Definition circle : list sop :=
  [AAdd (sec 1) [dep_job "A" ["g"] [DJob "B"]; dep_job "B" [] [DGroup "g"]; dep_job "S" ["h"] [DGroup "h"]] false].
Definition circle_test (_ : list entry) (s : sstate) : bool :=
    match sstep s (ADelete ["A"; "B"; "S"] []) with
    | Some (_, SCount n, []) => (n =? 0)%nat && bool_decide (waits_for s "S" = {["S"]}) &&
        forallb (λ k, match seen s k with Some (SRun, _) | None => false | _ => true end) ["A"; "B"; "S"] &&
        bool_decide (elements (dom (items (sq s))) ⊆ ["A"; "B"; "S"])
    | _ => false
    end.
Theorem C32_delete_circle_refuted : ∃ es s s' ks (R : list key), reachable spares_busy es s ∧
  sstep s (ADelete ks []) = Some (s', SCount 0, []) ∧ R ⊆ ks ∧
  (∀ k, k ∈ R → ∃ st j, seen s k = Some (st, j) ∧ st ≠ SRun) ∧
  (∀ k k', k ∈ R → k ∈ waits_for s k' → k' ∈ R) ∧ "A" ∈ R ∧ "S" ∈ R ∧ waits_for s "S" = {["S"]}.
Proof.
  destruct (d_reach spares_busy spares_b circle circle_test spares_b_ok ltac:(by vm_compute)) as (es & s & Hh & Hf).
  unfold circle_test in Hf. destruct (sstep s _) as [[[s' r] l]|] eqn:Hs; [|discriminate Hf].
  destruct r as [| | | | | |n]; try discriminate Hf. destruct l; [|discriminate Hf].
  apply andb_true_iff in Hf as [[[->%Nat.eqb_eq H1%bool_decide_eq_true]%andb_true_iff H2]%andb_true_iff H3%bool_decide_eq_true].
  exists es, s, s', ["A"; "B"; "S"], ["A"; "B"; "S"]. split; [done|]. split; [done|]. split; [done|]. split.
  - intros k Hk. rewrite forallb_forall in H2. apply elem_of_list_In, H2 in Hk.
    destruct (seen s k) as [[st j]|]; [|done]. exists st, j. split; [done|]. by destruct st.
  - split; [|split_and!; [left|right; right; left|done]]. intros k k' _ Hw. apply H3. by apply (waits_queued_key s k).
Qed.
Print Assumptions C32_delete_circle_refuted.

(** ** C46 *)
(** The dependency groups and dependencies of the jobs below. *)
Definition members (js : list job) (k : key) : list string := match find (λ j, bool_decide (jkey j = k)) js with Some j => jdepgroups j | None => [] end.
Definition needs (js : list job) (k : key) : list dependency := match find (λ j, bool_decide (jkey j = k)) js with Some j => jdeps j | None => [] end.
(** D depends on group g and on K; M1 and M2 are in g; E depends on group h, which D is in *)
Definition jM1 : job := dep_job "M1" ["g"] [].
Definition jM2 : job := dep_job "M2" ["g"] [].
Definition jK : job := dep_job "K" [] [].
Definition jD : job := dep_job "D" ["h"] [DGroup "g"; DJob "K"].
Definition jE : job := dep_job "E" [] [DGroup "h"].
Definition five : list job := [jM1; jM2; jK; jD; jE].
Definition linked : sstate → sop → Prop := depending (members five) (needs five).
Definition linked_b : sstate → sop → bool := depending_b (members five) (needs five).
Lemma linked_ok s o : linked_b s o = true → linked s o.
Proof. apply depending_b_ok. Qed.
(** run and complete the next ready job, which is [k] *)
Definition complete_next (k : key) (t : Z) : list sop :=
  [AReserve (sec t) 1 "r" true 0; AStart (sec t) 1 k true; AArchive 1 k (ended 0 (t + 1)) ["D"; "E"]].
Definition first_adds : list sop := [AAdd (sec 1) [jM1; jK] false; AAdd (sec 2) [jD] false].
Definition later_adds : list sop := (first_adds ++ [AAdd (sec 3) [jM2; jE] false])%list.
Definition all_complete : list sop :=
  (first_adds ++ complete_next "M1" 3 ++ complete_next "K" 5 ++ complete_next "D" 7 ++ [AAdd (sec 8) [jE] false] ++ complete_next "E" 9)%list.

(** At all times a job in the queue waits for every queued job that is in one of
    the groups it depends on, no matter which of them was added first, and for no
    others but jobs it depends on by key; as long as it waits for something it
    is kept back as dependent.

    Missing from the full statement, because refuted below: jobs that are added
    again with other groups or dependencies, crashes while jobs are being stored,
    add requests with ignoreComplete that name a complete job and bring back
    another one. Missing also: add requests that concern running or buried jobs
    (they move running jobs, see [C28_add_moves_running_refuted]). *)
Theorem C46_waits_partial gr dp es s k st j :
  reachable (depending gr dp) es s → seen s k = Some (st, j) →
  (∀ k' st' j', seen s k' = Some (st', j') → group_dep j j' → k' ∈ waits_for s k) ∧
  (∀ k', k' ∈ waits_for s k → ∃ st' j', seen s k' = Some (st', j') ∧ (group_dep j j' ∨ DJob k' ∈ jdeps j)) ∧
  (waits_for s k ≠ ∅ → st = SDep).
Proof. intros Hr. destruct (wi_reach gr dp es s Hr) as [HG HW]. exact (waits_all gr dp s k st j HG HW). Qed.
Print Assumptions C46_waits_partial.
Definition waits_test (_ : list entry) (s : sstate) : bool :=
  bool_decide (st_of s "D" = Some SDep) && bool_decide (waits_for s "D" = {["M1"; "M2"; "K"]}) &&
  bool_decide (st_of s "E" = Some SDep) && bool_decide (waits_for s "E" = {["D"]}).
Example C46_waits_case : ∃ es s, reachable linked es s ∧ st_of s "D" = Some SDep ∧ waits_for s "D" = {["M1"; "M2"; "K"]} ∧
  st_of s "E" = Some SDep ∧ waits_for s "E" = {["D"]}.
Proof.
  destruct (d_reach linked linked_b later_adds waits_test linked_ok ltac:(by vm_compute)) as (es & s & Hh & Hf).
  unfold waits_test in Hf.
  apply andb_true_iff in Hf as [[[H1 H2]%andb_true_iff H3]%andb_true_iff H4].
  apply bool_decide_eq_true in H1, H2, H3, H4. by exists es, s.
Qed.

(** A job that is added waits for exactly the queued jobs in the groups it depends
    on and the queued jobs that it depends on by key. *)
Theorem C46_added_partial gr dp es s now js ignore s' r l k st j :
  reachable (depending gr dp) es s → depending gr dp s (AAdd now js ignore) →
  sstep s (AAdd now js ignore) = Some (s', r, l) → seen s k = None → seen s' k = Some (st, j) →
  ∀ k', k' ∈ waits_for s' k ↔ ∃ st' j', seen s' k' = Some (st', j') ∧ (group_dep j j' ∨ DJob k' ∈ jdeps j).
Proof.
  intros Hr. destruct (wi_reach gr dp es s Hr) as [HG HW]. exact (waits_added gr dp s now js ignore s' r l k st j HG HW).
Qed.
Print Assumptions C46_added_partial.
Definition added_test (_ : list entry) (s : sstate) : bool :=
  linked_b s (AAdd (sec 2) [jD] false) &&
  match sstep s (AAdd (sec 2) [jD] false) with
  | Some (s', _, _) => negb (bool_decide (is_Some (st_of s "D"))) && bool_decide (waits_for s' "D" = {["M1"; "K"]})
  | None => false
  end.
Example C46_added_case : ∃ es s s' r l, reachable linked es s ∧ linked s (AAdd (sec 2) [jD] false) ∧
  sstep s (AAdd (sec 2) [jD] false) = Some (s', r, l) ∧ seen s "D" = None ∧ waits_for s' "D" = {["M1"; "K"]}.
Proof.
  destruct (d_reach linked linked_b [AAdd (sec 1) [jM1; jK] false] added_test linked_ok ltac:(by vm_compute)) as (es & s & Hh & Hf).
  unfold added_test in Hf. apply andb_true_iff in Hf as [H0%linked_ok Hf].
  destruct (sstep s _) as [[[s' r] l]|] eqn:Hs; [|discriminate Hf].
  apply andb_true_iff in Hf as [H1%negb_true_iff%bool_decide_eq_false H2%bool_decide_eq_true].
  exists es, s, s', r, l. split_and!; try done. unfold st_of in H1. rewrite fmap_is_Some in H1. by apply eq_None_not_Some.
Qed.

(** Whatever happens, it goes on waiting for a job until that one has left the
    queue. *)
Theorem C46_kept_partial gr dp es s o s' r l k k' :
  reachable (depending gr dp) es s → depending gr dp s o → sstep s o = Some (s', r, l) →
  k' ∈ waits_for s k → is_Some (seen s' k) → is_Some (seen s' k') → k' ∈ waits_for s' k.
Proof.
  intros Hr. destruct (wi_reach gr dp es s Hr) as [HG HW]. exact (waits_kept gr dp s o s' r l k k' HG HW).
Qed.
Print Assumptions C46_kept_partial.
Definition kept_test (_ : list entry) (s : sstate) : bool :=
  linked_b s (ACrash CutNone (sec 9) (λ _, true)) &&
  match sstep s (ACrash CutNone (sec 9) (λ _, true)) with
  | Some (s', _, _) => bool_decide (waits_for s "D" = {["K"]}) && bool_decide (is_Some (st_of s' "D")) && bool_decide (is_Some (st_of s' "K"))
  | None => false
  end.
(** K runs while the server restarts *)
Example C46_kept_case : ∃ es s s' r l, reachable linked es s ∧ linked s (ACrash CutNone (sec 9) (λ _, true)) ∧
  sstep s (ACrash CutNone (sec 9) (λ _, true)) = Some (s', r, l) ∧ waits_for s "D" = {["K"]} ∧
  is_Some (seen s' "D") ∧ is_Some (seen s' "K").
Proof.
  destruct (d_reach linked linked_b (first_adds ++ complete_next "M1" 3 ++ [AReserve (sec 5) 1 "r" true 0; AStart (sec 5) 1 "K" true])%list
    kept_test linked_ok ltac:(by vm_compute)) as (es & s & Hh & Hf).
  unfold kept_test in Hf. apply andb_true_iff in Hf as [H0%linked_ok Hf].
  destruct (sstep s _) as [[[s' r] l]|] eqn:Hs; [|discriminate Hf].
  apply andb_true_iff in Hf as [[H1 H2]%andb_true_iff H3]. apply bool_decide_eq_true in H1, H2, H3.
  unfold st_of in *. rewrite fmap_is_Some in H2, H3. exists es, s, s', r, l. done.
Qed.

(** When a job is added to a group, the complete jobs that depend on the group are
    in the queue again and wait for it. *)
Theorem C46_restored_partial gr dp es s now js ignore s' r l j g k c :
  reachable (depending gr dp) es s → depending gr dp s (AAdd now js ignore) →
  sstep s (AAdd now js ignore) = Some (s', r, l) →
  j ∈ really_added (sdb s) js ignore → g ∈ jdepgroups j → g ≠ "" →
  complete (sdb s) !! k = Some c → DGroup g ∈ jdeps c →
  is_Some (seen s' k) ∧ jkey j ∈ waits_for s' k.
Proof.
  intros Hr. destruct (wi_reach gr dp es s Hr) as [HG HW]. exact (waits_restored gr dp s now js ignore s' r l j g k c HG HW).
Qed.
Print Assumptions C46_restored_partial.
(** Nothing else comes back: a job that an add request puts into the queue was
    asked for, or is complete and depends on the group of a job asked for, or on
    that of a job that comes back ([touched]). *)
Theorem C46_nothing_else_partial gr dp es s now js ignore s' r l k :
  reachable (depending gr dp) es s → depending gr dp s (AAdd now js ignore) →
  sstep s (AAdd now js ignore) = Some (s', r, l) → seen s k = None →
  is_Some (seen s' k) ↔ k ∈ jkey <$> really_added (sdb s) js ignore ∨
    touched (sdb s) (really_added (sdb s) js ignore) k ∧ is_Some (complete (sdb s) !! k).
Proof.
  intros Hr. destruct (wi_reach gr dp es s Hr) as [HG HW]. exact (seen_new gr dp s now js ignore s' r l k HG HW).
Qed.
Print Assumptions C46_nothing_else_partial.
Definition restored_test (_ : list entry) (s : sstate) : bool :=
  linked_b s (AAdd (sec 11) [jM2] true) &&
  match sstep s (AAdd (sec 11) [jM2] true), complete (sdb s) !! "D" with
  | Some (s', _, _), Some c => bool_decide (live (sdb s) !! "M2" = None ∧ complete (sdb s) !! "M2" = None) && deps_eqb (jdeps c) [DGroup "g"; DJob "K"] && negb (bool_decide (is_Some (st_of s "D"))) &&
      negb (bool_decide (is_Some (st_of s "E"))) && bool_decide (is_Some (st_of s' "E")) &&
      bool_decide (waits_for s' "D" = {["M2"]}) && bool_decide (waits_for s' "E" = {["D"]})
  | _, _ => false
  end.
(** E comes back as well *)
Example C46_restored_case : ∃ es s s' r l c, reachable linked es s ∧ linked s (AAdd (sec 11) [jM2] true) ∧
  sstep s (AAdd (sec 11) [jM2] true) = Some (s', r, l) ∧ jM2 ∈ really_added (sdb s) [jM2] true ∧
  complete (sdb s) !! "D" = Some c ∧ DGroup "g" ∈ jdeps c ∧ seen s "D" = None ∧ seen s "E" = None ∧
  is_Some (seen s' "E") ∧ waits_for s' "D" = {["M2"]} ∧ waits_for s' "E" = {["D"]}.
Proof.
  destruct (d_reach linked linked_b all_complete restored_test linked_ok ltac:(by vm_compute)) as (es & s & Hh & Hf).
  unfold restored_test in Hf. apply andb_true_iff in Hf as [H0%linked_ok Hf].
  destruct (sstep s _) as [[[s' r] l]|] eqn:Hs; [|discriminate Hf].
  destruct (complete (sdb s) !! "D") as [c|] eqn:Hc; [|discriminate Hf].
  apply andb_true_iff in Hf as [[[[[[Hm%bool_decide_eq_true H1%deps_eqb_ok]%andb_true_iff H2]%andb_true_iff H3]%andb_true_iff H4]%andb_true_iff H5]%andb_true_iff H6].
  apply negb_true_iff, bool_decide_eq_false in H2, H3. apply bool_decide_eq_true in H4, H5, H6.
  unfold st_of in *. rewrite fmap_is_Some in H2, H3, H4.
  exists es, s, s', r, l, c. split_and!; try done.
  - apply elem_of_list_filter. split; [exact Hm|by left].
  - rewrite H1. by left.
  - by apply eq_None_not_Some.
  - by apply eq_None_not_Some.
Qed.

(** *** What is missing *)
(** A job can be kept back as dependent although it waits for nothing: D failed and
    was buried, K was added again and D kicked while K was in the queue. D is not
    released when K completes, and then nothing is left that could release it. *)
Definition kicked : list sop :=
  (first_adds ++ complete_next "M1" 3 ++ complete_next "K" 5 ++
   [AReserve (sec 7) 1 "r" true 0; AStart (sec 7) 1 "D" true; ABury (sec 8) 1 "D" (ended 1 8);
    AAdd (sec 9) [jK] false; AKick ["D"]] ++ complete_next "K" 10)%list.
Definition kicked_test (_ : list entry) (s : sstate) : bool :=
  bool_decide (st_of s "D" = Some SDep) && bool_decide (waits_for s "D" = ∅) && bool_decide (elements (dom (items (sq s))) = ["D"]).
Theorem C46_kicked_refuted : ∃ es s j, reachable linked es s ∧ seen s "D" = Some (SDep, j) ∧ waits_for s "D" = ∅ ∧
  ∀ k, is_Some (seen s k) → k = "D".
Proof.
  destruct (d_reach linked linked_b kicked kicked_test linked_ok ltac:(by vm_compute)) as (es & s & Hh & Hf).
  unfold kicked_test in Hf.
  apply andb_true_iff in Hf as [[H1 H2]%andb_true_iff H3]. apply bool_decide_eq_true in H1, H2, H3.
  unfold st_of in H1. apply fmap_Some in H1 as ([st j] & H1 & ->). exists es, s, j. split_and!; try done.
  intros k Hk. unfold seen in Hk. destruct (items (sq s) !! k) as [x|] eqn:E; [|by destruct Hk].
  assert (Hin : k ∈ elements (dom (items (sq s)))) by (apply elem_of_elements, elem_of_dom; by eexists).
  rewrite H3 in Hin. by apply elem_of_list_singleton in Hin.
Qed.
Print Assumptions C46_kicked_refuted.

(** An add request with ignoreComplete that names a complete job (X) and brings
    back another one (B) puts X into the queue without recording it as incomplete:
    jobs added after that do not wait for it. *)
Definition jX : job := dep_job "X" ["x"] [].
Definition jB : job := dep_job "B" [] [DGroup "g"].
Definition jY : job := dep_job "Y" [] [DGroup "x"].
Definition six : list job := [jM1; jM2; jX; jB; jY].
Definition unplain (gr : key → list string) (dp : key → list dependency) (s : sstate) (o : sop) : Prop :=
  spares_busy s o ∧ steady gr dp o ∧ whole_adds o.
Definition unplain_b (s : sstate) (o : sop) : bool :=
  match o with
  | AAdd now js true => depending_b (members six) (needs six) s (AAdd now js false)
  | _ => depending_b (members six) (needs six) s o
  end && spares_b s o.
Lemma unplain_ok s o : unplain_b s o = true → unplain (members six) (needs six) s o.
Proof.
  intros [H1 H2%spares_b_ok]%andb_true_iff. split; [done|].
  destruct o as [now js ignore| | | | | | | | | | | | | | |]; try (by apply depending_b_ok in H1 as (_ & ? & _ & ?)).
  by destruct ignore; apply depending_b_ok in H1 as (_ & ? & _ & ?).
Qed.
Definition phantom : list sop :=
  ([AAdd (sec 1) [jX; jM1; jB] false] ++ complete_next "X" 2 ++ complete_next "M1" 4 ++ complete_next "B" 6 ++
   [AAdd (sec 8) [jX; jM2] true; AAdd (sec 9) [jY] false])%list.
Definition in_group_b (g : string) (s : sstate) (k k' : key) : bool :=
  match seen s k, seen s k' with
  | Some (_, j), Some (_, j') => deps_eqb (jdeps j) [DGroup g] && bool_decide (jdepgroups j' = [g]) && bool_decide (k' ∉ waits_for s k)
  | _, _ => false
  end.
Lemma in_group_ok g s k k' : g ≠ "" → in_group_b g s k k' = true →
  ∃ st j st' j', seen s k = Some (st, j) ∧ seen s k' = Some (st', j') ∧ group_dep j j' ∧ k' ∉ waits_for s k.
Proof.
  intros Hg. unfold in_group_b. destruct (seen s k) as [[st j]|]; [|done]. destruct (seen s k') as [[st' j']|]; [|done].
  intros [[H1%deps_eqb_ok H2%bool_decide_eq_true]%andb_true_iff H3%bool_decide_eq_true]%andb_true_iff.
  exists st, j, st', j'. split_and!; try done. exists g. rewrite H1, H2. split_and!; [done|by left|by left].
Qed.
Definition phantom_test (_ : list entry) (s : sstate) : bool := in_group_b "x" s "Y" "X".
Theorem C46_phantom_refuted : ∃ gr dp es s k st j k' st' j', reachable (unplain gr dp) es s ∧
  seen s k = Some (st, j) ∧ seen s k' = Some (st', j') ∧ group_dep j j' ∧ k' ∉ waits_for s k.
Proof.
  destruct (d_reach (unplain (members six) (needs six)) unplain_b phantom phantom_test unplain_ok ltac:(by vm_compute)) as (es & s & Hh & Hf).
  apply in_group_ok in Hf as (st & j & st' & j' & Hf); [|done].
  by exists (members six), (needs six), es, s, "Y", st, j, "X", st', j'.
Qed.
Print Assumptions C46_phantom_refuted.

(** If the server dies while it stores a job, the job may be recovered without its
    dependency groups being known. *)
Definition untimely (gr : key → list string) (dp : key → list dependency) (s : sstate) (o : sop) : Prop :=
  spares_busy s o ∧ steady gr dp o ∧ plain_restore s o.
Definition untimely_b (s : sstate) (o : sop) : bool :=
  match o with
  | ACrash (CutAdd js _ _ _ _) now _ => depending_b (members six) (needs six) s (AAdd now js false)
  | _ => depending_b (members six) (needs six) s o
  end.
Lemma untimely_ok s o : untimely_b s o = true → untimely (members six) (needs six) s o.
Proof.
  destruct o as [| | | | | | | | | | | | | | |c now gt]; try (by intros H; apply depending_b_ok in H as (? & ? & ? & ?)).
  by destruct c; intros H; apply depending_b_ok in H as (? & ? & ? & ?).
Qed.
Definition torn : list sop :=
  [ACrash (CutAdd [jX] false (λ _, true) (λ _, false) (λ _, false)) (sec 1) (λ _, true); AAdd (sec 2) [jY] false].
Definition torn_test (_ : list entry) (s : sstate) : bool := in_group_b "x" s "Y" "X".
Theorem C46_torn_refuted : ∃ gr dp es s k st j k' st' j', reachable (untimely gr dp) es s ∧
  seen s k = Some (st, j) ∧ seen s k' = Some (st', j') ∧ group_dep j j' ∧ k' ∉ waits_for s k.
Proof.
  destruct (d_reach (untimely (members six) (needs six)) untimely_b torn torn_test untimely_ok ltac:(by vm_compute)) as (es & s & Hh & Hf).
  apply in_group_ok in Hf as (st & j & st' & j' & Hf); [|done].
  by exists (members six), (needs six), es, s, "Y", st, j, "X", st', j'.
Qed.
Print Assumptions C46_torn_refuted.

(** A job that is added again with other dependency groups is still waited for by
    jobs that depend on its former ones only. *)
Definition changing (s : sstate) (o : sop) : Prop := spares_busy s o ∧ plain_restore s o ∧ whole_adds o.
Definition changing_b (s : sstate) (o : sop) : bool :=
  match o with
  | AAdd now js _ => spares_b s o && match o with AAdd _ _ true => false | _ => true end
  | ACrash _ _ _ => false
  | _ => true
  end.
Lemma changing_ok s o : changing_b s o = true → changing s o.
Proof.
  destruct o as [now js ignore| | | | | | | | | | | | | | |]; try done. destruct ignore; cbn [changing_b]; [by intros [_ ?]%andb_true_iff|].
  intros [H%spares_b_ok _]%andb_true_iff. done.
Qed.
Definition former : list sop :=
  ([AAdd (sec 1) [jX] false] ++ complete_next "X" 2 ++ [AAdd (sec 4) [dep_job "X" [] []] false; AAdd (sec 9) [jY] false])%list.
Definition former_test (_ : list entry) (s : sstate) : bool :=
  match seen s "Y", seen s "X" with
  | Some (_, j), Some (_, j') => deps_eqb (jdeps j) [DGroup "x"] && bool_decide (jdepgroups j' = []) && bool_decide ("X" ∈ waits_for s "Y")
  | _, _ => false
  end.
Theorem C46_former_refuted : ∃ es s k st j k' st' j', reachable changing es s ∧
  seen s k = Some (st, j) ∧ seen s k' = Some (st', j') ∧ k' ∈ waits_for s k ∧ ¬ group_dep j j' ∧ DJob k' ∉ jdeps j.
Proof.
  destruct (d_reach changing changing_b former former_test changing_ok ltac:(by vm_compute)) as (es & s & Hh & Hf).
  unfold former_test in Hf. destruct (seen s "Y") as [[st j]|] eqn:H1; [|done]. destruct (seen s "X") as [[st' j']|] eqn:H2; [|done].
  apply andb_true_iff in Hf as [[H3%deps_eqb_ok H4%bool_decide_eq_true]%andb_true_iff H5%bool_decide_eq_true].
  exists es, s, "Y", st, j, "X", st', j'. split_and!; try done.
  - intros (g & _ & _ & Hg). rewrite H4 in Hg. by apply elem_of_nil in Hg.
  - rewrite H3. by intros ?%elem_of_list_singleton.
Qed.
Print Assumptions C46_former_refuted.
