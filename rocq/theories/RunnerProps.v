(** C90-C92: the runner's loop *)
From Coq Require Import ZArith Lia String Ascii.
From stdpp Require Import base option strings gmap list.
From Verif Require Import UtilModel UtilSpec UtilProofs RunnerModel RunnerSpec RunnerProofs RunnerProofs2.
Open Scope Z_scope.

(** A runner that ends at 100, and its jobs *)
Definition rc : rcfg := RCfg 100 "/opt/wr" ["PATH=/sbin"; "HOME=/h"] (λ m, (map_to_list m).*2).
Definition je (path : string) : jobenv := JobEnv (Some [("PATH=" ++ path)%string; "A=1"]) true [].
Definition r1 : rjob := RJob "k1" 10 (je "/bin").
Definition r2 : rjob := RJob "k2" 10 (je "/usr/bin:/opt/wr").
Definition r3 : rjob := RJob "k3" 60 (je "/opt/wr2").
Definition r4 : rjob := RJob "k4" 10 (JobEnv (Some ["PATH"]) true []).
Definition tn (now : Z) (j : rjob) : turn := Turn now (ResJob j) now false false now XOk.
Lemma rc_order : some_order (c_order rc).
Proof. by intros m. Qed.
Lemma nodup_names l : bool_decide (NoDup (env_name <$> l)) = true → uniquely_named l.
Proof. intros H. apply bool_decide_eq_true in H. by apply UtilProofs2.uniquely_named_iff. Qed.
Lemma r_ok j : j ∈ [r1; r2; r3] → env_ok rc j.
Proof.
  intros Hj. repeat (apply elem_of_cons in Hj as [->|Hj]; [split_and!; [by apply nodup_names; vm_compute..|done]|]). by apply elem_of_nil in Hj.
Qed.

(** ** C90: no job is started that the runner's time does not suffice for *)
(** when the turn begins, there is the time the job needs *)
Theorem C90_time_left c server domain ts t evs start env j :
  (t, evs) ∈ runner c (start_state server domain) ts → executed evs start env j → t_top t ≤ t_check t →
  t_top t + rj_time j ≤ c_end c.
Proof. exact (in_time c server domain ts t evs start env j). Qed.
Print Assumptions C90_time_left.
(** and if the requirement is another than that of the job before (or not 0, for the first), there still is once the job is reserved *)
Theorem C90_checked_again c server domain ts a t evs b start env j :
  runner c (start_state server domain) ts = a ++ (t, evs) :: b → executed evs start env j →
  match last a with
  | None => rj_time j ≠ 0
  | Some (t1, evs1) => ∃ s1 e1 j1, executed evs1 s1 e1 j1 ∧ rj_time j ≠ rj_time j1
  end → t_check t + rj_time j ≤ c_end c.
Proof.
  destruct (last a) as [[t1 evs1]|] eqn:E.
  - apply last_Some in E as [a' ->]. intros Hr He (s1 & e1 & j1 & He1 & Hne). rewrite <- (assoc_L (++)) in Hr.
    exact (in_time_next _ _ _ _ _ _ _ _ _ _ _ _ _ _ _ _ Hr He1 He Hne).
  - apply last_None in E as ->. intros Hr He. exact (in_time_first _ _ _ _ _ _ _ _ _ _ Hr He).
Qed.
Print Assumptions C90_checked_again.
Example C90_case :
  (λ r, (r.2 : list rdone)) <$> runner rc (start_state "" "d") [tn 0 r1; tn 30 r2; tn 35 r3; tn 96 r1] =
  [[EReserve r1; EExec 0 ["PATH=/bin"; "A=1"] r1]; [EReserve r2; EExec 30 ["PATH=/usr/bin:/opt/wr"; "A=1"] r2];
   [EReserve r3; EExec 35 ["PATH=/opt/wr2"; "A=1"] r3]; []] ∧
  (λ r, (r.2 : list rdone)) <$> runner rc (start_state "" "d") [tn 0 r1; tn 45 r3] =
  [[EReserve r1; EExec 0 ["PATH=/bin"; "A=1"] r1]; [EReserve r3; ERelease r3]].
Proof. by vm_compute. Qed.
(** The time a reservation takes is not looked at for a job like the one before: it can be started too late. *)
Theorem C90_started_late_refuted : ∃ c ts t evs start env j,
  clock_from 0 ts ∧ (t, evs) ∈ runner c (start_state "" "d") ts ∧ executed evs start env j ∧ c_end c < start + rj_time j.
Proof.
  set (late := Turn 90 (ResJob r1) 95 false false 95 XOk).
  exists rc, [tn 0 r1; late], late, [EReserve r1; EExec 95 ["PATH=/bin"; "A=1"] r1], 95, ["PATH=/bin"; "A=1"], r1.
  split; [cbn; lia|]. split; [|split; [right; left|by vm_compute]].
  assert (HE : runner rc (start_state "" "d") [tn 0 r1; late] =
    [(tn 0 r1, [EReserve r1; EExec 0 ["PATH=/bin"; "A=1"] r1]); (late, [EReserve r1; EExec 95 ["PATH=/bin"; "A=1"] r1])]) by (by vm_compute).
  rewrite HE. right. left.
Qed.
Print Assumptions C90_started_late_refuted.

(** ** C91: the environment a job runs with *)
(** but for PATH and the manager's variables, it is the job's own *)
Theorem C91_other_variables c server domain ts t evs start env j n e :
  some_order (c_order c) → (t, evs) ∈ runner c (start_state server domain) ts → executed evs start env j → env_ok c j →
  named n e → n ≠ "PATH" → n ∉ ["WR_MANAGERHOST"; "WR_MANAGERPORT"; "WR_MANAGERCERTDOMAIN"] → e ∈ env ↔ e ∈ own_env c j.
Proof. exact (other_vars c server domain ts t evs start env j n e). Qed.
Print Assumptions C91_other_variables.
(** those point to the manager the runner has its jobs from *)
Theorem C91_manager c h p domain ts t evs start env j :
  some_order (c_order c) → ":"%char ∉ chars h → ":"%char ∉ chars p →
  (t, evs) ∈ runner c (start_state (h ++ ":" ++ p)%string domain) ts → executed evs start env j → env_ok c j →
  ∀ e, (∃ n, n ∈ ["WR_MANAGERHOST"; "WR_MANAGERPORT"; "WR_MANAGERCERTDOMAIN"] ∧ named n e) →
    e ∈ env ↔ e = ("WR_MANAGERHOST=" ++ h)%string ∨ e = ("WR_MANAGERPORT=" ++ p)%string ∨ e = ("WR_MANAGERCERTDOMAIN=" ++ domain)%string.
Proof. exact (wr_vars_set c h p domain ts t evs start env j). Qed.
Print Assumptions C91_manager.
(** a PATH in which the runner's directory does not occur gets it at the end, and stays otherwise as it is *)
Theorem C91_path_added c server domain ts t evs start env j v :
  some_order (c_order c) → server ≠ "" → (t, evs) ∈ runner c (start_state server domain) ts → executed evs start env j → env_ok c j →
  ("PATH=" ++ v)%string ∈ own_env c j → ¬ occurs (c_exe c) v →
  ∀ e, named "PATH" e → e ∈ env ↔ e = ("PATH=" ++ v ++ ":" ++ c_exe c)%string.
Proof. exact (path_added c server domain ts t evs start env j v). Qed.
Print Assumptions C91_path_added.
(** PATH is the job's own if the runner's directory occurs in it and in that of all jobs the runner had before *)
Theorem C91_path_kept_partial c server domain ts a t evs b start env j :
  some_order (c_order c) → runner c (start_state server domain) ts = a ++ (t, evs) :: b → executed evs start env j → env_ok c j →
  no_path_lacks c (a ++ [(t, evs)]) → ∀ e, named "PATH" e → e ∈ env ↔ e ∈ own_env c j.
Proof. exact (path_kept c server domain ts a t evs b start env j). Qed.
Print Assumptions C91_path_kept_partial.
(** a runner that was given no server changes nothing *)
Theorem C91_no_server c domain ts t evs start env j :
  (t, evs) ∈ runner c (start_state "" domain) ts → executed evs start env j → env = own_env c j.
Proof. exact (no_server c domain ts t evs start env j). Qed.
Print Assumptions C91_no_server.
Definition mgr : list string := ["WR_MANAGERHOST=h"; "WR_MANAGERPORT=1"; "WR_MANAGERCERTDOMAIN=d"].
Definition envs (tr : list (turn * list rdone)) : list (list string) :=
  omap (λ e, match e with EExec _ env _ => Some env | _ => None end) (all_evs tr).
(** the first lacks the directory, the second alone has it *)
Example C91_case :
  (∀ j, j ∈ [r1; r2; r3] → env_ok rc j) ∧ some_order (c_order rc) ∧
  (λ l, take 2 l) <$> envs (runner rc (start_state "h:1" "d") [tn 0 r1]) = [["PATH=/bin:/opt/wr"; "A=1"]] ∧
  (λ l, take 2 l) <$> envs (runner rc (start_state "h:1" "d") [tn 0 r2]) = [["PATH=/usr/bin:/opt/wr"; "A=1"]] ∧
  "WR_MANAGERPORT=1" ∈ concat (envs (runner rc (start_state "h:1" "d") [tn 0 r2])) ∧
  no_path_lacks rc (runner rc (start_state "h:1" "d") [tn 0 r2]) ∧ ¬ occurs "/opt/wr" "/bin".
Proof.
  split; [exact r_ok|]. split; [exact rc_order|]. split; [by vm_compute|]. split; [by vm_compute|].
  split; [apply (bool_decide_unpack _); by vm_compute|]. split; [|rewrite <- has_spec; by vm_compute].
  intros t evs j v Hin Hj Hv. cbn [runner] in Hin. apply elem_of_cons in Hin as [Hin|Hin].
  - apply pair_equal_spec in Hin as [-> ->].
    assert (j = r2) as ->.
    { assert (Hs : omap (λ e, match e with EReserve k => Some k | _ => None end) (snd (runner_turn rc (start_state "h:1" "d") (tn 0 r2))) = [r2]) by (by vm_compute).
      apply elem_of_list_singleton. rewrite <- Hs. apply elem_of_list_omap. by exists (EReserve j). }
    assert (Hown : own_env rc r2 = ["PATH=/usr/bin:/opt/wr"; "A=1"]) by (by vm_compute). rewrite Hown in Hv.
    apply elem_of_cons in Hv as [Hv|Hv]; [|by apply elem_of_list_singleton in Hv]. injection Hv as ->.
    split; [intros H; apply (bool_decide_unpack (~ "="%char ∈ chars "/usr/bin:/opt/wr")); [by vm_compute|done]|].
    by exists "/usr/bin:", "".
  - destruct (fst (runner_turn rc (start_state "h:1" "d") (tn 0 r2))); by apply elem_of_nil in Hin.
Qed.
(** A job whose PATH has the directory gets the PATH of an earlier job of the runner that lacked it. *)
Theorem C91_path_kept_refuted : ∃ c ts t evs start env j v w,
  some_order (c_order c) ∧ (t, evs) ∈ runner c (start_state "h:1" "d") ts ∧ executed evs start env j ∧ env_ok c j ∧
  ("PATH=" ++ v)%string ∈ own_env c j ∧ on_path (c_exe c) v ∧ ("PATH=" ++ w)%string ∈ env ∧ w ≠ v ∧ "/usr/bin" ∈ split ":" v ∧ "/usr/bin" ∉ split ":" w.
Proof.
  set (env := match envs (runner rc (start_state "h:1" "d") [tn 0 r1; tn 20 r2]) with [_; e] => e | _ => [] end).
  exists rc, [tn 0 r1; tn 20 r2], (tn 20 r2), [EReserve r2; EExec 20 env r2], 20, env, r2, "/usr/bin:/opt/wr", "/bin:/opt/wr".
  split; [exact rc_order|]. split.
  { set (env1 := match envs (runner rc (start_state "h:1" "d") [tn 0 r1; tn 20 r2]) with [e; _] => e | _ => [] end).
    assert (HE : runner rc (start_state "h:1" "d") [tn 0 r1; tn 20 r2] =
      [(tn 0 r1, [EReserve r1; EExec 0 env1 r1]); (tn 20 r2, [EReserve r2; EExec 20 env r2])]) by (by vm_compute).
    rewrite HE. right. left. }
  split; [right; left|]. split; [apply r_ok; by right; left|].
  split; [apply (bool_decide_unpack _); by vm_compute|]. split; [unfold on_path; apply (bool_decide_unpack _); by vm_compute|].
  split; [apply (bool_decide_unpack _); by vm_compute|]. split; [done|].
  split; apply (bool_decide_unpack _); by vm_compute.
Qed.
Print Assumptions C91_path_kept_refuted.
(** A directory whose name begins like the runner's counts as the runner's: it is then not on the PATH the job runs with. *)
Theorem C91_on_path_refuted : ∃ c ts t evs start env j v,
  some_order (c_order c) ∧ (t, evs) ∈ runner c (start_state "h:1" "d") ts ∧ executed evs start env j ∧ env_ok c j ∧
  ("PATH=" ++ v)%string ∈ env ∧ ¬ on_path (c_exe c) v.
Proof.
  set (env := match envs (runner rc (start_state "h:1" "d") [tn 0 r3]) with [e] => e | _ => [] end).
  exists rc, [tn 0 r3], (tn 0 r3), [EReserve r3; EExec 0 env r3], 0, env, r3, "/opt/wr2".
  split; [exact rc_order|]. split.
  { assert (HE : runner rc (start_state "h:1" "d") [tn 0 r3] = [(tn 0 r3, [EReserve r3; EExec 0 env r3])]) by (by vm_compute).
    rewrite HE. left. }
  split; [right; left|]. split; [apply r_ok; by right; right; left|].
  split; unfold on_path; apply (bool_decide_unpack _); by vm_compute.
Qed.
Print Assumptions C91_on_path_refuted.

(** ** C92: a job reserved is executed or released before the next, and nothing is done after a release *)
Theorem C92_reserved_is_done c server domain ts i j : paths_set c ts →
  let l := all_evs (runner c (start_state server domain) ts) in
  l !! i = Some (EReserve j) → l !! S i = Some (ERelease j) ∨ ∃ s e, l !! S i = Some (EExec s e j).
Proof. intros Hp l. exact (shape_reserve l i j (runner_shape c _ ts Hp)). Qed.
Print Assumptions C92_reserved_is_done.
Theorem C92_done_was_reserved c server domain ts i j : paths_set c ts →
  let l := all_evs (runner c (start_state server domain) ts) in
  (l !! i = Some (ERelease j) ∨ ∃ s e, l !! i = Some (EExec s e j)) → ∃ k, i = S k ∧ l !! k = Some (EReserve j).
Proof. intros Hp l. exact (shape_done l i j (runner_shape c _ ts Hp)). Qed.
Print Assumptions C92_done_was_reserved.
Theorem C92_release_is_last c server domain ts i j : paths_set c ts →
  let l := all_evs (runner c (start_state server domain) ts) in
  l !! i = Some (ERelease j) → length l = S i.
Proof. intros Hp l. exact (shape_last l i j (runner_shape c _ ts Hp)). Qed.
Print Assumptions C92_release_is_last.
Example C92_case :
  paths_set rc [tn 0 r1; tn 45 r3] ∧
  (λ e, match e with EReserve j => ("reserve", rj_key j) | ERelease j => ("release", rj_key j) | EExec _ _ j => ("execute", rj_key j) end)
    <$> all_evs (runner rc (start_state "h:1" "d") [tn 0 r1; tn 45 r3]) =
  [("reserve", "k1"); ("execute", "k1"); ("reserve", "k3"); ("release", "k3")].
Proof.
  split; [|by vm_compute]. intros t j Ht Hj.
  apply elem_of_cons in Ht as [->|Ht]; [|apply elem_of_list_singleton in Ht as ->]; injection Hj as <-; apply (bool_decide_unpack _); by vm_compute.
Qed.
(** Without the condition it fails: an entry "PATH" without a value ends the runner, with the job reserved. *)
Theorem C92_reserved_is_done_refuted : ∃ c server domain ts i j,
  let l := all_evs (runner c (start_state server domain) ts) in l !! i = Some (EReserve j) ∧ l !! S i = None.
Proof. exists rc, "h:1", "d", [tn 0 r4], 0%nat, r4. by vm_compute. Qed.
Print Assumptions C92_reserved_is_done_refuted.
