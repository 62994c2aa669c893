(** C55 and C56: what is learnt about the requirements of jobs, and what is made of it. *)
From Coq Require Import ZArith Lia String.
From stdpp Require Import base option strings gmap list.
From RecordUpdate Require Import RecordSet.
From Verif Require Import LearnModel LearnSpec LearnProofs.
Import RecordSetNotations.
Open Scope Z_scope.

(** * C55 *)
(** Whatever was stored: the recommendation for a group is made from the different values
    of that group. It is 0 if there is none but 0; the maximum if there are at most five;
    and otherwise the value with a twentieth of the values above it, or the maximum if
    that is close to it (or the value is 0); rounded up. *)
Theorem C55_recommended_partial log g round vs : 0 < round → usual log → alone log g → values_of log g vs →
  let n := recommended (stored log) g round in
  (default 0 (last vs) = 0 → n = 0) ∧
  ∀ m, last vs = Some m → 0 < m →
    if decide (length vs ≤ 5)%nat then rounded_up round m n else
    ∃ lo p hi, vs = lo ++ p :: hi ∧ twentieth (Z.of_nat (length hi)) (Z.of_nat (length vs)) ∧
      rounded_up round (if decide (p = 0 ∨ m - p < round) then m else p) n.
Proof. exact (recommended_spec log g round vs). Qed.
Print Assumptions C55_recommended_partial.

(** What is missing for "the 95th percentile of what the jobs of the group used".
    With six different values the smallest is recommended: too few for a percentile is
    not five or less, but less than a hundred. *)
Definition six : list (string * Z) := (λ v, ("g"%string, v)) <$> [100; 5000; 6000; 7000; 8000; 9000].
Theorem C55_few_values_refuted : ∃ log g n, usual log ∧ alone log g ∧ recommended (stored log) g 100 = n ∧
  length log = 6%nat ∧ length (filter (λ gv : string * Z, n < gv.2) log) = 5%nat.
Proof.
  exists six, "g"%string, 100. split_and!; [| |by vm_compute..].
  - intros g v H. unfold six in H. repeat (apply elem_of_cons in H as [H|H]; [injection H as -> ->; lia|]). by apply elem_of_nil in H.
  - intros g v text rest H _. unfold six in H. repeat (apply elem_of_cons in H as [H|H]; [by injection H as -> ->|]). by apply elem_of_nil in H.
Qed.
Print Assumptions C55_few_values_refuted.
(** A value is stored once, however many jobs used as much: here all but five of a thousand
    jobs used 9000 MB, and 100 MB are recommended. *)
Definition thousand : list (string * Z) := ((λ v, ("g"%string, v)) <$> [100; 5000; 6000; 7000; 8000]) ++ repeat ("g"%string, 9000) 995.
Theorem C55_repeated_values_refuted : ∃ log g n, usual log ∧ alone log g ∧ recommended (stored log) g 100 = n ∧
  length log = 1000%nat ∧ length (filter (λ gv : string * Z, n < gv.2) log) = 999%nat.
Proof.
  assert (∀ g v, (g, v) ∈ thousand → g = "g"%string ∧ 0 ≤ v < 2 ^ 63) as Hin.
  { intros g v [H|H]%elem_of_app.
    - repeat (apply elem_of_cons in H as [H|H]; [injection H as -> ->; split; [done|lia]|]). by apply elem_of_nil in H.
    - apply elem_of_list_In, repeat_spec in H. injection H as -> ->. split; [done|lia]. }
  exists thousand, "g"%string, 100. split_and!; [| |by vm_compute..].
  - intros g v H. by destruct (Hin g v H).
  - intros g v text rest H _. by apply Hin in H as [-> _].
Qed.
Print Assumptions C55_repeated_values_refuted.
(** The values of every group whose name begins with the name are taken as well, and the
    last one met for the maximum: a job of group ab that used 1 MB takes away what was
    known of group a. *)
Theorem C55_other_group_refuted : ∃ log, usual log ∧
  recommended (stored log) "a" 100 = 5000 ∧ recommended (stored (log ++ [("ab"%string, 1)])) "a" 100 = 100.
Proof.
  exists [("a"%string, 5000)]. split_and!; [|by vm_compute..].
  intros g v H. apply elem_of_cons in H as [H|H]; [injection H as -> ->; lia|by apply elem_of_nil in H].
Qed.
Print Assumptions C55_other_group_refuted.

(** 141 different values of group g: seven are above the one recommended. *)
Definition many : list (string * Z) := ((λ i, ("g"%string, 1000 - 7 * Z.of_nat i)) <$> seq 0 140) ++ [("h"%string, 77); ("g"%string, 20); ("g"%string, 300)].
Definition many_values : list Z := (λ i, 20 + 7 * Z.of_nat i) <$> seq 0 141.
Example C55_case : usual many ∧ alone many "g" ∧ values_of many "g" many_values ∧ recommended (stored many) "g" 5 = 955 ∧
  recommended (stored six) "g" 9000 = 9000 ∧ recommended (stored (take 4 six)) "g" 100 = 7000 ∧ recommended (stored six) "h" 100 = 0.
Proof.
  assert (∀ g v, (g, v) ∈ many ↔ (g = "g"%string ∧ ∃ i, (i < 141)%nat ∧ v = 20 + 7 * Z.of_nat i) ∨ (g = "h"%string ∧ v = 77)) as Hin.
  { intros g v. unfold many. rewrite elem_of_app, elem_of_list_fmap, !elem_of_cons, elem_of_nil. split.
    - intros [(i & [= -> ->] & H%elem_of_seq)|[[= -> ->]|[[= -> ->]|[[= -> ->]|[]]]]].
      + left. split; [done|]. exists (140 - i)%nat. lia.
      + by right.
      + left. split; [done|]. exists 0%nat. lia.
      + left. split; [done|]. exists 40%nat. lia.
    - intros [[-> (i & Hi & ->)]|[-> ->]]; [|by right; left]. destruct (decide (i = 0%nat)) as [->|Hn]; [by right; right; left|].
      left. exists (140 - i)%nat. split; [f_equal; lia|]. apply elem_of_seq. lia. }
  split_and!; [| | |by vm_compute..].
  - intros g v [[-> (i & Hi & ->)]|[-> ->]]%Hin; lia.
  - intros g v text rest [[-> _]|[-> _]]%Hin E; [done|]. discriminate E.
  - split.
    + intros i j x y Hij Hi Hj. unfold many_values in Hi, Hj. apply list_lookup_fmap_Some in Hi as (a & Hi & ->). apply lookup_seq in Hi as [-> _].
      apply list_lookup_fmap_Some in Hj as (b & Hj & ->). apply lookup_seq in Hj as [-> _]. lia.
    + intros v. rewrite Hin. unfold many_values. rewrite elem_of_list_fmap. split.
      * intros (i & -> & H%elem_of_seq). left. split; [done|]. exists i. lia.
      * intros [[_ (i & Hi & ->)]|[? _]]; [|done]. exists i. split; [done|]. apply elem_of_seq. lia.
Qed.

(** * C56 *)
(** Override 2: what the user gave is never changed, whatever is recommended and however
    often the job fails. *)
Theorem C56_always_partial es n j : learn_run es (fresh n 2) = Some j →
  (0 < nram n → nram (lneed j) = nram n) ∧ (0 < ndisk n ∨ ndiskset n = true → ndisk (lneed j) = ndisk n) ∧
  (0 < ntime n → ntime (lneed j) = ntime n).
Proof. exact (always_kept es n j). Qed.
Print Assumptions C56_always_partial.
(** Override 1: it never goes below what the user gave. *)
Theorem C56_higher_partial es n j : learn_run es (fresh n 1) = Some j → 0 ≤ nram n → 0 ≤ ndisk n → 0 ≤ ntime n →
  nram n ≤ nram (lneed j) ∧ ndisk n ≤ ndisk (lneed j) ∧ ntime n ≤ ntime (lneed j).
Proof. exact (higher_kept es n j). Qed.
Print Assumptions C56_higher_partial.
(** Override 0 or 1, or what the user did not give: after a pass at least what was
    recommended; with 0, and nothing failed, exactly that. With nothing recommended and
    nothing failed it stays. *)
Theorem C56_recommended_partial es n over j r j' : learn_run es (fresh n over) = Some j → learn_run [LPass (Some r)] j = Some j' →
  (0 < nram r → over = 0 ∨ over = 1 ∨ nram n ≤ 0 → nram r ≤ nram (lneed j')) ∧
  (0 < ndisk r → over = 0 ∨ over = 1 ∨ (ndisk n ≤ 0 ∧ ndiskset n = false) → ndisk r ≤ ndisk (lneed j')) ∧
  (0 < ntime r → over = 0 ∨ over = 1 ∨ ntime n ≤ 0 → ntime r ≤ ntime (lneed j')) ∧
  (lfail j = FOther → over = 0 →
    (0 < nram r → nram (lneed j') = nram r) ∧ (0 < ndisk r → ndisk (lneed j') = ndisk r) ∧ (0 < ntime r → ntime (lneed j') = ntime r)) ∧
  (lfail j = FOther →
    (nram r ≤ 0 → nram (lneed j') = nram (lneed j)) ∧ (ndisk r ≤ 0 → ndisk (lneed j') = ndisk (lneed j)) ∧ (ntime r ≤ 0 → ntime (lneed j') = ntime (lneed j))).
Proof.
  intros H1 H2. cbn [learn_run levent_step] in H2. destruct (learn (Some r) j) as [j1|] eqn:E; [|done]. injection H2 as ->.
  destruct (run_fields _ _ _ H1) as [Ho Hr]. cbn in Ho. change (orig (fresh n over)) with n in Hr.
  destruct (learn_pass r j j' E) as (-> & -> & ->). unfold new_ram, new_disk, new_time. rewrite Hr, Ho. cbv zeta. split_and!.
  - intros Hp Hc. pose proof (choose_ge over (nram r) (bool_decide (0 < nram n)) (nram (lneed j))) as G.
    assert (over = 0 ∨ over = 1 ∨ bool_decide (0 < nram n) = false) as Hc'. { destruct Hc as [?|[?|?]]; [by left|by right; left|]. right; right. apply bool_decide_false. lia. }
    specialize (G Hc' Hp). destruct (bool_decide (over = 2)); [done|]. destruct (lfail j); [|done..]. etrans; [exact G|]. apply raise_ge.
  - intros Hp Hc. pose proof (choose_ge over (ndisk r) (bool_decide (0 < ndisk n) || ndiskset n) (ndisk (lneed j))) as G.
    assert (over = 0 ∨ over = 1 ∨ bool_decide (0 < ndisk n) || ndiskset n = false) as Hc'.
    { destruct Hc as [?|[?|[? Hs]]]; [by left|by right; left|]. right; right. rewrite Hs, orb_false_r. apply bool_decide_false. lia. }
    specialize (G Hc' Hp). destruct (bool_decide (over = 2)); [done|]. destruct (lfail j); [done| |done..]. etrans; [exact G|]. apply raise_ge.
  - intros Hp Hc. pose proof (choose_ge over (ntime r) (bool_decide (0 < ntime n)) (ntime (lneed j))) as G.
    assert (over = 0 ∨ over = 1 ∨ bool_decide (0 < ntime n) = false) as Hc'. { destruct Hc as [?|[?|?]]; [by left|by right; left|]. right; right. apply bool_decide_false. lia. }
    specialize (G Hc' Hp). destruct (bool_decide (over = 2)); [done|]. destruct (lfail j); [done..| |done]. etrans; [exact G|]. apply raise_ge.
  - intros Hf ->. rewrite Hf. rewrite (bool_decide_false (0 = 2)) by done. unfold choose. split_and!; intros Hp; rewrite (bool_decide_true (0 < _)) by done.
    + by destruct (bool_decide (0 < nram n)).
    + by destruct (bool_decide (0 < ndisk n) || ndiskset n).
    + by destruct (bool_decide (0 < ntime n)).
  - intros Hf. rewrite Hf. unfold choose. split_and!; intros Hp; rewrite (bool_decide_false (0 < _)) by lia; by destruct (bool_decide (over = 2)).
Qed.
Print Assumptions C56_recommended_partial.
(** Override other than 2: a job that failed for lack of memory, disk or time is tried
    again with more than it used: 1000 MB and twice as much memory, or 30% if that is
    over 8192 MB; 30% more disk (in GB); an hour more. *)
Theorem C56_failed_gets_more_partial es n over j f m d t r j' : over ≠ 2 →
  learn_run es (fresh n over) = Some j → learn_run [LRun f m d t; LPass (Some r)] j = Some j' →
  match f with
  | FRam => m + 1000 ≤ nram (lneed j') ∧ (if decide (m ≤ 8192) then 2 * m ≤ nram (lneed j') else 13 * m ≤ 10 * nram (lneed j'))
  | FDisk => 13 * d ≤ 10 * (1024 * ndisk (lneed j'))
  | FTime => t + 3600 * 10 ^ 9 ≤ ntime (lneed j')
  | FOther => True
  end.
Proof.
  intros Hn H1 H2. cbn [learn_run levent_step] in H2. destruct (learn _ _) as [j1|] eqn:E; [|done]. injection H2 as ->.
  destruct (run_fields _ _ _ H1) as [Ho _]. cbn in Ho.
  destruct (learn_pass _ _ _ E) as (-> & -> & ->). unfold new_ram, new_disk, new_time. destruct j as [? ? ? ? ? ? ?]. cbn in *.
  rewrite (bool_decide_false _) by congruence. destruct f; [| | |done].
  - set (c := choose _ _ _ _). destruct (raise_ge (more_ram m) c) as (_ & G & _). destruct (more_ram_enough m) as (G1 & G2 & G4).
    split; [lia|]. clear E H1. destruct (decide (m ≤ 8192)) as [Hd|Hd]; [specialize (G2 Hd); lia|]. specialize (G4 ltac:(lia)). lia.
  - set (c := choose _ _ _ _). destruct (raise_ge (more_disk d) c) as (_ & G & _). pose proof (more_disk_enough d). lia.
  - set (c := choose _ _ _ _). destruct (raise_ge (more_time t) c) as (_ & G & _). unfold more_time, hour, second in *. lia.
Qed.
Print Assumptions C56_failed_gets_more_partial.
(** And memory not much more than that. *)
Theorem C56_not_too_much_partial es n over j m d t r j' :
  learn_run es (fresh n over) = Some j → learn_run [LRun FRam m d t; LPass (Some r)] j = Some j' → 0 ≤ m →
  nram (lneed j') ≤ Z.max (Z.max (nram r) (nram (lneed j))) (Z.max (m + 1000) (2 * m) + 100).
Proof.
  intros H1 H2 Hm. cbn [learn_run levent_step] in H2. destruct (learn _ _) as [j1|] eqn:E; [|done]. injection H2 as ->.
  destruct (learn_pass _ _ _ E) as (-> & _ & _). unfold new_ram. destruct j as [? ? ? ? ? ? ?]. cbn in *. set (c := choose _ _ _ _).
  assert (c ≤ Z.max (nram r) (nram lneed)) as Hc.
  { destruct (choose_one lover (nram r) (bool_decide (0 < nram (default lneed lorig))) (nram lneed)) as [E1|E1]; fold c in E1; lia. }
  clear E H1. clearbody c.
  destruct (bool_decide (lover = 2)); [lia|]. pose proof (more_ram_bound m Hm) as Hb.
  assert (more_ram m ≤ Z.max (m + 1000) (2 * m) + 100).
  { destruct (decide (m ≤ 8192)); [lia|]. pose proof (Z.div_mod (13 * m) 10 ltac:(lia)). pose proof (Z.mod_pos_bound (13 * m) 10 ltac:(lia)). lia. }
  destruct (raise_ge (more_ram m) c) as (_ & _ & [-> | ->]); lia.
Qed.
Print Assumptions C56_not_too_much_partial.

(** What is missing. With override 1, what was recommended once is kept, though it is
    neither the user's value nor recommended any longer. *)
Theorem C56_old_recommendation_refuted : ∃ es n j, learn_run es (fresh n 1) = Some j ∧
  es = [LPass (Some (Need 5000 0 true 0)); LPass (Some (Need 3000 0 true 0))] ∧ nram n = 1000 ∧ nram (lneed j) = 5000.
Proof.
  exists [LPass (Some (Need 5000 0 true 0)); LPass (Some (Need 3000 0 true 0))], (Need 1000 0 false 0).
  eexists. split; [vm_compute; reflexivity|]. by vm_compute.
Qed.
Print Assumptions C56_old_recommendation_refuted.
(** The new disk space is rounded up to a multiple of 100 GB, not MB: 1 GB of disk used
    makes 100 GB. *)
Theorem C56_disk_refuted : ∃ es n j, learn_run es (fresh n 0) = Some j ∧
  es = [LRun FDisk 0 1024 0; LPass (Some (Need 0 0 true 0))] ∧ ndisk n = 1 ∧ ndisk (lneed j) = 100.
Proof.
  exists [LRun FDisk 0 1024 0; LPass (Some (Need 0 0 true 0))], (Need 0 1 false 0). eexists. split; [vm_compute; reflexivity|]. by vm_compute.
Qed.
Print Assumptions C56_disk_refuted.
(** If the database cannot be read, a job that failed for lack of memory makes the manager
    exit. *)
Theorem C56_database_error_refuted : ∃ es, learn_run es (fresh (Need 0 0 false 0) 0) = None ∧ es = [LRun FRam 10 0 0; LPass None].
Proof. exists [LRun FRam 10 0 0; LPass None]. by vm_compute. Qed.
Print Assumptions C56_database_error_refuted.

(** A job with 1000 MB given and an hour, that needs 1500 MB. *)
Example C56_case : ∃ j j', learn_run [LPass (Some (Need 0 0 true 0)); LRun FRam 1500 20 (10 * second)] (fresh (Need 1000 0 false hour) 0) = Some j ∧
  lneed j = Need 1000 0 false hour ∧ learn_run [LPass (Some (Need 1500 1 true (20 * second)))] j = Some j' ∧
  lneed j' = Need 3000 1 false (20 * second) ∧
  ∃ k, learn_run [LPass (Some (Need 1500 1 true (20 * second))); LRun FRam 900 0 0; LPass (Some (Need 1500 1 true (20 * second)))] (fresh (Need 1000 0 false hour) 2) = Some k ∧
  lneed k = Need 1000 1 false hour.
Proof.
  do 2 eexists. split; [vm_compute; reflexivity|]. split; [by vm_compute|]. split; [vm_compute; reflexivity|]. split; [by vm_compute|].
  eexists. split; [vm_compute; reflexivity|]. by vm_compute.
Qed.
