(** The limiter properties (C18-C22, C47). *)
From Coq Require Import ZArith Lia String Ascii.
From stdpp Require Import base option strings gmap list.
From RecordUpdate Require Import RecordSet.
From Verif Require Import LimiterModel LimiterSpec LimiterProofs LimiterProofs2 LimitNameModel LimitNameSpec LimitNameProofs.
Open Scope Z_scope.
Open Scope string_scope.

(** *** The cases: group a has a limit of 2, b of 1, w is a window from 09:00 to
    17:00, others have none; it is noon. *)
Definition demo_f (name : string) : option gdata :=
  if decide (name = "a") then Some (GData MCount 2 0)
  else if decide (name = "b") then Some (GData MCount 1 0)
  else if decide (name = "w") then Some (GData MBetweenTimes 61200 32400)
  else None.
Definition demo_cb : callback := λ _, demo_f.
Definition noon : clock := Clock 43200 1700000000.
Definition demo_clk : nat → clock := λ _, noon.
Lemma demo_stable : stable demo_cb demo_f. Proof. done. Qed.
Lemma demo_fresh : fresh demo_f.
Proof. intros name d. unfold demo_f. repeat destruct (decide _); intros [= <-]; done. Qed.
(** a is used by two callers, one of which also uses b; the first finishes. *)
Definition demo_ops : list lop :=
  [LIncrement demo_cb demo_clk ["a"; "b"] false; LIncrement demo_cb demo_clk ["a"; "x"] false; LDecrement ["a"; "b"]].
Definition busy : lstate := (lrun l_new (take 2 demo_ops)).1.

(** C18, first part: an Increment that succeeds leaves every named count group
    within its limit. Missing: lists naming a group twice, for which it is false. *)
Theorem C18_increment_within_limit_partial s o cb clk names f s' :
  tries s o = Some (cb, clk, names) → stable cb f → fresh f → NoDup names →
  lstep s o = (s', RBool true) →
  ∀ name l, name ∈ names → limit_of s' name = Some l → count s' name ≤ l.
Proof. exact (within_limit s o cb clk names f s'). Qed.
Print Assumptions C18_increment_within_limit_partial.
Example C18_increment_case :
  let o := LIncrement demo_cb demo_clk ["a"; "x"] false in
  let s := (lrun l_new (take 1 demo_ops)).1 in
  tries s o = Some (demo_cb, demo_clk, ["a"; "x"]) ∧ stable demo_cb demo_f ∧ fresh demo_f ∧ NoDup ["a"; "x"] ∧
  (lstep s o).2 = RBool true ∧ limit_of (lstep s o).1 "a" = Some 2 ∧ count (lstep s o).1 "a" = 2.
Proof.
  cbv zeta. split; [done|]. split; [done|]. split; [apply demo_fresh|]. split; [apply (bool_decide_unpack _); by vm_compute|].
  split_and!; by vm_compute.
Qed.

(** C18, second part: at no point of a history does a count exceed the limit.
    Missing: histories in which SetLimit lowers a limit below the present count,
    and lists naming a group twice. *)
Theorem C18_never_exceeded_partial ops s rs :
  lrun l_new ops = (s, rs) →
  lalways (λ s o, increments_properly s o ∧ sets_properly s o ∧ answers_properly o) l_new ops →
  ∀ name l, limit_of s name = Some l → count s name ≤ l.
Proof. exact (never_exceeded ops s rs). Qed.
Print Assumptions C18_never_exceeded_partial.
Lemma demo_properly : lalways (λ s o, increments_properly s o ∧ sets_properly s o ∧ answers_properly o) l_new demo_ops.
Proof.
  assert (∀ n name d, demo_cb n name = Some d → dmode d = MCount → 0 ≤ dlimit d) as Ha.
  { intros n name d. unfold demo_cb, demo_f. repeat destruct (decide _); intros [= <-]; done. }
  assert (∃ f, stable demo_cb f ∧ fresh f) as Hs by (exists demo_f; split; [done|apply demo_fresh]).
  assert (NoDup ["a"; "b"] ∧ NoDup ["a"; "x"]) as [N1 N2] by (split; apply (bool_decide_unpack _); by vm_compute).
  split; [split; [by split|by split]|]. split; [split; [by split|by split]|]. split; [split; [by split|by split]|]. exact I.
Qed.
Example C18_history_case :
  lalways (λ s o, increments_properly s o ∧ sets_properly s o ∧ answers_properly o) l_new demo_ops ∧
  limit_of busy "a" = Some 2 ∧ count busy "a" = 2 ∧ count (lrun l_new demo_ops).1 "a" = 1.
Proof. split; [exact demo_properly|]. split_and!; by vm_compute. Qed.
(** As stated C18 is false: naming a group twice takes it past its limit. *)
Theorem C18_duplicate_refuted :
  ∃ s o s' name l, lstep s o = (s', RBool true) ∧
    o = LIncrement demo_cb demo_clk [name; name] false ∧ limit_of s' name = Some l ∧ l < count s' name.
Proof. exists l_new, (LIncrement demo_cb demo_clk ["b"; "b"] false). eexists _, "b", 1. split; [by vm_compute|]. split; [done|]. by vm_compute. Qed.
Print Assumptions C18_duplicate_refuted.

(** C19: an attempt succeeds exactly if every named group with a limit lets one
    more in; if it succeeds each is counted once per mention, and nothing else
    changes; if not (false, or still waiting), nothing changes. Missing: a
    callback that answers differently within one call. *)
Theorem C19_all_or_nothing_partial s o cb clk names f s' r :
  tries s o = Some (cb, clk, names) → stable cb f → lstep s o = (s', r) →
  (r = RBool true ↔ ∀ i name d, names !! i = Some name → data_of f s name = Some d → room (clk i) d) ∧
  (r = RBool true → ∀ name, data_of f s' name = plus (occ name names) <$> data_of f s name) ∧
  (r ≠ RBool true → ∀ name, data_of f s' name = data_of f s name).
Proof. exact (all_or_nothing s o cb clk names f s' r). Qed.
Print Assumptions C19_all_or_nothing_partial.
(** a is full, b is not: neither is counted. *)
Example C19_case :
  let o := LIncrement demo_cb demo_clk ["w"; "b"; "a"] false in
  let s := (lrun l_new [LIncrement demo_cb demo_clk ["a"] false; LIncrement demo_cb demo_clk ["a"] false]).1 in
  tries s o = Some (demo_cb, demo_clk, ["w"; "b"; "a"]) ∧ stable demo_cb demo_f ∧
  (lstep s o).2 = RBool false ∧ count (lstep s o).1 "b" = 0 ∧
  (lstep s (LIncrement demo_cb demo_clk ["w"; "b"] false)).2 = RBool true.
Proof. cbv zeta. split_and!; try done; by vm_compute. Qed.
(** A limit that the callback learns of during the call is not checked but is
    counted. *)
Definition late_cb : callback := λ n name, if decide (n = 0%nat) then None else Some (GData MCount 0 0).
Theorem C19_changing_callback_refuted :
  ∃ s name s', lstep s (LIncrement late_cb demo_clk [name] false) = (s', RBool true) ∧
    limit_of s' name = Some 0 ∧ count s' name = 1.
Proof. exists l_new, "b". eexists. split; [by vm_compute|]. by vm_compute. Qed.
Print Assumptions C19_changing_callback_refuted.

(** C20: what is counted is what is outstanding, in every history where Decrement
    undoes earlier successes and names keep (or never have) a limit. Missing:
    histories with RemoveLimit of a used group, for which it is false. *)
Theorem C20_counts_outstanding_partial L ops s rs name :
  lrun l_new ops = (s, rs) → Forall (constant_groups L) ops → paired ops → L name = true →
  count s name = outstanding ops name.
Proof. intros H1 H2 H3 H4. exact (counts_outstanding L ops s rs H1 H2 H3 name H4). Qed.
Print Assumptions C20_counts_outstanding_partial.
Definition demo_L (name : string) : bool := bool_decide (name = "a") || bool_decide (name = "b").
Example C20_case :
  Forall (constant_groups demo_L) demo_ops ∧ paired demo_ops ∧ demo_L "a" = true ∧
  outstanding demo_ops "a" = 1 ∧ count (lrun l_new demo_ops).1 "a" = 1 ∧ outstanding demo_ops "b" = 0.
Proof.
  assert (∀ n name, (demo_L name = true → ∃ l, demo_cb n name = Some (GData MCount l 0)) ∧
                    (demo_L name = false → ∀ d, demo_cb n name = Some d → dmode d ≠ MCount)) as Ha.
  { intros n name. unfold demo_L, demo_cb, demo_f. destruct (decide (name = "a")) as [->|N1]; [simpl; split; [eauto|done]|].
    rewrite (bool_decide_eq_false_2 _ N1). simpl. destruct (decide (name = "b")) as [->|N2]; [simpl; split; [eauto|done]|].
    rewrite (bool_decide_eq_false_2 _ N2). split; [done|]. intros _ d. by destruct (decide _); intros [= <-]. }
  split; [repeat (constructor; [split; [first [exact Ha|exact I]|exact I]|]); constructor|].
  split; [|split_and!; by vm_compute].
  unfold paired. cbn [paired_from demo_ops]. split; [exact I|]. split; [exact I|]. split; [|exact I]. intros name.
  assert ((lstep l_new (LIncrement demo_cb demo_clk ["a"; "b"] false)).2 = RBool true) as E1 by (by vm_compute).
  assert ((lstep (lstep l_new (LIncrement demo_cb demo_clk ["a"; "b"] false)).1 (LIncrement demo_cb demo_clk ["a"; "x"] false)).2 = RBool true) as E2 by (by vm_compute).
  unfold outstanding_step. rewrite E1, E2. cbn [tries]. pose proof (occ_nonneg name ["a"; "x"]). lia.
Qed.
Theorem C20_remove_refuted :
  ∃ ops s rs name, lrun l_new ops = (s, rs) ∧ Forall (λ o, cb_of o = None ∨ cb_of o = Some demo_cb) ops ∧
    paired ops ∧ limit_of s name = Some 1 ∧ count s name = 1 ∧ outstanding ops name = 2.
Proof.
  exists [LIncrement demo_cb demo_clk ["b"] false; LRemoveLimit "b"; LIncrement demo_cb demo_clk ["b"] false].
  eexists _, _, "b". split; [by vm_compute|]. split; [repeat constructor; (by left) || by right|].
  split; [unfold paired; cbn [paired_from]; done|]. split_and!; by vm_compute.
Qed.
Print Assumptions C20_remove_refuted.

(** C21: the remaining capacity is the exact number of further Increments that
    succeed. Missing: lists that name an open window next to other groups, and
    lists naming a group twice, for both of which it is false. *)
Theorem C21_capacity_exact_partial f c cb clk s names s' n :
  stable cb f → steady clk c → NoDup names →
  no_open_window f s c names ∨ all_open_windows f s c names →
  lstep s (LCapacity cb clk names) = (s', RInt n) →
  -1 ≤ n ∧ (n = -1 → ∀ m, further s' cb clk names m = replicate m (RBool true)) ∧
  (0 ≤ n → further s' cb clk names (S (Z.to_nat n)) = replicate (Z.to_nat n) (RBool true) ++ [RBool false])%list.
Proof. exact (capacity_exact f c cb clk s names s' n). Qed.
Print Assumptions C21_capacity_exact_partial.
Example C21_case :
  let s := (lrun l_new [LIncrement demo_cb demo_clk ["a"] false]).1 in
  no_open_window demo_f s noon ["x"; "a"] ∧ NoDup ["x"; "a"] ∧ steady demo_clk noon ∧
  (lstep s (LCapacity demo_cb demo_clk ["x"; "a"])).2 = RInt 1 ∧
  further s demo_cb demo_clk ["x"; "a"] 2 = [RBool true; RBool false] ∧
  all_open_windows demo_f s noon ["w"] ∧ (lstep s (LCapacity demo_cb demo_clk ["w"])).2 = RInt (-1).
Proof.
  cbv zeta. split.
  { intros name d Hin. apply elem_of_cons in Hin as [->|Hin].
    - intros H. exfalso. match type of H with ?x = _ => assert (x = None) as E by (vm_compute; reflexivity) end. congruence.
    - apply elem_of_list_singleton in Hin as ->. intros H. left.
      match type of H with ?x = _ => assert (x = Some (GData MCount 2 1)) as E by (vm_compute; reflexivity) end. rewrite E in H. by injection H as <-. }
  split; [apply (bool_decide_unpack _); by vm_compute|]. split; [done|]. split; [by vm_compute|]. split; [by vm_compute|]. split; [|by vm_compute].
  intros name d Hin. apply elem_of_list_singleton in Hin as ->. intros H.
  match type of H with ?x = _ => assert (x = Some (GData MBetweenTimes 61200 32400)) as E by (vm_compute; reflexivity) end.
  rewrite E in H. injection H as <-. split; [done|]. by vm_compute.
Qed.
(** An open window listed after a count group hides its limit: "unlimited", but
    only one Increment succeeds. *)
Theorem C21_window_refuted :
  ∃ cb clk s names s', stable cb demo_f ∧ NoDup names ∧ lstep s (LCapacity cb clk names) = (s', RInt (-1)) ∧
    further s' cb clk names 2 = [RBool true; RBool false].
Proof.
  exists demo_cb, demo_clk, l_new, ["b"; "w"]. eexists. split; [done|]. split; [apply (bool_decide_unpack _); by vm_compute|].
  split; [by vm_compute|]. by vm_compute.
Qed.
Print Assumptions C21_window_refuted.
(** A closed window before an open one: "unlimited", but nothing succeeds. *)
Definition shut_f (name : string) : option gdata :=
  if decide (name = "shut") then Some (GData MBeforeTime 3600 0) else demo_f name.
Theorem C21_closed_refuted :
  ∃ cb clk s names s', stable cb shut_f ∧ NoDup names ∧ lstep s (LCapacity cb clk names) = (s', RInt (-1)) ∧
    further s' cb clk names 1 = [RBool false].
Proof.
  exists (λ _, shut_f), demo_clk, l_new, ["shut"; "w"]. eexists. split; [done|]. split; [apply (bool_decide_unpack _); by vm_compute|].
  split; [by vm_compute|]. by vm_compute.
Qed.
Print Assumptions C21_closed_refuted.
Theorem C21_duplicate_refuted :
  ∃ cb clk s names s', stable cb demo_f ∧ lstep s (LCapacity cb clk names) = (s', RInt 2) ∧
    further s' cb clk names 2 = [RBool true; RBool false].
Proof. exists demo_cb, demo_clk, l_new, ["a"; "a"]. eexists. split; [done|]. split; [by vm_compute|]. by vm_compute. Qed.
Print Assumptions C21_duplicate_refuted.

(** C22, names: what a name spells is what is parsed, and what spells nothing
    carries no limit. *)
Theorem C22_names_spell local s :
  (∀ n d, spells local s n d → name_to_group local s = (n, Some d)) ∧
  ((∀ n d, ¬ spells local s n d) → name_to_group local s = (s, None)).
Proof. exact (names_spell local s). Qed.
Print Assumptions C22_names_spell.
(** Hence the spellings are unambiguous. *)
Theorem C22_spelling_unambiguous local s n d n' d' : spells local s n d → spells local s n' d' → n = n' ∧ d = d'.
Proof. intros H1%(proj1 (names_spell local s)) H2%(proj1 (names_spell local s)). rewrite H1 in H2. by simplify_eq. Qed.
Print Assumptions C22_spelling_unambiguous.
Example C22_names_case local :
  spells local "irods:010" "irods" (GData MCount 10 0) ∧ spells local "irods:-1" "irods" (GData MUnknown 0 0) ∧
  spells local "22:30:00 <time < 23:59:59" "22:30:00 <time < 23:59:59" (GData MBetweenTimes 86399 81000) ∧
  name_to_group local "irods:010" = ("irods", Some (GData MCount 10 0)) ∧
  name_to_group local "time<24:00:00" = ("time<24:00:00", None) ∧
  name_to_group local "datetime<2023-02-29 00:00:00" = ("datetime<2023-02-29 00:00:00", None).
Proof.
  split.
  { change "irods:010" with ("irods" ++ ":" ++ "010"). apply sp_count; [done| |done]. exists "010", 10. split; [|by left].
    change "010" with (("0" ++ String (dig 1) "") ++ String (dig 0) ""). apply (num_more _ 1 0); [|lia].
    apply (num_more _ 0 1); [|lia]. apply (num_one 0). lia. }
  split.
  { change "irods:-1" with ("irods" ++ ":" ++ "-1"). apply (sp_none _ _ _ (-1)); [done| |lia]. exists "1", 1. split; [apply (num_one 1); lia|]. auto. }
  split.
  { apply (sp_between local 1 0 1 1 (Tod 22 30 0) (Tod 23 59 59)); unfold tod_ok; simpl; lia. }
  split_and!; by vm_compute.
Qed.

(** C22, windows. [wall offset u] is what a clock on the wall shows at Unix time
    [u]. Within a day without a change of the zone's offset, a time window opens
    and closes by the wall clock. Missing: windows over midnight and days on
    which the clocks change, for which it is false. *)
Theorem C22_time_windows_partial offset u m t t' :
  day_start offset u m → offset m = offset u →
  let c := Clock (seconds_in_day u m) u in
  (can_increment c (GData MBeforeTime t 0) = true ↔ wall offset u < t) ∧
  (can_increment c (GData MAfterTime 0 t) = true ↔ t < wall offset u) ∧
  (t ≤ t' → can_increment c (GData MBetweenTimes t' t) = true ↔ t < wall offset u < t').
Proof. exact (time_windows offset u m t t'). Qed.
Print Assumptions C22_time_windows_partial.
Definition utc_plus_1 : Z → Z := λ _, 3600.
Example C22_time_case :
  (** 2023-11-14 23:13:20 in a zone one hour ahead of UTC *)
  day_start utc_plus_1 1700000000 1699916400 ∧ wall utc_plus_1 1700000000 = 83600 ∧
  can_increment (Clock (seconds_in_day 1700000000 1699916400) 1700000000) (GData MBetweenTimes 84600 81000) = true.
Proof. split_and!; by vm_compute. Qed.
(** Date-time windows, exactly. *)
Theorem C22_datetime_windows s u t t' :
  (can_increment (Clock s u) (GData MBeforeDateTime t 0) = true ↔ u < t) ∧
  (can_increment (Clock s u) (GData MAfterDateTime 0 t) = true ↔ t < u) ∧
  (can_increment (Clock s u) (GData MBetweenDateTimes t' t) = true ↔ t < u < t').
Proof. exact (datetime_windows s u t t'). Qed.
Print Assumptions C22_datetime_windows.
Example C22_datetime_case :
  can_increment (Clock 0 1700000000) (GData MBetweenDateTimes 1700000001 1699999999) = true ∧
  can_increment (Clock 0 1700000001) (GData MBetweenDateTimes 1700000001 1699999999) = false.
Proof. split; by vm_compute. Qed.
(** "22:30:00<time<00:30:00" is shut at 23:00 and open at noon. *)
Theorem C22_overnight_refuted local :
  ∃ name d, name_to_group local name = (name, Some d) ∧
    spells local name name d ∧ name = tod_str (Tod 22 30 0) ++ less 0 0 ++ "time" ++ less 0 0 ++ tod_str (Tod 0 30 0) ∧
    can_increment (Clock (tod_secs (Tod 23 0 0)) 0) d = false ∧
    can_increment (Clock (tod_secs (Tod 12 0 0)) 0) d = true.
Proof.
  exists "22:30:00<time<00:30:00", (GData MBetweenTimes 1800 81000). split; [by vm_compute|].
  split; [apply (sp_between local 0 0 0 0 (Tod 22 30 0) (Tod 0 30 0)); unfold tod_ok; simpl; lia|]. split_and!; by vm_compute.
Qed.
Print Assumptions C22_overnight_refuted.
(** Clocks went forward an hour at 01:00 on 2023-03-26 in London (Unix time
    1679792400): at 09:30 "time<09:00:00" is still open. *)
Definition london : Z → Z := λ u, if (u <? 1679792400)%Z then 0 else 3600.
Theorem C22_clock_change_refuted :
  ∃ u m, day_start london u m ∧ wall london u = tod_secs (Tod 9 30 0) ∧
    can_increment (Clock (seconds_in_day u m) u) (GData MBeforeTime (tod_secs (Tod 9 0 0)) 0) = true.
Proof. exists 1679819400, 1679788800. split_and!; by vm_compute. Qed.
Print Assumptions C22_clock_change_refuted.

(** C47: a waiting Increment that nothing has been sent to is waiting for a group
    that is full. Missing: limits raised or removed meanwhile, for which it is
    false. *)
Theorem C47_no_lost_wakeup_partial ops s rs ch names :
  lrun l_new ops = (s, rs) → lalways only_decrement_frees l_new ops →
  waiting s !! ch = Some names → ch ∉ sent s →
  ∃ name l, name ∈ names ∧ limit_of s name = Some l ∧ l ≤ count s name.
Proof. exact (never_overlooked ops s rs ch names). Qed.
Print Assumptions C47_no_lost_wakeup_partial.
#[local] Instance grp_eq_dec : EqDecision grp.
Proof. solve_decision. Defined.
(** b is taken, someone waits for a and b; b is released, they are notified, and
    get both. *)
Definition counts_f (name : string) : option gdata := if decide (name = "w") then None else demo_f name.
Definition wait_ops : list lop :=
  [LIncrement (λ _, counts_f) demo_clk ["b"] false; LIncrement (λ _, counts_f) demo_clk ["a"; "b"] true; LDecrement ["b"];
   LWake (λ _, counts_f) demo_clk 0].
Example C47_case :
  lalways only_decrement_frees l_new wait_ops ∧
  waiting (lrun l_new (take 2 wait_ops)).1 !! 0%nat = Some ["a"; "b"] ∧ (0%nat ∉ sent (lrun l_new (take 2 wait_ops)).1) ∧
  (0%nat ∈ sent (lrun l_new (take 3 wait_ops)).1) ∧
  (lrun l_new wait_ops).2 = [RBool true; RWaits 0; RDone; RBool true].
Proof.
  assert (∀ n name d, (λ _ : nat, counts_f) n name = Some d → dmode d = MCount ∨ dmode d = MUnknown) as Ha.
  { intros n name d. unfold counts_f, demo_f. repeat destruct (decide _); intros [= <-]; by left. }
  split. { split; [exact Ha|]. split; [exact Ha|]. split; [|split; [exact Ha|exact I]]. intros name l Hl.
    destruct (decide (name = "b")) as [->|N]; [by vm_compute|]. destruct (decide (name = "a")) as [->|N2]; [by vm_compute|].
    exfalso. revert Hl. unfold limit_of.
    assert (groups (lstep (lstep l_new (LIncrement (λ _, counts_f) demo_clk ["b"] false)).1 (LIncrement (λ _, counts_f) demo_clk ["a"; "b"] true)).1
      = {["b" := Grp (GData MCount 1 1) [0%nat]; "a" := Grp (GData MCount 2 0) [0%nat]]}) as ->
      by (apply (bool_decide_unpack _); by vm_compute).
    rewrite lookup_insert_ne by done. rewrite lookup_singleton_ne by done. done. }
  split; [by vm_compute|]. split; [apply (bool_decide_unpack _); by vm_compute|]. split; [apply (bool_decide_unpack _); by vm_compute|]. by vm_compute.
Qed.
(** Raising the limit wakes nobody. *)
Theorem C47_raise_refuted :
  ∃ ops s rs ch name, lrun l_new ops = (s, rs) ∧ waiting s !! ch = Some [name] ∧ ch ∉ sent s ∧
    limit_of s name = Some 5 ∧ count s name = 1.
Proof.
  exists [LIncrement demo_cb demo_clk ["b"] false; LIncrement demo_cb demo_clk ["b"] true; LSetLimit "b" (GData MCount 5 0)].
  eexists _, _, 0%nat, "b". split; [by vm_compute|]. split; [by vm_compute|]. split; [apply (bool_decide_unpack _); by vm_compute|]. by vm_compute.
Qed.
Print Assumptions C47_raise_refuted.
(** Nor does removing it, and the later Decrement finds no group to notify from. *)
Theorem C47_remove_refuted :
  ∃ ops s rs ch name, lrun l_new ops = (s, rs) ∧ waiting s !! ch = Some [name] ∧ ch ∉ sent s ∧
    limit_of s name = None ∧ outstanding ops name = 0.
Proof.
  exists [LIncrement demo_cb demo_clk ["b"] false; LIncrement demo_cb demo_clk ["b"] true; LRemoveLimit "b"; LDecrement ["b"]].
  eexists _, _, 0%nat, "b". split; [by vm_compute|]. split; [by vm_compute|]. split; [apply (bool_decide_unpack _); by vm_compute|]. split; by vm_compute.
Qed.
Print Assumptions C47_remove_refuted.
