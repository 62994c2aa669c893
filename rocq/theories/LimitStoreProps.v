(** The properties about the limits of limit groups, as the server keeps them. *)
From Coq Require Import ZArith Lia String Ascii.
From stdpp Require Import base option strings gmap list.
From RecordUpdate Require Import RecordSet.
From Verif Require Import LimiterModel LimiterSpec LimitNameModel LimitNameSpec LimitNameProofs
  LimitStoreModel LimitStoreSpec LimitStoreProofs LimitStoreProofs2 LimitStoreProofs3.
Import RecordSetNotations.
Open Scope Z_scope.

(** C86: the limit of a group is the last one given, by whichever request, whatever happens
    in between and however often the manager restarts. Missing: a limit that is taken away
    (see below). *)
Theorem C86_last_limit_in_force_partial local h0 r0 h1 g n : plain g →
  gives local r0 g n → accepted (lreq_step local (lreq_run local srv0 h0).1 r0).2 → Forall (λ r, ¬ limits local r g) h1 →
  (lreq_step local (lreq_run local srv0 (h0 ++ r0 :: h1)).1 (QGetSet g)).2 = PLimit (Some n).
Proof. intros H1 H2 H3 H4. exact (proj1 (last_given local h0 r0 h1 g n H1 H2 H3 H4)). Qed.
Print Assumptions C86_last_limit_in_force_partial.
(** A group that was never given one is not limited. *)
Theorem C86_no_limit local h g clk : plain g → Forall (λ r, ¬ limits local r g) h →
  (lreq_step local (lreq_run local srv0 h).1 (QTry clk [g] false)).2 = PLim (RBool true).
Proof. intros H1 H2. exact (proj1 (never_given local h g clk H1 H2)). Qed.
Print Assumptions C86_no_limit.
(** A job is added with a:5 and b:2, another with a:3,a:1 and b; one starts, the manager
    restarts. *)
Definition ls_zone : zone := λ _, 0.
Definition ls_clk : nat → clock := λ _, Clock 0 0.
Definition ls_h0 : list lreq := [QAdd ["a:5"; "b:2"]; QTry ls_clk ["a"; "b"] false].
Definition ls_r0 : lreq := QAdd ["a:3"; "a:1"; "b"].
Definition ls_h1 : list lreq := [QRestart; QTry ls_clk ["a"; "b"] false; QDone ["a"; "b"]; QLimits; QGetSet "b:7"].
Example C86_case : plain "a" ∧ gives ls_zone ls_r0 "a" 1 ∧ accepted (lreq_step ls_zone (lreq_run ls_zone srv0 ls_h0).1 ls_r0).2 ∧
  Forall (λ r, ¬ limits ls_zone r "a") ls_h1 ∧
  (lreq_step ls_zone (lreq_run ls_zone srv0 (ls_h0 ++ ls_r0 :: ls_h1)).1 (QGetSet "a")).2 = PLimit (Some 1) ∧
  (lreq_step ls_zone (lreq_run ls_zone srv0 (ls_h0 ++ ls_r0 :: ls_h1)).1 (QGetSet "b")).2 = PLimit (Some 7).
Proof.
  split; [by vm_compute|]. split.
  { exists ["a:3"], "a:1", ["b"]. split; [done|]. split; [apply name_spells; by vm_compute|]. intros raw d ->%elem_of_list_singleton. by apply free_spells. }
  split; [split; by vm_compute|]. split; [|split; by vm_compute].
  apply Forall_forall. intros r Hr (raw & n & Hw & Hn). assert (raw = "b:7") as ->.
  { repeat (apply elem_of_cons in Hr as [->|Hr]); [..|by apply elem_of_nil in Hr]; cbn [written] in Hw; try (by apply elem_of_nil in Hw); by apply elem_of_list_singleton in Hw. }
  apply name_iff in Hn. revert Hn. by vm_compute.
Qed.
(** "Setting a limit of -1 makes that group unlimited": the limit stays, in the database. *)
Theorem C86_removed_refuted : ∃ local h g raw n clk, plain g ∧ unlimits local raw g ∧ 
  let s := (lreq_run local srv0 h).1 in let s' := (lreq_step local s (QGetSet raw)).1 in
  accepted (lreq_step local s (QGetSet raw)).2 ∧ (lreq_step local s' (QGetSet g)).2 = PLimit (Some n) ∧
  (lreq_step local s' (QTry clk [g] false)).2 = PLim (RBool false).
Proof.
  exists ls_zone, [QGetSet "a:0"], "a", "a:-1", 0, ls_clk. split; [by vm_compute|]. split; [apply name_spells; by vm_compute|].
  split; [split; by vm_compute|]. split; by vm_compute.
Qed.
Print Assumptions C86_removed_refuted.
(** "If the group isn't known about, returns -1": 9223372036854775807, also after setting -1. *)
Theorem C86_unknown_refuted : ∃ local g raw n, plain g ∧ unlimits local raw g ∧ n ≠ -1 ∧
  (lreq_step local srv0 (QGetSet g)).2 = PLimit (Some n) ∧ (lreq_step local srv0 (QGetSet raw)).2 = PLimit (Some n).
Proof.
  exists ls_zone, "a", "a:-1", (2 ^ 63 - 1). split; [by vm_compute|]. split; [apply name_spells; by vm_compute|]. split; [done|]. split; by vm_compute.
Qed.
Print Assumptions C86_unknown_refuted.

(** C87: once a group has a limit, a job of it starts only if fewer run than the limit says,
    and one more is let start as long as fewer do; so no more ever run than the highest
    limit that was given. Missing: a limit taken away, and jobs that started before there
    was one (see below). *)
Theorem C87_start_below_limit_partial local h0 r0 h1 g r names n : begun local h0 r0 h1 g →
  let s := (lreq_run local srv0 (h0 ++ r0 :: h1)).1 in
  (lreq_step local s (QGetSet g)).2 = PLimit (Some n) → trying s r = Some names → g ∈ names → (lreq_step local s r).2 = PLim (RBool true) →
  running local srv0 (h0 ++ r0 :: h1) g 0 < n.
Proof. exact (starts_below local h0 r0 h1 g r names n). Qed.
Print Assumptions C87_start_below_limit_partial.
Theorem C87_start_if_below_partial local h0 r0 h1 g clk n : begun local h0 r0 h1 g →
  let s := (lreq_run local srv0 (h0 ++ r0 :: h1)).1 in
  (lreq_step local s (QGetSet g)).2 = PLimit (Some n) → running local srv0 (h0 ++ r0 :: h1) g 0 < n →
  (lreq_step local s (QTry clk [g] false)).2 = PLim (RBool true).
Proof. exact (starts_if local h0 r0 h1 g clk n). Qed.
Print Assumptions C87_start_if_below_partial.
Theorem C87_running_within_limits_partial local h0 r0 h1 g N : begun local h0 r0 h1 g →
  (∀ r raw n, r ∈ (h0 ++ r0 :: h1)%list → raw ∈ written r → numbers local raw g n → n ≤ N) →
  running local srv0 (h0 ++ r0 :: h1) g 0 ≤ N.
Proof. exact (runs_within local h0 r0 h1 g N). Qed.
Print Assumptions C87_running_within_limits_partial.
(** Two may run: two start, a third is refused, and waits; one is done, and it is let in; the
    limit becomes 1, the manager restarts and finds one of them running. *)
Definition run_h1 : list lreq :=
  [QTry ls_clk ["a"; "b"] false; QTry ls_clk ["a"] false; QTry ls_clk ["a"] false; QTry ls_clk ["a"] true; QDone ["a"]; QWake ls_clk 0;
   QGetSet "a:1"; QRestart; QTry ls_clk ["a"] false].
#[local] Instance once_dec r : Decision (once r).
Proof. destruct r; cbn [once]; apply _. Defined.
Example C87_case : begun ls_zone [] (QAdd ["a:2"]) run_h1 "a" ∧
  (lreq_run ls_zone srv0 (QAdd ["a:2"] :: run_h1)).2 =
    [PStored true; PLim (RBool true); PLim (RBool true); PLim (RBool false); PLim (RWaits 0); PLim RDone; PLim (RBool true); PLimit (Some 1); PStarted; PLim (RBool true)] ∧
  running ls_zone srv0 (QAdd ["a:2"] :: take 6 run_h1) "a" 0 = 2 ∧ running ls_zone srv0 (QAdd ["a:2"] :: run_h1) "a" 0 = 1.
Proof.
  split; [|split; [by vm_compute|split; by vm_compute]]. split.
  - by vm_compute.
  - exists 2. exists [], "a:2", []. split; [done|]. split; [apply name_spells; by vm_compute|]. intros raw d H. by apply elem_of_nil in H.
  - split; by vm_compute.
  - apply Forall_nil_2.
  - apply Forall_forall. intros r Hr (raw & Hw & Hn). assert (raw = "a:1") as ->.
    { repeat (apply elem_of_cons in Hr as [->|Hr]); [..|by apply elem_of_nil in Hr]; cbn [written] in Hw; try (by apply elem_of_nil in Hw); by apply elem_of_list_singleton in Hw. }
    apply name_iff in Hn. revert Hn. by vm_compute.
  - apply (bool_decide_unpack _). by vm_compute.
  - by vm_compute.
Qed.
(** A limit of 1; a job runs; -1 and then 1 are set: a second one is let start. *)
Theorem C87_removed_refuted : ∃ local h g n, plain g ∧ Forall once h ∧ matched local srv0 h g 0 ∧
  (lreq_step local (lreq_run local srv0 h).1 (QGetSet g)).2 = PLimit (Some n) ∧
  (∀ r raw n', r ∈ h → raw ∈ written r → numbers local raw g n' → n' = n) ∧ n < running local srv0 h g 0.
Proof.
  exists ls_zone, [QGetSet "a:1"; QTry ls_clk ["a"] false; QGetSet "a:-1"; QTry ls_clk ["a"] false], "a", 1. split; [by vm_compute|].
  split; [apply (bool_decide_unpack _); by vm_compute|]. split; [by vm_compute|]. split; [by vm_compute|]. split; [|by vm_compute].
  intros r raw n' Hr Hw Hn. apply name_iff in Hn. 
  assert (raw = "a:1" ∨ raw = "a:-1") as [->| ->].
  { repeat (apply elem_of_cons in Hr as [->|Hr]); [..|by apply elem_of_nil in Hr]; cbn [written] in Hw; try (by apply elem_of_nil in Hw); apply elem_of_list_singleton in Hw; auto. }
  - revert Hn. vm_compute. by intros [= <-].
  - revert Hn. by vm_compute.
Qed.
Print Assumptions C87_removed_refuted.
(** A job starts before the limit of 1 is set: a second one is let start. *)
Theorem C87_earlier_refuted : ∃ local h0 r0 h1 g n, plain g ∧ gives local r0 g n ∧ Forall once (h0 ++ r0 :: h1) ∧ matched local srv0 (h0 ++ r0 :: h1) g 0 ∧
  (∀ r, r ∈ (h0 ++ r0 :: h1)%list → ¬ unlimiting local r g) ∧
  n = running local srv0 (h0 ++ [r0]) g 0 ∧ n < running local srv0 (h0 ++ r0 :: h1) g 0.
Proof.
  exists ls_zone, [QTry ls_clk ["a"] false], (QGetSet "a:1"), [QTry ls_clk ["a"] false], "a", 1. split; [by vm_compute|].
  split. { exists [], "a:1", []. split; [done|]. split; [apply name_spells; by vm_compute|]. intros raw d H. by apply elem_of_nil in H. }
  split; [apply (bool_decide_unpack _); by vm_compute|]. split; [by vm_compute|]. split; [|split; by vm_compute].
  intros r Hr (raw & Hw & Hu). assert (raw = "a:1") as ->.
  { cbn [app] in Hr. repeat (apply elem_of_cons in Hr as [->|Hr]); [..|by apply elem_of_nil in Hr]; cbn [written] in Hw; try (by apply elem_of_nil in Hw); by apply elem_of_list_singleton in Hw. }
  apply name_iff in Hu. revert Hu. by vm_compute.
Qed.
Print Assumptions C87_earlier_refuted.

(** C88: the limits listed are those in force, and every group of which jobs run and were
    counted is listed. Missing: a group that has a limit but no running job (see below). *)
Theorem C88_listed_in_force local h m g n : plain g → let s := (lreq_run local srv0 h).1 in
  (lreq_step local s QLimits).2 = PLim (RLimits m) → m !! g = Some n → (lreq_step local s (QGetSet g)).2 = PLimit (Some n).
Proof. exact (listed_in_force local h m g n). Qed.
Print Assumptions C88_listed_in_force.
Theorem C88_running_listed_partial local h0 r0 h1 g m : begun local h0 r0 h1 g → let s := (lreq_run local srv0 (h0 ++ r0 :: h1)).1 in
  (lreq_step local s QLimits).2 = PLim (RLimits m) → 0 < running local srv0 (h0 ++ r0 :: h1) g 0 → is_Some (m !! g).
Proof. exact (running_listed local h0 r0 h1 g m). Qed.
Print Assumptions C88_running_listed_partial.
Example C88_case : (∃ m, (lreq_step ls_zone (lreq_run ls_zone srv0 (QAdd ["a:2"] :: run_h1)).1 QLimits).2 = PLim (RLimits m) ∧ m !! "a" = Some 1) ∧
  0 < running ls_zone srv0 (QAdd ["a:2"] :: run_h1) "a" 0.
Proof. split; [|by vm_compute]. eexists. split; [reflexivity|]. by vm_compute. Qed.
(** a:1 was given with a job that was added, or its last job is done: it is not listed, but it
    is in force. *)
Theorem C88_complete_refuted : ∃ local h m g n, plain g ∧ let s := (lreq_run local srv0 h).1 in
  (lreq_step local s QLimits).2 = PLim (RLimits m) ∧ m !! g = None ∧ (lreq_step local s (QGetSet g)).2 = PLimit (Some n) ∧ n = 1.
Proof. exists ls_zone, [QAdd ["a:1"]]. eexists _, "a", 1. split; [by vm_compute|]. split; [reflexivity|]. split; [by vm_compute|]. split; by vm_compute. Qed.
Print Assumptions C88_complete_refuted.
