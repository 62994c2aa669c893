(** Theorems about the LSF scheduler: C69 to C72. *)
From Coq Require Import ZArith Lia String Ascii.
From stdpp Require Import base option strings list gmap sorting pretty.
From Verif Require Import UtilModel BsubModel LsfModel LsfSpec LsfProofs LsfProofs2 LsfProofs3.
Open Scope Z_scope.

(** * C69: the order in which queues are tried *)
(** Whatever order Go goes through its maps in, the queues the user may use come in the
    order of their penalties. *)
Theorem C69_order : ∀ l order worth, good_seen l → any_order l order → (∀ n c, n ∈ usable l → c ∈ eight → is_worth l n c (worth n c)) →
  ∃ ss, sortedqs (queues_of l) order = n_queue <$> ss ∧ ss ≡ₚ usable l ∧ StronglySorted (before (usable l) worth) ss.
Proof. exact sorted_spec. Qed.
Print Assumptions C69_order.
(** and what a queue is worth can be told *)
Theorem C69_worth : ∀ l n c, c ∈ eight → ∃ v, is_worth l n c v ∧ ∀ w, is_worth l n c w → w = v.
Proof. intros l n c Hc. eexists. split; [by apply fill_worth|]. intros w Hw. apply (worth_unique l n c); [done|by apply fill_worth|done]. Qed.
Print Assumptions C69_worth.
(** A queue that is as good as another on all criteria and better on one comes earlier: more
    hosts, more jobs, more jobs of a user, a longer time limit; a lower memory limit, fewer
    users, smaller chunks, a lower priority. *)
Theorem C69_better : ∀ l order worth, good_seen l → any_order l order → (∀ n c, n ∈ usable l → c ∈ eight → is_worth l n c (worth n c)) →
  ∀ a b c, a ∈ usable l → b ∈ usable l → (∀ d, d ∈ eight → as_good worth a b d) → c ∈ eight → worth a c ≠ worth b c →
  earlier (n_queue a) (n_queue b) (sortedqs (queues_of l) order).
Proof.
  intros l order worth Hg Ho Hw a b c Ha Hb Hgood Hc Hne. destruct (sorted_spec l order worth Hg Ho Hw) as (ss & -> & Hp & Hs).
  destruct (less_earlier (usable l) worth ss a b Hp Hs Ha Hb (better_penalty _ _ a b c Ha Hgood Hc Hne)) as (i & j & Hi & Hj & Hlt).
  exists i, j. by rewrite !list_lookup_fmap, Hi, Hj.
Qed.
Print Assumptions C69_better.
(** Unless there are more than 197 queues, one that runs jobs in smaller chunks comes earlier
    whatever else is the case. *)
Theorem C69_chunks_partial : ∀ l order worth, good_seen l → any_order l order → (∀ n c, n ∈ usable l → c ∈ eight → is_worth l n c (worth n c)) →
  ∀ a b, a ∈ usable l → b ∈ usable l → (length (usable l) ≤ 197)%nat → worth a "chunk_size"%string < worth b "chunk_size"%string →
  earlier (n_queue a) (n_queue b) (sortedqs (queues_of l) order).
Proof.
  intros l order worth Hg Ho Hw a b Ha Hb Hl Hc. destruct (sorted_spec l order worth Hg Ho Hw) as (ss & -> & Hp & Hs).
  destruct (less_earlier (usable l) worth ss a b Hp Hs Ha Hb (chunk_penalty _ _ a b Ha Hb Hl Hc)) as (i & j & Hi & Hj & Hlt).
  exists i, j. by rewrite !list_lookup_fmap, Hi, Hj.
Qed.
Print Assumptions C69_chunks_partial.
Definition facts (prio hosts runlimit memlimit chunk : Z) : gmap string Z :=
  list_to_map (filter (λ p, 0 ≤ snd p) [("prio", prio); ("hosts", hosts); ("runlimit", runlimit); ("memlimit", memlimit); ("chunk_size", chunk)]%string).
Definition some_queues : list seen :=
  [Seen "normal" (facts 30 (-1) 43200 8000 (-1)) true; Seen "small" (facts 30 10 43200 (-1) 5) true;
   Seen "long" (facts 30 (-1) 172800 8000 (-1)) true; Seen "secret" (facts 99 500 (-1) 9000 (-1)) false; Seen "yesterday" (facts 99 20 600 8000 (-1)) true]%string.
Definition filled (l : list seen) (n : seen) (c : string) : Z := default 0 (fill l (n_facts n) !! c).
Lemma facts_nonneg p h r m k c v : facts p h r m k !! c = Some v → 0 ≤ v.
Proof. intros H. apply elem_of_list_to_map_2 in H. apply elem_of_list_filter in H as [H _]. exact H. Qed.
Example C69_order_case : good_seen some_queues ∧ any_order some_queues (λ c, reverse (queues_of some_queues)) ∧
  (∀ n c, n ∈ usable some_queues → c ∈ eight → is_worth some_queues n c (filled some_queues n c)) ∧
  sortedqs (queues_of some_queues) (λ c, reverse (queues_of some_queues)) = ["long"; "normal"; "yesterday"; "small"]%string ∧
  (λ n, penalty (usable some_queues) (filled some_queues) n) <$> usable some_queues = [1; 10038; 0; 21].
Proof.
  split; [split; [by apply (bool_decide_unpack _)|]|].
  { intros n c v Hn. unfold some_queues in Hn. rewrite !elem_of_cons, elem_of_nil in Hn. decompose [or] Hn; subst; try done; apply facts_nonneg. }
  split_and!; [intros c; apply reverse_Permutation|intros n c _ Hc; by apply fill_worth|by vm_compute|by vm_compute].
Qed.
(** the queue [long] is as good as [normal] and better in time *)
Example C69_better_case : let w := filled some_queues in ∃ a b, a ∈ usable some_queues ∧ b ∈ usable some_queues ∧ n_queue a = "long"%string ∧ n_queue b = "normal"%string ∧
  (∀ d, d ∈ eight → as_good w a b d) ∧ w a "runlimit"%string ≠ w b "runlimit"%string.
Proof.
  cbv zeta. exists (Seen "long" (facts 30 (-1) 172800 8000 (-1)) true), (Seen "normal" (facts 30 (-1) 43200 8000 (-1)) true). split_and!; try done.
  - apply usable_elem. split; [|done]. do 2 apply elem_of_list_further. apply elem_of_list_here.
  - apply usable_elem. split; [|done]. apply elem_of_list_here.
  - intros d Hd. unfold eight in Hd. rewrite !elem_of_cons, elem_of_nil in Hd. decompose [or] Hd; subst; try done; by vm_compute.
Qed.
(** [small] runs jobs in chunks of five and comes last *)
Example C69_chunks_case : (length (usable some_queues) = 4)%nat ∧ ((λ n, filled some_queues n "chunk_size"%string) <$> usable some_queues) = [0; 5; 0; 0].
Proof. split; by vm_compute. Qed.
(** Of two queues that differ in priority alone, the one of lower priority comes first, though
    the order is meant to be "those most likely to run jobs sooner coming first". *)
Theorem C69_priority_refuted : ∃ l, good_seen l ∧ usable l = l ∧ (n_queue <$> l) = ["urgent"; "idle"]%string ∧
  ((λ n, n_facts n !! "prio"%string) <$> l) = [Some 90; Some 10] ∧ (∀ n c, n ∈ l → c ≠ "prio"%string → n_facts n !! c = None) ∧
  sortedqs (queues_of l) (λ _, queues_of l) = ["idle"; "urgent"]%string.
Proof.
  exists [Seen "urgent" {["prio" := 90]} true; Seen "idle" {["prio" := 10]} true]%string. split_and!; try (by vm_compute).
  - split; [by apply (bool_decide_unpack _)|]. intros n c v Hn. rewrite !elem_of_cons, elem_of_nil in Hn. destruct Hn as [->|[->|[]]]; cbn; rewrite lookup_singleton_Some; lia.
  - intros n c Hn Hc. rewrite !elem_of_cons, elem_of_nil in Hn. destruct Hn as [->|[->|[]]]; cbn; by rewrite lookup_singleton_ne.
Qed.
Print Assumptions C69_priority_refuted.
(** Of two queues that differ in their time limits alone, the longer comes first, though it
    says "for time and memory, prefer the queue that is more limited". *)
Theorem C69_time_refuted : ∃ l, good_seen l ∧ usable l = l ∧ (n_queue <$> l) = ["short"; "long"]%string ∧
  ((λ n, n_facts n !! "runlimit"%string) <$> l) = [Some 600; Some 86400] ∧ (∀ n c, n ∈ l → c ≠ "runlimit"%string → n_facts n !! c = None) ∧
  sortedqs (queues_of l) (λ _, queues_of l) = ["long"; "short"]%string.
Proof.
  exists [Seen "short" {["runlimit" := 600]} true; Seen "long" {["runlimit" := 86400]} true]%string. split_and!; try (by vm_compute).
  - split; [by apply (bool_decide_unpack _)|]. intros n c v Hn. rewrite !elem_of_cons, elem_of_nil in Hn. destruct Hn as [->|[->|[]]]; cbn; rewrite lookup_singleton_Some; lia.
  - intros n c Hn Hc. rewrite !elem_of_cons, elem_of_nil in Hn. destruct Hn as [->|[->|[]]]; cbn; by rewrite lookup_singleton_ne.
Qed.
Print Assumptions C69_time_refuted.

(** * C70: the queue that is picked *)
(** Without a wish for a queue, the first in the order of C69 of those that suit; that it is
    impossible is said only if none does. *)
Theorem C70_best_partial : ∀ l order worth, good_seen l → any_order l order → (∀ n c, n ∈ usable l → c ∈ eight → is_worth l n c (worth n c)) →
  ∀ q, r_queue q = None →
  match determineQueue (queues_of l) (sortedqs (queues_of l) order) q with
  | Some name => ∃ n, n ∈ usable l ∧ name = n_queue n ∧ suits q name (worth n "memlimit"%string) (worth n "runlimit"%string) ∧
      ∀ m, m ∈ usable l → suits q (n_queue m) (worth m "memlimit"%string) (worth m "runlimit"%string) → m = n ∨ before (usable l) worth n m
  | None => ∀ m, m ∈ usable l → ¬ suits q (n_queue m) (worth m "memlimit"%string) (worth m "runlimit"%string)
  end.
Proof. intros. by apply best_spec. Qed.
Print Assumptions C70_best_partial.
Definition some_order : list string := sortedqs (queues_of some_queues) (λ c, reverse (queues_of some_queues)).
Definition two_days : Z := 48 * 60 * 60 * 10 ^ 9.
Example C70_best_case :
  determineQueue (queues_of some_queues) some_order (LReq 100 0 1000 None "" None) = Some "long"%string ∧
  determineQueue (queues_of some_queues) some_order (LReq 100 0 1000 None "lon,al" None) = Some "yesterday"%string ∧
  determineQueue (queues_of some_queues) some_order (LReq 9001 0 1000 None "" None) = Some "small"%string ∧
  determineQueue (queues_of some_queues) some_order (LReq 100 (two_days - minimumQueueTime) 1000 None "" None) = Some "long"%string ∧
  determineQueue (queues_of some_queues) some_order (LReq 100 two_days 1000 None "" None) = None.
Proof. split_and!; by vm_compute. Qed.
(** With a list of queues, the first of the list that suits; a queue that is not known has
    no limits. *)
Theorem C70_listed : ∀ l worth, good_seen l → (∀ n c, n ∈ usable l → c ∈ eight → is_worth l n c (worth n c)) →
  ∀ sorted q s parts, r_queue q = Some s → parts_of parts s → (2 ≤ length parts)%nat →
  match determineQueue (queues_of l) sorted q with
  | Some name => ∃ a b, parts = a ++ name :: b ∧ named_suits l worth q name ∧ ∀ x, x ∈ a → ¬ named_suits l worth q x
  | None => ∀ x, x ∈ parts → ¬ named_suits l worth q x
  end.
Proof. intros l worth Hg Hw sorted q s parts. by apply listed_spec. Qed.
Print Assumptions C70_listed.
Example C70_listed_case : parts_of ["small"; "yesterday"; "normal"]%string "small,yesterday,normal" ∧
  determineQueue (queues_of some_queues) some_order (LReq 100 (600 * 10 ^ 9) 1000 (Some "small,yesterday,normal"%string) "small" None) = Some "normal"%string.
Proof. split; [|by vm_compute]. split_and!; [done| |by vm_compute]. by apply (bool_decide_unpack (Forall no_comma _)). Qed.
(** A job has as long as it asked for and a minute more, unless it named one queue. *)
Theorem C70_time : ∀ l worth, good_seen l → (∀ n c, n ∈ usable l → c ∈ eight → is_worth l n c (worth n c)) →
  ∀ sorted q, (∀ s, r_queue q = Some s → ¬ no_comma s) → r_time q + 60 * 10 ^ 9 ≤ MaxQueueTime (queues_of l) sorted q.
Proof. intros l worth Hg Hw sorted q. by apply (time_spec l worth). Qed.
Print Assumptions C70_time.
Example C70_time_case : MaxQueueTime (queues_of some_queues) some_order (LReq 100 (600 * 10 ^ 9) 1000 None "" None) = 172800 * 10 ^ 9 ∧
  MaxQueueTime (queues_of some_queues) some_order (LReq 100 (600 * 10 ^ 9) 1000 (Some "yesterday"%string) "" None) = 600 * 10 ^ 9.
Proof. split; by vm_compute. Qed.
(** What is picked from a list need not exist: a comma at the end is enough. *)
Theorem C70_unknown_refuted : ∃ l q parts, good_seen l ∧ usable l = l ∧ r_queue q = Some "normal,"%string ∧ parts_of parts "normal," ∧ r_ram q = 9000 ∧
  ((λ n, (n_queue n, n_facts n !! "memlimit"%string)) <$> l) = [("normal"%string, Some 8000); ("huge"%string, Some 900000)] ∧
  determineQueue (queues_of l) (sortedqs (queues_of l) (λ _, queues_of l)) q = Some ""%string.
Proof.
  exists [Seen "normal" {["memlimit" := 8000]} true; Seen "huge" {["memlimit" := 900000]} true]%string, (LReq 9000 0 1000 (Some "normal,"%string) "" None), ["normal"; ""]%string.
  split_and!; try (by vm_compute).
  - split; [by apply (bool_decide_unpack _)|]. intros n c v Hn. rewrite !elem_of_cons, elem_of_nil in Hn. destruct Hn as [->|[->|[]]]; cbn; rewrite lookup_singleton_Some; lia.
  - split_and!; [done| |by vm_compute]. by apply (bool_decide_unpack (Forall no_comma _)).
Qed.
Print Assumptions C70_unknown_refuted.
(** A comma at the end of the list of queues to avoid avoids all. *)
Theorem C70_avoid_all_refuted : ∃ l q, good_seen l ∧ usable l = l ∧ r_queue q = None ∧ r_avoid q = "interactive,"%string ∧
  (n_queue <$> l) = ["normal"]%string ∧ suits (LReq (r_ram q) (r_time q) (r_cores q) None "interactive" None) "normal" 8000 31536000 ∧
  determineQueue (queues_of l) (sortedqs (queues_of l) (λ _, queues_of l)) q = None.
Proof.
  exists [Seen "normal" {["memlimit" := 8000]} true]%string, (LReq 100 0 1000 None "interactive," None). split_and!; try (by vm_compute).
  - split; [by apply (bool_decide_unpack _)|]. intros n c v Hn. rewrite !elem_of_cons, elem_of_nil in Hn. destruct Hn as [->|[]]; cbn; rewrite lookup_singleton_Some; lia.
  - split; [|split; cbn; lia]. cbn [r_avoid]. intros parts part _ Hp Hin. apply parts_split in Hp. assert (E : split "," "interactive" = ["interactive"]%string) by (by vm_compute).
    rewrite E in Hp. subst parts. apply elem_of_list_singleton in Hin as ->. rewrite <- contains_iff. by vm_compute.
Qed.
Print Assumptions C70_avoid_all_refuted.
(** A queue for which no memory limit is given takes no more than 1 MB above the highest
    limit given for any other, even one the user may not use: the job is called impossible. *)
Theorem C70_unlimited_refuted : ∃ l q, good_seen l ∧ r_queue q = None ∧ r_avoid q = ""%string ∧ r_ram q = 20000 ∧
  (∃ n, usable l = [n] ∧ n_facts n !! "memlimit"%string = None ∧ n_facts n !! "runlimit"%string = None) ∧
  determineQueue (queues_of l) (sortedqs (queues_of l) (λ _, queues_of l)) q = None.
Proof.
  exists [Seen "small" {["memlimit" := 8000]} false; Seen "normal" ∅ true]%string, (LReq 20000 0 1000 None "" None). split_and!; try (by vm_compute).
  - split; [by apply (bool_decide_unpack _)|]. intros n c v Hn. rewrite !elem_of_cons, elem_of_nil in Hn. destruct Hn as [->|[->|[]]]; cbn; [rewrite lookup_singleton_Some; lia|by rewrite lookup_empty].
  - exists (Seen "normal" ∅ true). split_and!; by vm_compute.
Qed.
Print Assumptions C70_unlimited_refuted.

(** * C71: how many jobs are submitted and killed *)
(** After a call there are at least as many jobs as wanted, counting those asked for; jobs are
    asked for only if there are too few, and then none is killed; only jobs of this command that
    are not running are killed. *)
Theorem C71_enough : ∀ hash words deployment u qs sorted cmd q count lines random kill sub n r, cmd ≠ ""%string → 0 ≤ count → plain hash random deployment →
  schedule hash words deployment u qs sorted cmd q count lines random = Some (kill, sub) →
  let p := jobName hash cmd deployment in
  num (job_line p) lines n → num (running_line p) lines r →
  ∃ m, asked sub m ∧ count ≤ n - Z.of_nat (length kill) + m ∧ (sub ≠ None → kill = [] ∧ m = count - n ∧ 0 < m) ∧
    ∀ k, k ∈ kill → ∃ x, x ∈ lines ∧ job_line p x ∧ ¬ running_line p x ∧ known_as x k.
Proof.
  intros hash words deployment u qs sorted cmd q count lines random kill sub n r Hc H0 Hp H p Hn Hr.
  destruct (schedule_spec _ _ _ _ _ _ _ _ _ _ _ Hc H0 Hp _ _ _ _ H Hn Hr) as (m & H1 & H2 & H3 & H4 & _). by exists m.
Qed.
Print Assumptions C71_enough.
(** ... and no more than wanted and those running, if those that are not were asked for as arrays *)
Theorem C71_not_more_partial : ∀ hash words deployment u qs sorted cmd q count lines random kill sub n r, cmd ≠ ""%string → 0 ≤ count → plain hash random deployment →
  schedule hash words deployment u qs sorted cmd q count lines random = Some (kill, sub) →
  let p := jobName hash cmd deployment in
  num (job_line p) lines n → num (running_line p) lines r →
  (∀ x, x ∈ lines → job_line p x → ¬ running_line p x → ∃ k, known_as x k) →
  ∃ m, asked sub m ∧ count ≤ n - Z.of_nat (length kill) + m ≤ count + r.
Proof.
  intros hash words deployment u qs sorted cmd q count lines random kill sub n r Hc H0 Hp H p Hn Hr Ha.
  destruct (schedule_spec _ _ _ _ _ _ _ _ _ _ _ Hc H0 Hp _ _ _ _ H Hn Hr) as (m & H1 & H2 & H3 & H4 & H5). exists m. split; [done|]. split; [done|by apply H5].
Qed.
Print Assumptions C71_not_more_partial.
(** When there are as many as wanted, nothing is done. *)
Theorem C71_settled : ∀ hash words deployment u qs sorted cmd q count lines random, cmd ≠ ""%string → 0 ≤ count →
  num (job_line (jobName hash cmd deployment)) lines count → determineQueue qs sorted q ≠ None →
  schedule hash words deployment u qs sorted cmd q count lines random = Some ([], None).
Proof. intros. by apply settled_spec. Qed.
Print Assumptions C71_settled.
(** The jobs counted are those submitted for commands of the same hash by a deployment with
    the same first letter. *)
Theorem C71_ours : ∀ hash random cmd cmd' d d' needed, (∀ x y, String.length (hash x) = String.length (hash y)) → d ≠ ""%string → d' ≠ ""%string →
  starts_with (jobName hash cmd d) (generateBsubName hash random cmd' d' needed) ↔ (letter d = letter d' ∧ hash cmd = hash cmd').
Proof. exact ours_spec. Qed.
Print Assumptions C71_ours.
(** a hash of one character for the examples *)
Definition hash1 (s : string) : string := if decide (s = "x"%string) then "a" else "b".
Definition line (id stat name : string) : list string := [id; "me"; stat; "normal"; "host1"; "host2"; name; "Nov"; "17"; "10:00"]%string.
Definition some_lines : list (list string) :=
  [["JOBID"; "USER"; "STAT"]; line "1" "RUN" "wrp_a_r1[1]"; line "1" "PEND" "wrp_a_r1[2]"; line "1" "PEND" "wrp_a_r1[3]"; line "1" "RUN" "wrp_a_r1[4]";
   line "2" "PEND" "wrp_b_r2[1]"; line "1" "DONE" "wrp_a_r1[5]"; line "3[7]" "PEND" "wrp_a_r3"; line "4" "PEND" "other"]%string.
Definition no_words (s : string) : option (list string) := Some [].
Example C71_case : plain hash1 "r9" "production" ∧
  schedule hash1 no_words "production" MB (queues_of some_queues) some_order "x" (LReq 100 0 1000 None "" None) 2 some_lines "r9" = Some (["1[3]"; "3[7]"]%string, None) ∧
  num (job_line (jobName hash1 "x" "production")) some_lines 5 ∧ num (running_line (jobName hash1 "x" "production")) some_lines 2 ∧
  (∀ y, y ∈ some_lines → job_line (jobName hash1 "x" "production") y → ¬ running_line (jobName hash1 "x" "production") y → ∃ k, known_as y k) ∧
  schedule hash1 no_words "production" MB (queues_of some_queues) some_order "x" (LReq 100 0 1000 None "" None) 7 some_lines "r9" =
    Some ([], Some ["-q"; "long"; "-M"; "100"; "-R"; "select[mem>100] rusage[mem=100] span[hosts=1]"; "-J"; "wrp_a_r9[1-2]"; "-o"; "/dev/null"; "-e"; "/dev/null"; "x"]%string).
Proof.
  split. { unfold plain, no_bracket. split_and!; [|by apply (bool_decide_unpack _)..]. intros x. unfold hash1. destruct (decide _); by apply (bool_decide_unpack _). }
  split_and!; [by vm_compute|apply (parse_num (jobName hash1 "x" "production") some_lines)|apply (parse_runs (jobName hash1 "x" "production") some_lines)| |by vm_compute].
  intros y Hy Hj Hr. apply job_line_iff in Hj as [j Hj]. apply line_job_iff in Hj as Hj'. destruct Hj' as [Hj' _].
  assert (is_Some (sidaid j)) as [k Hk]; [|exists k; by apply (sidaid_iff y j)].
  unfold some_lines in Hy. rewrite !elem_of_cons, elem_of_nil in Hy. repeat (destruct Hy as [->|Hy]; [vm_compute in Hj; first [discriminate Hj|injection Hj as <-; by eexists]|]). done.
Qed.
Example C71_settled_case : schedule hash1 no_words "production" MB (queues_of some_queues) some_order "x" (LReq 100 0 1000 None "" None) 5 some_lines "r9" = Some ([], None).
Proof. by vm_compute. Qed.
Example C71_ours_case : (∀ x y, String.length (hash1 x) = String.length (hash1 y)) ∧ generateBsubName hash1 "r9" "x" "production" 3 = "wrp_a_r9[1-3]"%string.
Proof. split; [|by vm_compute]. intros x y. unfold hash1. by repeat destruct (decide _). Qed.
(** what is missing: a job that was submitted alone has no index, so that it counts as killed
    but is not; here none is wanted, one is left *)
Theorem C71_single_refuted : ∃ lines x, lines = [line "1" "PEND" "wrp_a_r1"] ∧ lines = [x] ∧ job_line (jobName hash1 "x" "production") x ∧ ¬ running_line (jobName hash1 "x" "production") x ∧
  generateBsubName hash1 "r1" "x" "production" 1 = "wrp_a_r1"%string ∧
  schedule hash1 no_words "production" MB (queues_of some_queues) some_order "x" (LReq 100 0 1000 None "" None) 0 lines "r9" = Some ([], None).
Proof.
  eexists _, _. split_and!; [done|done| | |by vm_compute|by vm_compute].
  - apply job_line_iff. eexists. by vm_compute.
  - rewrite running_line_iff. intros (j & Hj & Hr). vm_compute in Hj. injection Hj as <-. by vm_compute in Hr.
Qed.
Print Assumptions C71_single_refuted.
(** A job that has been started and is suspended is killed like one that never ran. *)
Theorem C71_suspended_refuted : ∃ lines, lines = [line "1" "USUSP" "wrp_a_r1[1]"; line "1" "SSUSP" "wrp_a_r1[2]"] ∧
  schedule hash1 no_words "production" MB (queues_of some_queues) some_order "x" (LReq 100 0 1000 None "" None) 0 lines "r9" = Some (["1[1]"; "1[2]"]%string, None).
Proof. eexists. split; [done|]. by vm_compute. Qed.
Print Assumptions C71_suspended_refuted.

(** * C72: what bsub is called with *)
(** The queue, the memory limit and a resource requirement for the memory; then the options of
    the user, word by word, but for memory and hosts in the values of -R, or none of them if
    there was an error; as many slots as cores, rounded up; and the command last. *)
Theorem C72_arguments : ∀ hash words random queue q cmd deployment needed u args err,
  generateBsubArgs hash words random queue q cmd deployment needed u = Some (args, err) →
  ∃ l sl, args = own_options queue (pretty (memory_limit u (r_ram q))) (pretty (r_ram q)) ++ l ++ sl ++
      ["-J"; generateBsubName hash random cmd deployment needed; "-o"; "/dev/null"; "-e"; "/dev/null"; cmd]%string ∧ slots (r_cores q) sl ∧
    match r_misc q with
    | None => l = [] ∧ err = false
    | Some misc => if err then l = [] else ∃ ws, words misc = Some ws ∧ passed_on (pretty (r_ram q)) ws l
    end.
Proof. exact args_spec. Qed.
Print Assumptions C72_arguments.
Example C72_arguments_case :
  generateBsubArgs hash1 (λ _, Some ["-P"; "proj"; "-R"; "select[mem>5 && gpu] span[hosts=4]"; "-x"]%string) "r9" "long" (LReq 300 0 2500 None "" (Some "..."%string)) "x" "production" 1 KB =
    Some (["-q"; "long"; "-M"; "300000"; "-R"; "select[mem>300] rusage[mem=300] span[hosts=1]"; "-P"; "proj"; "-R"; "select[mem > 300 && gpu] span[hosts=1]"; "-x";
           "-n"; "3"; "-J"; "wrp_a_r9"; "-o"; "/dev/null"; "-e"; "/dev/null"; "x"]%string, false).
Proof. by vm_compute. Qed.
(** The memory limit is what was asked for, to one part in four million; exactly, up to 134 GB
    in KB and 16 TB in MB. *)
Theorem C72_memory_partial : ∀ ram, 0 ≤ ram →
  close_to (memory_limit MB ram) ram ∧ (ram < 2 ^ 24 → memory_limit MB ram = ram) ∧
  close_to (memory_limit KB ram) (1000 * ram) ∧ (1000 * ram < 2 ^ 27 → memory_limit KB ram = 1000 * ram).
Proof. intros ram H. split_and!; [by apply mb_close|intros; by apply mb_exact|by apply kb_close|]. intros H1. apply kb_exact; [done|lia]. Qed.
Print Assumptions C72_memory_partial.
Example C72_memory_case : memory_limit KB 134217 = 134217000 ∧ memory_limit KB 134225 = 134224992 ∧ memory_limit MB (2 ^ 24 + 1) = 2 ^ 24.
Proof. split_and!; by vm_compute. Qed.
(** what is missing: where limits are in GB, they are rounded to whole ones, which may be less
    than asked for, even none *)
Theorem C72_gigabytes_refuted : memory_limit GB 400 = 0 ∧ memory_limit GB 1400 = 1 ∧ memory_limit GB 1600 = 2.
Proof. split_and!; by vm_compute. Qed.
Print Assumptions C72_gigabytes_refuted.
(** There is no panic if the options are pairs of words; *)
Theorem C72_no_panic_partial : ∀ hash words random queue q cmd deployment needed u,
  (∀ misc ws, r_misc q = Some misc → words misc = Some ws → Nat.Even (length ws)) →
  generateBsubArgs hash words random queue q cmd deployment needed u ≠ None.
Proof.
  intros hash words random queue q cmd deployment needed u He. unfold generateBsubArgs. destruct (r_misc q) as [misc|]; [|done].
  unfold parseUserArgs. destruct (words misc) as [ws|] eqn:Hw; [|done]. specialize (He misc ws eq_refl Hw).
  pose proof (user_args_even (pretty (r_ram q)) (length ws) ws ltac:(done) He). by destruct (user_args _ ws).
Qed.
Print Assumptions C72_no_panic_partial.
Example C72_no_panic_case : generateBsubArgs hash1 (λ _, Some ["-R"; "select["]%string) "r9" "long" (LReq 300 0 1000 None "" (Some "-R select["%string)) "x" "production" 1 MB =
  Some (["-q"; "long"; "-M"; "300"; "-R"; "select[mem>300] rusage[mem=300] span[hosts=1]"; "-J"; "wrp_a_r9"; "-o"; "/dev/null"; "-e"; "/dev/null"; "x"]%string, true).
Proof. by vm_compute. Qed.
(** what is missing: with a last word -R it looks beyond the end *)
Theorem C72_panic_refuted : ∃ ws q, r_misc q = Some "-P proj -R"%string ∧ ws = ["-P"; "proj"; "-R"]%string ∧
  generateBsubArgs hash1 (λ _, Some ws) "r9" "long" q "x" "production" 1 MB = None.
Proof. exists ["-P"; "proj"; "-R"]%string, (LReq 300 0 1000 None "" (Some "-P proj -R"%string)). split_and!; by vm_compute. Qed.
Print Assumptions C72_panic_refuted.
(** Options of bsub that take no value are refused when others follow. *)
Theorem C72_flags_refuted : ∃ ws q args, r_misc q = Some "-x -P proj"%string ∧ ws = ["-x"; "-P"; "proj"]%string ∧
  generateBsubArgs hash1 (λ _, Some ws) "r9" "long" q "x" "production" 1 MB = Some (args, true).
Proof. exists ["-x"; "-P"; "proj"]%string, (LReq 300 0 1000 None "" (Some "-x -P proj"%string)). eexists. split_and!; by vm_compute. Qed.
Print Assumptions C72_flags_refuted.
(** When options are validated before jobs are added, the answer for one queue is given for all. *)
Theorem C72_validate_refuted : ∃ accepts words opts q1 q2 cache,
  Validate hash1 words "r9" accepts opts q1 ∅ = Some (false, cache) ∧
  Validate hash1 words "r9" accepts opts q2 cache = Some (false, cache) ∧
  ∃ cache', Validate hash1 words "r9" accepts opts q2 ∅ = Some (true, cache').
Proof.
  exists (λ args, bool_decide (args !! 1%nat = Some "gpu"%string)), (λ _, Some ["-gpu"; "num=1"]%string), "-gpu num=1"%string, "normal"%string, "gpu"%string. eexists. split_and!; [by vm_compute|by vm_compute|].
  eexists. by vm_compute.
Qed.
Print Assumptions C72_validate_refuted.
(** But with one queue the answers are those of bsub: *)
Theorem C72_validate_partial : ∀ hash words random accepts opts queue cache v cache',
  (∀ o w, cache !! o = Some w → valid_options hash words random accepts queue o w) →
  Validate hash words random accepts opts queue cache = Some (v, cache') →
  valid_options hash words random accepts queue opts v ∧ ∀ o w, cache' !! o = Some w → valid_options hash words random accepts queue o w.
Proof. exact validate_spec. Qed.
Print Assumptions C72_validate_partial.
Example C72_validate_case : ∃ cache cache', Validate hash1 (λ s, Some [s; "1"]%string) "r9" (λ args, bool_decide (args !! 6%nat = Some "-g"%string)) "-g" "q" ∅ = Some (true, cache) ∧
  Validate hash1 (λ s, Some [s; "1"]%string) "r9" (λ args, bool_decide (args !! 6%nat = Some "-g"%string)) "-h" "q" cache = Some (false, cache') ∧
  Validate hash1 (λ s, Some [s; "1"]%string) "r9" (λ args, bool_decide (args !! 6%nat = Some "-g"%string)) "-g" "q" cache' = Some (true, cache').
Proof. eexists _, _. split_and!; by vm_compute. Qed.
