(** C103, C104: the counts of the status web page as jobs change state. *)
From Coq Require Import ZArith Lia String Ascii.
From stdpp Require Import base option strings gmap list.
From Verif Require Import GoHeap QueueModel QueueSpec QueueDemo QueueProofs4 PageModel PageSpec PageProofs.
Open Scope Z_scope.
Open Scope string_scope.

(** ** C103 The page *)
(** If the messages come such that a count never falls below 0 on the way, the page shows
    for it what they add up to. Full claim: whatever the order the messages reach the page
    in (they are sent by goroutines of their own). That is false: C103_order_refuted,
    C103_surplus_refuted. *)
Theorem C103_in_order_partial ms g st : (∀ m, m ∈ ms → 0 ≤ m_count m ∧ m_from m ≠ m_to m) → queued_state st →
  (∀ ms1, ms1 `prefix_of` ms → 0 ≤ risen g st ms1) → shows (after_messages ms) g st (risen g st ms).
Proof. intros Hm Hst Hp. destruct (in_order_fold ms g st) as (_ & H & _); [by apply Forall_forall|done|done|exact H]. Qed.
Print Assumptions C103_in_order_partial.
(** In whatever order messages come that are about one job each, the page shows in the end
    what they add up to. *)
Theorem C103_single_partial ms : (∀ m, m ∈ ms → m_count m = 1 ∧ m_from m ≠ m_to m) →
  ∀ sent g st, sent ≡ₚ ms → queued_state st → 0 ≤ risen g st sent → shows (after_messages ms) g st (risen g st sent).
Proof.
  intros Hm sent g st Hp Hst Hr. rewrite (risen_perm g st sent ms Hp) in *. apply units_shown; [by apply Forall_forall|done|done].
Qed.
Print Assumptions C103_single_partial.
(** a job is added, and reserved at once; the page hears of the latter first *)
Definition swapped : list message := [Message "g" "ready" "running" 1; Message "g" "new" "ready" 1; Message "g" "new" "ready" 1].
Example C103_single_case : (∀ m, m ∈ swapped → m_count m = 1 ∧ m_from m ≠ m_to m) ∧ queued_state "ready" ∧ queued_state "running" ∧
  risen "g" "ready" swapped = 1 ∧ risen "g" "running" swapped = 1 ∧
  shows (after_messages swapped) "g" "ready" 1 ∧ shows (after_messages swapped) "g" "running" 1 ∧ risen "g" "ready" (take 1 swapped) = -1.
Proof.
  split; [|unfold queued_state; repeat split; tauto]. apply Forall_forall. repeat constructor; done.
Qed.
Definition orderly : list message :=
  [Message "g" "new" "ready" 3; Message "g" "ready" "running" 1; Message "g" "running" "lost" 1; Message "g" "lost" "buried" 1].
Example C103_in_order_case : (∀ m, m ∈ orderly → 0 ≤ m_count m ∧ m_from m ≠ m_to m) ∧
  (∀ ms1 g st, ms1 `prefix_of` orderly → queued_state st → 0 ≤ risen g st ms1) ∧
  shows (after_messages orderly) "g" "ready" 2 ∧ shows (after_messages orderly) "g" "buried" 1.
Proof.
  split; [|split; [|done]].
  - apply Forall_forall. repeat constructor; done.
  - intros ms1 g st [ms2 Hp] Hst. unfold orderly in Hp.
    assert (Hz : risen g st [] = 0) by done.
    destruct (decide ("g" = g)) as [<-|Hg].
    + destruct ms1 as [|? [|? [|? [|? [|? ?]]]]]; cbn in Hp; simplify_eq/=; try done; unfold rise; cbn [m_group m_from m_to m_count];
        destruct Hst as [->|[->|[->|[->|[->| ->]]]]]; vm_compute; done.
    + destruct ms1 as [|? [|? [|? [|? [|? ?]]]]]; cbn in Hp; simplify_eq/=; try done; unfold rise; cbn [m_group m_from m_to m_count];
        rewrite !(decide_False (P := "g" = g)) by done; done.
Qed.
(** Two jobs are added and one of them is reserved at once; if the page hears of the latter
    first, it shows three jobs ever after. *)
Theorem C103_order_refuted : ∃ sent ms, (∀ m, m ∈ sent → 0 < m_count m ∧ m_from m ≠ m_to m) ∧ sent ≡ₚ ms ∧
  (∀ ms1 g st, ms1 `prefix_of` sent → queued_state st → 0 ≤ risen g st ms1) ∧
  risen "g" "ready" sent = 1 ∧ risen "g" "running" sent = 1 ∧ shows (after_messages ms) "g" "ready" 2 ∧ shows (after_messages ms) "g" "running" 1.
Proof.
  exists [Message "g" "new" "ready" 2; Message "g" "ready" "running" 1], [Message "g" "ready" "running" 1; Message "g" "new" "ready" 2].
  split; [apply Forall_forall; repeat constructor; done|]. split; [by apply perm_swap|]. split; [|done].
  intros ms1 g st [ms2 Hp] Hst. destruct (decide ("g" = g)) as [<-|Hg].
  - destruct ms1 as [|? [|? [|? ?]]]; cbn in Hp; simplify_eq/=; try done; unfold rise; cbn [m_group m_from m_to m_count];
      destruct Hst as [->|[->|[->|[->|[->| ->]]]]]; vm_compute; done.
  - destruct ms1 as [|? [|? [|? ?]]]; cbn in Hp; simplify_eq/=; try done; unfold rise; cbn [m_group m_from m_to m_count];
      rewrite !(decide_False (P := "g" = g)) by done; done.
Qed.
Print Assumptions C103_order_refuted.
(** What the page ignores can be more than what it was short of: 2 jobs are ready, 3 start
    of which one is not yet heard of as ready, and then 2 more become ready: of the ready
    jobs it shows none. *)
Theorem C103_surplus_refuted : ∃ sent ms, (∀ m, m ∈ sent → 0 < m_count m ∧ m_from m ≠ m_to m) ∧ sent ≡ₚ ms ∧
  risen "g" "ready" sent = 2 ∧ shows (after_messages ms) "g" "ready" 0.
Proof.
  exists [Message "g" "new" "ready" 2; Message "g" "new" "ready" 1; Message "g" "ready" "running" 3; Message "g" "new" "ready" 2],
    [Message "g" "new" "ready" 2; Message "g" "ready" "running" 3; Message "g" "new" "ready" 1; Message "g" "new" "ready" 2].
  split; [apply Forall_forall; repeat constructor; done|]. split; [constructor; by apply perm_swap|done].
Qed.
Print Assumptions C103_surplus_refuted.

(** ** C104 The messages *)
(** For each rep group, the messages of a notification add up to the jobs of the group that
    went to a state less those that left it. *)
Theorem C104_groups group fin lost from to data g st : g ≠ "+all+" → queued_state st →
  risen g st (messages group fin lost (from, to, data)) =
    (if decide (called to st) then how_many (λ d, group d = g) data else 0) - how_many (λ d, group d = g ∧ left_state lost from st d) data.
Proof.
  intros Hg Hst. rewrite messages_risen by done. rewrite (decide_False (P := g = "+all+")) by done.
  assert (Hi : going_to fin to data = st ↔ called to st).
  { destruct to; cbn [going_to state_of called]; try (split; [intros <-|intros ->]; done).
    - split; [|done]. destruct (existsb fin data); intros <-; unfold queued_state in Hst; naive_solver. }
  destruct (decide (going_to fin to data = st)) as [H1|H1], (decide (called to st)) as [H2|H2]; try tauto; lia.
Qed.
Print Assumptions C104_groups.
(** jobs 1 and 2 of group a and job 3 of group b are delayed after running; job 2 was lost *)
Definition group0 (d : N) : string := if (d =? 3)%N then "b" else "a".
Definition lost0 (d : N) : bool := (d =? 2)%N.
Example C104_groups_case : let ms := messages group0 (λ _, false) lost0 (QRun, QDelay, [1; 2; 3]%N) in
  risen "a" "delayed" ms = 2 ∧ risen "a" "running" ms = -1 ∧ risen "a" "lost" ms = -1 ∧ risen "b" "delayed" ms = 1 ∧ risen "b" "running" ms = -1 ∧
  risen "+all+" "delayed" ms = 3 ∧ queued_state "lost".
Proof. split_and!; try (by vm_compute). unfold queued_state. tauto. Qed.
(** Over any history of the queue the messages about all jobs add up to the number of jobs
    in each state, running and lost ones taken together; also if callbacks see a job's
    Lost late. (What [always clears_safely] and [closed] leave out is said at C15.) *)
Theorem C104_all_partial t ops s out ms : run (q_new t) ops = Some (s, out) → always clears_safely (q_new t) ops → closed s = false →
  told (concat (snd <$> out)) ms →
  risen "+all+" "delayed" ms = Z.of_nat (length (holding s SDelay)) ∧ risen "+all+" "ready" ms = Z.of_nat (length (holding s SReady)) ∧
  risen "+all+" "buried" ms = Z.of_nat (length (holding s SBury)) ∧ risen "+all+" "dependent" ms = Z.of_nat (length (holding s SDep)) ∧
  risen "+all+" "running" ms + risen "+all+" "lost" ms = Z.of_nat (length (holding s SRun)).
Proof.
  intros Hr Ha Hc Ht. destruct (told_sum _ _ Ht) as [H1 H2]. pose proof (heard_all t ops s out Hr Ha Hc) as Hh.
  rewrite (H1 QDelay), (H1 QReady), (H1 QBury), (H1 QDep), H2 by (done || set_solver).
  rewrite <- !Hh by done. done.
Qed.
Print Assumptions C104_all_partial.
Definition page_ops : list op := [OAdd 1 "a" "g" 1 0 0 0 60 StartDefault []; OAdd 1 "b" "g" 2 0 0 0 60 StartDefault []; OReserve 2 "g" false].
Fixpoint sent0 (es : list event) : list message := match es with [] => [] | e :: es => (messages group0 (λ _, false) lost0 e ++ sent0 es)%list end.
Lemma sent0_told es : told es (sent0 es).
Proof. induction es as [|e es IH]; [constructor|]. cbn [sent0]. apply told_event; [|done]. intros d. unfold group0. by destruct (d =? 3)%N. Qed.
Example C104_all_case : ∃ s out, run (q_new 0) page_ops = Some (s, out) ∧ always clears_safely (q_new 0) page_ops ∧ closed s = false ∧
  told (concat (snd <$> out)) (sent0 (concat (snd <$> out))) ∧ length (holding s SReady) = 1%nat ∧ length (holding s SRun) = 1%nat.
Proof.
  assert (H : match run (q_new 0) page_ops with Some (s, _) => negb (closed s) && (length (holding s SReady) =? 1)%nat && (length (holding s SRun) =? 1)%nat | None => false end = true)
    by (by vm_compute).
  destruct (run (q_new 0) page_ops) as [[s out]|] eqn:E; [|done]. apply andb_true_iff in H as [[H1%negb_true_iff H2%Nat.eqb_eq]%andb_true_iff H3%Nat.eqb_eq].
  exists s, out. split; [done|]. split; [|split; [done|]; split; [apply sent0_told|done]].
  apply always_clears. by vm_compute.
Qed.
(** A rep group called "+all+" is counted twice in the counts of all jobs. *)
Theorem C104_all_refuted : ∃ group e, risen "+all+" "ready" (messages group (λ _, false) (λ _, false) e) = 2 ∧ e = (QNew, QReady, [1%N]).
Proof. by exists (λ _, "+all+"), (QNew, QReady, [1%N]). Qed.
Print Assumptions C104_all_refuted.
(** Running and lost jobs taken one by one: a job is lost, released, reserved again, which
    does not clear its Lost (C102_reserved_refuted), and released by its new runner before it
    was started. No job is running, but the page shows one. *)
Fixpoint sent1 (es : list event) : list message := match es with [] => [] | e :: es => (messages (λ _, "a") (λ _, false) (λ _, true) e ++ sent1 es)%list end.
Lemma sent1_told es : told es (sent1 es).
Proof. induction es as [|e es IH]; [constructor|]. cbn [sent1]. by apply told_event. Qed.
Definition stale_events : list event := [(QNew, QReady, [1]); (QReady, QRun, [1]); (QRun, QDelay, [1]); (QDelay, QReady, [1]); (QReady, QRun, [1]); (QRun, QDelay, [1])]%N.
Definition stale_messages : list message :=
  (sent1 (take 2 stale_events) ++ [Message "+all+" "running" "lost" 1; Message "a" "running" "lost" 1] ++ sent1 (drop 2 stale_events))%list.
Theorem C104_stale_refuted : told stale_events stale_messages ∧ heard QRun stale_events = 0 ∧
  risen "+all+" "running" stale_messages = 1 ∧ risen "+all+" "lost" stale_messages = -1 ∧
  shows (after_messages stale_messages) "+all+" "running" 1 ∧ shows (after_messages stale_messages) "a" "running" 1.
Proof.
  split; [|done]. set (m := messages (λ _, "a") (λ _, false) (λ _, true)).
  change (told ((QNew, QReady, [1]) :: (QReady, QRun, [1]) :: drop 2 stale_events)%N
    (m (QNew, QReady, [1%N]) ++ m (QReady, QRun, [1%N]) ++
     Message "+all+" "running" "lost" 1 :: Message "a" "running" "lost" 1 :: sent1 (drop 2 stale_events))%list). unfold m.
  apply (told_event (λ _, "a") (λ _, false) (λ _, true)); [done|]. apply (told_event (λ _, "a") (λ _, false) (λ _, true)); [done|].
  apply (told_lost "a"); [done|]. apply (sent1_told (drop 2 stale_events)).
Qed.
Print Assumptions C104_stale_refuted.
