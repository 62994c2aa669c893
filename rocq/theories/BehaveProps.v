(** C73, C74: behaviours as users give, see and change them. *)
From Coq Require Import NArith String.
From stdpp Require Import base option strings list.
From Verif Require Import BehaveModel BehaveSpec BehaveProofs.
Open Scope N_scope.

(** For the cases: run "a" on failure, clean up on success, run "b" at any end. *)
Definition bs1 : list beh := [Beh OnExit Run (AStr "b"); Beh OnFailure Run (AStr "a"); Beh OnSuccess Cleanup ANil].
Lemma bs1_documented : Forall documented bs1.
Proof.
  unfold bs1. rewrite !Forall_cons, Forall_nil. split_and!; try done; try split.
  - right. right. by right.
  - left. split; [done|]. by exists "b"%string.
  - by left.
  - left. split; [done|]. by exists "a"%string.
  - right. by left.
  - right. right. split; [by left|done].
Qed.

(** ** C73: shown as JSON and read back *)
(** Documented behaviours are all shown, and read back the same, for each end in the same order. *)
Theorem C73_shown_partial bs : Forall documented bs → read_back (shown bs) ≡ₚ bs ∧ ∀ w, those_for w (read_back (shown bs)) = those_for w bs.
Proof. exact (roundtrip bs). Qed.
Print Assumptions C73_shown_partial.
Example C73_shown_case : Forall documented bs1 ∧ length (read_back (shown bs1)) = 3%nat ∧ read_back (shown bs1) ≠ bs1.
Proof. split; [exact bs1_documented|]. by vm_compute. Qed.
(** Those read back do the same things at either end, *)
Theorem C73_same_deeds success bs : Forall documented bs → performs success (read_back (shown bs)) ≡ₚ performs success bs.
Proof. exact (deeds_perm success bs). Qed.
Print Assumptions C73_same_deeds.
(** and in the same order if none is for both failure and success (otherwise see C73_order_refuted). *)
Theorem C73_same_order_partial success bs : Forall documented bs → (∀ b, b ∈ bs → bwhen b ≠ N.lor OnFailure OnSuccess) →
  performs success (read_back (shown bs)) = performs success bs.
Proof. exact (same_deeds success bs). Qed.
Print Assumptions C73_same_order_partial.
Example C73_same_order_case : Forall documented bs1 ∧ (∀ b, b ∈ bs1 → bwhen b ≠ N.lor OnFailure OnSuccess) ∧
  performs false bs1 = [DRun "a"; DRun "b"] ∧ performs true bs1 = [DCleanup; DRun "b"].
Proof.
  split; [exact bs1_documented|]. split; [|by vm_compute]. intros b Hb.
  repeat (apply elem_of_cons in Hb as [->|Hb]; [done|]). by apply elem_of_nil in Hb.
Qed.
Theorem C73_order_refuted : ∃ bs, Forall documented bs ∧ performs false bs = [DRun "first"; DRun "second"] ∧ performs false (read_back (shown bs)) = [DRun "second"; DRun "first"].
Proof.
  exists [Beh (N.lor OnFailure OnSuccess) Run (AStr "first"); Beh OnFailure Run (AStr "second")]. split; [|by vm_compute].
  rewrite !Forall_cons, Forall_nil. split_and!; try done; try split.
  - right. right. by left.
  - left. split; [done|]. by exists "first"%string.
  - by left.
  - left. split; [done|]. by exists "second"%string.
Qed.
Print Assumptions C73_order_refuted.
(** What comes from JSON is shown so that it is read as exactly the same again, whatever the JSON. *)
Theorem C73_json_stable m : read_back (shown (read_back m)) = read_back m ∧ Forall documented (read_back m).
Proof. split; [exact (read_shown_read m)|exact (read_back_doc m)]. Qed.
Print Assumptions C73_json_stable.
Example C73_json_case : read_back (Bvjm [Bvj "a" [] false false false false] [] [Bvj "" [] true true false false] []) =
  [Beh OnFailure Run (AStr "a"); Beh (N.lor OnFailure OnSuccess) Cleanup ANil].
Proof. by vm_compute. Qed.
(** One that triggers at a combination with OnExit is not shown at all. *)
Theorem C73_hidden_refuted : ∃ b, documented_do b ∧ performs false [b] = [DRun "x"; DRun "x"] ∧ shown [b] = Bvjm [] [] [] [].
Proof. exists (Beh (N.lor OnExit OnFailure) Run (AStr "x")). split; [|by vm_compute]. left. split; [done|]. by exists "x"%string. Qed.
Print Assumptions C73_hidden_refuted.
(** One whose argument has the wrong type runs nothing, but runs a command when read back. *)
Theorem C73_invalid_refuted : ∃ b, documented_when b ∧ performs true [b] = [DBadArg] ∧ performs true (read_back (shown [b])) = [DRun "!invalid!"].
Proof. exists (Beh OnSuccess Run AOther). split; [right; by left|]. by vm_compute. Qed.
Print Assumptions C73_invalid_refuted.

(** ** C74: given with a job, and changed *)
(** A job does what is asked for in its JSON or else in the defaults, those for any end last. *)
Theorem C74_given jf js je df ds de f s e :
  ask_all (match jf with [] => df | _ => jf end) f → ask_all (match js with [] => ds | _ => js end) s → ask_all (match je with [] => de | _ => je end) e →
  let bs := job_behaviours jf js je (of_bvjs OnFailure df) (of_bvjs OnSuccess ds) (of_bvjs OnExit de) in
  performs true bs = s ++ e ∧ performs false bs = f ++ e.
Proof. exact (given_asked jf js je df ds de f s e). Qed.
Print Assumptions C74_given.
(** Nothing on failure turns the default off; cleaning up is the default for any end. *)
Example C74_given_case :
  ask_all [Bvj "" [] false false false true] [] ∧ ask_all [Bvj "x" [] false false false false; Bvj "" [] true false false false] [DRun "x"; DCleanup] ∧
  ask_all [Bvj "" [] false true false false] [DCleanupAll] ∧
  performs true (job_behaviours [Bvj "" [] false false false true] [Bvj "x" [] false false false false; Bvj "" [] true false false false] []
    (of_bvjs OnFailure [Bvj "d" [] false false false false]) [] (of_bvjs OnExit [Bvj "" [] false true false false])) = [DRun "x"; DCleanup; DCleanupAll].
Proof.
  split; [exact (ask_cons _ [] [] [] asks_nothing ask_nil)|]. split; [|split; [exact (ask_cons _ [] _ [] asks_cleanup_all ask_nil)|by vm_compute]].
  refine (ask_cons _ _ [DRun "x"] _ (asks_run "x" _) _); [done|]. exact (ask_cons _ [] _ [] asks_cleanup ask_nil).
Qed.
(** An empty list given for a job does not turn the default off. *)
Theorem C74_empty_refuted : ∃ df, performs false (job_behaviours [] [] [] (of_bvjs OnFailure df) [] []) ≠ [].
Proof. by exists [Bvj "d" [] false false false false]. Qed.
Print Assumptions C74_empty_refuted.
(** Of several properties in one object only one is done. *)
Theorem C74_several_refuted : ∃ j, jrun j = "x"%string ∧ jcleanup j = true ∧ performs true (of_bvjs OnSuccess [j]) = [DRun "x"].
Proof. by exists (Bvj "x" [] true false false false). Qed.
Print Assumptions C74_several_refuted.
(** After a modification a job has, for each end, the last of those set before all but the first of those it had. *)
Theorem C74_modified w new old : those_for w (modify_behaviours new old) =
  match last (those_for w new) with None => those_for w old | Some b => b :: tail (those_for w old) end.
Proof. exact (modify_closed w new old). Qed.
Print Assumptions C74_modified.
(** So it has those set in the place of those it had, if there is at most one for each end. *)
Theorem C74_replaced_partial w new old : NoDup (bwhen <$> new) → NoDup (bwhen <$> old) →
  those_for w (modify_behaviours new old) = if bool_decide (those_for w new = []) then those_for w old else those_for w new.
Proof. exact (modify_exact w new old). Qed.
Print Assumptions C74_replaced_partial.
Example C74_replaced_case : NoDup (bwhen <$> [Beh OnFailure Nothing ANil]) ∧ NoDup (bwhen <$> bs1) ∧
  performs false bs1 = [DRun "a"; DRun "b"] ∧ performs false (modify_behaviours [Beh OnFailure Nothing ANil] bs1) = [DRun "b"].
Proof. split; [apply (bool_decide_unpack _); by vm_compute|]. split; [apply (bool_decide_unpack _); by vm_compute|]. by vm_compute. Qed.
(** Of two set for one end the first is lost, *)
Theorem C74_first_lost_refuted : ∃ b1 b2, documented b1 ∧ documented b2 ∧ performs false [b1; b2] = [DRun "a"; DRun "b"] ∧ performs false (modify_behaviours [b1; b2] []) = [DRun "b"].
Proof.
  exists (Beh OnFailure Run (AStr "a")), (Beh OnFailure Run (AStr "b")).
  split; [split; [by left|left; split; [done|by exists "a"%string]]|]. split; [split; [by left|left; split; [done|by exists "b"%string]]|]. by vm_compute.
Qed.
Print Assumptions C74_first_lost_refuted.
(** and of two that a job had the second stays, even if nothing is to be done. *)
Theorem C74_second_stays_refuted : ∃ old, performs false old = [DRun "a"; DRun "b"] ∧ performs false (modify_behaviours (of_bvjs OnFailure [Bvj "" [] false false false true]) old) = [DRun "b"].
Proof. by exists [Beh OnFailure Run (AStr "a"); Beh OnFailure Run (AStr "b")]. Qed.
Print Assumptions C74_second_stays_refuted.
(** Removal is asked for if one of the behaviours is Remove; *)
Theorem C74_removal bs : removal bs = true ↔ ∃ b, b ∈ bs ∧ bdo b = Remove.
Proof.
  unfold removal. rewrite existsb_exists. split; intros (b&Hb&Hr); exists b.
  - apply bool_decide_eq_true_1 in Hr. by rewrite elem_of_list_In.
  - apply elem_of_list_In in Hb. split; [done|]. by apply bool_decide_eq_true_2.
Qed.
Print Assumptions C74_removal.
Example C74_removal_case : removal [Beh OnFailure Run (AStr "a"); Beh OnFailure Remove ANil] = true ∧ removal bs1 = false.
Proof. by vm_compute. Qed.
(** also of a job, buried because it failed, that asks for it on success. *)
Theorem C74_removal_when_refuted : ∃ bs, bs = job_behaviours [] [Bvj "" [] false false true false] [] [] [] [] ∧ those_for OnFailure bs = [] ∧ those_for OnExit bs = [] ∧ removal bs = true.
Proof. eexists. split; [done|]. by vm_compute. Qed.
Print Assumptions C74_removal_when_refuted.
