(** C31: pausing, resuming, draining. *)
From Coq Require Import ZArith Lia.
From stdpp Require Import base option list.
From Verif Require Import PauseModel PauseSpec PauseProofs.
Open Scope Z_scope.

(** ** The methods: pauses nest, further resumes do nothing; who made the difference is told *)
Theorem C31_nesting : ∀ cs, Forall (λ c, c = CPause ∨ c = CResume) cs →
  (reservable (do_calls fresh cs).1 ↔ depth cs = 0%nat) ∧
  (pause (do_calls fresh cs).1).2 = AOk (bool_decide (depth cs = 0%nat)) ∧
  (resume (do_calls fresh cs).1).2 = AOk (bool_decide (depth cs = 1%nat)).
Proof.
  intros cs H. pose proof (nests_calls cs H) as Hn. split; [by apply nests_reservable|].
  destruct (nests_pause _ _ Hn) as (s1 & -> & _), (nests_resume _ _ Hn) as (s2 & -> & _). done.
Qed.
Print Assumptions C31_nesting.
Example C31_nesting_case : depth [CResume; CPause; CPause; CResume; CResume; CResume; CPause] = 1%nat ∧
  (do_calls fresh [CResume; CPause; CPause; CResume; CResume; CResume; CPause]).2 =
    [AOk false; AOk true; AOk false; AOk false; AOk true; AOk false; AOk true] ∧
  ¬ reservable (do_calls fresh [CResume; CPause; CPause; CResume; CResume; CResume; CPause]).1.
Proof. split_and!; [done|by vm_compute|]. by intros [_ H]. Qed.

(** ** After Drain nothing but the end follows: pauses and resumes are refused, and no
    reserve that comes then gets a job; after Stop everything is refused *)
Theorem C31_drain : ∀ before after,
  let s := (do_call (do_calls fresh before).1 CDrain).1 in
  let s' := (do_calls s after).1 in
  ¬ reservable s' ∧
  (up s' = true → (pause s').2 = ABeingDrained ∧ (resume s').2 = ABeingDrained) ∧
  (up s' = false → (pause s').2 = ANoServer ∧ (resume s').2 = ANoServer ∧ (set_drain s').2 = ANoServer) ∧
  (CStop ∈ before ∨ CStop ∈ after ↔ up s' = false).
Proof.
  intros before after s s'.
  assert (Hok : ∀ s cs, (mode s = MDrain → up s = true → drain s = true) → (up s = false → mode s = MDrain) →
    let s2 := (do_calls s cs).1 in (mode s2 = MDrain → up s2 = true → drain s2 = true) ∧ (up s2 = false → mode s2 = MDrain) ∧ (up s2 = false ↔ up s = false ∨ CStop ∈ cs)).
  { clear. intros s cs. revert s. induction cs as [|c cs IH]; intros s H1 H2; cbn; [rewrite elem_of_nil; naive_solver|].
    assert (Hc : let s2 := (do_call s c).1 in (mode s2 = MDrain → up s2 = true → drain s2 = true) ∧ (up s2 = false → mode s2 = MDrain) ∧ (up s2 = false ↔ up s = false ∨ c = CStop)).
    { destruct s as [u d m k]. cbn in *. destruct c; cbn; unfold pause, resume, set_drain, shut; cbn; destruct u; cbn; try destruct d; cbn; try destruct m; cbn; repeat case_bool_decide; cbn; naive_solver. }
    destruct (do_call s c) as [s1 a]. cbn in Hc. destruct Hc as (C1 & C2 & C3). specialize (IH s1 C1 C2).
    destruct (do_calls s1 cs) as [s2 l]. cbn in *. rewrite elem_of_cons. naive_solver. }
  destruct (Hok fresh before) as (B1 & B2 & B3); [done|done|]. set (s0 := (do_calls fresh before).1) in *.
  assert (Ho : over s ∧ up s = up s0).
  { unfold s. cbn. unfold set_drain. destruct s0 as [u d m k]; cbn in *. destruct u; cbn; [|split; [|done]; split; cbn; naive_solver].
    destruct d; cbn; [|done]. by destruct m. }
  destruct Ho as [Ho Hu]. destruct (Hok s after) as (A1 & A2 & A3); [by destruct Ho|by destruct Ho|]. 
  pose proof (proj1 (over_calls s after Ho)) as Ho'. fold s' in A1, A2, A3, Ho'. split_and!.
  - by apply over_not.
  - intros Hs. rewrite over_pause, over_resume by done. by rewrite Hs.
  - intros Hs. rewrite over_pause, over_resume, over_drain by done. by rewrite Hs.
  - rewrite A3, Hu, B3. cbn. naive_solver.
Qed.
Print Assumptions C31_drain.
Example C31_drain_case : (do_calls fresh [CPause; CDrain; CResume; CPause; CDrain; CStop; CResume]).2 =
  [AOk true; AOk true; ABeingDrained; ABeingDrained; AOk false; AOk true; ANoServer].
Proof. by vm_compute. Qed.

(** ** The same for requests: however they are interleaved, a Drain is final *)
Theorem C31_drain_interleaved : ∀ es1 es2 y1 y2, run started es1 = Some y1 → PDraining ∈ gos y1 → run y1 es2 = Some y2 →
  ¬ reservable (srv y2).
Proof.
  intros es1 es2 y1 y2 H1 Hd H2. pose proof (sound_run _ _ H1) as Hs.
  destruct (over_run _ _ _ Hs (proj2 (proj2 (proj2 Hs)) Hd) H2) as [(A & _) Hm]. intros [Hu Hf]. rewrite A in Hf; done.
Qed.
Print Assumptions C31_drain_interleaved.
Example C31_drain_interleaved_case : ∃ y1 y2,
  run started [ERequest QMod; ERequest QDrain; EGo 1 true; EGo 0 true; EGo 0 true; EGo 1 true] = Some y1 ∧ PDraining ∈ gos y1 ∧
  run y1 [EGo 0 true; ERequest QResume; EGo 2 true; EGo 2 true; ERequest QReserve; EGo 3 true; EGo 1 true; EGo 1 true; EGo 1 true; ERequest QReserve; EGo 4 true] = Some y2 ∧
  gos y2 !! 2%nat = Some (PEnd RError) ∧ gos y2 !! 3%nat = Some (PEnd ROk) ∧ gos y2 !! 4%nat = Some (PEnd RClosed).
Proof. eexists _, _. split; [vm_compute; reflexivity|]. split; [apply (bool_decide_unpack _); by vm_compute|]. split; [vm_compute; reflexivity|]. by vm_compute. Qed.
(** and it stops the server after a moment without running jobs *)
Theorem C31_drain_idle : ∀ es y, run started es = Some y → QStop ∉ requests es → up (srv y) = false →
  ∃ es1 es2 y1, es = es1 ++ es2 ∧ run started es1 = Some y1 ∧ running y1 = 0%nat ∧ mode (srv y1) = MDrain.
Proof. intros es y H1 H2 H3. apply (stop_idle es y H1 H2). by left. Qed.
Print Assumptions C31_drain_idle.
Definition es_drain : list event := [ERequest QReserve; EGo 0 true; ERequest QDrain; EGo 1 true; EGo 1 true; EGo 1 true; EGo 0 true; EGo 1 true].
(** but not necessarily without one when it does: a reserve may still be under way *)
Theorem C31_drain_running_refuted : ∃ es y, run started es = Some y ∧ QStop ∉ requests es ∧ up (srv y) = false ∧ running y = 1%nat ∧ gos y !! 0%nat = Some (PEnd RJob).
Proof. exists es_drain. eexists. split; [vm_compute; reflexivity|]. split_and!; try done. apply (bool_decide_unpack _). by vm_compute. Qed.
Print Assumptions C31_drain_running_refuted.

(** ** Requests served one at a time: jobs are reservable exactly if the last request to
    pause or resume was to resume; modifications make no difference *)
Theorem C31_requests_partial : ∀ es y, run started es = Some y → one_at_a_time es → QDrain ∉ requests es → QStop ∉ requests es → quiet y →
  reservable (srv y) ↔ wanted_paused (requests es) = false.
Proof. exact serial_reservable. Qed.
Print Assumptions C31_requests_partial.
Definition es_serial : list event :=
  [ERequest QPause; EGo 0 true; EGo 0 true; ERequest QPause; EGo 1 true; EGo 1 true; EGo 1 true; ERequest QMod; EGo 2 true; EGo 2 true; EGo 2 true;
   ERequest QReserve; EGo 3 true; ERequest QResume; EGo 4 true; EGo 4 true; ERequest QReserve; EGo 5 true; EGo 5 true].
Example C31_requests_case : ∃ y, run started es_serial = Some y ∧ quiet y ∧ one_at_a_time es_serial ∧
  gos y !! 3%nat = Some (PEnd ROk) ∧ gos y !! 5%nat = Some (PEnd RJob) ∧ wanted_paused (requests es_serial) = false.
Proof.
  eexists. split; [vm_compute; reflexivity|]. split; [repeat constructor; by eexists|]. split; [|done].
  intros es1 q es2 y Heq Hr.
  assert (Hin : es1 ∈ (λ n, take n es_serial) <$> [0; 3; 7; 11; 13; 16]%nat).
  { assert (Hl : es_serial !! length es1 = Some (ERequest q)) by (rewrite Heq; by apply list_lookup_middle).
    assert (Ht : es1 = take (length es1) es_serial) by (by rewrite Heq, take_app). rewrite Ht. apply elem_of_list_fmap. exists (length es1). split; [done|].
    clear Ht Hr Heq. do 19 (destruct es1 as [|? es1]; [cbn in *; try discriminate; repeat (first [left; done|right])|]; cbn in Hl). done. }
  clear Heq. repeat (apply elem_of_cons in Hin as [->|Hin]; [vm_compute in Hr; injection Hr as <-; repeat constructor; by eexists|]). by apply elem_of_nil in Hin.
Qed.
(** Not so when a request to pause comes during a modification: it is answered, but when
    the modification ends jobs are reservable, without any request to resume *)
Theorem C31_pause_lost_refuted : ∃ es y, run started es = Some y ∧ quiet y ∧ requests es = [QMod; QPause] ∧
  gos y !! 1%nat = Some (PEnd ROk) ∧ reservable (srv y).
Proof.
  exists [ERequest QMod; EGo 0 true; EGo 0 true; ERequest QPause; EGo 1 true; EGo 1 true; EGo 1 true; EGo 0 true].
  eexists. split; [vm_compute; reflexivity|]. split_and!; try done. repeat constructor; by eexists.
Qed.
Print Assumptions C31_pause_lost_refuted.

(** ** Jobs are modified only while no reserve can start, if nobody resumes *)
Theorem C31_modify_paused_partial : ∀ es y, run started es = Some y → QResume ∉ requests es → PModifying ∈ gos y → ¬ reservable (srv y).
Proof. exact modifying_paused. Qed.
Print Assumptions C31_modify_paused_partial.
Example C31_modify_paused_case : ∃ y, run started [ERequest QMod; ERequest QMod; ERequest QPause; EGo 0 true; EGo 1 true; EGo 2 true; EGo 0 true; EGo 2 true; EGo 1 true; EGo 0 true; EGo 2 true] = Some y ∧
  gos y = [PEnd ROk; PModifying; PEnd ROk].
Proof. eexists. split; vm_compute; reflexivity. Qed.
Theorem C31_modify_resumed_refuted : ∃ es y, run started es = Some y ∧ PModifying ∈ gos y ∧ reservable (srv y).
Proof.
  exists [ERequest QMod; EGo 0 true; EGo 0 true; ERequest QResume; EGo 1 true; EGo 1 true]. eexists. split; [vm_compute; reflexivity|].
  split; [apply (bool_decide_unpack _); by vm_compute|done].
Qed.
Print Assumptions C31_modify_resumed_refuted.

(** ** A job is given only to a reserve that came while jobs were reservable *)
Theorem C31_given_when_open : ∀ es y i, run started es = Some y → gos y !! i = Some (PEnd RJob) →
  ∃ es1 f es2 y1, es = es1 ++ EGo i f :: es2 ∧ run started es1 = Some y1 ∧ gos y1 !! i = Some (PNew QReserve) ∧ reservable (srv y1).
Proof. intros es y i Hr Hi. eapply given_when_open; [done|done|by right]. Qed.
Print Assumptions C31_given_when_open.
Example C31_given_when_open_case : ∃ y, run started es_serial = Some y ∧ gos y !! 5%nat = Some (PEnd RJob).
Proof. eexists. split; vm_compute; reflexivity. Qed.
(** but it may be given later, long after the pause was answered, or while jobs are modified *)
Theorem C31_given_while_paused_refuted : ∃ es y y' i, run started es = Some y ∧ requests es = [QReserve; QPause] ∧ gos y !! 1%nat = Some (PEnd ROk) ∧
  step y (EGo i true) = Some y' ∧ gos y' !! i = Some (PEnd RJob) ∧ ¬ reservable (srv y).
Proof.
  exists [ERequest QReserve; EGo 0 true; ERequest QPause; EGo 1 true; EGo 1 true]. eexists _, _, 0%nat.
  split; [vm_compute; reflexivity|]. split; [done|]. split; [done|]. split; [vm_compute; reflexivity|]. split; [done|]. by intros [_ H].
Qed.
Print Assumptions C31_given_while_paused_refuted.
Theorem C31_given_while_modifying_refuted : ∃ es y y' i, run started es = Some y ∧ PModifying ∈ gos y ∧
  step y (EGo i true) = Some y' ∧ gos y' !! i = Some (PEnd RJob).
Proof.
  exists [ERequest QReserve; EGo 0 true; ERequest QMod; EGo 1 true; EGo 1 true]. eexists _, _, 0%nat.
  split; [vm_compute; reflexivity|]. split; [apply (bool_decide_unpack _); by vm_compute|]. split; [vm_compute; reflexivity|]. done.
Qed.
Print Assumptions C31_given_while_modifying_refuted.
