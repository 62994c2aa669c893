(** Properties C59 and C60. *)
From Coq Require Import ZArith Lia.
From stdpp Require Import base option list.
From Verif Require Import CloudModel CloudSpec CloudProofs.
Open Scope Z_scope.

(** ** C59: servers are never given more than they have, and the space reported is right *)
(** Whatever calls and whatever goes on in between: what is allocated fits the server, and is what it reckons. *)
Theorem C59_never_more f disk t A s : possible f disk → reached proper (c_new f disk t) A s →
  fits f disk A ∧ usedCores s = total n_cores A ∧ usedZeroCores s = total coreless A ∧ usedRAM s = total n_ram A ∧ usedDisk s = total n_disk A.
Proof. exact (never_more f disk t A s). Qed.
Print Assumptions C59_never_more.
(** Allocate succeeds just when the command fits beside those that are there. *)
Theorem C59_allocate f disk t A s n : possible f disk → reached proper (c_new f disk t) A s → not_negative n →
  ((allocate n s).2 = true ↔ destroyed s = false ∧ fits f disk (n :: A)).
Proof.
  intros Hp H Hn. destruct (destroyed s) eqn:Ed.
  - rewrite allocate_destroyed by done. split; [done|]. by intros [? _].
  - rewrite (allocate_iff f disk A s n Hp (used_reached proper f disk t A s (λ _ _ _ H, H) Hp H) Hn Ed). tauto.
Qed.
Print Assumptions C59_allocate.
(** HasSpaceFor is the number of such commands that fit beside those that are there. *)
Theorem C59_space f disk t A s n : possible f disk → reached proper (c_new f disk t) A s → not_negative n → destroyed s = false →
  ∃ m : nat, check_space n s = Z.of_nat m ∧ ∀ k, fits f disk (replicate k n ++ A) ↔ (k ≤ m)%nat.
Proof.
  intros Hp H Hn Hd. destruct (space_spec f disk A s n Hp (used_reached proper f disk t A s (λ _ _ _ H, H) Hp H) Hn Hd) as (H0 & H1 & H2).
  exists (Z.to_nat (check_space n s)). split; [by rewrite Z2Nat.id|]. destruct Hn as (N1 & N2 & N3).
  assert (0 ≤ coreless n) as N4 by (unfold coreless; case_decide; lia).
  assert (Hmono : ∀ j k, (j ≤ k)%nat → fits f disk (replicate k n ++ A) → fits f disk (replicate j n ++ A)).
  { intros j k Hjk. unfold fits. rewrite !total_app, !total_replicate.
    assert (Hm : ∀ x, 0 ≤ x → Z.of_nat j * x ≤ Z.of_nat k * x) by (intros x Hx; apply Z.mul_le_mono_nonneg_r; lia).
    pose proof (Hm _ N1). pose proof (Hm _ N2). pose proof (Hm _ N3). pose proof (Hm _ N4). lia. }
  intros k. split.
  - intros Hk. destruct (decide (k ≤ Z.to_nat (check_space n s))%nat) as [|Hlt]; [done|]. destruct H2. eapply Hmono, Hk. lia.
  - intros Hk. by eapply Hmono.
Qed.
Print Assumptions C59_space.
(** What a flavor says it has space for is what a new server of that flavor has, if it has cores. *)
Theorem C59_flavor f t n m : 0 < f_cores f → possible f (f_disk f) → not_negative n → flavor_space f n = m →
  0 ≤ m ∧ check_space n (c_new f (f_disk f) t) = m ∧ ∀ k : nat, fits f (f_disk f) (replicate k n) ↔ Z.of_nat k ≤ m.
Proof.
  intros Hc Hp Hn <-. rewrite (flavor_same f t n Hc).
  destruct (C59_space f (f_disk f) t [] _ n Hp (r_new _ _) Hn eq_refl) as (k & -> & Hk). split; [lia|]. split; [done|].
  intros j. specialize (Hk j). rewrite app_nil_r in Hk. rewrite Hk. lia.
Qed.
Print Assumptions C59_flavor.
(** If it has none, the flavor says no commands without cores fit, the server 4. *)
Theorem C59_flavor_refuted : ∃ f n, possible f (f_disk f) ∧ not_negative n ∧ flavor_space f n = 0 ∧ check_space n (c_new f (f_disk f) true) = 4.
Proof. exists (Flavor 0 1000 10), (Need 0 100 1). by vm_compute. Qed.

(** 4 cores, 8000 MB, 20 GB *)
Definition small : flavor := Flavor 4 8000 20.
(** half a core *)
Definition half : need := Need 500 3000 1.
Definition none : need := Need 0 100 0.
Lemma small_possible : possible small 20.
Proof. by vm_compute. Qed.
(** Two commands of half a core run on it, and one without; one of the first ends. One
    more half core fits (for memory), and seven more commands without cores. *)
Example C59_case : ∃ s, reached proper (c_new small 20 true) [none; half] s ∧ check_space half s = 1 ∧ check_space none s = 7 ∧
  (allocate (Need 4000 1 1) s).2 = false ∧ (allocate (Need 3500 4900 19) s).2 = true.
Proof.
  destruct (play proper [] (c_new small 20 true) [LAllocate half; LAllocate half; LAllocate none; LRelease half]) as [[A s]|] eqn:E; [|by vm_compute in E].
  pose proof (play_reached proper _ _ _ _ _ _ (r_new _ _) E) as H. vm_compute in E. injection E as <- <-. eexists. split; [exact H|]. by vm_compute.
Qed.

(** ** C60: idle servers are destroyed, used ones are not *)
(** Short of the races refuted below: *)
(** a server that is destroyed for being idle runs nothing; *)
Theorem C60_in_use_partial f disk t A s : possible f disk → reached quiet (c_new f disk t) A s → destroyed s = true → A = [].
Proof. exact (not_in_use f disk t A s). Qed.
Print Assumptions C60_in_use_partial.
(** the goroutines never wait for each other forever: as long as one has something to do, one of them can go on; *)
Theorem C60_goes_on_partial f disk t A s : possible f disk → reached quiet (c_new f disk t) A s →
  at_rest s ∨ ∃ l s', internal l ∧ quiet A s l ∧ cstep s l = Some s'.
Proof. exact (goes_on f disk t A s). Qed.
Print Assumptions C60_goes_on_partial.
(** nor do they go on forever, if no calls come (this of all schedules); *)
Theorem C60_stops A s : ∃ b : nat, ∀ n s', by_itself A s n s' → (n ≤ b)%nat.
Proof. exists (cnt k_weight (gor s)). intros n s' H. pose proof (stops A s n s' H). lia. Qed.
Print Assumptions C60_stops.
(** and if what was allocated has all been released, the server has been destroyed once they are done. *)
Theorem C60_idle_partial f disk A s : possible f disk → released quiet (c_new f disk true) A s → A = [] → at_rest s → destroyed s = true.
Proof. exact (idle_destroyed f disk A s). Qed.
Print Assumptions C60_idle_partial.

(** In all schedules, with or without races and calls of Destroy: the mutex is held just
    while a goroutine cancels a countdown or waits to receive that it was; when all are
    done it is free, so that calls go on. *)
Theorem C60_mutex f disk t A s : reached proper (c_new f disk t) A s →
  (locked s = true ↔ ∃ p, p ∈ gor s ∧ ((∃ n, p = GDrain n) ∨ ∃ c, p = DSend c)) ∧
  (at_rest s → ∀ n, is_Some (cstep s (LAllocate n)) ∧ is_Some (cstep s (LRelease n))).
Proof.
  intros H. split; [exact (lk_held proper f disk t A s H)|]. intros Hr n. cbn [cstep].
  destruct (locked s) eqn:El; [|by split]. apply (lk_held _ _ _ _ _ _ H) in El as (p & Hp & Hc).
  unfold at_rest in Hr. rewrite Forall_forall in Hr. rewrite (Hr p Hp) in Hc. destruct Hc as [[? ?]|[? ?]]; done.
Qed.
Print Assumptions C60_mutex.
(** Destroy is called during a countdown: it cancels it and destroys the server. *)
Example C60_mutex_case : ∃ s0 s, reached proper (c_new small 20 true) [] s0 ∧ locked s0 = true ∧
  cstep s0 (LRecv 0 1) = Some s ∧ ∃ s', cstep s (LGo 0) = Some s' ∧ reached proper (c_new small 20 true) [] s' ∧ destroyed s' = true ∧ at_rest s'.
Proof.
  destruct (play proper [] (c_new small 20 true) [LAllocate half; LRelease half; LGo 0; LDestroy; LGo 1]) as [[A0 s0]|] eqn:E0; [|by vm_compute in E0].
  pose proof (play_reached proper _ _ _ _ _ _ (r_new _ _) E0) as H0. vm_compute in E0. injection E0 as <- <-.
  eexists _, _. split; [exact H0|]. split; [done|]. split; [by vm_compute|]. eexists. split; [by vm_compute|].
  split; [|split; [done|by repeat constructor]].
  match type of H0 with reached _ _ ?A ?s => destruct (play proper A s [LRecv 0 1; LGo 0]) as [[A1 s1]|] eqn:E1; [|by vm_compute in E1] end.
  pose proof (play_reached proper _ _ _ _ _ _ H0 E1) as H1. vm_compute in E1. injection E1 as <- <-. exact H1.
Qed.

(** A command ends, the countdown starts, a second command comes and it is cancelled, that
    ends too, and the second countdown ends the server. *)
Example C60_case : ∃ s, released quiet (c_new small 20 true) [] s ∧ at_rest s ∧ destroyed s = true.
Proof.
  destruct (play quiet [] (c_new small 20 true) [LAllocate half]) as [[A0 s0]|] eqn:E0; [|by vm_compute in E0].
  pose proof (play_reached quiet _ _ _ _ _ _ (r_new _ _) E0) as H0. vm_compute in E0. injection E0 as <- <-.
  match type of H0 with reached _ _ ?A ?s =>
    destruct (play quiet A s [LRelease half; LGo 0; LAllocate none; LAllocate half; LGo 1; LRecv 0 1; LGo 0; LGo 2; LRecv 0 2; LRelease none;
    LRelease half; LGo 3; LTimer 3; LGo 3; LGo 3]) as [[A' s']|] eqn:E; [|by vm_compute in E] end.
  pose proof (play_released quiet _ _ _ _ _ _ _ H0 E) as H. vm_compute in E. injection E as <- <-. eexists. split; [exact H|]. split; [|done].
  by vm_compute; repeat constructor.
Qed.

(** *** With the races *)
(** The countdown of an idle server has ended; before the goroutine gets the mutex, or
    between that and the destruction, Allocate succeeds. The server is destroyed with the
    command on it. *)
Theorem C60_countdown_over_refuted : ∃ s A, reached proper (c_new small 20 true) A s ∧ destroyed s = true ∧ A = [half].
Proof.
  destruct (play proper [] (c_new small 20 true) [LAllocate half; LRelease half; LGo 0; LTimer 0; LGo 0; LAllocate half; LGo 0]) as [[A s]|] eqn:E; [|by vm_compute in E].
  pose proof (play_reached proper _ _ _ _ _ _ (r_new _ _) E) as H. vm_compute in E. injection E as <- <-. by do 2 eexists.
Qed.
(** Schedules without the end of a countdown during what may prevent it. *)
Definition calm (A : list need) (s : cserver) (l : clabel) : Prop :=
  proper A s l ∧
  match l with
  | LTimer _ => cancels s = 0%nat ∧ GNew ∉ gor s
  | LAllocate _ => Forall (λ p, p ≠ GTime ∧ p ≠ DNew) (gor s)
  | LDestroy => False
  | _ => True
  end.
Global Instance calm_dec A s l : Decision (calm A s l).
Proof. unfold calm. destruct l; apply _. Defined.
(** A command that needs neither cores nor memory, allocated before the goroutine of
    Release runs, does not keep the countdown from starting: the server is destroyed at
    its end with the command on it. *)
Theorem C60_disk_only_refuted : ∃ s A, reached calm (c_new small 20 true) A s ∧ destroyed s = true ∧ A = [Need 0 0 5].
Proof.
  destruct (play calm [] (c_new small 20 true) [LAllocate half; LRelease half; LAllocate (Need 0 0 5); LGo 0; LTimer 0; LGo 0; LGo 0]) as [[A s]|] eqn:E; [|by vm_compute in E].
  pose proof (play_reached calm _ _ _ _ _ _ (r_new _ _) E) as H. vm_compute in E. injection E as <- <-. by do 2 eexists.
Qed.
(** A command starts on a server that counts down and ends before the countdown has been
    cancelled: its Release finds the server on death row and leaves it at that, then the
    countdown is cancelled. The idle server stays. *)
Theorem C60_stays_refuted : ∃ s, released calm (c_new small 20 true) [] s ∧ at_rest s ∧ destroyed s = false ∧
  usedCores s = 0 ∧ usedRAM s = 0 ∧ usedZeroCores s = 0.
Proof.
  destruct (play calm [] (c_new small 20 true) [LAllocate half]) as [[A0 s0]|] eqn:E0; [|by vm_compute in E0].
  pose proof (play_reached calm _ _ _ _ _ _ (r_new _ _) E0) as H0. vm_compute in E0. injection E0 as <- <-.
  match type of H0 with reached _ _ ?A ?s =>
    destruct (play calm A s [LRelease half; LGo 0; LAllocate half; LRelease half; LGo 2; LGo 1; LRecv 0 1; LGo 0]) as [[A' s']|] eqn:E; [|by vm_compute in E] end.
  pose proof (play_released calm _ _ _ _ _ _ _ H0 E) as H. vm_compute in E. injection E as <- <-. eexists. split; [exact H|].
  split; [|by vm_compute]. vm_compute; repeat constructor.
Qed.
(** Destroy gets the mutex while the countdown's goroutine, whose time has come or which
    has just been told of a new command, waits for it: Destroy sends to that goroutine
    while holding the mutex. From then on no goroutine and no call can go on, ever. *)
Definition stuck (s : cserver) : Prop :=
  ∀ ls s', crun s ls = Some s' → destroyed s' = false ∧ (∀ n, cstep s' (LAllocate n) = None) ∧ (∀ n, cstep s' (LRelease n) = None) ∧ ∀ l, internal l → cstep s' l = None.
Lemma stuck_if s : locked s = true → destroyed s = false →
  Forall (λ p, p = GTime ∨ p = GCancel ∨ p = DNew ∨ p = GEnd ∨ ∃ c, p = DSend c) (gor s) → stuck s.
Proof.
  intros Hl Hd Hg ls. revert s Hl Hd Hg. induction ls as [|l ls IH]; intros s Hl Hd Hg s' H.
  - injection H as <-. split; [done|]. split; [intros n; cbn; by rewrite Hl|]. split; [intros n; cbn; by rewrite Hl|].
    rewrite Forall_lookup in Hg. intros [n|n| |i|i|i j] Hi; try done; cbn [cstep].
    + destruct (gor s !! i) as [p|] eqn:Ei; [|done]. cbn [mbind option_bind]. rewrite Hl. destruct (Hg i p Ei) as [->|[->|[->|[->|[c ->]]]]]; done.
    + destruct (gor s !! i) as [p|] eqn:Ei; [|done]. destruct (Hg i p Ei) as [->|[->|[->|[->|[c ->]]]]]; done.
    + destruct (gor s !! i) as [p|] eqn:Ei; [|done]. cbn [mbind option_bind]. destruct (gor s !! j) as [q|] eqn:Ej; [|done]. cbn [mbind option_bind].
      destruct (Hg i p Ei) as [->|[->|[->|[->|[c ->]]]]]; destruct (Hg j q Ej) as [->|[->|[->|[->|[c' ->]]]]]; done.
  - cbn [crun] in H. destruct (cstep s l) as [s1|] eqn:E; [|done]. cbn [mbind option_bind] in H. pose proof Hg as Hg'. rewrite Forall_lookup in Hg.
    destruct l as [n|n| |i|i|i j]; cbn [cstep] in E.
    + by rewrite Hl in E.
    + by rewrite Hl in E.
    + injection E as <-. apply (IH _) in H; [done|by destruct s|by destruct s|]. destruct s; cbn in *. apply Forall_app. split; [done|]. constructor; [tauto|done].
    + destruct (gor s !! i) as [p|] eqn:Ei; [|done]. cbn [mbind option_bind] in E. rewrite Hl in E. destruct (Hg i p Ei) as [->|[->|[->|[->|[c ->]]]]]; done.
    + destruct (gor s !! i) as [p|] eqn:Ei; [|done]. destruct (Hg i p Ei) as [->|[->|[->|[->|[c ->]]]]]; done.
    + destruct (gor s !! i) as [p|] eqn:Ei; [|done]. cbn [mbind option_bind] in E. destruct (gor s !! j) as [q|] eqn:Ej; [|done]. cbn [mbind option_bind] in E.
      destruct (Hg i p Ei) as [->|[->|[->|[->|[c ->]]]]]; destruct (Hg j q Ej) as [->|[->|[->|[->|[c' ->]]]]]; done.
Qed.
Theorem C60_deadlock_refuted : ∃ s1 s2 A1 A2, reached proper (c_new small 20 true) A1 s1 ∧ stuck s1 ∧ GTime ∈ gor s1 ∧
  reached proper (c_new small 20 true) A2 s2 ∧ stuck s2 ∧ GCancel ∈ gor s2.
Proof.
  destruct (play proper [] (c_new small 20 true) [LAllocate half; LRelease half; LGo 0; LTimer 0; LDestroy; LGo 1]) as [[A1 s1]|] eqn:E1; [|by vm_compute in E1].
  destruct (play proper [] (c_new small 20 true) [LAllocate half; LRelease half; LGo 0; LAllocate half; LGo 1; LRecv 0 1; LDestroy; LGo 2]) as [[A2 s2]|] eqn:E2; [|by vm_compute in E2].
  pose proof (play_reached proper _ _ _ _ _ _ (r_new _ _) E1) as H1. pose proof (play_reached proper _ _ _ _ _ _ (r_new _ _) E2) as H2.
  vm_compute in E1. injection E1 as <- <-. vm_compute in E2. injection E2 as <- <-. do 4 eexists. split; [exact H1|].
  split; [apply stuck_if; [done|done|]|split; [cbn; left|split; [exact H2|split; [apply stuck_if; [done|done|]|cbn; left]]]].
  - cbn. repeat (apply Forall_cons; split; [naive_solver|]). done.
  - cbn. repeat (apply Forall_cons; split; [naive_solver|]). done.
Qed.
Print Assumptions C60_deadlock_refuted.
