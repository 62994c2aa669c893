(** Property C53: reserve requests that are held back. Vocabulary in WaitSpec.v. *)
From Coq Require Import Lia.
From stdpp Require Import base option list.
From Verif Require Import WaitModel WaitSpec WaitProofs.

(** * C53 *)
(** Full: for every schedule, when nothing is going on in the server, no reserve request
    is held. Missing: add requests that put no new job in the queue, calls to the queue
    that fail, and a paused server (all refuted below). *)
Theorem C53_partial : ∀ ls s,
  steps fruitful w_new ls s → at_rest s → paused s = false → waiting s = [].
Proof. exact none_held. Qed.
Print Assumptions C53_partial.
(** Left to itself the server, unless paused, lets every held request go after boundedly
    many steps. *)
Theorem C53_let_go_partial : ∀ ls s, steps fruitful w_new ls s → paused s = false →
  ∃ n, ∀ ls' s', Forall internal ls' → steps fruitful s ls' s' →
    length ls' ≤ n ∧ (waiting s' = [] ∨ ∃ l, internal l ∧ fruitful s' l ∧ is_Some (wstep s' l)).
Proof. exact all_let_go. Qed.
Print Assumptions C53_let_go_partial.
(** It comes to rest after boundedly many steps in any case. *)
Theorem C53_comes_to_rest : ∀ ls s, wrun w_new ls = Some s →
  ∃ n, ∀ ls' s', Forall internal ls' → wrun s ls' = Some s' →
    length ls' ≤ n ∧ (at_rest s' ∨ ∃ l, internal l ∧ is_Some (wstep s' l)).
Proof. exact comes_to_rest. Qed.
Print Assumptions C53_comes_to_rest.

(** A reserve request is held if, and only if, a request has announced jobs and since then
    no callback has ended and no request has found that its jobs do not come, or the
    callback is at work. *)
Theorem C53_held : ∀ ls s, wrun w_new ls = Some s → ∃ s', wstep s WReserve = Some s' ∧ next s' = S (next s) ∧
  waiting s' = if announced false w_new ls || bool_decide (cb s = CBody) then waiting s ++ [next s] else waiting s.
Proof. exact held. Qed.
Print Assumptions C53_held.
(** A request that is held stays so until a callback ends. *)
Theorem C53_kept : ∀ s l s', wstep s l = Some s' → l ≠ WEnd → l ≠ WChanged → waiting s `prefix_of` waiting s'.
Proof. exact kept. Qed.
Print Assumptions C53_kept.

Local Definition nothing : outcome := Outcome false false false.
Local Definition some_ready : outcome := Outcome true false false.
Local Definition some_other : outcome := Outcome false true false.
Local Definition failed : outcome := Outcome false false true.
Ltac next_step := eapply steps_cons; [first [exact I|split; [done|first [intros H; discriminate H|intros _; by (left + right)]]]|by vm_compute|].
(** Jobs are added and a job is kicked; two reserves are held, one during the first
    callback and one while the recall for the kicked job is due; in the end none is. *)
Example C53_case : ∃ ls s1 ls' s,
  steps fruitful w_new ls s1 ∧ length (waiting s1) = 2 ∧ steps fruitful s1 ls' s ∧
  at_rest s ∧ paused s = false ∧ waiting s = [] ∧ next s = 2.
Proof.
  eexists [WAdd 1; WGo 0 nothing; WGo 0 some_other; WGo 0 nothing; WGo 0 nothing; WGo 0 some_ready; WChanged; WEnter; WCheck; WBegin;
           WReserve; WKick 1; WGo 1 nothing; WReserve], _,
          [WGo 1 some_ready; WEnter; WEnd; WDecide; WRecall; WEnter; WCheck; WBegin; WEnd; WDecide; WGo 1 nothing], _.
  split; [repeat next_step; apply steps_nil|]. split; [by vm_compute|].
  split; [repeat next_step; apply steps_nil|]. split; [by repeat constructor|by vm_compute].
Qed.
(** A callback ends between the two announcements of an add request; a reserve request is
    held after the second, and none after a kick that failed. *)
Example C53_held_case : ∃ ls1 ls2 s1 s2,
  wrun w_new ls1 = Some s1 ∧ announced false w_new ls1 = true ∧ cb s1 = CIdle ∧ waiting s1 = [0] ∧
  wrun w_new ls2 = Some s2 ∧ announced false w_new ls2 = false ∧ cb s2 = CIdle ∧ waiting s2 = [] ∧ next s2 = 1.
Proof.
  eexists [WEvent some_ready; WEnter; WCheck; WBegin; WAdd 0; WGo 0 nothing; WEnd; WDecide; WGo 0 nothing; WGo 0 nothing; WReserve],
          [WKick 1; WGo 0 nothing; WGo 0 failed; WGo 0 nothing; WReserve], _, _.
  by vm_compute.
Qed.
(** An add request all of whose jobs are in the queue already: nothing fails, the server
    has nothing left to do, and it holds this and every further reserve request. *)
Theorem C53_duplicates_refuted : ∃ ls s, wrun w_new ls = Some s ∧ at_rest s ∧ paused s = false ∧
  (∀ i o, WGo i o ∈ ls → o_err o = false) ∧ WPause ∉ ls ∧
  ∀ n, ∃ s', wrun s (replicate n WReserve) = Some s' ∧ at_rest s' ∧ length (waiting s') = S n.
Proof.
  exists [WAdd 0; WGo 0 nothing; WGo 0 nothing; WGo 0 nothing; WGo 0 nothing; WReserve], (WState true false [0] false CIdle false 0 0 [QDone] 1).
  split; [by vm_compute|]. split; [by repeat constructor|]. split; [done|]. split.
  { intros i o H. repeat (apply elem_of_cons in H as [H|H]; [by inversion H|]). by apply elem_of_nil in H. }
  split.
  { intros H. repeat (apply elem_of_cons in H as [H|H]; [by inversion H|]). by apply elem_of_nil in H. }
  assert (∀ n w m, ∃ s', wrun (WState true false w false CIdle false 0 0 [QDone] m) (replicate n WReserve) = Some s' ∧ at_rest s' ∧ length (waiting s') = length w + n) as H.
  { induction n as [|n IH]; intros w m; cbn.
    - eexists. split; [done|]. split; [by repeat constructor|]. cbn. lia.
    - destruct (IH (w ++ [m]) (S m)) as (s' & H & Hr & Hl). exists s'. split; [exact H|]. split; [done|].
      rewrite Hl, app_length. cbn. lia. }
  intros n. destruct (H n [0] 1) as (s' & ? & ? & ?). by exists s'.
Qed.
Print Assumptions C53_duplicates_refuted.
(** A Kick that fails, of a job that is no longer buried: racPending is cleared and the
    request that was held meanwhile is forgotten, while later ones go ahead. *)
Theorem C53_failed_kick_refuted : ∃ ls s, wrun w_new ls = Some s ∧ at_rest s ∧ paused s = false ∧
  waiting s = [0] ∧ racPending s = false ∧ next s = 2.
Proof.
  eexists [WKick 1; WGo 0 nothing; WReserve; WGo 0 failed; WGo 0 nothing; WGo 0 nothing; WReserve], _.
  split; [by vm_compute|]. split; [by repeat constructor|by vm_compute].
Qed.
Print Assumptions C53_failed_kick_refuted.
(** A dependent job that cannot be updated, since it was completed meanwhile: the add
    request ends with racPending set. *)
Theorem C53_failed_update_refuted : ∃ ls s, wrun w_new ls = Some s ∧ at_rest s ∧ paused s = false ∧ waiting s = [0].
Proof.
  eexists [WAdd 1; WGo 0 nothing; WGo 0 failed; WReserve], _.
  split; [by vm_compute|]. split; [by repeat constructor|by vm_compute].
Qed.
Print Assumptions C53_failed_update_refuted.
(** A pause between the adding and the callback: the callback does nothing, and requests
    held before are held until the server is resumed. *)
Theorem C53_paused_refuted : ∃ ls s, steps fruitful w_new ls s ∧ at_rest s ∧ waiting s = [0].
Proof.
  eexists [WAdd 0; WGo 0 nothing; WGo 0 nothing; WGo 0 nothing; WReserve; WGo 0 some_ready; WPause; WEnter; WCheck; WDecide], _.
  split; [repeat next_step; apply steps_nil|]. split; [by repeat constructor|by vm_compute].
Qed.
Print Assumptions C53_paused_refuted.
