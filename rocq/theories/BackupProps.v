(** C78, C79, C80: the backups of the database. *)
From Coq Require Import ZArith Lia.
From stdpp Require Import base option list.
From Verif Require Import BackupModel BackupSpec BackupProofs BackupProofs2 BackupProofs3.
Open Scope Z_scope.

(** ** C78: no change is left out of the backups *)
(** Once a backup was asked for, and none is running or to come, the file has all changes up to then, if nothing fails. *)
Theorem C78_kept s0 es1 s1 es2 s2 : opened s0 → bsteps s0 es1 = Some s1 → closed s1 = false → enabled s1 = true →
  bsteps s1 (ERequest :: es2) = Some s2 → works es2 → EClose ∉ es2 → quiet s2 → backed_up (changes s1) s2.
Proof. exact (kept s0 es1 s1 es2 s2). Qed.
Print Assumptions C78_kept.
(** two changes, the second while the first is being copied *)
Definition two : list bevent := [EChange; ERequest; EGo 0; EGo 0; EChange].
Definition after : list bevent := [ECopied 0 true; EPut 0 true; EEnd 0; EGap; ETick 31; EGo 0; EGo 0; ECopied 0 true; EPut 0 true; EEnd 0].
Definition db0 : bdb := new_db 3 true false (Some 2%nat).
Lemma db0_opened : opened db0.
Proof. exists 3%nat, true, false, (Some 2%nat). split; [done|lia]. Qed.
Example C78_case : ∃ s1 s2, opened db0 ∧ bsteps db0 two = Some s1 ∧ closed s1 = false ∧ enabled s1 = true ∧ bsteps s1 (ERequest :: after) = Some s2 ∧ works after ∧ EClose ∉ after ∧ quiet s2 ∧
  changes s1 = 5%nat ∧ bk s2 = Some (Whole 5).
Proof.
  eexists _, _. split; [exact db0_opened|]. split; [vm_compute; reflexivity|]. split; [done|]. split; [done|]. split; [vm_compute; reflexivity|].
  split. { intros e He. unfold after in He. repeat (apply elem_of_cons in He as [->|He]; [done|]). by apply elem_of_nil in He. }
  split. { unfold after. intros He. repeat (apply elem_of_cons in He as [?|He]; [done|]). by apply elem_of_nil in He. }
  done.
Qed.
(** So it is after close(), unless that comes between the end of a backup and the start of the one that was queued. *)
Theorem C78_final_partial s0 es1 s1 es2 sc es3 s3 : opened s0 → bsteps s0 es1 = Some s1 → closed s1 = false → enabled s1 = true →
  bsteps s1 (ERequest :: es2) = Some sc → bsteps sc (EClose :: es3) = Some s3 → works es2 → works es3 →
  (gap sc = O ∨ backing_up sc = true) → closer s3 = CDone → backed_up (changes s1) s3.
Proof. exact (kept_final s0 es1 s1 es2 sc es3 s3). Qed.
Print Assumptions C78_final_partial.
(** close() comes during the copy: it waits, then backs up again *)
Example C78_final_case : ∃ s1 s3, bsteps db0 two = Some s1 ∧ gap s1 = O ∧
  bsteps s1 (ERequest :: EClose :: [ECopied 0 true; EPut 0 true; EEnd 0; ENotify; ECheck; ECStart; ECCopied true; ECPut true; EShut]) = Some s3 ∧ closer s3 = CDone ∧ bk s3 = Some (Whole 5).
Proof. eexists _, _. split; [vm_compute; reflexivity|]. split; [done|]. split; [vm_compute; reflexivity|]. done. Qed.
(** It is false otherwise: the second change was made and its backup asked for before close(), nothing fails, and it is not in the backup. *)
Theorem C78_final_refuted : ∃ s0 es1 s1 es2 s3, opened s0 ∧ bsteps s0 es1 = Some s1 ∧ closed s1 = false ∧ enabled s1 = true ∧ bsteps s1 (ERequest :: es2) = Some s3 ∧ works es2 ∧
  closer s3 = CDone ∧ gos s3 = [] ∧ gap s3 = O ∧ queued s3 = false ∧ changes s1 = 5%nat ∧ bk s3 = Some (Whole 4).
Proof.
  exists db0, two. eexists _, [ECopied 0 true; EPut 0 true; EEnd 0; EClose; ECheck; EShut; EGap], _.
  split; [exact db0_opened|]. split; [vm_compute; reflexivity|]. split; [done|]. split; [done|]. split; [vm_compute; reflexivity|].
  split. { intros e He. repeat (apply elem_of_cons in He as [->|He]; [done|]). by apply elem_of_nil in He. }
  done.
Qed.
Print Assumptions C78_final_refuted.

(** ** C79: one backup at a time, whole, and not too often; they end *)
(** At all times, also if the manager is killed there. *)
Theorem C79_whole s0 es s : opened s0 → bsteps s0 es = Some s → bk s ≠ Some Part ∧ (writers s ≤ 1)%nat.
Proof. exact (whole s0 es s). Qed.
Print Assumptions C79_whole.
Example C79_whole_case : ∃ s, bsteps db0 (two ++ [ERequest; ERequest]) = Some s ∧ writers s = 1%nat ∧ bk s = Some (Whole 2) ∧ tmp s = Some Part.
Proof. eexists. split; [vm_compute; reflexivity|]. done. Qed.
(** What is in the backup stays in it, whatever fails and wherever it is stopped: the file is replaced by newer ones only. *)
Theorem C79_stays s0 es s es' s' w : opened s0 → bsteps s0 es = Some s → bsteps s es' = Some s' → bk s = Some (Whole w) →
  ∃ w', bk s' = Some (Whole w') ∧ (w ≤ w')%nat.
Proof. intros O H H' B. apply (backed_stays w es' s s'); [|exact H'|by exists w]. eapply inv_steps; [|exact H]. by apply inv_opened. Qed.
Print Assumptions C79_stays.
Example C79_stays_case : ∃ s s', bsteps db0 two = Some s ∧ bsteps s [ECopied 0 true; EPut 0 false; EEnd 0] = Some s' ∧ bk s = Some (Whole 2) ∧ bk s' = Some (Whole 2) ∧ changes s' = 5%nat.
Proof. eexists _, _. split; [vm_compute; reflexivity|]. split; [vm_compute; reflexivity|]. done. Qed.
(** From the end of a backup to the start of the next it takes 30 seconds or as long as the first took, unless close() was called. *)
Theorem C79_spaced s0 es1 s1 i (g : bgo) s2 es2 s3 j (h : bgo) s4 : opened s0 → bsteps s0 es1 = Some s1 → gos s1 !! i = Some g → bstep s1 (EEnd i) = Some s2 →
  bsteps s2 es2 = Some s3 → (∀ k, EEnd k ∉ es2) → gos s3 !! j = Some h → g_pc h = BWait → bstep s3 (EGo j) = Some s4 → closed s3 = false →
  Z.max 30 (now s1 - g_start g) ≤ now s3 - now s1.
Proof. exact (spaced s0 es1 s1 i g s2 es2 s3 j h s4). Qed.
Print Assumptions C79_spaced.
Example C79_spaced_case : ∃ s1 g s2 s3 h s4, bsteps db0 [ERequest; EGo 0; EGo 0; ETick 40; ECopied 0 true; EPut 0 true] = Some s1 ∧ gos s1 !! 0%nat = Some g ∧ bstep s1 (EEnd 0) = Some s2 ∧
  bsteps s2 [ERequest; ETick 40] = Some s3 ∧ gos s3 !! 0%nat = Some h ∧ g_pc h = BWait ∧ bstep s3 (EGo 0) = Some s4 ∧ closed s3 = false.
Proof. do 6 eexists. split; [vm_compute; reflexivity|]. split; [vm_compute; reflexivity|]. split; [vm_compute; reflexivity|]. split; [vm_compute; reflexivity|]. split; [vm_compute; reflexivity|]. split; [done|]. split; [vm_compute; reflexivity|]. done. Qed.
(** The wait is longer than documented after a slow backup: here the last took no time, yet after 31 s the next may not start. *)
Theorem C79_wait_refuted : ∃ s0 es1 s1 g s2 s3 h, opened s0 ∧ bsteps s0 es1 = Some s1 ∧ gos s1 !! 0%nat = Some g ∧ bstep s1 (EEnd 0) = Some s2 ∧ now s1 - g_start g = 0 ∧
  bsteps s2 [ERequest; ETick 31] = Some s3 ∧ gos s3 !! 0%nat = Some h ∧ g_pc h = BWait ∧ bstep s3 (EGo 0) = None.
Proof.
  exists db0, [ERequest; EGo 0; EGo 0; ETick 600; ECopied 0 true; EPut 0 true; EEnd 0; ERequest; ETick 600; EGo 0; EGo 0; ECopied 0 true; EPut 0 true].
  do 5 eexists. split; [exact db0_opened|]. split; [vm_compute; reflexivity|]. split; [vm_compute; reflexivity|]. split; [vm_compute; reflexivity|]. split; [done|]. split; [vm_compute; reflexivity|]. split; [vm_compute; reflexivity|]. done.
Qed.
Print Assumptions C79_wait_refuted.
(** Backups and close() make only so many steps, *)
Theorem C79_ends s0 es s : opened s0 → bsteps s0 es = Some s → ∃ n, ∀ es' s', bsteps s es' = Some s' → EClose ∉ es' → (closed s = true ∨ ERequest ∉ es') → (length (List.filter own es') ≤ n)%nat.
Proof. intros O H. exists (weight s). intros es' s' H' N R. eapply ends; [|exact H'|done|done]. eapply inv_steps; [|exact H]. by apply inv_opened. Qed.
Print Assumptions C79_ends.
(** and one can always be made, after some time, until none is left: close() does not wait forever. *)
Theorem C79_goes_on s0 es s : opened s0 → bsteps s0 es = Some s → gos s ≠ [] ∨ gap s ≠ O ∨ (closer s ≠ CIdle ∧ closer s ≠ CDone) →
  ∃ dt e, 0 ≤ dt ∧ own e = true ∧ is_Some (bsteps s [ETick dt; e]).
Proof. intros O H. apply goes_on. eapply inv_steps; [|exact H]. by apply inv_opened. Qed.
Print Assumptions C79_goes_on.
Example C79_goes_on_case : ∃ s, bsteps db0 (two ++ [ERequest; EClose]) = Some s ∧ closed s = true ∧ closer s = CNotif ∧ notifying s = O.
Proof. eexists. split; [vm_compute; reflexivity|]. done. Qed.

(** ** C80: what is opened *)
(** The database, if it can be; the backup is left as it is. *)
Theorem C80_used is_s3 dl cp v bkup : init_db false is_s3 dl cp (Good v) bkup = (Some v, Good v, bkup).
Proof. unfold init_db. cbn. destruct is_s3; [by destruct bkup|done]. Qed.
Print Assumptions C80_used.
(** In development both are removed first. *)
Theorem C80_development is_s3 dl cp db bkup : init_db true is_s3 dl cp db bkup = (Some O, Good 0, Missing).
Proof. unfold init_db. by destruct is_s3. Qed.
Print Assumptions C80_development.
(** Otherwise the backup. *)
Theorem C80_restored is_s3 db v : db = Missing ∨ db = Bad → init_db false is_s3 true true db (Good v) = (Some v, Good v, Good v).
Proof. intros [-> | ->]; by destruct is_s3. Qed.
Print Assumptions C80_restored.
Example C80_restored_case : init_db false true true true Bad (Good 7) = (Some 7%nat, Good 7, Good 7) ∧ Bad ≠ Good 7.
Proof. done. Qed.
(** If there is a backup on the local disk, or the download works, no new database is made; what is opened was there. *)
Theorem C80_not_fresh_partial is_s3 dl cp db bkup v db' bk' : init_db false is_s3 dl cp db bkup = (Some v, db', bk') → bkup ≠ Missing → is_s3 = false ∨ dl = true →
  (db = Good v ∨ (db ≠ Good v ∧ bkup = Good v)) ∧ bk' = bkup.
Proof.
  intros H Hb Hs. unfold init_db in H. destruct db as [| |x]; destruct bkup as [| |y]; try done; destruct is_s3, dl, cp; cbn in H; try (by destruct Hs); simplify_eq; (split; [|done]); try (by left); by right.
Qed.
Print Assumptions C80_not_fresh_partial.
Example C80_not_fresh_case : init_db false true true true Missing (Good 7) = (Some 7%nat, Good 7, Good 7).
Proof. done. Qed.
(** False when the download fails: a new database is made, and its first backup replaces the one in S3. *)
Theorem C80_download_refuted : ∃ s, init_db false true false true Missing (Good 7) = (Some O, Good 0, Good 7) ∧
  bsteps (new_db 0 true true (Some 7%nat)) [EChange; ERequest; EGo 0; EGo 0; ECopied 0 true; EPut 0 true] = Some s ∧ bk s = Some (Whole 1).
Proof. eexists. split; [done|]. split; [vm_compute; reflexivity|]. done. Qed.
Print Assumptions C80_download_refuted.
(** False of a database that cannot be read and has no backup: an error, where a new one is documented. *)
Theorem C80_corrupt_refuted cp : init_db false false true cp Bad Missing = (None, Bad, Missing).
Proof. done. Qed.
Print Assumptions C80_corrupt_refuted.
(** Whenever the manager is killed, and the database lost, the backup file can be opened if there is one, and has what it had. *)
Theorem C80_killed s0 es s cp db : opened s0 → bsteps s0 es = Some s → s3 s = false → db = Missing ∨ db = Bad → bk s ≠ None →
  cp = true → ∃ w, bk s = Some (Whole w) ∧ init_db false false true cp db (on_disk (bk s)) = (Some w, Good w, Good w).
Proof.
  intros O H _ Hd Hb ->. destruct (whole s0 es s O H) as [Hw _]. destruct (bk s) as [[|w]|]; [done| |done]. exists w. split; [done|]. by apply (C80_restored false).
Qed.
Print Assumptions C80_killed.
Example C80_killed_case : ∃ s, bsteps db0 (two ++ [ECopied 0 true]) = Some s ∧ bk s = Some (Whole 2) ∧ tmp s = Some (Whole 4) ∧ s3 s = false.
Proof. eexists. split; [vm_compute; reflexivity|]. done. Qed.
