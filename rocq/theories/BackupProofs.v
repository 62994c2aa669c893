(** Proofs on backups. *)
From Coq Require Import ZArith Lia.
From stdpp Require Import base option list.
From RecordUpdate Require Import RecordSet.
From Verif Require Import BackupModel BackupSpec.
Import RecordSetNotations.
Open Scope Z_scope.

(** What is being written, by a goroutine or close(). *)
Inductive wpc := WCopying (v : nat) | WPut.
Definition g_writer (g : bgo) : option wpc := match g_pc g with BCopying v => Some (WCopying v) | BPut => Some WPut | _ => None end.
Definition c_writer (c : cpc) : option wpc := match c with CCopying v => Some (WCopying v) | CPut => Some WPut | _ => None end.
Definition writer (s : bdb) : option wpc := match gos s with [g] => g_writer g | _ => c_writer (closer s) end.
Definition bk_upto (b : option bfile) (v : nat) : Prop := match b with None => True | Some Part => False | Some (Whole w) => (w ≤ v)%nat end.
Record inv (s : bdb) : Prop := {
  i_gos : (gos s = [] ∧ backing_up s = false) ∨ (∃ g, gos s = [g] ∧ backing_up s = true ∧ g_nowait g = false ∧ g_until g = (λ t, t + wait s) <$> last s);
  i_closed : closed s = negb (match closer s with CIdle => true | _ => false end);
  i_final : final s = match closer s with CNotif => backing_up s | _ => false end;
  i_stop : stopped s = final s;
  i_notify : notifying s = match closer s with CNotif => if backing_up s then 0%nat else 1%nat | _ => 0%nat end;
  i_past : match closer s with CIdle | CNotif => True | _ => gos s = [] end;
  i_bk : bk_upto (bk s) (changes s);
  i_tmp : match writer s with
          | Some (WCopying v) => tmp s = Some Part ∧ bk_upto (bk s) v ∧ (v ≤ changes s)%nat
          | Some WPut => ∃ v, tmp s = Some (Whole v) ∧ bk_upto (bk s) v ∧ (v ≤ changes s)%nat
          | None => tmp s ≠ Some Part
          end;
  i_wait : min_wait ≤ wait s }.
Lemma upto_mono b v w : bk_upto b v → (v ≤ w)%nat → bk_upto b w.
Proof. destruct b as [[|x]|]; cbn; [done|lia|done]. Qed.
Lemma inv_opened s : opened s → inv s.
Proof.
  intros (v&on&is_s3&old&->&H). unfold new_db. split; cbn; try done; [by left|by destruct old].
Qed.
Lemma inv_background s : inv s → inv (background s).
Proof.
  destruct s as [ch t b n cl bu fi qu en s3' st la wa gs ga no co]. intros [I1 I2 I3 I4 I5 I6 I7 I8 I9]. cbn in *.
  unfold background. cbn. destruct (cl || negb en) eqn:E0; [by split|]. apply orb_false_iff in E0 as [-> E0].
  assert (co = CIdle) as -> by (by destruct co). destruct bu; [by split|].
  destruct I1 as [[-> _]|(g&_&?&_)]; [|done]. split; cbn; try done. right. eexists. split; [done|]. split; [done|]. by rewrite I3.
Qed.
Ltac one := match goal with H : context [[?g] !! ?i] |- _ => destruct i as [|i]; cbn in H; [|done] end.
Ltac inj := match goal with H : Some _ = Some _ |- _ => injection H as <- end.
Ltac st s I := destruct s as [ch t b n cl bu fi qu en s3' st la wa gs ga no co]; destruct I as [I1 I2 I3 I4 I5 I6 I7 I8 I9]; cbn in *.
Lemma inv_change s : inv s → inv (s <| changes ::= S |>).
Proof.
  intros I. st s I. assert (bk_upto b (S ch)) by (eapply upto_mono; [exact I7|lia]).
  split; cbn; try done. unfold writer in *. cbn in *. destruct (match gs with [g] => g_writer g | _ => c_writer co end) as [[v|]|]; [|destruct I8 as (w&?&?&?); exists w; split_and!; [done|done|lia]|done].
  destruct_and!. split_and!; [done|done|lia].
Qed.
Lemma inv_tick dt s : inv s → inv (s <| now ::= λ t, t + dt |>).
Proof. intros I. st s I. by split. Qed.
Lemma inv_go s i s' : inv s → bstep s (EGo i) = Some s' → inv s'.
Proof.
  intros I H. st s I. destruct I1 as [[-> ->]|(g&->&->&N&U)]; [done|]. one. destruct g as [pc un nw sta]. cbn in *. destruct pc; try done.
  - destruct (nw || st || _); [|done]. inj. split; cbn; try done; try (by destruct co). right. by eexists.
  - inj. split; cbn; try done; try (by destruct co). right. by eexists.
Qed.
Lemma inv_copied s i ok s' : inv s → bstep s (ECopied i ok) = Some s' → inv s'.
Proof.
  intros I H. st s I. destruct I1 as [[-> ->]|(g&->&->&N&U)]; [done|]. one. destruct g as [pc un nw sta]. cbn in *. destruct pc; try done.
  destruct I8 as (->&B&V). destruct ok; inj; split; cbn; try done; try (by destruct co); [right; by eexists|by exists v|right; by eexists].
Qed.
Lemma inv_putting s i ok s' : inv s → bstep s (EPut i ok) = Some s' → inv s'.
Proof.
  intros I H. st s I. destruct I1 as [[-> ->]|(g&->&->&N&U)]; [done|]. one. destruct g as [pc un nw sta]. cbn in *. destruct pc; try done.
  inj. destruct I8 as (v&->&B&V). unfold put. cbn. destruct s3', ok; split; cbn; try done; try (by destruct co); right; by eexists.
Qed.
Lemma inv_end s i s' : inv s → bstep s (EEnd i) = Some s' → inv s'.
Proof.
  intros I H. st s I. destruct I1 as [[-> ->]|(g&->&->&N&U)]; [done|]. one. destruct g as [pc un nw sta]. cbn in *. destruct pc; try done.
  inj. unfold writer in I8. cbn in I8. unfold finish. cbn.
  assert (min_wait ≤ (if bool_decide (n - sta > min_wait) then n - sta else wa)) as W by (case_bool_decide; lia).
  assert (c_writer co = None) as C. { destruct co; done. }
  destruct fi.
  - destruct co; try done. subst no. split; cbn; try done; try (by destruct co). by left.
  - destruct qu; split; cbn; try done; try (by destruct co); try (by left); unfold writer; cbn; by rewrite C.
Qed.
Lemma inv_close s s' : inv s → bstep s EClose = Some s' → inv s'.
Proof.
  intros I H. st s I. destruct cl; [done|]. assert (co = CIdle) as -> by (by destruct co).
  destruct I1 as [[-> ->]|(g&->&->&N&U)]; cbn in H; inj; split; cbn; try done; [by left|right; by eexists].
Qed.
Lemma inv_closing s e s' : inv s → bstep s e = Some s' → match e with ENotify | ECheck | ECStart | ECCopied _ | ECPut _ | EShut => True | _ => False end → inv s'.
Proof.
  intros I H He. destruct e; try done; st s I.
  - destruct co; try done. destruct no; [done|]. inj. destruct bu; [done|]. injection I5 as ->. destruct I1 as [[-> _]|(g&_&?&_)]; [|done]. split; cbn; try done. by left.
  - destruct co; try done. inj. subst gs. destruct I1 as [[_ ->]|(g&?&_)]; [|done]. destruct (en && qu); split; cbn; try done; by left.
  - destruct co; try done. inj. subst gs. destruct I1 as [[_ ->]|(g&?&_)]; [|done]. split; cbn; try done; by left.
  - destruct co; try done. subst gs. destruct I1 as [[_ ->]|(g&?&_)]; [|done]. destruct I8 as (->&B&V). destruct ok; inj; split; cbn; try done; try (by left). by exists v.
  - destruct co; try done. inj. subst gs. destruct I1 as [[_ ->]|(g&?&_)]; [|done]. destruct I8 as (v&->&B&V). unfold put; cbn. destruct s3', ok; split; cbn; try done; by left.
  - destruct co; try done. inj. subst gs. destruct I1 as [[_ ->]|(g&?&_)]; [|done]. split; cbn; try done. by left.
Qed.
Lemma inv_gap s m : inv s → inv (s <| gap := m |>).
Proof. intros I. st s I. by split. Qed.
Lemma inv_step s e s' : inv s → bstep s e = Some s' → inv s'.
Proof.
  intros I H. destruct e; try (by eapply inv_closing).
  - cbn in H. destruct (closer s); try done; inj; by apply inv_change.
  - cbn in H. inj. by apply inv_background.
  - cbn in H. case_bool_decide; [|done]. inj. by apply inv_tick.
  - by eapply inv_go.
  - by eapply inv_copied.
  - by eapply inv_putting.
  - by eapply inv_end.
  - cbn in H. destruct (gap s); [done|]. inj. by apply inv_background, inv_gap.
  - by eapply inv_close.
Qed.
Lemma inv_steps es s s' : inv s → bsteps s es = Some s' → inv s'.
Proof.
  revert s. induction es as [|e es IH]; intros s I H; cbn in H; [by injection H as <-|].
  destruct (bstep s e) as [s1|] eqn:E; [|done]. cbn in H. eapply IH; [|exact H]. by eapply inv_step.
Qed.
