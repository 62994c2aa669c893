(** Proofs on backups: nothing is left out, and it ends. *)
From Coq Require Import ZArith Lia.
From stdpp Require Import base option list.
From RecordUpdate Require Import RecordSet.
From Verif Require Import BackupModel BackupSpec BackupProofs.
Import RecordSetNotations.
Open Scope Z_scope.

(** The first [v] changes are in the backup, or will be. *)
Definition has_tmp (v : nat) (s : bdb) : Prop := ∃ w, tmp s = Some (Whole w) ∧ (v ≤ w)%nat.
Definition will (v : nat) (s : bdb) : Prop :=
  backed_up v s ∨
  (queued s = true ∧ match closer s with CIdle | CNotif | CCheck => True | _ => False end) ∨
  (closed s = false ∧ gap s ≠ O ∧ backing_up s = false) ∨
  (∃ g, gos s = [g] ∧ match g_pc g with BWait | BCopy => True | BCopying w => (v ≤ w)%nat | BPut => has_tmp v s | BEnd => False end) ∨
  match closer s with CCopy => True | CCopying w => (v ≤ w)%nat | CPut => has_tmp v s | _ => False end.
Definition cov (v : nat) (s : bdb) : Prop := enabled s = true ∧ (v ≤ changes s)%nat ∧ will v s.
Ltac w1 := left. 
Ltac w2 := right; left. 
Ltac w3 := right; right; left. 
Ltac w4 := right; right; right; left. 
Ltac w5 := right; right; right; right.
Ltac cases := match goal with H : will _ _ |- _ => destruct H as [H|[[H1 H2]|[(H1&H2&H3)|[(g&H1&H2)|H]]]] end.
Ltac dst s := destruct s as [ch t b n cl bu fi qu en s3' st la wa gs ga no co]; unfold cov, will, backed_up, has_tmp in *; cbn in *.
Lemma cov_background v s : inv s → cov v s → cov v (background s).
Proof.
  intros I (En&Hv&C). unfold background. destruct (closed s || negb (enabled s)) eqn:E0; [done|]. apply orb_false_iff in E0 as [E0 _].
  pose proof (i_closed s I) as Ic. pose proof (i_gos s I) as Ig. rewrite E0 in Ic.
  destruct (backing_up s) eqn:E1.
  - split; [done|]. split; [done|]. w2. split; [done|]. cbn. by destruct (closer s).
  - split; [done|]. split; [done|]. w4. cbn. destruct Ig as [[-> _]|(g&_&?&_)]; [|done]. by eexists.
Qed.
Lemma cov_step v s e s' : inv s → cov v s → bstep s e = Some s' →
  match e with ECopied _ ok | EPut _ ok | ECCopied ok | ECPut ok => ok = true | EClose => backing_up s = true ∨ gap s = O | _ => True end → cov v s'.
Proof.
  intros I C H W. destruct e; cbn [bstep] in H.
  - (* change *) destruct (closer s) eqn:Ec; try done; inj; destruct C as (En&Hv&C); dst s; rewrite Ec in *; (split; [done|]; split; [lia|]); exact C.
  - inj. by apply cov_background.
  - case_bool_decide; [|done]. inj. exact C.
  - (* go *) destruct I as [I1 I2 I3 I4 I5 I6 I7 I8 I9]. destruct C as (En&Hv&C). dst s. destruct I1 as [[-> ->]|(g&->&->&N&U)]; [done|]. one. destruct g as [pc un nw sta]. cbn in *.
    destruct pc; try done.
    + destruct (nw || st || _); [|done]. inj. split; [done|]. split; [done|]. w4. by eexists.
    + inj. split; [done|]. split; [done|]. w4. by eexists.
  - (* copied *) subst ok. destruct I as [I1 I2 I3 I4 I5 I6 I7 I8 I9]. destruct C as (En&Hv&C). dst s. destruct I1 as [[-> ->]|(g&->&->&N&U)]; [done|]. one. destruct g as [pc un nw sta]. cbn in *.
    destruct pc; try done. inj. split; [done|]. split; [done|]. cbn.
    destruct C as [C|[C|[(_&_&?)|[(g&[= <-]&C)|C]]]]; [by left|by w2|done| |].
    + w4. eexists. split; [done|]. cbn. eauto.
    + destruct co; done.
  - (* put *) subst ok. destruct I as [I1 I2 I3 I4 I5 I6 I7 I8 I9]. destruct C as (En&Hv&C). dst s. destruct I1 as [[-> ->]|(g&->&->&N&U)]; [done|]. one. destruct g as [pc un nw sta]. cbn in *.
    destruct pc; try done. inj. destruct I8 as (w&->&B&V). unfold put. cbn.
    assert ((∃ w0, b = Some (Whole w0) ∧ (v ≤ w0)%nat) ∨ (∃ w0, Some (Whole w) = Some (Whole w0) ∧ (v ≤ w0)%nat) → (v ≤ w)%nat) as K.
    { intros [(w0&->&?)|(w0&[= <-]&?)]; cbn in B; lia. }
    assert ((v ≤ w)%nat ∨ (qu = true ∧ match co with CIdle | CNotif | CCheck => True | _ => False end)) as [Hw|Hq].
    { destruct C as [C|[C|[(_&_&?)|[(g&[= <-]&C)|C]]]]; [left; apply K; by left|by right|done|left; apply K; by right|]. destruct co; done. }
    + destruct s3'; cbn; (split; [done|]; split; [done|]); w1; by exists w.
    + destruct s3'; cbn; (split; [done|]; split; [done|]); by w2.
  - (* end *) destruct I as [I1 I2 I3 I4 I5 I6 I7 I8 I9]. destruct C as (En&Hv&C). dst s. destruct I1 as [[-> ->]|(g&->&->&N&U)]; [done|]. one. destruct g as [pc un nw sta]. cbn in *.
    destruct pc; try done. inj. unfold finish. cbn.
    assert ((∃ w0, b = Some (Whole w0) ∧ (v ≤ w0)%nat) ∨ (qu = true ∧ match co with CIdle | CNotif | CCheck => True | _ => False end)) as [Hw|[-> Hq]].
    { destruct C as [C|[C|[(_&_&?)|[(g&[= <-]&C)|C]]]]; [by left|by right|done|done|]. destruct co; done. }
    + destruct fi; [|destruct qu]; cbn; (split; [done|]; split; [done|]); by w1.
    + destruct fi; cbn; (split; [done|]; split; [done|]); [by w2|]. w3. destruct co; done.
  - (* gap *) destruct (gap s) as [|m] eqn:Eg; [done|]. inj.
    destruct (closed s) eqn:Ecl.
    { unfold background. cbn. rewrite Ecl. cbn. destruct C as (En&Hv&C). split; [done|]. split; [done|]. cases; [by w1|by w2|congruence|w4; by exists g|by w5]. }
    pose proof (i_gos s I) as Ig. pose proof (i_closed s I) as Ic. destruct C as (En&Hv&C). unfold background. cbn. rewrite Ecl, En. cbn.
    rewrite Ecl in Ic. destruct (backing_up s) eqn:Eb; (split; [done|]; split; [done|]).
    + w2. cbn. split; [done|]. by destruct (closer s).
    + w4. cbn. destruct Ig as [[-> _]|(g&_&?&_)]; [|done]. by eexists.
  - (* close *) destruct I as [I1 I2 I3 I4 I5 I6 I7 I8 I9]. destruct C as (En&Hv&C). dst s. destruct cl; [done|]. assert (co = CIdle) as -> by (by destruct co).
    destruct bu; inj; cbn; (split; [done|]; split; [done|]).
    + destruct C as [C|[[C _]|[(_&_&?)|[C|C]]]]; [by w1|by w2|done|by w4|done].
    + destruct W as [|W]; [done|]. destruct C as [C|[[C _]|[(_&?&_)|[C|C]]]]; [by w1|by w2|done|by w4|done].
  - destruct I as [I1 I2 I3 I4 I5 I6 I7 I8 I9]. destruct C as (En&Hv&C). dst s. destruct co; try done. destruct no; [done|]. inj. cbn. split; [done|]. split; [done|].
    destruct C as [C|[[C _]|[(?&_&_)|[C|C]]]]; [by w1|by w2|cbn in I2; congruence|by w4|done].
  - destruct I as [I1 I2 I3 I4 I5 I6 I7 I8 I9]. destruct C as (En&Hv&C). dst s. destruct co; try done. inj. cbn. split; [done|]. split; [done|]. subst gs.
    destruct C as [C|[[C _]|[(?&_&_)|[(g&?&_)|C]]]]; [by w1|w5; by rewrite En, C|cbn in I2; congruence|done|done].
  - destruct I as [I1 I2 I3 I4 I5 I6 I7 I8 I9]. destruct C as (En&Hv&C). dst s. destruct co; try done. inj. cbn. split; [done|]. split; [done|]. by w5.
  - subst ok. destruct I as [I1 I2 I3 I4 I5 I6 I7 I8 I9]. destruct C as (En&Hv&C). dst s. destruct co; try done. inj. cbn. split; [done|]. split; [done|]. subst gs.
    destruct C as [C|[[_ C]|[(?&_&_)|[(g&?&_)|C]]]]; [by w1|done|cbn in I2; congruence|done|]. w5. eauto.
  - subst ok. destruct I as [I1 I2 I3 I4 I5 I6 I7 I8 I9]. destruct C as (En&Hv&C). dst s. destruct co; try done. inj. cbn. subst gs. destruct I8 as (w&->&B&V). unfold put. cbn.
    assert (v ≤ w)%nat as Hw.
    { destruct C as [(w0&->&?)|[[_ C]|[(?&_&_)|[(g&?&_)|(w0&[= <-]&?)]]]]; [cbn in B; lia|done|cbn in I2; congruence|done|done]. }
    destruct s3'; cbn; (split; [done|]; split; [done|]); w1; by exists w.
  - destruct I as [I1 I2 I3 I4 I5 I6 I7 I8 I9]. destruct C as (En&Hv&C). dst s. destruct co; try done. inj. cbn. subst gs. split; [done|]. split; [done|].
    destruct C as [C|[[_ C]|[(?&_&_)|[(g&?&_)|C]]]]; [by w1|done|cbn in I2; congruence|done|done].
Qed.
Lemma bsteps_app s es es' : bsteps s (es ++ es') = bsteps s es ≫= λ s', bsteps s' es'.
Proof. revert s. induction es as [|e es IH]; intros s; cbn; [done|]. destruct (bstep s e) as [s1|]; cbn; [apply IH|done]. Qed.
Lemma cov_steps v es s s' : inv s → cov v s → bsteps s es = Some s' → works es → EClose ∉ es → cov v s'.
Proof.
  revert s. induction es as [|e es IH]; intros s I C H W N; cbn in H; [by injection H as <-|].
  destruct (bstep s e) as [s1|] eqn:E; [|done]. cbn in H. apply not_elem_of_cons in N as [N1 N2].
  eapply IH; [by eapply inv_step| |exact H|intros x Hx; apply W; by right|done].
  eapply cov_step; [done|done|exact E|]. pose proof (W e ltac:(left)) as We. by destruct e.
Qed.
Lemma cov_request s : inv s → closed s = false → enabled s = true → cov (changes s) (background s).
Proof.
  intros I E0 En. unfold background. rewrite E0, En. cbn.
  pose proof (i_closed s I) as Ic. pose proof (i_gos s I) as Ig. rewrite E0 in Ic.
  destruct (backing_up s) eqn:E1.
  - split; [done|]. split; [done|]. w2. split; [done|]. cbn. by destruct (closer s).
  - split; [done|]. split; [done|]. w4. cbn. destruct Ig as [[-> _]|(g&_&?&_)]; [|done]. by eexists.
Qed.
Lemma closed_stays s e s' : bstep s e = Some s' → closed s = true → closed s' = true.
Proof.
  intros H Hc. assert (∀ x : bdb, closed x = true → closed (background x) = true) as B. { intros x Hx. unfold background. by rewrite Hx. }
  destruct s as [ch t b n cl bu fi qu en s3' st la wa gs ga no co]. cbn in Hc. subst cl.
  destruct e; cbn in H; unfold set_go, finish, put in H; repeat (case_match; try done); simplify_eq; try done; cbn in *;
    repeat (match goal with H : mbind _ ?x = Some _ |- _ => destruct x; cbn in H; [|done] end); repeat (case_match; try done); simplify_eq; try done; by apply B.
Qed.
