(** C30: what a running job is charged for is what its reservation asked for *)
From Coq Require Import ZArith Lia String Ascii.
From stdpp Require Import base option strings gmap list.
From RecordUpdate Require Import RecordSet.
From Verif Require Import GoHeap QueueModel QueueEff ServerModel ServerCore ServerTick ServerEff ServerEff2 ServerEff4 ServerPrep ServerEff5 ServerEff6 ServerQ ServerSpec ServerKey ServerProofs ServerLimSpec ServerLim.
Import RecordSetNotations.
Open Scope Z_scope.

Lemma tweaks_incr f j : tweaks f → jincr (f j) = jincr j.
Proof. intros H. specialize (H j). unfold tweaks in H. intuition congruence. Qed.

Lemma refused_archive s c k jes ord s' l j : Good s → sstep s (AArchive c k jes ord) = Some (s', SErr EBadRequest, l) →
  seen s' k = Some (SRun, j) → ∃ j0, seen s k = Some (SRun, j0) ∧ j = (update_after_exit jes j0).1.
Proof.
  intros HG Hstep Hs. cbn [sstep] in Hstep. unfold s_archive in Hstep.
  destruct (getij c k true s) as [e|[[it p] j0]] eqn:Hg.
  { injection Hstep as _ He' _. unfold getij in Hg. destruct (find_job k s) as [[[? ?] ?]|]; [|simplify_eq].
    destruct (true && _); [simplify_eq|]. destruct (_ =? _)%N; simplify_eq. }
  unfold getij in Hg. destruct (find_job k s) as [[[it' p'] j']|] eqn:Hf; [|done].
  destruct (bool_decide_reflect (ist it' ≠ SRun)) as [|Hi]; [done|]. cbn in Hg.
  destruct (_ =? _)%N; [|done]. injection Hg as -> -> ->.
  assert (ist it = SRun) by (by destruct (ist it); try (exfalso; by apply Hi)).
  exists j0. rewrite seen_look. unfold look. rewrite Hf. cbn. split; [congruence|].
  destruct (update_after_exit jes j0) as [j1 l1] eqn:Hu.
  destruct (_ || _).
  - injection Hstep as <- <-. rewrite seen_look in Hs.
    destruct (find_found _ _ _ _ _ (g_s _ HG) Hf) as (-> & x & HF).
    assert (HF' : Found (set_job (idata it) (λ _, j1) s) k x it j1).
    { apply (set_const_facts _ _ _ _ j0 j1 (g_s _ HG) HF). pose proof (update_after_exit_key jes j0) as Hkk.
      rewrite Hu in Hkk. cbn in Hkk. rewrite Hkk. apply HF. }
    rewrite (found_look _ _ _ _ _ HF') in Hs. by simplify_eq.
  - destruct (qdo _ _) as [[s3 r3]|]; [|done]. cbn in Hstep. destruct r3; simplify_eq.
Qed.

Definition unrefused (k : key) (o : sop) (r : sres) : Prop :=
  match o, r with AArchive _ k' _ _, SErr EBadRequest => k' ≠ k | _, _ => True end.
Lemma charged_same k s o r l s' es : ¬ hit k o r ∨ (∃ now c k' b, o = AStart now c k' b) → unrefused k o r →
  charged k (Entry s o r l s' :: es) = charged k es.
Proof.
  intros Hh Hu. cbn. destruct o; try done; destruct r as [|e| | | | |]; try done.
  - rewrite decide_False; [done|]. intros ->. destruct Hh as [Hh|(?&?&?&?&?)]; [by destruct Hh|done].
  - destruct e; try done. by rewrite decide_False.
Qed.

Lemma charged_incr s0 k es s : Good s0 → LInv s0 → seen s0 k = None → hist serving s0 es s →
  LInv s ∧ ∀ j, seen s k = Some (SRun, j) → jincr j = charged k es.
Proof.
  intros HG0 HL0 Hn. revert es s. hist_induct; [by intros ? ? [? _]|done| |].
  { split; [done|]. intros j Hj. by rewrite Hn in Hj. }
  intros es s o s' r l HG [HL IH] (Hsp & Hnc & Hck) Hstep He _.
  assert (HL' : LInv s').
  { eapply linv_step; [exact HG|exact HL|exact Hsp| |exact Hstep]. by destruct o. }
  split; [done|]. intros j Hs.
  assert (Decision (unrefused k o r)) as [Hd|Hd].
  { unfold unrefused. destruct o; try apply _. destruct r as [|e| | | | |]; try apply _. destruct e; apply _. }
  2: { destruct o; try (exfalso; apply Hd; exact I). destruct r as [|e| | | | |]; try (exfalso; apply Hd; exact I).
    destruct e; try (exfalso; apply Hd; exact I). cbn in Hd. destruct (decide (k0 = k)) as [->|]; [|by destruct Hd].
    destruct (refused_archive _ _ _ _ _ _ _ _ HG Hstep Hs) as (j0 & Hj0 & ->). cbn. rewrite decide_True by done.
    specialize (HL k). rewrite Hj0 in HL. apply uae_incr, HL. }
  clear Hstep HL'.
  pose proof (seff_kch _ _ _ _ _ k HG Hsp He) as Hk. rewrite Hs in Hk. clear He. specialize (HL k).
  remember (seen s k) as v eqn:Hv. remember (Some (SRun, j)) as v' eqn:Hv'. symmetry in Hv. revert Hnc Hd.
  destruct Hk; intros Hnc Hd; simplify_eq; try (exfalso; intuition congruence).
  - rewrite charged_same by (auto). by apply IH.
  - cbn. rewrite decide_True by done. unfold reserved_job.
    destruct HL as [E _]. destruct (sched_limits g) eqn:Eg; cbn; [|done]. by apply E.
  - rewrite charged_same; [|right; eauto|done]. by rewrite <- (IH _ eq_refl).
  - rewrite charged_same by auto. rewrite tweaks_incr by done. by apply IH.
  - exfalso. destruct (will_bury force j0); intuition congruence.
  - rewrite charged_same; [|left; by intros []|done]. rewrite <- (IH _ eq_refl). unfold ttr_callback in *.
    destruct (_ && _); [done|]. destruct (decrement_limits j0). cbn in *. simplify_eq.
  - exfalso. by apply Hnc.
Qed.

(** ** scheduler groups *)
Lemma split_lacks c s : lacks c s → split_on c s = [s].
Proof.
  induction s as [|a s IH]; [done|]. intros [Ha Hs]. cbn [split_on String.append]. rewrite IH by done.
  by destruct (Ascii.eqb_spec a c).
Qed.
Lemma split_app c s t : lacks c s → split_on c (s ++ String c t)%string = s :: split_on c t.
Proof.
  induction s as [|a s IH].
  - intros _. change ("" +:+ String c t) with (String c t). cbn [split_on]. by rewrite Ascii.eqb_refl.
  - intros [Ha Hs]. change (String a s +:+ String c t) with (String a (s +:+ String c t)). cbn [split_on]. rewrite IH by done. by destruct (Ascii.eqb_spec a c).
Qed.
Lemma split_join c l : l ≠ [] → Forall (lacks c) l → split_on c (join_with (String c "") l) = l.
Proof.
  induction l as [|w [|w' l] IH]; [done| |].
  - intros _ [H _]%Forall_cons. by apply split_lacks.
  - intros _ [H1 H2]%Forall_cons. change (join_with (String c "") (w :: w' :: l)) with
      (w ++ (String c "" ++ join_with (String c "") (w' :: l)))%string.
    change (String c "" ++ join_with (String c "") (w' :: l))%string with (String c (join_with (String c "") (w' :: l))).
    rewrite split_app by done. by rewrite IH.
Qed.
Lemma lacks_app c s t : lacks c s → lacks c t → lacks c (s ++ t)%string.
Proof. induction s as [|a s IH]; [done|]. intros [? ?] ?. split; [done|by apply IH]. Qed.
Lemma lacks_join c sep l : lacks c sep → Forall (lacks c) l → lacks c (join_with sep l).
Proof.
  intros Hs. induction l as [|w [|w' l] IH]; [done| |].
  - by intros [? _]%Forall_cons.
  - intros [H1 H2]%Forall_cons. change (join_with sep (w :: w' :: l)) with (w ++ (sep ++ join_with sep (w' :: l)))%string.
    apply lacks_app; [done|]. apply lacks_app; [done|by apply IH].
Qed.
Lemma limits_of_group req lgs : lacks "~" req → Forall (lacks "~") lgs → Forall (lacks ",") lgs →
  sched_limits (sched_group req lgs) = lgs.
Proof.
  intros Hr H1 H2. unfold sched_group, sched_limits. destruct (decide (lgs = [])) as [->|Hne].
  - rewrite (split_lacks "~"%char); [by destruct (decide _)|]. by apply lacks_app.
  - assert (match lgs with [] => "" | _ => "~" ++ join_with "," lgs end = String "~" (join_with "," lgs))%string as ->.
    { by destruct lgs. }
    rewrite split_app by done. rewrite (split_lacks "~"%char); [|by apply lacks_join].
    rewrite decide_False; [by apply split_join|]. by destruct req.
Qed.
