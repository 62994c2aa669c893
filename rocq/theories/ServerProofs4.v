(** Proofs of C26 *)
From Coq Require Import ZArith Lia String.
From stdpp Require Import base option strings gmap list.
From RecordUpdate Require Import RecordSet.
From Verif Require Import GoHeap QueueModel QueueEff ServerModel ServerCore ServerTick ServerEff ServerEff2 ServerEff4 ServerPrep ServerEff5 ServerEff6 ServerQ ServerSpec ServerKey ServerProofs ServerProofs2 ServerProofs3.
Import RecordSetNotations.
Open Scope Z_scope.

Definition retry_ok (k : key) (s : sstate) (o : sop) : Prop := serving s o ∧ spares k s o ∧ honest k s o ∧ small_retries o.

(** a job in state [st], after [F] failures and [A] attempts *)
Definition RV (st : istate) (j : job) (F A : nat) (aside : Prop) (b : bool) : Prop :=
  (jretries j ≤ 255)%N ∧ (st = SRun → jexited j = false) ∧ (st = SDelay → jst j = JDelayed ∨ jstart j = 0) ∧
  (st = SBury → jst j = JBuried ∧ (F ≤ N.to_nat (jretries j) + 1)%nat ∧ (F = (N.to_nat (jretries j) + 1)%nat ∨ aside)) ∧
  (st ≠ SBury → (F ≤ N.to_nat (jretries j))%nat ∧
      (Z.of_N (juntil j) = (Z.of_N (jretries j) + 1 - Z.of_nat F) mod 256)) ∧
  A = (F + if decide (st = SRun) then (if b then 1 else 0) else 0)%nat.
Definition RInv (k : key) (s : sstate) (es : list entry) : Prop :=
  ∀ st j, seen s k = Some (st, j) → RV st j (failures k es) (attempts k es) (put_aside k es) (started k false es).

(** What a release does *)
Lemma rel_until jes force j : let j' := (after_rel jes force j).1 in
  jretries j' = jretries j ∧ jstart j' = jstart j ∧
  juntil j' = (if force then 0 else if (jstart j =? 0)%Z then juntil j else ((juntil j + 255) mod 256))%N ∧
  jst j' = if (juntil j' =? 0)%N then JBuried else JDelayed.
Proof.
  unfold after_rel. destruct (uae_facts jes j) as (_ & E2 & E3 & E4 & _). destruct (update_after_exit jes j) as [j1 l].
  cbn [fst] in *. destruct force; [done|]. rewrite <- E2. destruct (jstart j1 =? 0) eqn:E; cbn; rewrite ?E3; done.
Qed.

Lemma retry_inv s0 k es s : Good s0 → seen s0 k = None → hist (retry_ok k) s0 es s → RInv k s es.
Proof.
  intros HG0 Hn H. induction H as [|es s o s' r l Hh IH Hok Hs].
  { intros st j E. congruence. }
  assert (HG : Good s) by (apply (hist_good (retry_ok k) s0 es); [by intros ? ? [[? _] _]|done|done]).
  destruct Hok as ((Hsp & Hnc & Hck) & Hspk & Hhon & Hsm).
  destruct (good_step _ _ _ _ _ HG Hsp Hs) as [He _].
  pose proof (seff_kch _ _ _ _ _ k HG Hsp He) as Hk.
  assert (Hst : ∀ j, seen s k = Some (SRun, j) → started k false es = negb (jstart j =? 0)).
  { intros j Hj. assert (Hh' : hist serving s0 es s) by (eapply hist_weaken; [|exact Hh]; by intros ? ? [? _]).
    destruct (was_running s0 k es s HG0 Hh' j Hj) as [W _]. unfold was_started in W. by rewrite Hn in W. }
  intros st' j' E'. rewrite E' in Hk. 
  destruct (seen s k) as [[st j]|] eqn:E.
  2: { remember (Some (st', j')) as v' eqn:Hv'. remember None as v eqn:Hv. revert Hnc Hspk Hsm. destruct Hk; intros Hnc Hspk Hsm; simplify_eq.
    - destruct H0 as [(i & Hi & -> & _)|[? _]]; [|done]. specialize (Hsm i Hi). cbn [failures attempts]. rewrite E.
      destruct H; subst st'; unfold RV; cbn; split_and!; try done; try (intros; split; [lia|]); 
        rewrite Z.sub_0_r, N2Z.inj_mod, N2Z.inj_add; done.
    - by destruct Hnc. }
  specialize (IH st j E). 
  set (Aside := put_aside k (Entry s o r l s' :: es)).
  assert (Hkeep : st ≠ SRun → st ≠ SBury → ¬ hit k o r →
     failures k (Entry s o r l s' :: es) = failures k es ∧ attempts k (Entry s o r l s' :: es) = attempts k es).
  { intros Hr Hb Hh0. cbn. rewrite E, E'. split; [by destruct st|].
    destruct st; try done; destruct o; try done; destruct r; try done; by rewrite decide_False. }
  assert (Hrun : st = SRun → ¬ hit k o r →
     attempts k (Entry s o r l s' :: es) = attempts k es ∧
     failures k (Entry s o r l s' :: es) = (if decide (st' = SRun) then failures k es
        else (if negb (jstart j =? 0)%Z then 1 else 0) + failures k es)%nat).
  { intros -> Hh0. cbn. rewrite E, E'. rewrite (Hst j eq_refl). split; [|done].
    destruct o; try done; destruct r; try done; by rewrite decide_False. }
  assert (Hsame : st' = st → ¬ hit k o r → failures k (Entry s o r l s' :: es) = failures k es ∧
    attempts k (Entry s o r l s' :: es) = attempts k es ∧ (Aside ↔ put_aside k es)).
  { intros -> Hh0. unfold Aside. cbn. rewrite E, E'. split_and!.
    - destruct st; try done; by rewrite decide_True.
    - destruct st; try (rewrite decide_True by done; done); destruct o; try done; destruct r; try done; by rewrite decide_False.
    - by destruct st. }
  remember (Some (st', j')) as v' eqn:Hv'. remember (Some (st, j)) as v eqn:Hv.
  revert Hnc Hspk Hhon Hck Hsame Hkeep Hrun. unfold Aside. destruct Hk; intros Hnc Hspk Hhon Hck Hsame Hkeep Hrun; simplify_eq.
  - destruct (Hsame eq_refl H) as (-> & -> & Ha). rewrite (started_hit k false s o r l s' es H). unfold RV in *. tauto.
  - cbn [failures attempts started]. rewrite E; cbn beta iota; rewrite ?E', ?decide_True by done.
    destruct IH as (? & _ & _ & _ & Hu & HA). unfold RV, reserved_job. destruct (sched_limits g); cbn; (split_and!; try done); intros _; by apply Hu.
  - cbn [failures attempts started]. rewrite E; cbn beta iota; rewrite ?E', ?decide_True by done.
    destruct IH as (? & Hx & _ & _ & Hu & HA). unfold RV, started_job. cbn. split_and!; try done.
    rewrite decide_True in HA by done. rewrite HA. rewrite decide_True by done. destruct (started k false es); lia.
  - destruct (Hsame eq_refl H0) as (-> & -> & Ha). rewrite (started_hit k false s o r l s' es H0).
    destruct (H j) as (_ & E2 & E3 & _ & E5 & E6 & _ & E8 & _). unfold RV in *. rewrite E2, E3, E5, E6, E8. tauto.
  - exfalso. destruct IH as (_ & Hx & _). specialize (Hx eq_refl). destruct (Hhon eq_refl) as (Hw & Hx0 & Hend).
    apply H0. destruct jes as [e|]; [|done]. unfold was_started in Hw. rewrite E in Hw. cbn in Hx0.
    unfold archivable, update_after_exit, decrement_limits. rewrite Hx. destruct (e_exited e); [|done]. injection Hx0 as Hx0.
    destruct (jstart j =? 0) eqn:Hz; [done|]. apply Z.eqb_neq in Hz. destruct (jincr j); cbn; done.
  - destruct Hkeep as [-> ->]; [done|done|destruct o; try done; by destruct r|]. destruct IH as (? & _ & _ & _ & Hu & HA).
    unfold RV. split_and!; try done. intros _; by apply Hu.
  - rewrite (started_hit k false s o r l s' es H1).
    destruct (rel_until jes force (f j)) as (R1 & R2 & R3 & R4). destruct (H0 j) as (F1 & F2 & F3 & F4 & F5 & F6 & F7 & F8 & _).
    destruct H2 as [[-> Hb]|[-> Hb]].
    + destruct (Hrun eq_refl H1) as [-> ->]. destruct IH as (Hsml & Hx & _ & _ & Hu & HA). destruct (Hu ltac:(done)) as [HF Hu'].
      rewrite decide_True in HA by done. rewrite (Hst j eq_refl) in HA.
      rewrite (decide_False (P := st' = SRun)) by (destruct (will_bury force j); [|destruct Hb]; by subst).
      unfold will_bury in Hb. assert (Hu255 : (juntil j < 256)%N) by (pose proof (Z.mod_pos_bound (Z.of_N (jretries j) + 1 - Z.of_nat (failures k es)) 256); lia).
      assert (HA' : attempts k es = ((if negb (jstart j =? 0)%Z then 1 else 0) + failures k es)%nat) by lia.
      unfold RV. rewrite R1, R2, F2. rewrite F5 in *. rewrite R3 in R4 |- *. rewrite F3 in *.
      destruct force; cbn [orb] in Hb.
      { subst st'. rewrite HA'. destruct o; try done; try (by destruct H as (_ & _ & _ & [=])); try (by destruct H as (_ & _ & _ & _ & [=])).
        split_and!; try done; try (rewrite decide_False by done; lia).
        intros _. split; [done|]. destruct (negb _); split; try lia; right; cbn; rewrite E, E'; by destruct H as (-> & _). }
      destruct (jstart j =? 0) eqn:Hz; cbn [negb andb] in *.
      * split_and!; try done; try (by destruct Hb; subst); try (intros; right; by apply Z.eqb_eq).
      * destruct ((juntil j =? 1)%N) eqn:H1u; [apply N.eqb_eq in H1u|apply N.eqb_neq in H1u].
        -- subst st'. rewrite H1u in *. 
           assert (Z.of_nat (failures k es) = Z.of_N (jretries j)).
           { change (Z.of_N 1) with 1 in Hu'. assert (0 ≤ Z.of_N (jretries j) - Z.of_nat (failures k es) ≤ 255) by lia.
             destruct (decide (Z.of_N (jretries j) - Z.of_nat (failures k es) = 255)) as [Heq|Hneq].
             { replace (Z.of_N (jretries j) + 1 - Z.of_nat (failures k es)) with 256 in Hu' by lia. by rewrite Z_mod_same_full in Hu'. }
             rewrite Z.mod_small in Hu' by lia. lia. }
           split_and!; try done; [|rewrite decide_False by done; lia]. intros _. split; [done|]. split; [lia|left; lia].
        -- assert (st' ≠ SBury ∧ st' ≠ SRun) as [? ?] by (by destruct Hb; subst).
           assert (Hlt : (failures k es < N.to_nat (jretries j))%nat).
           { assert (failures k es ≠ N.to_nat (jretries j)); [|lia]. intros He'. apply H1u.
             replace (Z.of_N (jretries j) + 1 - Z.of_nat (failures k es)) with 1 in Hu' by lia. rewrite Z.mod_1_l in Hu' by lia. lia. }
           assert (Hnew : Z.of_N ((juntil j + 255) mod 256) = (Z.of_N (jretries j) + 1 - Z.of_nat (1 + failures k es)) mod 256).
           { rewrite N2Z.inj_mod, N2Z.inj_add, Hu'. change (Z.of_N 255) with 255. change (Z.of_N 256) with 256.
             rewrite Zplus_mod_idemp_l.
             replace (Z.of_N (jretries j) + 1 - Z.of_nat (failures k es) + 255) with (Z.of_N (jretries j) + 1 - Z.of_nat (1 + failures k es) + 1 * 256) by lia.
             apply Z_mod_plus_full. }
           split_and!; try done; try (intros _; split; [lia|done]); try (rewrite decide_False by done; lia).
           intros _. left. rewrite R4. destruct (N.eqb_spec ((juntil j + 255) mod 256) 0) as [Hz0|]; [|done]. exfalso.
           rewrite Hz0 in Hnew. change (Z.of_N 0) with 0 in Hnew. rewrite Z.mod_small in Hnew by lia. lia.
    + destruct IH as (Hsml & _ & Hd & Hbu & Hu & HA). destruct (will_bury force j) eqn:Hw; destruct Hb as [-> Hb]; [by destruct (Hbu eq_refl)|].
      destruct (Hd eq_refl) as [?|Hz]; [done|]. destruct (Hkeep ltac:(done) ltac:(done) H1) as [-> ->].
      unfold will_bury in Hw. destruct force; [done|]. unfold RV. rewrite R1, R2, F2. rewrite R3, F5, Hz, F3. cbn [Z.eqb].
      split_and!; try done. intros _. by right.
  - cbn [failures attempts]. rewrite E; cbn beta iota; rewrite E'.
    destruct IH as (Hsml & _). destruct H0 as [-> | ->]; rewrite !decide_False by done; unfold RV; cbn; split_and!; try done;
      (intros _; split; [lia|]); rewrite Z.sub_0_r, N2Z.inj_mod, N2Z.inj_add; done.
  - destruct Hkeep as [-> ->]; [done|done|by intros []|]. destruct IH as (? & _ & _ & _ & Hu & HA).
    unfold RV. split_and!; try done. intros _; by apply Hu.
  - destruct (Hrun eq_refl ltac:(by intros [])) as [-> ->]. destruct IH as (? & Hx & _ & _ & Hu & HA). specialize (Hx eq_refl).
    assert (Hs0 : started k false (Entry s (ATickTTR now) r l s' :: es) = started k false es) by done. rewrite Hs0.
    rewrite decide_True in HA by done. rewrite (Hst j eq_refl) in HA |- *.
    unfold ttr_callback. rewrite Hx. cbn [negb]. rewrite andb_true_r. destruct (jstart j =? 0) eqn:Hz; cbn [negb].
    + unfold decrement_limits. destruct (jincr j); cbn; unfold RV; cbn; (split_and!; try done); try (intros _; by apply Hu);
        intros _; right; by apply Z.eqb_eq.
    + cbn. unfold RV; cbn. split_and!; try done.
  - by destruct Hnc.
Qed.

(** ** C26 *)
Lemma retries_bounded s0 k es s st j : Good s0 → seen s0 k = None → hist (retry_ok k) s0 es s → seen s k = Some (st, j) →
  (attempts k es ≤ N.to_nat (jretries j) + 1)%nat ∧
  (st ≠ SBury → (failures k es ≤ N.to_nat (jretries j))%nat) ∧
  (st = SBury → failures k es = (N.to_nat (jretries j) + 1)%nat ∨ put_aside k es).
Proof.
  intros HG Hn Hh Hs. destruct (retry_inv s0 k es s HG Hn Hh st j Hs) as (_ & _ & _ & Hb & Hu & ->). split_and!.
  - destruct (decide (st = SBury)) as [->|Hne]; [|destruct (Hu Hne); destruct (decide (st = SRun)); destruct (started k false es); lia].
    destruct (Hb eq_refl) as (_ & ? & _). rewrite decide_False by done. lia.
  - intros Hne. by destruct (Hu Hne).
  - intros ->. by destruct (Hb eq_refl) as (_ & _ & ?).
Qed.
