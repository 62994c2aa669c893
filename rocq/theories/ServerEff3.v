(** What each server step does, key by key: kick, delete, add and restart *)
From Coq Require Import ZArith Lia String.
From stdpp Require Import base option strings gmap list.
From RecordUpdate Require Import RecordSet.
From Verif Require Import GoHeap QueueModel QueueCore QueueInv QueueInvAdd QueueInvUpd QueueInvRem
  QueueInvTick QueueEff ServerModel ServerCore ServerTick ServerEff ServerEff2.
Import RecordSetNotations.
Open Scope Z_scope.

(** ** Kick *)
Definition pend_of (s : sstate) (kicked : list key) : list (key * job) :=
  kicked ≫= λ k, match look s k with Some (_, j) => [(k, encode j)] | None => [] end.
Lemma kick_fold_None ps : fold_left kick_one ps None = None.
Proof. induction ps as [|p ps IH]; [done|]. cbn. apply IH. Qed.

Lemma kick_fold ps ks s n s' n' : SInv s → DInv s →
  Forall2 (λ k p, ∃ x it j, Found s k x it j ∧ p = idata it) ks ps →
  fold_left kick_one ps (Some (s, n)) = Some (s', n') →
  SInv s' ∧ DInv s' ∧
  ∃ kicked, NoDup kicked ∧ kicked ⊆ ks ∧ n' = (n + length kicked)%nat ∧
    (∀ k, k ∈ kicked → ∃ st j, look s k = Some (SBury, j) ∧ look s' k = Some (st, kicked_job j) ∧ (st = SReady ∨ st = SDep)) ∧
    (∀ k, k ∉ kicked → find_job k s' = find_job k s) ∧
    sdb s' = sdb s <| pend ::= λ l, l ++ pend_of s' kicked |>.
Proof.
  intros HS HD Hps. revert s n HS HD Hps. revert ks.
  induction ps as [|p ps IH]; intros ks s n HS HD Hps; cbn [fold_left].
  { intros [= <- <-]. split; [done|]. split; [done|]. exists [].
    split; [constructor|]. split; [by intros k ?%elem_of_nil|]. split; [cbn; lia|].
    split; [by intros k ?%elem_of_nil|]. split; [done|].
    unfold pend_of. cbn. destruct (sdb s) as [a b c d e]. unfold set. cbn. by rewrite app_nil_r. }
  destruct ks as [|k ks]; [by inversion Hps|].
  apply Forall2_cons in Hps as [(x & it & j & HF & ->) Hps].
  unfold kick_one at 2. cbn beta iota zeta delta [mbind option_bind].
  rewrite (f_job HF). cbn beta iota zeta delta [mbind option_bind]. rewrite (f_jkey HF).
  destruct (qdo (OKick k) s) as [[s1 r1]|] eqn:Hq; [|cbn; rewrite kick_fold_None; done].
  cbn beta iota zeta delta [mbind option_bind].
  destruct (qdo_kick s HS _ _ _ Hq) as [(-> & F & HFs & Hone & j0 & Hl0)|(He & HS1 & Hl1 & Hdb1 & Hj1 & Hn1 & Hr1 & Hob1)].
  - destruct Hone as (x' & it' & j' & HF' & HS1 & HF1 & Ho1 & Hdb1 & Hj1 & _ & Hd). same_found HF HF'.
    rewrite (found_look _ _ _ _ _ HF) in Hl0. injection Hl0 as Hst <-.
    fold (kicked_job j). assert (Hkk : jkey (kicked_job j) = k) by apply HF. rewrite Hkk, <- Hd.
    destruct (set_const_facts s1 k x (F it) j (kicked_job j) HS1 HF1 Hkk) as (HS2 & HF2 & Ho2 & Hdb2).
    set (s2 := set_job (idata (F it)) (λ _, kicked_job j) s1) in *.
    set (s3 := write_behind k (kicked_job j) s2).
    assert (HS3 : SInv s3) by (by apply write_behind_inv).
    assert (HF3 : Found s3 k x (F it) (kicked_job j)) by (split; apply HF2).
    assert (Ho3 : others s s3 k) by (by eapply others_trans; [|exact Ho2]).
    assert (Hdb3 : sdb s3 = put_pend k (kicked_job j) (sdb s)) by (cbn; by rewrite Hdb1).
    assert (HD3 : DInv s3).
    { eapply (pend_dinv s); try done. by eapply found_is_some. }
    intros Hfold. destruct (IH ks s3 (S n) HS3 HD3) as (HS' & HD' & kicked & K1 & K2 & K3 & K4 & K5 & K6); [|done|].
    { eapply Forall2_impl; [exact Hps|]. cbn beta. intros k0 p0 (x0 & it0 & j0 & HF0 & ->).
      destruct (decide (k0 = k)) as [->|Hne].
      - same_found HF HF0. exists x, (F it), (kicked_job j). by rewrite Hd.
      - pose proof (Ho3 _ Hne) as He. rewrite (found_find _ _ _ _ _ HF0) in He.
        destruct (find_found _ _ _ _ _ HS3 He) as (_ & x1 & HF4). by exists x1, it0, j0. }
    assert (Hk : k ∉ kicked).
    { intros Hk. destruct (K4 _ Hk) as (st & j9 & Hl & _). rewrite (found_look _ _ _ _ _ HF3) in Hl.
      destruct (HFs it) as [E1|E1]; rewrite E1 in Hl; done. }
    assert (Hlk : look s' k = look s3 k) by (by apply find_look_eq, K5).
    split; [done|]. split; [done|]. exists (k :: kicked). split_and!.
    + by constructor.
    + intros k0 [->|H0]%elem_of_cons; [by left|right; by apply K2].
    + cbn. lia.
    + intros k0 [->|H0]%elem_of_cons.
      * exists (ist (F it)), j. rewrite Hlk, (found_look _ _ _ _ _ HF3), (found_look _ _ _ _ _ HF), Hst. split_and!; try done.
      * destruct (K4 _ H0) as (st & j9 & Hl & ?). exists st, j9. split; [|done].
        rewrite <- Hl. symmetry. apply find_look_eq, Ho3. congruence.
    + intros k0 [Hne H0]%not_elem_of_cons. rewrite K5 by done. by apply Ho3.
    + rewrite K6, Hdb3. unfold put_pend. destruct (sdb s) as [d1 d2 d3 d4 d5]. unfold set. cbn. f_equal.
      rewrite <- app_assoc. f_equal. unfold pend_of. cbn. rewrite Hlk, (found_look _ _ _ _ _ HF3). done.
  - assert (HD1 : DInv s1) by (by apply same_dinv with s).
    assert (match r1 with ROk => Some (write_behind (jkey j) j s1, S n) | _ => Some (s1, n) end = Some (s1, n)) as _.
    { by destruct r1. }
    intros Hfold.
    assert (Hf : fold_left kick_one ps (Some (s1, n)) = Some (s', n')) by (by destruct r1).
    destruct (IH ks s1 n HS1 HD1) as (HS' & HD' & kicked & K1 & K2 & K3 & K4 & K5 & K6); [|done|].
    { eapply Forall2_impl; [exact Hps|]. cbn beta. intros k0 p0 (x0 & it0 & j0 & HF0 & ->).
      pose proof (Hl1 k0) as He'. rewrite (found_find _ _ _ _ _ HF0) in He'.
      destruct (find_found _ _ _ _ _ HS1 He') as (_ & x1 & HF4). by exists x1, it0, j0. }
    split; [done|]. split; [done|]. exists kicked. split_and!; try done.
    + intros k0 H0. right. by apply K2.
    + intros k0 H0. destruct (K4 _ H0) as (st & j9 & Hl & ?). exists st, j9. split; [|done].
      rewrite <- Hl. symmetry. by apply find_look_eq.
    + intros k0 H0. by rewrite K5.
    + by rewrite K6, Hdb1.
Qed.

Lemma kick_ok ks s s' r l : SInv s → DInv s → s_kick ks s = Some (s', r, l) → ok s (AKick ks) s' r l.
Proof.
  intros HS HD. unfold s_kick.
  set (f := λ k, '(it, p, _) ← find_job k s; if decide (ist it = SBury) then Some p else None).
  destruct (fold_left kick_one (omap f ks) (Some (s, 0%nat))) as [[s1 n]|] eqn:Hfold; [|done].
  cbn beta iota zeta delta [mbind option_bind]. intros [= <- <- <-].
  destruct (kick_fold (omap f ks) (filter (λ k, is_Some (f k)) ks) s 0 s1 n HS HD) as (HS' & HD' & kicked & K1 & K2 & K3 & K4 & K5 & K6).
  { clear Hfold. induction ks as [|k ks IH]; [constructor|]. rewrite filter_cons. cbn [omap list_omap].
    destruct (f k) as [p|] eqn:Hf.
    - rewrite decide_True by (by eexists). constructor; [|done]. unfold f in Hf.
      destruct (find_job k s) as [[[it p'] j]|] eqn:Hfj; [|done]. cbn in Hf.
      destruct (decide (ist it = SBury)); [|done]. injection Hf as ->.
      destruct (find_found _ _ _ _ _ HS Hfj) as (-> & x & HF). by exists x, it, j.
    - rewrite decide_False; [done|]. by intros [? ?]. }
  { done. }
  split; [|done]. eapply SeKick with kicked; try done.
  - intros k Hk. apply K2 in Hk. by apply elem_of_list_filter in Hk as [_ Hk].
  - intros k Hk. by apply find_look_eq, K5.
Qed.
