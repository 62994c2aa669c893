(** What each server step does, key by key: delete *)
From Coq Require Import ZArith Lia String.
From stdpp Require Import base option strings gmap list.
From RecordUpdate Require Import RecordSet.
From Verif Require Import GoHeap QueueModel QueueCore QueueInv QueueInvAdd QueueInvUpd QueueInvRem
  QueueInvTick QueueEff ServerModel ServerCore ServerTick ServerEff ServerEff2.
Import RecordSetNotations.
Open Scope Z_scope.

Lemma look_find_some s k : is_Some (look s k) ↔ is_Some (find_job k s).
Proof.
  unfold look. destruct (find_job k s) as [[[it p] j]|]; cbn.
  - split; intros _; by eexists.
  - split; by intros [? ?].
Qed.
Lemma look_find_none s k : look s k = None ↔ find_job k s = None.
Proof. unfold look. by destruct (find_job k s) as [[[it p] j]|]. Qed.
Lemma same_or_freed_refl s k : same_or_freed s s k.
Proof. by left. Qed.
Lemma same_or_freed_trans s1 s2 s3 k : same_or_freed s1 s2 k → same_or_freed s2 s3 k → same_or_freed s1 s3 k.
Proof.
  intros [H1|(j & H1 & H1')] [H2|(j' & H2 & H2')].
  - left. congruence.
  - right. exists j'. split; congruence.
  - right. exists j. split; congruence.
  - congruence.
Qed.
Lemma same_or_freed_some s s' k : same_or_freed s s' k → is_Some (look s' k) ↔ is_Some (look s k).
Proof.
  intros [->|(j & -> & ->)]; [done|]. split; intros _; by eexists.
Qed.

Lemma delete_fold_None ord ks : fold_left (delete_one ord) ks None = None.
Proof. induction ks as [|k ks IH]; [done|]. cbn. apply IH. Qed.

Lemma delete_fold ord ks s del skip s' del' skip' : SInv s →
  fold_left (delete_one ord) ks (Some (s, del, skip)) = Some (s', del', skip') →
  SInv s' ∧ sdb s' = sdb s ∧ ∃ nd ns, del' = del ++ nd ∧ skip' = skip ++ ns ∧ NoDup nd ∧ nd ⊆ ks ∧ ns ⊆ ks ∧
    (∀ k, k ∈ nd → is_Some (look s k) ∧ look s' k = None) ∧
    (∀ k, k ∉ nd → same_or_freed s s' k).
Proof.
  intros HS. revert s del skip HS. induction ks as [|k ks IH]; intros s del skip HS; cbn [fold_left].
  { intros [= <- <- <-]. split; [done|]. split; [done|]. exists [], [].
    rewrite !app_nil_r. split; [done|]. split; [done|]. split; [constructor|]. split; [by intros ? ?%elem_of_nil|].
    split; [by intros ? ?%elem_of_nil|]. split; [by intros ? ?%elem_of_nil|]. intros k _. by left. }
  unfold delete_one at 2. cbn beta iota zeta delta [mbind option_bind].
  destruct (qdo (OHasDependents k) s) as [[s1 r1]|] eqn:Hq; [|cbn; rewrite delete_fold_None; done].
  cbn beta iota zeta delta [mbind option_bind].
  destruct (qdo_hasdeps s HS _ _ _ Hq) as [-> ->].
  destruct (bool_decide (is_Some (dependants (sq s) !! k))).
  { intros Hf. destruct (IH _ _ _ HS Hf) as (H1 & H2 & nd & ns & -> & -> & H3 & H4 & H5 & H6 & H7).
    split; [done|]. split; [done|]. exists nd, (k :: ns). rewrite <- (app_assoc skip). split; [done|]. split; [done|].
    split; [done|]. split; [intros x Hx; right; by apply H4|]. split; [|done].
    intros x [->|Hx]%elem_of_cons; [left|right; by apply H5]. }
  destruct (qdo (ORemove k ord) s) as [[s2 r2]|] eqn:Hq2; [|cbn; rewrite delete_fold_None; done].
  cbn beta iota zeta delta [mbind option_bind].
  destruct (qdo_remove s HS _ _ _ _ Hq2) as [(-> & x & it & j & HF & Hdrop)|(Herr & (HS2 & Hl2 & Hdb2 & _) & Hf0)].
  - intros Hf. pose proof Hdrop as (HS2 & Hn2 & Hdb2 & _).
    destruct (IH _ _ _ HS2 Hf) as (H1 & H2 & nd & ns & -> & -> & H3 & H4 & H5 & H6 & H7).
    assert (Hk : look s2 k = None) by (by apply look_find_none).
    assert (Hnk : k ∉ nd). { intros Hk'. destruct (H6 _ Hk') as [[? Hs] _]. congruence. }
    split; [done|]. split; [congruence|]. exists (k :: nd), ns. rewrite <- app_assoc. split; [done|]. split; [done|].
    split; [by constructor|]. split; [|split; [intros z Hz; right; by apply H5|split]].
    + intros z [->|Hz]%elem_of_cons; [left|right; by apply H4].
    + intros z [->|Hz]%elem_of_cons.
      * split; [rewrite (found_look _ _ _ _ _ HF); by eexists|].
        destruct (H7 _ Hnk) as [->|(j' & Hj & _)]; congruence.
      * destruct (H6 _ Hz) as [Hs Hn]. split; [|done].
        assert (z ≠ k) by congruence.
        by apply (same_or_freed_some _ _ _ (dropped_freed _ _ _ Hdrop z ltac:(done))).
    + intros z [Hne Hz]%not_elem_of_cons. eapply same_or_freed_trans; [by apply (dropped_freed _ _ _ Hdrop)|by apply H7].
  - intros Hf. assert (Hf' : fold_left (delete_one ord) ks (Some (s2, del, skip)) = Some (s', del', skip')).
    { by destruct r2. }
    destruct (IH _ _ _ HS2 Hf') as (H1 & H2 & nd & ns & -> & -> & H3 & H4 & H5 & H6 & H7).
    assert (Hlk : ∀ z, look s2 z = look s z) by (intros z; by apply find_look_eq).
    split; [done|]. split; [congruence|]. exists nd, ns. split; [done|]. split; [done|]. split; [done|].
    split; [intros z Hz; right; by apply H4|]. split; [intros z Hz; right; by apply H5|]. split.
    + intros z Hz. rewrite <- Hlk. by apply H6.
    + intros z Hz. unfold same_or_freed. rewrite <- Hlk. by apply H7.
Qed.

Lemma foldr_delete_at (m : gmap key job) l k : foldr delete m l !! k = if decide (k ∈ l) then None else m !! k.
Proof.
  induction l as [|x l IH]; cbn [foldr].
  - by rewrite decide_False by (by intros ?%elem_of_nil).
  - destruct (decide (x = k)) as [->|Hne].
    + rewrite lookup_delete, decide_True by left. done.
    + rewrite lookup_delete_ne by done. rewrite IH. destruct (decide (k ∈ l)) as [Hl|Hl].
      * by rewrite decide_True by (by right).
      * by rewrite decide_False by (intros [?|?]%elem_of_cons; congruence).
Qed.
Lemma foldr_delete_app (m : gmap key job) a b : foldr delete (foldr delete m a) b = foldr delete m (a ++ b).
Proof.
  apply map_eq. intros k. rewrite !foldr_delete_at.
  destruct (decide (k ∈ b)) as [Hb|Hb].
  - by rewrite decide_True by (apply elem_of_app; by right).
  - destruct (decide (k ∈ a)) as [Ha|Ha].
    + by rewrite decide_True by (apply elem_of_app; by left).
    + by rewrite decide_False by (intros [?|?]%elem_of_app; done).
Qed.

Lemma delete_rounds_facts fuel ord ks s s' dels : SInv s →
  delete_rounds fuel ord ks s = Some (s', dels) →
  SInv s' ∧ NoDup (concat dels) ∧ concat dels ⊆ ks ∧
  (∀ k, k ∈ concat dels → is_Some (look s k) ∧ look s' k = None) ∧
  (∀ k, k ∉ concat dels → same_or_freed s s' k) ∧
  sdb s' = sdb s <| live ::= λ m, foldr delete m (concat dels) |>.
Proof.
  intros HS. revert ks s dels HS. induction fuel as [|fuel IH]; intros ks s dels HS; cbn [delete_rounds].
  { intros [= <- <-]. cbn. split; [done|]. split; [constructor|]. split; [by intros ? ?%elem_of_nil|].
    split; [by intros ? ?%elem_of_nil|]. split; [intros; by left|]. by destruct (sdb s). }
  destruct (fold_left (delete_one ord) ks (Some (s, [], []))) as [[[s1 del] skip]|] eqn:Hf; [|done].
  cbn beta iota zeta delta [mbind option_bind].
  destruct (delete_fold _ _ _ _ _ _ _ _ HS Hf) as (HS1 & Hdb1 & nd & ns & -> & -> & H3 & H4 & H5 & H6 & H7).
  cbn [app] in *.
  destruct nd as [|k0 nd0] eqn:Hnd.
  { intros [= <- <-]. cbn. split; [done|]. split; [constructor|]. split; [by intros ? ?%elem_of_nil|].
    split; [by intros ? ?%elem_of_nil|]. split; [intros k _; apply H7, not_elem_of_nil|].
    rewrite Hdb1. by destruct (sdb s). }
  rewrite <- Hnd in *. clear Hnd k0 nd0.
  set (s2 := s1 <| sdb ::= λ d, d <| live ::= λ m, foldr delete m nd |> |>).
  assert (HS2 : SInv s2) by (by apply sdb_inv).
  assert (Hlk : ∀ k, look s2 k = look s1 k) by done.
  assert (Hdb2 : sdb s2 = sdb s <| live ::= λ m, foldr delete m nd |>) by (unfold s2; cbn; by rewrite Hdb1).
  destruct ns as [|k1 ns0] eqn:Hns.
  { intros [= <- <-]. cbn [concat]. rewrite app_nil_r. done. }
  rewrite <- Hns in *. clear Hns k1 ns0.
  destruct (delete_rounds fuel ord ns s2) as [[s3 dels0]|] eqn:Hr; [|done].
  cbn beta iota zeta delta [mbind option_bind]. intros [= <- <-]. cbn [concat].
  destruct (IH _ _ _ HS2 Hr) as (G1 & G2 & G3 & G4 & G5 & G6).
  assert (Hdis : ∀ k, k ∈ nd → k ∉ concat dels0).
  { intros k Hk Hk'. destruct (G4 _ Hk') as [[? Hs] _]. rewrite Hlk in Hs. destruct (H6 _ Hk) as [_ ?]. congruence. }
  split; [done|]. split; [apply NoDup_app; by split_and!|]. split; [|split; [|split]].
  - intros k [Hk|Hk]%elem_of_app; [by apply H4|]. by apply H5, G3.
  - intros k [Hk|Hk]%elem_of_app.
    + destruct (H6 _ Hk) as [Ha Hb]. split; [done|].
      destruct (G5 _ (Hdis _ Hk)) as [->|(j & Hj & _)]; [done|]. rewrite Hlk in Hj. congruence.
    + destruct (G4 _ Hk) as [Ha Hb]. split; [|done]. rewrite Hlk in Ha.
      destruct (decide (k ∈ nd)) as [Hn|Hn]; [by apply H6|].
      by apply (same_or_freed_some _ _ _ (H7 _ Hn)).
  - intros k [Ha Hb]%not_elem_of_app. eapply same_or_freed_trans; [by apply H7|]. by apply G5.
  - rewrite G6, Hdb2. destruct (sdb s) as [a b c d e]. unfold set. cbn. by rewrite foldr_delete_app.
Qed.

Definition deletable (s : sstate) (ks : list key) : list key :=
  omap (λ k, '(it, p, j) ← find_job k s; if decide (ist it = SRun) then None else Some (jkey j)) ks.
Lemma deletable_spec s ks k : SInv s → k ∈ deletable s ks ↔ k ∈ ks ∧ ∃ st j, look s k = Some (st, j) ∧ st ≠ SRun.
Proof.
  intros HS. unfold deletable. rewrite elem_of_list_omap. split.
  - intros (k' & Hk' & Hf). destruct (find_job k' s) as [[[it p] j]|] eqn:Hj; [|done]. cbn in Hf.
    destruct (decide (ist it = SRun)) as [|Hr]; [done|]. injection Hf as Hf.
    destruct (find_found _ _ _ _ _ HS Hj) as (_ & x & HF). rewrite (f_jkey HF) in Hf. subst k'.
    split; [done|]. exists (ist it), j. by rewrite (found_look _ _ _ _ _ HF).
  - intros (Hk & st & j & Hl & Hst). exists k. split; [done|].
    destruct (look_found _ _ _ _ HS Hl) as (x & it & HF & Hi). rewrite (found_find _ _ _ _ _ HF). cbn.
    rewrite decide_False by congruence. by rewrite (f_jkey HF).
Qed.

Lemma delete_dinv s s' del : DInv s →
  sdb s' = sdb s <| live ::= λ m, foldr delete m del |> →
  (∀ k, k ∉ del → same_or_freed s s' k) → DInv s'.
Proof.
  intros HD Hdb Hrest. split; rewrite Hdb; cbn.
  - intros k j. rewrite foldr_delete_at. destruct (decide (k ∈ del)); [done|]. apply (di_live HD).
  - apply (di_comp HD).
  - apply (di_pend HD).
  - intros k. rewrite foldr_delete_at. destruct (decide (k ∈ del)) as [|Hk]; [by intros [? ?]|].
    intros H. apply (di_in HD) in H. apply look_find_some. apply look_find_some in H.
    by apply (same_or_freed_some _ _ _ (Hrest _ Hk)).
Qed.

Lemma delete_ok ks ord s s' r l : SInv s → DInv s → s_delete ks ord s = Some (s', r, l) → ok s (ADelete ks ord) s' r l.
Proof.
  intros HS HD. unfold s_delete. fold (deletable s ks).
  destruct (delete_rounds (S (length (deletable s ks))) ord (deletable s ks) s) as [[s1 dels]|] eqn:Hr; [|done].
  cbn beta iota zeta delta [mbind option_bind]. intros [= <- <- <-].
  destruct (delete_rounds_facts _ _ _ _ _ _ HS Hr) as (G1 & G2 & G3 & G4 & G5 & G6).
  split; [|split; [done|]].
  - eapply SeDelete; try done.
    + intros k Hk. apply G3, (deletable_spec s ks k HS) in Hk. tauto.
    + intros k Hk. destruct (proj1 (deletable_spec s ks k HS) (G3 _ Hk)) as (_ & st & j & Hl & Hst).
      exists st, j. split; [done|]. split; [done|]. by apply G4.
  - by eapply delete_dinv.
Qed.
