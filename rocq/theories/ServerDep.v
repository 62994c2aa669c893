(** Deleting jobs (C32): who waits for whom decides what goes *)
From Coq Require Import ZArith Lia String.
From stdpp Require Import base option strings gmap list.
From RecordUpdate Require Import RecordSet.
From Verif Require Import GoHeap QueueModel QueueCore QueueInv QueueInvAdd QueueInvUpd QueueInvRem
  QueueInvTick QueueEff QueueItem QueueFrame QueueProofs5 QueueDep
  ServerModel ServerCore ServerTick ServerEff ServerEff4 ServerQ ServerSpec ServerKey.
Import RecordSetNotations.
Open Scope Z_scope.

Lemma waits_find s k : SInv s →
  waits_for s k = match find_job k s with Some (it, _, _) => iremain it | None => ∅ end.
Proof.
  intros HS. unfold waits_for. destruct (items (sq s) !! k) as [x|] eqn:Hk.
  - destruct (items_found _ _ _ HS Hk) as (it & j & HF). rewrite (found_find _ _ _ _ _ HF). by rewrite (f_obj HF).
  - unfold find_job. by rewrite Hk.
Qed.
Lemma seen_find s k : SInv s → seen s k = (λ x : item * N * job, (ist x.1.1, x.2)) <$> find_job k s.
Proof. intros HS. rewrite seen_look. unfold look. by destruct (find_job k s) as [[[??]?]|]. Qed.

Record DG (s : sstate) : Prop := { dg_s : SInv s; dg_q : QI (sq s) }.
Arguments dg_s {_} _.
Arguments dg_q {_} _.

(** HasDependents tells whether some job waits *)
Lemma dependants_waits s k : DG s → is_Some (dependants (sq s) !! k) ↔ ∃ k', k ∈ waits_for s k'.
Proof.
  intros [HS HQ]. rewrite (filled_some _ _ (qx_fill _ (qi_x _ HQ))). split.
  - intros (k' & x & Hh). destruct (qx_exact _ (qi_x _ HQ) _ _ _ Hh) as (Hi & it & Hx & Hr).
    exists k'. unfold waits_for. by rewrite Hi, Hx.
  - intros (k' & Hk'). unfold waits_for in Hk'. destruct (items (sq s) !! k') as [x|] eqn:Hi; [|by apply elem_of_empty in Hk'].
    destruct (objs (sq s) !! x) as [it|] eqn:Hx; [|by apply elem_of_empty in Hk'].
    destruct (items_inj _ _ _ _ _ (si_q HS) Hi Hx) as [<- Hl].
    exists (ikey it), x. by apply (qi_look _ HQ x it).
Qed.

(** removing a job for which nobody waits *)
Lemma remove_free k ord s s' r : DG s → dependants (sq s) !! k = None → qdo (ORemove k ord) s = Some (s', r) →
  DG s' ∧ sdb s' = sdb s ∧ find_job k s' = None ∧ (∀ k', k' ≠ k → find_job k' s' = find_job k' s) ∧
  (r = ROk ↔ is_Some (find_job k s)).
Proof.
  intros HG Hd Hq. pose proof (dg_s HG) as HS.
  pose proof (qdo_reach false (ORemove k ord) s s' r I Hq) as Hre. apply (qi_reach _ _ _ (dg_q HG)) in Hre.
  destruct (qdo_remove s HS _ _ _ _ Hq) as [(-> & x & it & j & HF & Hdrop)|(Herr & (HS' & _ & Hdb & _) & Hf0)].
  - destruct Hdrop as (HS' & Hn & Hdb & Hjb & _ & _). split; [by split|]. split; [done|]. split; [done|].
    split; [|rewrite (found_find _ _ _ _ _ HF); split; [by eexists|done]].
    intros k' Hne. destruct (qdo_eff _ _ _ _ HS Hq I ltac:(done)) as (q & e & -> & He & HI).
    inversion He; subst; [done|].
    match goal with H : objs q = _ |- _ => rename H into Ho end.
    match goal with H : items q = _ |- _ => rename H into Hi end.
    unfold find_job. cbn [sq sjobs set]. rewrite Hi, lookup_delete_ne by done.
    destruct (items (sq s) !! k') as [y|] eqn:Hk'; [|done]. cbn. rewrite Ho.
    rewrite lookup_alter_ne.
    + rewrite resolve_all_lookup. rewrite decide_False; [done|]. rewrite Hd. cbn. intros (z & Hz)%elem_of_vals.
      by rewrite lookup_empty in Hz.
    + intros <-. match goal with Hx : objs (sq s) !! ?y = Some _ |- _ =>
        destruct (items_inj _ _ _ _ _ (si_q HS) Hk' Hx) as [? _] end. congruence.
  - split; [by split|]. split; [done|]. 
    assert (Hall : ∀ k', find_job k' s' = find_job k' s).
    { destruct (qdo_eff _ _ _ _ HS Hq I ltac:(done)) as (q & e & -> & He & HI). inversion He; subst; [|done].
      match goal with H : rest_eq _ _ |- _ => destruct H as (Hi & _) end.
      match goal with H : objs q = _ |- _ => rename H into Ho end.
      intros k'. unfold find_job. cbn [sq sjobs set]. rewrite Hi. destruct (items (sq s) !! k') as [y|]; [|done].
      cbn. by rewrite Ho. }
    split; [by rewrite Hall|]. split; [by intros k' _|]. rewrite Hf0. split; [by intros ->|by intros [? ?]].
Qed.

(** what a deletion does to the jobs: [nd] are gone, the others are as before,
    and nobody left waits for any of [nd] *)
Record gone (s s' : sstate) (nd : list key) : Prop := {
  go_in k : k ∈ nd → is_Some (find_job k s) ∧ find_job k s' = None;
  go_out k : k ∉ nd → find_job k s' = find_job k s;
  go_free k k' : k ∈ nd → k ∈ waits_for s k' → k' ∈ nd;
}.
Arguments go_in {_ _ _} _ _ _.
Arguments go_out {_ _ _} _ _ _.
Arguments go_free {_ _ _} _ _ _ _ _.
Lemma gone_waits s s' nd k : SInv s → SInv s' → gone s s' nd → k ∉ nd → waits_for s' k = waits_for s k.
Proof. intros HS HS' HG Hk. by rewrite !waits_find, (go_out HG) by done. Qed.
Lemma gone_none s s' nd k : SInv s → SInv s' → gone s s' nd → k ∈ nd → waits_for s' k = ∅.
Proof. intros HS HS' HG Hk. rewrite waits_find by done. destruct (go_in HG k Hk) as [_ ->]. done. Qed.
Lemma gone_nil s s' : (∀ k, find_job k s' = find_job k s) → gone s s' [].
Proof. intros H. split; [by intros k ?%elem_of_nil|done|by intros k k' ?%elem_of_nil]. Qed.
Lemma gone_app s s1 s2 nd nd' : SInv s → SInv s1 → gone s s1 nd → gone s1 s2 nd' → gone s s2 (nd ++ nd').
Proof.
  intros HS HS1 H1 H2. split.
  - intros k [Hk|Hk]%elem_of_app.
    + destruct (go_in H1 k Hk) as [Ha Hb]. split; [done|]. rewrite (go_out H2); [done|].
      intros Hk'. destruct (go_in H2 k Hk') as [[? ?] _]. congruence.
    + destruct (go_in H2 k Hk) as [Ha Hb]. split; [|done].
      destruct (decide (k ∈ nd)) as [Hn|Hn]; [by apply (go_in H1)|by rewrite <- (go_out H1)].
  - intros k [Ha Hb]%not_elem_of_app. rewrite (go_out H2) by done. by apply (go_out H1).
  - intros k k' Hk Hw. apply elem_of_app. destruct (decide (k' ∈ nd)) as [Hn|Hn]; [by left|].
    apply elem_of_app in Hk as [Hk|Hk]; [left; by apply (go_free H1 k)|].
    right. apply (go_free H2 k); [done|]. by rewrite (gone_waits s s1 nd).
Qed.

Lemma delete_fold_waits ord ks s del skip s' del' skip' : DG s →
  fold_left (delete_one ord) ks (Some (s, del, skip)) = Some (s', del', skip') →
  DG s' ∧ sdb s' = sdb s ∧ ∃ nd ns, del' = del ++ nd ∧ skip' = skip ++ ns ∧ nd ⊆ ks ∧ gone s s' nd ∧
    (∀ k, k ∈ ks → is_Some (find_job k s) → k ∉ nd → k ∈ ns ∧ ∃ k', k ∈ waits_for s k').
Proof.
  intros HG. revert s del skip HG. induction ks as [|k ks IH]; intros s del skip HG; cbn [fold_left].
  { intros [= <- <- <-]. split; [done|]. split; [done|]. exists [], []. rewrite !app_nil_r. split; [done|]. split; [done|]. split; [done|].
    split; [by apply gone_nil|]. by intros k ?%elem_of_nil. }
  unfold delete_one at 2. cbn beta iota zeta delta [mbind option_bind].
  destruct (qdo (OHasDependents k) s) as [[s1 r1]|] eqn:Hq; [|cbn; rewrite delete_fold_None; done].
  cbn beta iota zeta delta [mbind option_bind].
  destruct (qdo_hasdeps s (dg_s HG) _ _ _ Hq) as [-> ->].
  destruct (bool_decide_reflect (is_Some (dependants (sq s) !! k))) as [Hd|Hd].
  { intros Hf. destruct (IH _ _ _ HG Hf) as (H1 & H2 & nd & ns & -> & -> & H3 & H4 & H5).
    split; [done|]. split; [done|]. exists nd, (k :: ns). rewrite <- (app_assoc skip). split_and!; try done.
    - intros z Hz. right. by apply H3.
    - intros z [->|Hz]%elem_of_cons Hz' Hn.
      + split; [left|]. by apply dependants_waits.
      + destruct (H5 z Hz Hz' Hn). split; [by right|done]. }
  assert (Hd' : dependants (sq s) !! k = None) by (by apply eq_None_not_Some).
  destruct (qdo (ORemove k ord) s) as [[s2 r2]|] eqn:Hq2; [|cbn; rewrite delete_fold_None; done].
  cbn beta iota zeta delta [mbind option_bind].
  destruct (remove_free _ _ _ _ _ HG Hd' Hq2) as (HG2 & Hdb2 & Hn2 & Ho2 & Hr2).
  assert (Hnw : ∀ k', k ∉ waits_for s k').
  { intros k' Hk'. apply Hd, dependants_waits; [done|by exists k']. }
  destruct (decide (r2 = ROk)) as [->|Hne].
  - pose proof (proj1 Hr2 eq_refl) as Hp.
    assert (Hg : gone s s2 [k]).
    { split.
      - by intros z ->%elem_of_list_singleton.
      - intros z Hz. apply Ho2. intros ->. apply Hz. left.
      - intros z z' ->%elem_of_list_singleton Hw. by apply Hnw in Hw. }
    intros Hf. destruct (IH _ _ _ HG2 Hf) as (H1 & H2 & nd & ns & -> & -> & H3 & H4 & H5).
    split; [done|]. split; [congruence|]. exists (k :: nd), ns. rewrite <- app_assoc. split_and!; try done.
    + intros z [->|Hz]%elem_of_cons; [left|right; by apply H3].
    + apply (gone_app s s2 s' [k] nd); [apply HG|apply HG2|done|done].
    + intros z [->|Hz]%elem_of_cons Hz' [Hzk Hn]%not_elem_of_cons; [done|].
      destruct (H5 z) as (Hin & k' & Hk'); [done|by rewrite Ho2|done|]. split; [done|].
      exists k'. revert Hk'. rewrite !waits_find by (apply HG || apply HG2).
      destruct (decide (k' = k)) as [->|Hne]; [by rewrite Hn2|by rewrite Ho2].
  - assert (Hf0 : find_job k s = None).
    { apply eq_None_not_Some. intros H. by apply Hne, Hr2. }
    assert (Hall : ∀ k', find_job k' s2 = find_job k' s).
    { intros k'. destruct (decide (k' = k)) as [->|]; [congruence|by apply Ho2]. }
    intros Hf. assert (Hf' : fold_left (delete_one ord) ks (Some (s2, del, skip)) = Some (s', del', skip')).
    { by destruct r2. }
    destruct (IH _ _ _ HG2 Hf') as (H1 & H2 & nd & ns & -> & -> & H3 & H4 & H5).
    split; [done|]. split; [congruence|]. exists nd, ns. split_and!; try done.
    + intros z Hz. right. by apply H3.
    + apply (gone_app s s2 s' [] nd); [apply HG|apply HG2|by apply gone_nil|done].
    + intros z [->|Hz]%elem_of_cons Hz' Hn; [rewrite Hf0 in Hz'; by destruct Hz'|].
      destruct (H5 z) as (Hin & k' & Hk'); [done|by rewrite Hall|done|]. split; [done|].
      exists k'. revert Hk'. by rewrite !waits_find, Hall by (apply HG || apply HG2).
Qed.

Lemma dg_db s f : DG s → DG (s <| sdb ::= f |>).
Proof. intros [HS HQ]. split; [by apply sdb_inv|done]. Qed.

Lemma delete_rounds_waits fuel ord ks s s' dels : DG s →
  delete_rounds fuel ord ks s = Some (s', dels) → DG s' ∧ gone s s' (concat dels).
Proof.
  revert ks s dels. induction fuel as [|fuel IH]; intros ks s dels HG; cbn [delete_rounds].
  { intros [= <- <-]. split; [done|]. by apply gone_nil. }
  destruct (fold_left (delete_one ord) ks (Some (s, [], []))) as [[[s1 del] skip]|] eqn:Hf; [|done].
  cbn beta iota zeta delta [mbind option_bind].
  destruct (delete_fold_waits _ _ _ _ _ _ _ _ HG Hf) as (HG1 & Hdb1 & nd & ns & -> & -> & H3 & H4 & H5). cbn [app] in *.
  destruct nd as [|k0 nd0] eqn:Hnd.
  { intros [= <- <-]. by split. }
  rewrite <- Hnd in *. clear Hnd k0 nd0.
  set (s2 := s1 <| sdb ::= λ d, d <| live ::= λ m, foldr delete m nd |> |>).
  assert (HG2 : DG s2) by (by apply dg_db).
  assert (Hg2 : gone s s2 nd) by (destruct H4; split; done).
  destruct ns as [|k1 ns0] eqn:Hns.
  { intros [= <- <-]. cbn [concat]. by rewrite app_nil_r. }
  rewrite <- Hns in *. clear Hns k1 ns0.
  destruct (delete_rounds fuel ord ns s2) as [[s3 dels0]|] eqn:Hr; [|done].
  cbn beta iota zeta delta [mbind option_bind]. intros [= <- <-]. cbn [concat].
  destruct (IH _ _ _ HG2 Hr) as [HG3 Hg3]. split; [done|]. apply (gone_app s s2 s3); [apply HG|apply HG2|done|done].
Qed.

Lemma max_rank (rank : key → nat) (R : list key) : R ≠ [] → ∃ k, k ∈ R ∧ ∀ k', k' ∈ R → (rank k' ≤ rank k)%nat.
Proof.
  induction R as [|a R IH]; [done|]. intros _. destruct R as [|b R].
  { exists a. split; [left|]. by intros k' ->%elem_of_list_singleton. }
  destruct IH as (k & Hk & Hm); [done|]. destruct (decide (rank a ≤ rank k)%nat) as [Hle|Hle].
  - exists k. split; [by right|]. intros k' [->|H]%elem_of_cons; [done|by apply Hm].
  - exists a. split; [left|]. intros k' [->|H]%elem_of_cons; [done|]. specialize (Hm k' H). lia.
Qed.

Lemma delete_rounds_all (rank : key → nat) fuel ord ks s s' dels (R : list key) : DG s →
  delete_rounds fuel ord ks s = Some (s', dels) → (length R < fuel)%nat → R ⊆ ks →
  (∀ k, k ∈ R → is_Some (find_job k s)) →
  (∀ k k', k ∈ R → k ∈ waits_for s k' → k' ∈ R ∧ (rank k < rank k')%nat) →
  ∀ k, k ∈ R → k ∈ concat dels.
Proof.
  revert ks s dels R. induction fuel as [|fuel IH]; intros ks s dels R HG Hd Hlen HR Hpres Hcl; [lia|].
  cbn [delete_rounds] in Hd.
  destruct (fold_left (delete_one ord) ks (Some (s, [], []))) as [[[s1 del] skip]|] eqn:Hf; [|done].
  cbn beta iota zeta delta [mbind option_bind] in Hd.
  destruct (delete_fold_waits _ _ _ _ _ _ _ _ HG Hf) as (HG1 & Hdb1 & nd & ns & -> & -> & H3 & H4 & H5). cbn [app] in *.
  destruct R as [|a R0] eqn:ER; [by intros k ?%elem_of_nil|]. rewrite <- ER in *.
  assert (HRn : R ≠ []) by (by rewrite ER). clear ER a R0.
  destruct (max_rank rank R HRn) as (top & Htop & Hmax).
  assert (Htd : top ∈ nd).
  { destruct (decide (top ∈ nd)) as [|Hn]; [done|]. exfalso.
    destruct (H5 top (HR _ Htop) (Hpres _ Htop) Hn) as (_ & k' & Hk').
    destruct (Hcl top k' Htop Hk') as [Hk'R Hlt]. specialize (Hmax k' Hk'R). lia. }
  destruct nd as [|k0 nd0] eqn:Hnd; [by apply elem_of_nil in Htd|].
  rewrite <- Hnd in *. clear Hnd k0 nd0.
  set (s2 := s1 <| sdb ::= λ d, d <| live ::= λ m, foldr delete m nd |> |>) in *.
  assert (HG2 : DG s2) by (by apply dg_db).
  assert (Hg2 : gone s s2 nd) by (destruct H4; split; done).
  set (R' := filter (λ k, k ∉ nd) R).
  assert (HR' : ∀ k, k ∈ R' → k ∈ ns).
  { intros k [Hn Hk]%elem_of_list_filter. by apply (H5 k (HR _ Hk) (Hpres _ Hk)). }
  assert (Hsplit : ∀ k, k ∈ R → k ∈ nd ∨ k ∈ R').
  { intros k Hk. destruct (decide (k ∈ nd)); [by left|]. right. by apply elem_of_list_filter. }
  destruct ns as [|k1 ns0] eqn:Hns.
  { injection Hd as <- <-. cbn [concat]. rewrite app_nil_r. intros k Hk.
    destruct (Hsplit k Hk) as [|Hk']; [done|]. by apply HR', elem_of_nil in Hk'. }
  rewrite <- Hns in *. clear Hns k1 ns0.
  destruct (delete_rounds fuel ord ns s2) as [[s3 dels0]|] eqn:Hr; [|done].
  cbn beta iota zeta delta [mbind option_bind] in Hd. injection Hd as <- <-. cbn [concat].
  intros k Hk. apply elem_of_app. destruct (Hsplit k Hk) as [|Hk']; [by left|right].
  apply (IH ns s2 dels0 R' HG2 Hr); [|exact HR'| | |done].
  - assert (length R' < length R)%nat; [|lia]. apply (filter_length_lt _ R top Htop). by intros [].
  - intros z [Hn Hz]%elem_of_list_filter. rewrite (go_out Hg2) by done. by apply Hpres.
  - intros z z' [Hn Hz]%elem_of_list_filter Hw.
    destruct (decide (z' ∈ nd)) as [Hz'|Hz'].
    { rewrite (gone_none s s2 nd) in Hw; [|apply HG|apply HG2|done|done]. by apply elem_of_empty in Hw. }
    rewrite (gone_waits s s2 nd) in Hw; [|apply HG|apply HG2|done|done].
    destruct (Hcl z z' Hz Hw) as [? ?]. split; [|done]. by apply elem_of_list_filter.
Qed.

(** ** Requests *)
Lemma seen_none s k : SInv s → seen s k = None ↔ find_job k s = None.
Proof. intros HS. rewrite seen_find by done. by destruct (find_job k s). Qed.
Lemma seen_some s k : SInv s → is_Some (seen s k) ↔ is_Some (find_job k s).
Proof. intros HS. rewrite seen_find by done. by rewrite fmap_is_Some. Qed.

Lemma delete_request s ks ord s' r l : Good s → sstep s (ADelete ks ord) = Some (s', r, l) →
  ∃ del, NoDup del ∧ r = SCount (length del) ∧ l = [] ∧
    (∀ k, k ∈ del ↔ removed s s' k) ∧
    (∀ k, k ∈ del → k ∈ ks ∧ ∃ st j, seen s k = Some (st, j) ∧ st ≠ SRun) ∧
    (∀ k k', k ∈ del → k ∈ waits_for s k' → k' ∈ del) ∧
    (∀ k, k ∉ del → seen s' k = seen s k ∧ waits_for s' k = waits_for s k) ∧
    (∀ k, live (sdb s') !! k = if decide (k ∈ del) then None else live (sdb s) !! k) ∧
    complete (sdb s') = complete (sdb s).
Proof.
  intros [HS HD HQ HW]. assert (HG : DG s) by (by split).
  cbn [sstep]. unfold s_delete. fold (deletable s ks).
  destruct (delete_rounds (S (length (deletable s ks))) ord (deletable s ks) s) as [[s1 dels]|] eqn:Hr; [|done].
  cbn beta iota zeta delta [mbind option_bind]. intros [= <- <- <-].
  destruct (delete_rounds_facts _ _ _ _ _ _ HS Hr) as (G1 & G2 & G3 & G4 & G5 & G6).
  destruct (delete_rounds_waits _ _ _ _ _ _ HG Hr) as [HG1 Hg].
  exists (concat dels). split_and!; try done.
  - intros k. unfold removed. rewrite seen_some, seen_none by done. split; [by apply (go_in Hg)|].
    intros [[? Ha] Hb]. destruct (decide (k ∈ concat dels)) as [|Hn]; [done|]. rewrite (go_out Hg) in Hb by done. congruence.
  - intros k Hk. apply G3, (deletable_spec s ks k HS) in Hk. setoid_rewrite seen_look. done.
  - by apply (go_free Hg).
  - intros k Hk. rewrite !seen_find, (go_out Hg) by done. split; [done|]. by apply (gone_waits s s1 (concat dels)).
  - intros k. rewrite G6. cbn. apply foldr_delete_at.
  - by rewrite G6.
Qed.

Lemma delete_all s ks ord s' r l (rank : key → nat) (R : list key) : Good s →
  sstep s (ADelete ks ord) = Some (s', r, l) → NoDup R → R ⊆ ks →
  (∀ k, k ∈ R → ∃ st j, seen s k = Some (st, j) ∧ st ≠ SRun) →
  (∀ k k', k ∈ R → k ∈ waits_for s k' → k' ∈ R ∧ (rank k < rank k')%nat) →
  ∀ k, k ∈ R → seen s' k = None.
Proof.
  intros [HS HD HQ HW] Hs HND HR Hpres Hcl. assert (HG : DG s) by (by split). revert Hs.
  cbn [sstep]. unfold s_delete. fold (deletable s ks).
  destruct (delete_rounds (S (length (deletable s ks))) ord (deletable s ks) s) as [[s1 dels]|] eqn:Hr; [|done].
  cbn beta iota zeta delta [mbind option_bind]. intros [= <- <- <-].
  destruct (delete_rounds_facts _ _ _ _ _ _ HS Hr) as (G1 & _).
  destruct (delete_rounds_waits _ _ _ _ _ _ HG Hr) as [HG1 Hg].
  assert (HRd : R ⊆ deletable s ks).
  { intros k Hk. apply deletable_spec; [done|]. split; [by apply HR|]. destruct (Hpres k Hk) as (st & j & Hl & Hst).
    exists st, j. by rewrite <- seen_look. }
  intros k Hk. apply seen_none; [apply HG1|]. apply (go_in Hg).
  apply (delete_rounds_all rank _ _ _ _ _ _ R HG Hr); try done.
  - assert (length R ≤ length (deletable s ks))%nat; [|lia].
    apply submseteq_length, NoDup_submseteq; [done|]. intros z Hz. by apply HRd.
  - intros z Hz. destruct (Hpres z Hz) as (st & j & Hl & _). apply seen_some; [done|]. by eexists.
Qed.

(** a delete request is always answered *)
Lemma remove_total k ord s : DG s → is_Some (qdo (ORemove k ord) s).
Proof.
  intros HG. pose proof (dg_s HG) as HS. unfold qdo. cbn [step].
  destruct (items (sq s) !! k) as [x|] eqn:Hk.
  - destruct (inv_get _ _ _ _ (si_q HS) Hk) as (it & Hx & _).
    destruct (q_remove_ok false k x it ord (sq s) (si_q HS) Hk Hx) as (q' & added & -> & _). by eexists.
  - unfold q_remove. rewrite (i_open (si_q HS)), Hk. by eexists.
Qed.
Lemma hasdeps_total k s : DG s → is_Some (qdo (OHasDependents k) s).
Proof. intros HG. unfold qdo. cbn [step]. unfold q_has_dependents. rewrite (i_open (si_q (dg_s HG))). by eexists. Qed.
Lemma delete_fold_total ord ks s del skip : DG s → is_Some (fold_left (delete_one ord) ks (Some (s, del, skip))).
Proof.
  revert s del skip. induction ks as [|k ks IH]; intros s del skip HG; cbn [fold_left]; [by eexists|].
  unfold delete_one at 2. cbn beta iota zeta delta [mbind option_bind].
  destruct (hasdeps_total k s HG) as [[s1 r1] Hq]. rewrite Hq. cbn beta iota zeta delta [mbind option_bind].
  destruct (qdo_hasdeps s (dg_s HG) _ _ _ Hq) as [-> ->].
  destruct (bool_decide_reflect (is_Some (dependants (sq s) !! k))) as [Hd|Hd]; [by apply IH|].
  destruct (remove_total k ord s HG) as [[s2 r2] Hq2]. rewrite Hq2. cbn beta iota zeta delta [mbind option_bind].
  assert (HG2 : DG s2) by (by eapply remove_free; [done|apply eq_None_not_Some|]).
  destruct r2; by apply IH.
Qed.
Lemma delete_rounds_total fuel ord ks s : DG s → is_Some (delete_rounds fuel ord ks s).
Proof.
  revert ks s. induction fuel as [|fuel IH]; intros ks s HG; cbn [delete_rounds]; [by eexists|].
  destruct (delete_fold_total ord ks s [] [] HG) as [[[s1 del] skip] Hf]. rewrite Hf. cbn beta iota zeta delta [mbind option_bind].
  destruct (delete_fold_waits _ _ _ _ _ _ _ _ HG Hf) as (HG1 & _).
  destruct del as [|d0 del]; [by eexists|]. destruct skip as [|k0 skip]; [by eexists|].
  destruct (IH (k0 :: skip) (s1 <| sdb ::= λ d, d <| live ::= λ m, foldr delete m (d0 :: del) |> |>)) as [[s2 dels] Hr].
  { by apply dg_db. }
  rewrite Hr. by eexists.
Qed.
Lemma delete_answered s ks ord : Good s → is_Some (sstep s (ADelete ks ord)).
Proof.
  intros [HS HD HQ HW]. cbn [sstep]. unfold s_delete. fold (deletable s ks).
  destruct (delete_rounds_total (S (length (deletable s ks))) ord (deletable s ks) s) as [[s1 dels] Hr]; [by split|].
  rewrite Hr. by eexists.
Qed.
