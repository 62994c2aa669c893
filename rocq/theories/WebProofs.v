(** Proofs about the status web page. *)
From Coq Require Import ZArith Lia String Ascii.
From stdpp Require Import base option strings gmap list.
From RecordUpdate Require Import RecordSet.
From Verif Require Import GoHeap QueueModel QueueInv QueueEff ServerModel ServerSpec ServerCore ServerEff ServerEff2 ServerEff3 ServerEff4 ServerKey ServerDep
  ListModel ListSpec RestModel RestSpec RestProofs WebModel WebSpec.
Import RecordSetNotations.
Local Open Scope Z_scope.

(** ** Which jobs *)
Lemma may_ok allowed s f k : SInv s → may allowed s f k = true ↔ ∃ i j, seen s k = Some (i, j) ∧ i ∈ allowed ∧ f j = true.
Proof.
  intros HS. unfold may. rewrite seen_look. unfold look. destruct (find_job k s) as [[[it p] j]|].
  - rewrite andb_true_iff, bool_decide_eq_true. split; [intros [? ?]; by exists (ist it), j|]. by intros (? & ? & [= <- <-] & ? & ?).
  - split; [done|]. by intros (? & ? & ? & _).
Qed.
Lemma req_in od la allowed r s k : SInv s → any_orders od → k ∈ req_keys od la allowed r s ↔ asked la allowed r s k.
Proof.
  intros HS Hod. unfold req_keys, asked.
  destruct (String.eqb_spec (w_group r) "") as [Eg|Eg]; cbn [negb].
  - destruct (String.eqb_spec (w_key r) "") as [Ek|Ek]; cbn [negb].
    + split; [by intros ?%elem_of_nil|]. intros (i & j & _ & _ & [[? _]|(_ & ? & _)]); done.
    + rewrite elem_of_list_filter, elem_of_list_singleton, may_ok by done. split.
      * intros [(i & j & ? & ? & _) ->]. exists i, j. split; [done|]. split; [done|]. right. done.
      * intros (i & j & ? & ? & [[? _]|(_ & _ & <-)]); [done|]. split; [|done]. by exists i, j.
  - rewrite elem_of_list_filter, may_ok by done. unfold group_keys. rewrite elem_of_list_filter, current_in by done. split.
    + intros [(i & j & ? & ? & [?%Z.eqb_eq ?%String.eqb_eq]%andb_true_iff) [? _]]. exists i, j. split; [done|]. split; [done|]. by left.
    + intros (i & j & Hs & ? & [(_ & ? & ? & ?)|(? & _)]); [|done]. split; [|by rewrite Hs].
      exists i, j. split; [done|]. split; [done|]. apply andb_true_iff. split; [by apply Z.eqb_eq|by apply String.eqb_eq].
Qed.

(** ** Killing *)
Lemma each_rest now ks : ∀ s s' h l, rest_kill now ks s = Some (s', RHandled h, l) → kill_each now ks s = Some (s', h, l).
Proof.
  induction ks as [|k ks IH]; intros s s' h l; cbn [rest_kill kill_each]; [by intros [= <- <- <-]|].
  case_bool_decide; [done|]. destruct (s_kill now k s) as [[[s1 r] l1]|]; [|done]. cbn beta iota zeta delta [mbind option_bind].
  destruct (rest_kill now ks s1) as [[[s2 a] l2]|] eqn:E; [|done]. cbn beta iota zeta delta [mbind option_bind].
  destruct a as [| |h2]; try done. rewrite (IH _ _ _ _ E). cbn beta iota zeta delta [mbind option_bind].
  destruct r; try (by intros [= <- <- <-]). destruct n; by intros [= <- <- <-].
Qed.
Lemma kill_each_facts now ks s : Good s → (∀ k, k ∈ ks → is_Some (seen s k)) →
  ∃ s' h l, kill_each now ks s = Some (s', h, l) ∧ live (sdb s') = live (sdb s) ∧ complete (sdb s') = complete (sdb s) ∧
    ∀ k, (k ∈ h ↔ k ∈ ks ∧ ∃ j, seen s k = Some (SRun, j)) ∧ (k ∉ h → seen s' k = seen s k) ∧ (k ∈ h → stopping s s' k).
Proof.
  intros HG Hks. destruct (kill_loop now ks s HG Hks) as (s' & h & l & E & _ & Hlv & Hcp & Hk).
  exists s', h, l. split; [by apply each_rest|]. split; [done|]. split; [done|]. intros k. destruct (Hk k) as (A & B & C).
  split; [done|]. split; [done|]. intros Hh. apply A in Hh as Hh'. destruct Hh' as [_ [j Hj]]. exists j. split; [done|].
  specialize (C j Hh Hj). unfold killed_seen in C. split; intros Hl; rewrite Hl in C; done.
Qed.
Lemma web_kill now od la r s : Good s → any_orders od →
  ∃ s' l, web_act now od la WKill r s = Some (s', l) ∧ live (sdb s') = live (sdb s) ∧ complete (sdb s') = complete (sdb s) ∧
    ∀ k, (asked la [SRun] r s k → stopping s s' k) ∧ (¬ asked la [SRun] r s k → seen s' k = seen s k).
Proof.
  intros HG Hod. pose proof (g_s _ HG) as HS. unfold web_act.
  destruct (kill_each_facts now (req_keys od la [SRun] r s) s HG) as (s' & h & l & -> & Hlv & Hcp & Hk).
  { intros k (i & j & -> & _)%req_in; done. }
  cbn beta iota zeta delta [mbind option_bind]. exists s', l. split; [done|]. split; [done|]. split; [done|].
  intros k. destruct (Hk k) as (A & B & C). rewrite req_in in A by done. split.
  - intros Ha. apply C, A. split; [done|]. destruct Ha as (i & j & Hs & ->%elem_of_list_singleton & _). by exists j.
  - intros Ha. apply B. rewrite A. tauto.
Qed.
Lemma kill_hosts now od la host ids s : Good s → any_orders od →
  ∃ s' h l, kill_on now od la host ids s = Some (s', h, l) ∧ live (sdb s') = live (sdb s) ∧ complete (sdb s') = complete (sdb s) ∧
    ∀ k, (k ∈ h ↔ host k ∈ ids ∧ ∃ j, seen s k = Some (SRun, j)) ∧ (k ∈ h → stopping s s' k) ∧ (k ∉ h → seen s' k = seen s k).
Proof.
  intros HG Hod. pose proof (g_s _ HG) as HS. unfold kill_on. destruct ids as [|i0 ids'].
  { exists s, [], []. split; [done|]. split; [done|]. split; [done|]. intros k. split; [|split; [by intros ?%elem_of_nil|done]].
    split; [by intros ?%elem_of_nil|by intros [?%elem_of_nil _]]. }
  set (ids := i0 :: ids').
  destruct (limit_keys_spec od la (LOpts 0 0 "" 0 "running" false) s (current_keys od s) HS Hod) as (k1 & E1 & A1 & B1);
    [unfold three; left|done|done|].
  destruct (limit_keys_spec od la (LOpts 0 0 "" 0 "lost" false) s (current_keys od s) HS Hod) as (k2 & E2 & A2 & B2);
    [unfold three; right; left|done|done|].
  rewrite E1. cbn beta iota zeta delta [mbind option_bind]. rewrite E2. cbn beta iota zeta delta [mbind option_bind].
  destruct (kill_each_facts now (filter (λ k, host k ∈ ids) (k1 ++ k2)) s HG) as (s' & h & l & -> & Hlv & Hcp & Hk).
  { intros k [_ [Hk|Hk]%elem_of_app]%elem_of_list_filter; [apply A1 in Hk as [_ (i & j & -> & _)]|apply A2 in Hk as [_ (i & j & -> & _)]]; done. }
  exists s', h, l. split; [done|]. split; [done|]. split; [done|]. intros k. destruct (Hk k) as (A & B & C). split; [|done].
  rewrite A, elem_of_list_filter, elem_of_app. split; [tauto|]. intros [Hh [j Hj]]. split; [|by exists j]. split; [done|].
  assert (Hc : k ∈ current_keys od s) by (apply current_in; [done|done|by rewrite Hj]).
  destruct (jlost j) eqn:Hl; [right; apply B2|left; apply B1]; try done; exists SRun, j; (split; [done|]); by split.
Qed.

(** ** Removing *)
Lemma web_remove now od la r s : Good s → any_orders od →
  ∃ s', web_act now od la WRemove r s = Some (s', []) ∧
    (∀ k, removed s s' k → asked la [SBury; SDelay; SDep; SReady] r s k ∧ (∀ k', is_Some (seen s' k') → k ∉ waits_for s k') ∧ live (sdb s') !! k = None) ∧
    (∀ k, ¬ removed s s' k → untouched s s' k) ∧ complete (sdb s') = complete (sdb s) ∧
    (∀ (rank : key → nat) (R : list key), NoDup R → (∀ k, k ∈ R → asked la [SBury; SDelay; SDep; SReady] r s k) →
       (∀ k k', k ∈ R → k ∈ waits_for s k' → k' ∈ R ∧ (rank k < rank k')%nat) → ∀ k, k ∈ R → removed s s' k).
Proof.
  intros [HS HD HQ HW] Hod. assert (HG : DG s) by (by split). unfold web_act.
  set (ks := req_keys od la [SBury; SDelay; SDep; SReady] r s).
  assert (Hn : ∀ k, k ∈ ks ↔ asked la [SBury; SDelay; SDep; SReady] r s k) by (intros k; by apply req_in).
  destruct (delete_rounds_total (S (length ks)) (o_deps od) ks s HG) as [[s1 dels] Hr]. rewrite Hr.
  cbn beta iota zeta delta [mbind option_bind].
  destruct (delete_rounds_facts _ _ _ _ _ _ HS Hr) as (G1 & G2 & G3 & G4 & G5 & G6).
  destruct (delete_rounds_waits _ _ _ _ _ _ HG Hr) as [HG1 Hg].
  assert (Hrem : ∀ k, k ∈ concat dels ↔ removed s s1 k).
  { intros k. unfold removed. rewrite seen_some, seen_none by done. split; [by apply (go_in Hg)|].
    intros [[? Ha] Hb]. destruct (decide (k ∈ concat dels)) as [|Hno]; [done|]. rewrite (go_out Hg) in Hb by done. congruence. }
  assert (Hlv : ∀ k, live (sdb s1) !! k = if decide (k ∈ concat dels) then None else live (sdb s) !! k).
  { intros k. rewrite G6. cbn. apply foldr_delete_at. }
  exists s1. split; [done|]. split_and!.
  - intros k Hk%Hrem. split; [by apply Hn, G3|]. split; [|by rewrite Hlv, decide_True].
    intros k' Hk' Hw. apply (go_free Hg k k' Hk), Hrem in Hw as [_ Hno]. rewrite Hno in Hk'. by destruct Hk'.
  - intros k Hk. assert (Hkd : k ∉ concat dels) by (by rewrite Hrem). unfold untouched.
    rewrite !seen_find, (go_out Hg), Hlv, decide_False by done. split; [done|]. split; [|done]. by apply (gone_waits s s1 (concat dels)).
  - by rewrite G6.
  - intros rank R HND HR Hcl k Hk. apply Hrem.
    apply (delete_rounds_all rank _ _ _ _ _ _ R HG Hr); try done.
    + assert (length R ≤ length ks)%nat; [|lia]. apply submseteq_length, NoDup_submseteq; [done|]. intros z Hz. by apply Hn, HR.
    + intros z Hz. by apply Hn, HR.
    + intros z Hz. apply seen_some; [done|]. destruct (HR z Hz) as (i & j & -> & _). done.
Qed.

(** ** Retrying *)
Lemma kick_one_all n k x it j s : SInv s → DInv s → Found s k x it j →
  ∃ s1 n1, kick_one (Some (s, n)) (idata it) = Some (s1, n1) ∧ SInv s1 ∧ DInv s1 ∧ (∀ j', look s1 k ≠ Some (SBury, j')) ∧
    ∀ k0 x0 it0 j0, Found s k0 x0 it0 j0 → ∃ x1 it1 j1, Found s1 k0 x1 it1 j1 ∧ idata it0 = idata it1.
Proof.
  intros HS HD HF. unfold kick_one. cbn beta iota zeta delta [mbind option_bind].
  rewrite (f_job HF). cbn beta iota zeta delta [mbind option_bind]. rewrite (f_jkey HF).
  destruct (qdo (OKick k) s) as [[s1 r1]|] eqn:Hq.
  2: { exfalso. unfold qdo in Hq. destruct (step_total false (sq s) (OKick k) (si_q HS) I) as [[[q r] e] E]. by rewrite E in Hq. }
  cbn beta iota zeta delta [mbind option_bind].
  destruct (qdo_kick s HS _ _ _ Hq) as [(-> & F & HFs & Hone & j0 & Hl0)|(He & HS1 & Hl1 & Hdb1 & Hj1 & Hn1 & Hr1 & Hob1)].
  - destruct Hone as (x' & it' & j' & HF' & HS1 & HF1 & Ho1 & Hdb1 & Hj1 & _ & Hd). same_found HF HF'.
    fold (kicked_job j). assert (Hkk : jkey (kicked_job j) = k) by apply HF. rewrite Hkk, <- Hd.
    destruct (set_const_facts s1 k x (F it) j (kicked_job j) HS1 HF1 Hkk) as (HS2 & HF2 & Ho2 & Hdb2).
    set (s2 := set_job (idata (F it)) (λ _, kicked_job j) s1) in *.
    set (s3 := write_behind k (kicked_job j) s2).
    assert (HS3 : SInv s3) by (by apply write_behind_inv).
    assert (HF3 : Found s3 k x (F it) (kicked_job j)) by (split; apply HF2).
    assert (Ho3 : others s s3 k) by (by eapply others_trans; [|exact Ho2]).
    assert (Hdb3 : sdb s3 = put_pend k (kicked_job j) (sdb s)) by (cbn; by rewrite Hdb1).
    assert (HD3 : DInv s3) by (eapply (pend_dinv s); try done; by eapply found_is_some).
    exists s3, (S n). split; [done|]. split; [done|]. split; [done|]. split.
    + intros j1. rewrite (found_look _ _ _ _ _ HF3). destruct (HFs it) as [-> | ->]; done.
    + intros k0 x0 it0 j1 HF0. destruct (decide (k0 = k)) as [->|Hne].
      * same_found HF HF0. exists x, (F it), (kicked_job j). by rewrite Hd.
      * pose proof (Ho3 _ Hne) as He. rewrite (found_find _ _ _ _ _ HF0) in He.
        destruct (find_found _ _ _ _ _ HS3 He) as (_ & x1 & HF4). by exists x1, it0, j1.
  - assert (HD1 : DInv s1) by (by apply same_dinv with s). exists s1, n. split; [by destruct r1|]. split; [done|]. split; [done|].
    split.
    + intros j1 Hb. assert (Hst : ist it = SBury).
      { rewrite (find_look_eq s s1 k (Hl1 k)), (found_look _ _ _ _ _ HF) in Hb. by injection Hb. }
      destruct (q_kick_ok false k x it (sq s) (si_q HS) (f_item HF) (f_obj HF) Hst) as (q & E & _).
      unfold qdo in Hq. cbn [step] in Hq. rewrite E in Hq. cbn in Hq. injection Hq as <- <-. done.
    + intros k0 x0 it0 j1 HF0. pose proof (Hl1 k0) as He'. rewrite (found_find _ _ _ _ _ HF0) in He'.
      destruct (find_found _ _ _ _ _ HS1 He') as (_ & x1 & HF4). by exists x1, it0, j1.
Qed.
Lemma kick_fold_all ps : ∀ ks s n, SInv s → DInv s → Forall2 (λ k p, ∃ x it j, Found s k x it j ∧ p = idata it) ks ps →
  ∃ s' n', fold_left kick_one ps (Some (s, n)) = Some (s', n') ∧ ∀ k j, k ∈ ks → look s' k ≠ Some (SBury, j).
Proof.
  induction ps as [|p ps IH]; intros ks s n HS HD Hps; cbn [fold_left].
  { inversion Hps; subst. exists s, n. split; [done|]. by intros k j ?%elem_of_nil. }
  destruct ks as [|k ks]; [by inversion Hps|]. apply Forall2_cons in Hps as [(x & it & j & HF & ->) Hps].
  destruct (kick_one_all n k x it j s HS HD HF) as (s1 & n1 & -> & HS1 & HD1 & Hk & Hst).
  assert (Hps1 : Forall2 (λ k p, ∃ x it j, Found s1 k x it j ∧ p = idata it) ks ps).
  { eapply Forall2_impl; [exact Hps|]. cbn beta. intros k0 p0 (x0 & it0 & j0 & HF0 & ->).
    destruct (Hst _ _ _ _ HF0) as (x1 & it1 & j1 & ? & ->). by exists x1, it1, j1. }
  destruct (IH ks s1 n1 HS1 HD1 Hps1) as (s' & n' & Hf & Hall). exists s', n'. split; [done|].
  destruct (kick_fold ps ks s1 n1 s' n' HS1 HD1 Hps1 Hf) as (_ & _ & kk & _ & _ & _ & L4 & L5 & _).
  intros k0 j0 [->|Hk0]%elem_of_cons; [|by apply Hall]. intros Hb.
  destruct (decide (k ∈ kk)) as [Hin|Hin].
  - destruct (L4 k Hin) as (st & j9 & _ & Hl & [->| ->]); congruence.
  - apply (Hk j0). rewrite <- Hb. symmetry. by apply find_look_eq, L5.
Qed.
Lemma kick_all ks s : SInv s → DInv s →
  ∃ s' n, s_kick ks s = Some (s', SCount n, []) ∧ live (sdb s') = live (sdb s) ∧ complete (sdb s') = complete (sdb s) ∧
    ∀ k, (k ∈ ks → (∃ j, seen s k = Some (SBury, j)) → retried s s' k) ∧
         (¬ (k ∈ ks ∧ ∃ j, seen s k = Some (SBury, j)) → seen s' k = seen s k).
Proof.
  intros HS HD. unfold s_kick.
  set (f := λ k, '(it, p, _) ← find_job k s; if decide (ist it = SBury) then Some p else None).
  assert (Hps : Forall2 (λ k p, ∃ x it j, Found s k x it j ∧ p = idata it) (filter (λ k, is_Some (f k)) ks) (omap f ks)).
  { induction ks as [|k ks IH]; [constructor|]. rewrite filter_cons. cbn [omap list_omap].
    destruct (f k) as [p|] eqn:Hf.
    - rewrite decide_True by (by eexists). constructor; [|done]. unfold f in Hf.
      destruct (find_job k s) as [[[it p'] j]|] eqn:Hfj; [|done]. cbn in Hf.
      destruct (decide (ist it = SBury)); [|done]. injection Hf as ->.
      destruct (find_found _ _ _ _ _ HS Hfj) as (-> & x & HF). by exists x, it, j.
    - rewrite decide_False; [done|]. by intros [? ?]. }
  assert (Hfs : ∀ k, is_Some (f k) ↔ ∃ j, seen s k = Some (SBury, j)).
  { intros k. rewrite seen_look. unfold f, look. destruct (find_job k s) as [[[it p] j]|]; cbn.
    - destruct (decide (ist it = SBury)) as [->|Hn]; [by split; [exists j|by eexists]|].
      split; [by intros [? ?]|]. intros [? [=]]. done.
    - split; [by intros [? ?]|by intros [? ?]]. }
  destruct (kick_fold_all (omap f ks) (filter (λ k, is_Some (f k)) ks) s 0%nat HS HD Hps) as (s' & n & Hf & Hall).
  destruct (kick_fold (omap f ks) (filter (λ k, is_Some (f k)) ks) s 0%nat s' n HS HD Hps Hf) as (_ & _ & kk & K1 & K2 & K3 & K4 & K5 & K6).
  rewrite Hf. cbn beta iota zeta delta [mbind option_bind]. exists s', n. split; [done|].
  split; [by rewrite K6; destruct (sdb s)|]. split; [by rewrite K6; destruct (sdb s)|]. intros k.
  assert (Hin : k ∈ kk ↔ k ∈ ks ∧ ∃ j, seen s k = Some (SBury, j)).
  { split.
    - intros Hk%K2. apply elem_of_list_filter in Hk as [Hk1 Hk2]. split; [done|]. by apply Hfs.
    - intros [Hk1 Hk2]. destruct (decide (k ∈ kk)) as [|Hn]; [done|]. exfalso. destruct Hk2 as [j Hj].
      apply (Hall k j). { apply elem_of_list_filter. split; [|done]. apply Hfs. by exists j. }
      rewrite (find_look_eq s s' k (K5 k Hn)), <- seen_look. done. }
  split.
  - intros H1 H2. destruct (K4 k) as (st & j & Hl & Hl' & Hst); [by apply Hin|]. exists j, st, (kicked_job j). rewrite !seen_look. by split_and!.
  - intros Hn. rewrite !seen_look. apply find_look_eq, K5. by rewrite Hin.
Qed.
Lemma web_retry now od la r s : Good s → any_orders od →
  ∃ s' l, web_act now od la WRetry r s = Some (s', l) ∧ live (sdb s') = live (sdb s) ∧ complete (sdb s') = complete (sdb s) ∧
    ∀ k, (asked la [SBury] r s k → retried s s' k) ∧ (¬ asked la [SBury] r s k → seen s' k = seen s k).
Proof.
  intros [HS HD _ _] Hod. unfold web_act. destruct (kick_all (req_keys od la [SBury] r s) s HS HD) as (s' & n & -> & Hlv & Hcp & Hk).
  cbn beta iota zeta delta [mbind option_bind]. exists s', []. split; [done|]. split; [done|]. split; [done|].
  intros k. destruct (Hk k) as [A B]. split.
  - intros Ha. apply A; [by apply req_in|]. destruct Ha as (i & j & Hs & ->%elem_of_list_singleton & _). by exists j.
  - intros Ha. apply B. intros [Hk1 _]. by apply Ha, (req_in od).
Qed.

(** ** Counting *)
Lemma count_fold sts : ∀ m t, default 0%nat (fold_left count_one sts m !! t) = (default 0 (m !! t) + length (filter (λ st, shown_state st = t) sts))%nat ∧
  (is_Some (fold_left count_one sts m !! t) ↔ is_Some (m !! t) ∨ filter (λ st, shown_state st = t) sts ≠ []).
Proof.
  induction sts as [|st sts IH]; intros m t; cbn [fold_left].
  { cbn. split; [lia|]. naive_solver. }
  destruct (IH (count_one m st) t) as [A B]. rewrite A, B, filter_cons. unfold count_one. destruct (decide (shown_state st = t)) as [<-|Hne].
  - rewrite lookup_insert. cbn [default from_option length]. unfold id. split; [lia|]. split; [by right|]. left. by eexists.
  - by rewrite lookup_insert_ne.
Qed.
Lemma counts_ok od s : SInv s → any_orders od → ∀ st,
  ∃ ks, NoDup ks ∧ (∀ k, k ∈ ks ↔ on_page s k st) ∧ all_counts od s !! st = match length ks with O => None | n => Some n end.
Proof.
  intros HS Hod st. unfold all_counts, state_counts.
  set (g := λ k, '(it, _, j) ← find_job k s; Some (item_state it j)).
  exists (filter (λ k, shown_state <$> g k = Some st) (current_keys od s)). split; [|split].
  - apply NoDup_filter. unfold current_keys. destruct Hod as [_ ->]. apply NoDup_fst_map_to_list.
  - intros k. rewrite elem_of_list_filter, current_in by done. unfold on_page, g. rewrite seen_look. unfold look.
    destruct (find_job k s) as [[[it p] j]|] eqn:Hf; cbn.
    + destruct (find_found _ _ _ _ _ HS Hf) as [_ [x HF]]. pose proof (f_live HF) as Hl.
      assert (E : shown_state (item_state it j) = st ↔ match ist it with
        | SDelay => st = "delayed" | SReady => st = "ready" | SBury => st = "buried" | SDep => st = "dependent" | SRemoved => False
        | SRun => st = if jlost j then "lost" else "running" end%string).
      { unfold item_state. destruct (ist it); try done; cbn; try (split; congruence). destruct (jlost j); [cbn; split; congruence|].
        destruct (jstart j =? 0)%Z; cbn; split; congruence. }
      split.
      * intros [[= E1] _]. exists (ist it), j. split; [done|]. by apply E.
      * intros (i & j' & [= <- <-] & Hm). split; [|done]. f_equal. by apply E.
    + split; [by intros [? _]|]. by intros (? & ? & ? & _).
  - set (l := current_keys od s). destruct (count_fold (omap g l) ∅ st) as [A B].
    assert (E : length (filter (λ st', shown_state st' = st) (omap g l)) = length (filter (λ k, shown_state <$> g k = Some st) l)).
    { clear. induction l as [|k l IH]; [done|]. rewrite filter_cons. cbn [omap list_omap]. destruct (g k) as [y|].
      - rewrite filter_cons. destruct (decide (shown_state y = st)) as [E|E].
        + rewrite decide_True by (cbn; by rewrite E). cbn [length]. f_equal. exact IH.
        + rewrite decide_False by (cbn; congruence). exact IH.
      - rewrite decide_False by done. exact IH. }
    rewrite lookup_empty in A, B. cbn [default from_option] in A. rewrite E in A.
    destruct (fold_left count_one (omap g l) ∅ !! st) as [n|] eqn:Hc.
    + cbn in A. unfold id in A. rewrite <- A. destruct n as [|n]; [|done]. exfalso.
      destruct (proj1 B ltac:(by eexists)) as [[? ?]|Hne]; [done|]. apply Hne. apply length_zero_iff_nil. rewrite E. lia.
    + cbn in A. rewrite <- A. done.
Qed.
