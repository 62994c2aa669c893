(** Lemmas for C37 and C52. *)
From Coq Require Import ZArith Lia.
From stdpp Require Import base option list.
From RecordUpdate Require Import RecordSet.
From Verif Require Import LocalModel LocalSpec.
Import RecordSetNotations.
Open Scope Z_scope.

(** *** sums *)
Definition zero1 (r : lreq) : Z := if decide (rcores r = 0) then 1 else 0.
Lemma ram_cons r l : ram_of (r :: l) = rram r + ram_of l. Proof. done. Qed.
Lemma cores_cons r l : cores_of (r :: l) = rcores r + cores_of l. Proof. done. Qed.
Lemma coreless_cons r l : coreless (r :: l) = zero1 r + coreless l. Proof. done. Qed.
Arguments ram_of : simpl never.
Arguments cores_of : simpl never.
Arguments coreless : simpl never.
Lemma ram_app a b : ram_of (a ++ b) = ram_of a + ram_of b.
Proof. induction a as [|r a IH]; [done|]. cbn [app]. rewrite !ram_cons, IH. lia. Qed.
Lemma cores_app a b : cores_of (a ++ b) = cores_of a + cores_of b.
Proof. induction a as [|r a IH]; [done|]. cbn [app]. rewrite !cores_cons, IH. lia. Qed.
Lemma coreless_app a b : coreless (a ++ b) = coreless a + coreless b.
Proof. induction a as [|r a IH]; [done|]. cbn [app]. rewrite !coreless_cons, IH. lia. Qed.
Lemma sums_delete (l : list lreq) i r : l !! i = Some r →
  ram_of (delete i l) = ram_of l - rram r ∧ cores_of (delete i l) = cores_of l - rcores r ∧ coreless (delete i l) = coreless l - zero1 r.
Proof.
  intros Hi. assert (El := take_drop_middle l i r Hi). rewrite delete_take_drop. set (a := take i l) in *. set (b := drop (S i) l) in *. rewrite <- El.
  rewrite !ram_app, !cores_app, !coreless_app, ram_cons, cores_cons, coreless_cons. lia.
Qed.
Lemma sums_one r : ram_of [r] = rram r ∧ cores_of [r] = rcores r ∧ coreless [r] = zero1 r.
Proof. rewrite ram_cons, cores_cons, coreless_cons. unfold ram_of, cores_of, coreless. cbn. lia. Qed.
Lemma sums_repeat r n : ram_of (repeat r n) = Z.of_nat n * rram r ∧ cores_of (repeat r n) = Z.of_nat n * rcores r ∧ coreless (repeat r n) = Z.of_nat n * zero1 r.
Proof.
  induction n as [|n (IH1 & IH2 & IH3)]; [done|]. cbn [repeat]. change (r :: repeat r n) with ([r] ++ repeat r n).
  rewrite ram_app, cores_app, coreless_app, IH1, IH2, IH3. destruct (sums_one r) as (-> & -> & ->). lia.
Qed.
Definition uses (l : list lreq) : claims := Claims (ram_of l) (cores_of l) (coreless l).
Lemma claims_eq c a b z : lram c = a → lcores c = b → lzero c = z → c = Claims a b z.
Proof. destruct c. cbn. by intros -> -> ->. Qed.
Lemma claim_uses r l : claim r (uses l) = uses (l ++ [r]).
Proof.
  unfold claim, uses. rewrite ram_app, cores_app, coreless_app. destruct (sums_one r) as (-> & -> & ->). unfold zero1.
  case_bool_decide as H; apply claims_eq; cbn; rewrite ?decide_True, ?decide_False by done; lia.
Qed.
Lemma unclaim_uses r l i : l !! i = Some r → unclaim r (uses l) = uses (delete i l).
Proof.
  intros Hi. unfold unclaim, uses. destruct (sums_delete l i r Hi) as (-> & -> & ->). unfold zero1.
  case_bool_decide as H; apply claims_eq; cbn; rewrite ?decide_True, ?decide_False by done; lia.
Qed.
Lemma step_claims mr mc e s s' : local_step mr mc e s = Some s' → lclaims s = uses (started s) → lclaims s' = uses (started s').
Proof.
  intros Hst Hc. destruct e as [|r should inf|i|i|i| | | | |r]; cbn [local_step] in Hst.
  - injection Hst as <-. unfold ask. by destruct (lphase_ s).
  - destruct (lphase_ s); [done| |done]. destruct (bool_decide (should ≤ 0)); [by injection Hst as <-|].
    cbv zeta in Hst. destruct (bool_decide (_ ≤ 0)); by injection Hst as <-.
  - destruct (starting s !! i) as [r|]; [|done]. injection Hst as <-. cbn. rewrite Hc. apply claim_uses.
  - destruct (starting s !! i) as [r|]; [|done]. injection Hst as <-. done.
  - destruct (started s !! i) as [r|] eqn:Hi; [|done]. injection Hst as <-. cbn. rewrite Hc. by apply unclaim_uses.
  - destruct (lphase_ s) as [| |[|n]]; [done|done| |done]. by injection Hst as <-.
  - destruct (lphase_ s); [done|done|]. by injection Hst as <-.
  - destruct (lphase_ s); [done| |done]. by injection Hst as <-.
  - destruct (lagain s); [done|]. injection Hst as <-. unfold ask. cbn. by destruct (lphase_ s).
  - injection Hst as <-. cbn. rewrite Hc. apply claim_uses.
Qed.
Lemma run_claims mr mc es : ∀ s s', local_run mr mc es s = Some s' → lclaims s = uses (started s) → lclaims s' = uses (started s').
Proof.
  induction es as [|e es IH]; intros s s' Hr; cbn [local_run] in Hr; [by injection Hr as <-|].
  destruct (local_step mr mc e s) as [s1|] eqn:E; [|done]. cbn in Hr. intros Hc. eapply IH; [exact Hr|]. by eapply step_claims.
Qed.

(** *** never too much *)
Lemma can_count_spec mr mc inf r c : lram c ≤ mr → lcores c ≤ mc * 1000 → lzero c ≤ 2 * mc →
  let n := can_count mr mc inf r c in 0 < n → 0 ≤ rram r ∧ 0 ≤ rcores r ∧
  lram c + n * rram r ≤ mr ∧ lcores c + n * rcores r ≤ mc * 1000 ∧ lzero c + n * zero1 r ≤ 2 * mc.
Proof.
  intros H1 H2 H3. cbv zeta. unfold can_count.
  assert (Hdiv : ∀ a b, 0 ≤ a → b ≠ 0 → 0 < a / b → 0 < b ∧ (a / b) * b ≤ a).
  { intros a b Ha Hb Hq. assert (0 < b). { destruct (Z_lt_le_dec 0 b); [done|]. 
      pose proof (Z.div_opp_opp a b Hb) as Ho. rewrite <- Ho in Hq. assert (0 < - b) by lia. pose proof (Z.mul_div_le (- a) (- b) ltac:(lia)). nia. }
    split; [done|]. pose proof (Z.mul_div_le a b ltac:(lia)). lia. }
  set (n0 := if bool_decide (rram r = 0) then inf else (mr - lram c) / rram r).
  assert (Hr : 0 < n0 → 0 ≤ rram r ∧ ∀ n, 0 < n ≤ n0 → lram c + n * rram r ≤ mr).
  { intros Hn. unfold n0 in *. destruct (bool_decide_reflect (rram r = 0)) as [Hz|Hz]; [rewrite Hz; split; [lia|intros; lia]|].
    destruct (Hdiv (mr - lram c) (rram r)) as [Hp Hle]; [lia|done|done|]. split; [lia|]. intros n Hn'. nia. }
  destruct (bool_decide_reflect (n0 < 0)) as [Hn0|Hn0]; [rewrite bool_decide_eq_false_2 by lia; lia|].
  destruct (bool_decide_reflect (1 ≤ n0)) as [Hn1|Hn1]; [|lia]. destruct Hr as [Hr0 Hr]; [lia|].
  set (n2 := if bool_decide (rcores r = 0) then mc * 2 - lzero c else (mc * 1000 - lcores c) / rcores r).
  assert (Hc : 0 < n2 → 0 ≤ rcores r ∧ ∀ n, 0 < n ≤ n2 → lcores c + n * rcores r ≤ mc * 1000 ∧ lzero c + n * zero1 r ≤ 2 * mc).
  { intros Hn. unfold n2, zero1 in *. destruct (bool_decide_reflect (rcores r = 0)) as [Hz|Hz].
    - rewrite decide_True by done. rewrite Hz. split; [lia|]. intros n Hn'. lia.
    - rewrite decide_False by done. destruct (Hdiv (mc * 1000 - lcores c) (rcores r)) as [Hp Hle]; [lia|done|done|]. split; [lia|]. intros n Hn'. split; [nia|lia]. }
  destruct (bool_decide_reflect (n2 < n0)) as [Hlt|Hlt].
  - destruct (bool_decide_reflect (n2 < 0)) as [Hneg|Hneg]; [lia|]. intros Hn. destruct (Hc Hn) as [Hc0 Hc']. split_and!; [done|done|apply Hr; lia|apply Hc'; lia|apply Hc'; lia].
  - intros Hn. destruct Hc as [Hc0 Hc']; [lia|]. split_and!; [done|done|apply Hr; lia|apply Hc'; lia|apply Hc'; lia].
Qed.
Definition nonneg (r : lreq) : Prop := 0 ≤ rram r ∧ 0 ≤ rcores r.
Definition local_ok (mr mc : Z) (s : local) : Prop :=
  lclaims s = uses (started s) ∧ Forall nonneg (starting s) ∧ Forall nonneg (started s) ∧ fits mr mc (starting s ++ started s) ∧
  match lphase_ s with LWaiting n => length (starting s) = n | _ => starting s = [] end.
Lemma sums_nonneg l : Forall nonneg l → 0 ≤ ram_of l ∧ 0 ≤ cores_of l ∧ 0 ≤ coreless l.
Proof.
  induction 1 as [|r l [Hr1 Hr2] Hl (IH1 & IH2 & IH3)]; [done|]. rewrite ram_cons, cores_cons, coreless_cons. unfold zero1. case_decide; lia.
Qed.
Lemma local_ok_step mr mc e s s' : local_step mr mc e s = Some s' → ordinary e → local_ok mr mc s → local_ok mr mc s'.
Proof.
  intros Hst He (Hc & Hn1 & Hn2 & (Hf1 & Hf2 & Hf3) & Hp). pose proof (step_claims _ _ _ _ _ Hst Hc) as Hc'.
  rewrite ram_app in Hf1. rewrite cores_app in Hf2. rewrite coreless_app in Hf3.
  assert (Hlen : ∀ i r, starting s !! i = Some r → length (starting s) = S (length (delete i (starting s)))).
  { intros i r Hi. rewrite length_delete by eauto. apply lookup_lt_Some in Hi. lia. }
  assert (Hph : ∀ i r, starting s !! i = Some r → ∃ n, lphase_ s = LWaiting (S n) ∧ length (delete i (starting s)) = n).
  { intros i r Hi. pose proof (Hlen i r Hi). destruct (lphase_ s) as [| |[|n]]; [rewrite Hp in Hi; by rewrite lookup_nil in Hi..|lia|]. exists n. split; [done|lia]. }
  destruct e as [|r should inf|i|i|i| | | | |r]; cbn [local_step] in Hst; try done.
  - injection Hst as <-. unfold ask in *. destruct (lphase_ s) eqn:E; (split_and!; [exact Hc'|exact Hn1|exact Hn2|split_and!; cbn; rewrite ?ram_app, ?cores_app, ?coreless_app; done|]); cbn; rewrite ?E; exact Hp.
  - destruct (lphase_ s) eqn:E; [done| |done].
    destruct (bool_decide_reflect (should ≤ 0)) as [Hs|Hs]; [injection Hst as <-; split_and!; [done..|split_and!; rewrite ?ram_app, ?cores_app, ?coreless_app; done|by rewrite E]|].
    cbv zeta in Hst. set (cc := can_count mr mc inf r (lclaims s)) in *.
    set (n := if bool_decide (should < cc) then should else cc) in *.
    destruct (bool_decide_reflect (n ≤ 0)) as [Hz|Hz]; [injection Hst as <-; split_and!; [done..|split_and!; rewrite ?ram_app, ?cores_app, ?coreless_app; done|by rewrite E]|].
    injection Hst as <-. rewrite Hp in *. change (ram_of []) with 0 in Hf1. change (cores_of []) with 0 in Hf2. change (coreless []) with 0 in Hf3.
    assert (Hle : n ≤ cc) by (unfold n; destruct (bool_decide_reflect (should < cc)); lia).
    destruct (can_count_spec mr mc inf r (lclaims s)) as (H1 & H2 & H3 & H4 & H5).
    { rewrite Hc. cbn. lia. } { rewrite Hc. cbn. lia. } { rewrite Hc. cbn. lia. } { fold cc. lia. }
    fold cc in H3, H4, H5. rewrite Hc in H3, H4, H5. cbn in H3, H4, H5.
    destruct (sums_repeat r (Z.to_nat n)) as (E1 & E2 & E3).
    assert (Hz1 : 0 ≤ zero1 r) by (unfold zero1; case_decide; lia).
    split_and!; cbn; [done| |done| |].
    + rewrite Hp. cbn. apply Forall_forall. intros x Hx. apply elem_of_list_In, repeat_spec in Hx as ->. done.
    + rewrite Hp. cbn. unfold fits. rewrite ram_app, cores_app, coreless_app, E1, E2, E3. rewrite Z2Nat.id by lia. split_and!; nia.
    + rewrite Hp. cbn. apply repeat_length.
  - destruct (starting s !! i) as [r|] eqn:Hi; [|done]. injection Hst as <-.
    destruct (Hph i r Hi) as (n & E & Hl). destruct (sums_delete _ _ _ Hi) as (E1 & E2 & E3). destruct (sums_one r) as (O1 & O2 & O3).
    assert (Hr : nonneg r) by (by apply (Forall_lookup_1 _ _ _ _ Hn1 Hi)).
    split_and!; [exact Hc'| | | |].
    + cbn. by apply Forall_delete.
    + cbn. apply Forall_app. split; [done|]. by constructor.
    + cbn. unfold fits. rewrite !ram_app, !cores_app, !coreless_app, E1, E2, E3, O1, O2, O3. split_and!; lia.
    + cbn. rewrite E. done.
  - destruct (starting s !! i) as [r|] eqn:Hi; [|done]. injection Hst as <-.
    destruct (Hph i r Hi) as (n & E & Hl). destruct (sums_delete _ _ _ Hi) as (E1 & E2 & E3).
    assert (Hr : nonneg r) by (by apply (Forall_lookup_1 _ _ _ _ Hn1 Hi)).
    assert (Hz1 : 0 ≤ zero1 r) by (unfold zero1; case_decide; lia). destruct Hr.
    split_and!; [exact Hc'| |done| |].
    + cbn. by apply Forall_delete.
    + cbn. unfold fits. rewrite !ram_app, !cores_app, !coreless_app, E1, E2, E3. split_and!; lia.
    + cbn. rewrite E. done.
  - destruct (started s !! i) as [r|] eqn:Hi; [|done]. injection Hst as <-. destruct (sums_delete _ _ _ Hi) as (E1 & E2 & E3).
    assert (Hr : nonneg r) by (by apply (Forall_lookup_1 _ _ _ _ Hn2 Hi)).
    assert (Hz1 : 0 ≤ zero1 r) by (unfold zero1; case_decide; lia). destruct Hr.
    split_and!; [exact Hc'|done| | |exact Hp].
    + cbn. by apply Forall_delete.
    + cbn. unfold fits. rewrite !ram_app, !cores_app, !coreless_app, E1, E2, E3. split_and!; lia.
  - destruct (lphase_ s) as [| |[|n]]; [done|done| |done]. injection Hst as <-. split_and!; [done..|split_and!; cbn; rewrite ?ram_app, ?cores_app, ?coreless_app; done|]. cbn. by apply nil_length_inv.
  - destruct (lphase_ s); [done| |done]. injection Hst as <-. split_and!; [done..|split_and!; cbn; rewrite ?ram_app, ?cores_app, ?coreless_app; done|]. done.
  - destruct (lagain s); [done|]. injection Hst as <-. unfold ask in *. cbn in *.
    destruct (lphase_ s) eqn:E; (split_and!; [exact Hc'|exact Hn1|exact Hn2|split_and!; cbn; rewrite ?ram_app, ?cores_app, ?coreless_app; done|]); cbn; rewrite ?E; exact Hp.
Qed.
Lemma local_ok_run mr mc es : ∀ s s', local_run mr mc es s = Some s' → Forall ordinary es → local_ok mr mc s → local_ok mr mc s'.
Proof.
  induction es as [|e es IH]; intros s s' Hr Ho; cbn [local_run] in Hr; [by injection Hr as <-|].
  destruct (local_step mr mc e s) as [s1|] eqn:E; [|done]. cbn in Hr. apply Forall_cons in Ho as [He Ho]. intros Hc. eapply IH; [exact Hr|done|]. by eapply local_ok_step.
Qed.
Lemma local_ok0 mr mc : 0 ≤ mr → 0 ≤ mc → local_ok mr mc local0.
Proof. intros H1 H2. split_and!; [done|by apply Forall_nil|by apply Forall_nil| |done]. unfold fits, ram_of, cores_of, coreless. cbn. lia. Qed.

(** *** one command *)
Definition kok (s : kstate) : Prop :=
  krunning s = Z.of_nat (length (kprocs s)) ∧
  match kitem s with
  | None => kprocs s = []
  | Some j => Forall (λ x, x = j) (kprocs s) ∧
      ∃ b, kjobs s !! j = Some b ∧ 0 < kcount b ∧ kdecs b = Z.max 0 (krunning s - kcount b)
  end.
Definition kneeded (s : kstate) : Z :=
  match kitem s with
  | None => 0
  | Some j => match kjobs s !! j with Some b => Z.max 0 (kcount b - krunning s) | None => 0 end
  end.
Lemma kok0 : kok k0.
Proof. done. Qed.
Lemma kschedule_ok n s : kok s → 0 < n → kok (kschedule n s) ∧ kneeded (kschedule n s) = Z.max 0 (n - Z.of_nat (length (kprocs s))) ∧
  kprocs (kschedule n s) = kprocs s ∧ kstarted (kschedule n s) = kstarted s.
Proof.
  intros [Hr Hi] Hn. unfold kschedule. destruct (kitem s) as [j|] eqn:Ei.
  - destruct Hi as (Hf & b & Hb & Hc & Hd). rewrite bool_decide_eq_false_2 by lia. unfold kok, kneeded. cbn. rewrite Ei.
    rewrite list_lookup_alter, Hb. cbn. split_and!; [done|done| |lia|done|done].
    eexists. split; [done|]. cbn. split; [done|]. destruct (bool_decide_reflect (n < krunning s)); lia.
  - unfold kok, kneeded. cbn. rewrite lookup_app_r, Nat.sub_diag by lia. cbn. rewrite Hi in *. cbn in *. split_and!; try done; try lia.
    eexists. split; [done|]. cbn. lia.
Qed.
Lemma kprocess_ok can s : kok s → kok (kprocess can s) ∧
  Z.of_nat (kstarted (kprocess can s)) + kneeded (kprocess can s) = Z.of_nat (kstarted s) + kneeded s.
Proof.
  intros [Hr Hi]. unfold kprocess. destruct (kitem s) as [j|] eqn:Ei; [|split; [split; [done|by rewrite Ei]|done]].
  destruct Hi as (Hf & b & Hb & Hc & Hd). rewrite Hb. rewrite bool_decide_eq_false_2 by lia.
  assert (Hs : kok s) by (split; [done|rewrite Ei; eauto]).
  destruct (bool_decide_reflect (kcount b - krunning s ≤ 0)) as [H1|H1]; [done|].
  set (n := if bool_decide (kcount b - krunning s < can) then kcount b - krunning s else can).
  assert (Hn : n ≤ kcount b - krunning s) by (unfold n; destruct (bool_decide_reflect (kcount b - krunning s < can)); lia).
  destruct (bool_decide_reflect (n ≤ 0)) as [H2|H2]; [done|].
  unfold kok, kneeded. cbn. rewrite Ei, Hb. split; [|lia]. split; [rewrite app_length, repeat_length; lia|].
  split; [|exists b; split_and!; [done|done|lia]]. apply Forall_app. split; [done|]. apply Forall_forall. intros x Hx.
  by apply elem_of_list_In, repeat_spec in Hx.
Qed.
Lemma kend_ok i s s' : kok s → kend i false s = Some s' → kok s' ∧
  Z.of_nat (kstarted s') + kneeded s' = Z.of_nat (kstarted s) + kneeded s.
Proof.
  intros [Hr Hi]. unfold kend. destruct (kprocs s !! i) as [j'|] eqn:Hp; [|done]. cbn [mbind option_bind].
  assert (Hlen : length (kprocs s) = S (length (delete i (kprocs s)))).
  { rewrite length_delete by eauto. apply lookup_lt_Some in Hp. lia. }
  destruct (kitem s) as [j|] eqn:Ei; [|rewrite Hi in Hp; by rewrite lookup_nil in Hp].
  destruct Hi as (Hf & b & Hb & Hc & Hd). assert (j' = j) as -> by (apply (Forall_lookup_1 _ _ _ _ Hf Hp)). rewrite Hb. cbn [mbind option_bind].
  intros [= <-].
  assert (Hrun : (if bool_decide (krunning s - 1 ≤ 0) then 0 else krunning s - 1) = krunning s - 1).
  { destruct (bool_decide_reflect (krunning s - 1 ≤ 0)); lia. }
  assert (Hjl : (j < length (kjobs s))%nat) by (by eapply lookup_lt_Some).
  destruct (bool_decide_reflect (0 < kdecs b)) as [H1|H1]; cbn.
  - rewrite bool_decide_eq_false_2 by lia. unfold kok, kneeded. cbn. rewrite Ei, Hrun, Hb. rewrite list_lookup_insert by done. cbn.
    split; [|lia]. split; [lia|]. split; [by apply Forall_delete|]. eexists. split; [done|]. cbn. lia.
  - destruct (bool_decide_reflect (kcount b - 1 ≤ 0)) as [H2|H2]; unfold kok, kneeded; cbn; rewrite Hrun, ?Ei, ?Hb.
    + split; [|lia]. split; [lia|]. apply nil_length_inv. lia.
    + rewrite list_lookup_insert by done. cbn. split; [|lia]. split; [lia|]. split; [by apply Forall_delete|]. eexists. split; [done|]. cbn. lia.
Qed.
Lemma kok_step e s s' : kok s → kcalm e → kstep e s = Some s' → kok s'.
Proof.
  intros Hs Hc. destruct e as [n|can|i err]; cbn.
  - intros [= <-]. by apply kschedule_ok.
  - intros [= <-]. by apply kprocess_ok.
  - cbn in Hc. subst err. apply kend_ok. done.
Qed.
Lemma kok_run es : ∀ s s', kok s → Forall kcalm es → krun es s = Some s' → kok s'.
Proof.
  induction es as [|e es IH]; intros s s' Hs Hc Hr; cbn [krun] in Hr; [by injection Hr as <-|].
  destruct (kstep e s) as [s1|] eqn:E; [|done]. apply Forall_cons in Hc as [He Hc]. cbn in Hr. eapply IH; [|done|done]. by eapply kok_step.
Qed.
Lemma kneeded_run es : ∀ s s', kok s → Forall kcalm es → Forall no_schedule es → krun es s = Some s' →
  Z.of_nat (kstarted s') + kneeded s' = Z.of_nat (kstarted s) + kneeded s.
Proof.
  induction es as [|e es IH]; intros s s' Hs Hc Hn Hr; cbn [krun] in Hr; [by injection Hr as <-|].
  destruct (kstep e s) as [s1|] eqn:E; [|done]. apply Forall_cons in Hc as [He Hc]. apply Forall_cons in Hn as [Hne Hn]. cbn in Hr.
  rewrite (IH s1 s' (kok_step _ _ _ Hs He E) Hc Hn Hr). destruct e as [n|can|i err]; [done| |]; cbn in E.
  - injection E as <-. by apply kprocess_ok.
  - cbn in He. subst err. by apply (kend_ok i).
Qed.
Lemma kneeded_nonneg s : 0 ≤ kneeded s.
Proof. unfold kneeded. destruct (kitem s) as [j|]; [|done]. destruct (kjobs s !! j); lia. Qed.
Lemma exact_count es1 es2 n s s' : krun es1 k0 = Some s → krun (KSchedule n :: es2) s = Some s' →
  Forall kcalm es1 → 0 < n → Forall kcalm es2 → Forall no_schedule es2 →
  let extra := Z.max 0 (n - Z.of_nat (length (kprocs s))) in
  Z.of_nat (kstarted s') ≤ Z.of_nat (kstarted s) + extra ∧
  (kitem s' = None → Z.of_nat (kstarted s') = Z.of_nat (kstarted s) + extra ∧ kprocs s' = []).
Proof.
  intros Hr1 Hr2 Hc1 Hn Hc2 Hn2. assert (Hs : kok s) by exact (kok_run es1 _ _ kok0 Hc1 Hr1).
  cbn [krun kstep mbind option_bind] in Hr2. destruct (kschedule_ok n s Hs Hn) as (Hs1 & He & Hp & Hst).
  pose proof (kneeded_run es2 _ _ Hs1 Hc2 Hn2 Hr2) as H. rewrite He, Hst in H. cbv zeta. split.
  - pose proof (kneeded_nonneg s'). lia.
  - intros Hi. assert (Hs' : kok s') by exact (kok_run es2 _ _ Hs1 Hc2 Hr2). destruct Hs' as [_ Hs']. rewrite Hi in Hs'.
    split; [|done]. assert (kneeded s' = 0); [|lia]. unfold kneeded. by rewrite Hi.
Qed.
(** as long as the command is in the queue something can be done for it *)
Lemma can_go_on es s : krun es k0 = Some s → Forall kcalm es → kitem s ≠ None →
  kprocs s ≠ [] ∨ ∃ s', kstep (KProcess 1) s = Some s' ∧ kstarted s' = S (kstarted s).
Proof.
  intros Hr Hc Hi. assert (Hs : kok s) by exact (kok_run es _ _ kok0 Hc Hr). destruct Hs as [Hru Hs].
  destruct (kitem s) as [j|] eqn:Ei; [|done]. destruct Hs as (Hf & b & Hb & Hcb & Hd).
  destruct (kprocs s) as [|p ps] eqn:Ep; [right|by left]. change (krunning s = 0) in Hru. eexists. split; [reflexivity|].
  unfold kprocess. rewrite Ei, Hb, Hru. rewrite bool_decide_eq_false_2 by lia. cbv zeta. rewrite bool_decide_eq_false_2 by lia.
  destruct (bool_decide_reflect (kcount b - 0 < 1)) as [H|H]; [lia|]. rewrite bool_decide_eq_false_2 by lia. cbn. lia.
Qed.
(** *** commands that cannot be started *)
Definition kleft (n : Z) (s : kstate) : Prop :=
  krunning s = Z.of_nat (length (kprocs s)) ∧
  match kitem s with
  | None => n = 0 ∧ kprocs s = []
  | Some j => Forall (λ x, x = j) (kprocs s) ∧ ∃ b, kjobs s !! j = Some b ∧ 0 < kcount b ∧ kcount b = n ∧ kdecs b = 0 ∧ krunning s ≤ n
  end.
Lemma kleft_process n can s : kleft n s → kleft n (kprocess can s).
Proof.
  intros [Hr Hi]. unfold kprocess. destruct (kitem s) as [j|] eqn:Ei; [|split; [done|by rewrite Ei]].
  destruct Hi as (Hf & b & Hb & Hc & Hn & Hd & Hle). rewrite Hb. rewrite bool_decide_eq_false_2 by lia.
  assert (Hs : kleft n s) by (split; [done|rewrite Ei; eauto 10]).
  destruct (bool_decide_reflect (kcount b - krunning s ≤ 0)) as [H1|H1]; [done|].
  set (m := if bool_decide (kcount b - krunning s < can) then kcount b - krunning s else can).
  assert (Hm : m ≤ kcount b - krunning s) by (unfold m; destruct (bool_decide_reflect (kcount b - krunning s < can)); lia).
  destruct (bool_decide_reflect (m ≤ 0)) as [H2|H2]; [done|].
  unfold kleft. cbn. rewrite Ei. split; [rewrite app_length, repeat_length; lia|].
  split; [|exists b; split_and!; try done; lia]. apply Forall_app. split; [done|]. apply Forall_forall. intros x Hx.
  by apply elem_of_list_In, repeat_spec in Hx.
Qed.
Lemma kleft_end n i err s s' : kleft n s → kend i err s = Some s' → kleft (if err then n else n - 1) s'.
Proof.
  intros [Hr Hi]. unfold kend. destruct (kprocs s !! i) as [j'|] eqn:Hp; [|done]. cbn [mbind option_bind].
  assert (Hlen : length (kprocs s) = S (length (delete i (kprocs s)))).
  { rewrite length_delete by eauto. apply lookup_lt_Some in Hp. lia. }
  destruct (kitem s) as [j|] eqn:Ei; [|destruct Hi as [_ Hi]; rewrite Hi in Hp; by rewrite lookup_nil in Hp].
  destruct Hi as (Hf & b & Hb & Hc & Hn & Hd & Hle). assert (j' = j) as -> by (apply (Forall_lookup_1 _ _ _ _ Hf Hp)). rewrite Hb. cbn [mbind option_bind].
  assert (Hrun : (if bool_decide (krunning s - 1 ≤ 0) then 0 else krunning s - 1) = krunning s - 1).
  { destruct (bool_decide_reflect (krunning s - 1 ≤ 0)); lia. }
  assert (Hjl : (j < length (kjobs s))%nat) by (by eapply lookup_lt_Some).
  destruct err; intros [= <-].
  - unfold kleft. cbn. rewrite Ei, Hrun, Hb. split; [lia|]. split; [by apply Forall_delete|]. eexists. split; [done|]. lia.
  - rewrite (bool_decide_eq_false_2 (0 < kdecs b)) by lia. cbn.
    destruct (bool_decide_reflect (kcount b - 1 ≤ 0)) as [H2|H2]; unfold kleft; cbn; rewrite Hrun, ?Ei, ?Hb.
    + split; [lia|]. split; [lia|]. apply nil_length_inv. lia.
    + rewrite list_lookup_insert by done. split; [lia|]. split; [by apply Forall_delete|]. eexists. split; [done|]. cbn. lia.
Qed.
Lemma kleft_run es : ∀ n s s', kleft n s → Forall no_schedule es → krun es s = Some s' → kleft (n - Z.of_nat (ended es)) s'.
Proof.
  induction es as [|e es IH]; intros n s s' Hs Hn Hr; cbn [krun] in Hr.
  - injection Hr as <-. change (Z.of_nat (ended [])) with 0. by rewrite Z.sub_0_r.
  - destruct (kstep e s) as [s1|] eqn:E; [|done]. apply Forall_cons in Hn as [Hne Hn]. cbn in Hr.
    destruct e as [m|can|i err]; [done| |]; cbn in E.
    + injection E as <-. apply (IH n _ _ (kleft_process n can s Hs) Hn Hr).
    + pose proof (IH _ _ _ (kleft_end n i err s s1 Hs E) Hn Hr) as H. destruct err; [exact H|].
      cbn [ended]. by replace (n - Z.of_nat (S (ended es))) with (n - 1 - Z.of_nat (ended es)) by lia.
Qed.
Lemma failed_starts es1 es2 n s s' : krun es1 k0 = Some s → Forall kcalm es1 →
  0 < n → Z.of_nat (length (kprocs s)) ≤ n → krun (KSchedule n :: es2) s = Some s' → Forall no_schedule es2 →
  Z.of_nat (length (kprocs s')) + Z.of_nat (ended es2) ≤ n ∧
  (kitem s' = None → Z.of_nat (ended es2) = n ∧ kprocs s' = []) ∧
  (kitem s' ≠ None → kprocs s' ≠ [] ∨ ∃ s2, kstep (KProcess 1) s' = Some s2 ∧ kstarted s2 = S (kstarted s')).
Proof.
  intros Hr1 Hc1 Hn Hl Hr2 Hn2. assert (Hs : kok s) by exact (kok_run es1 _ _ kok0 Hc1 Hr1).
  cbn [krun kstep mbind option_bind] in Hr2. assert (Hs1 : kleft n (kschedule n s)).
  { destruct Hs as [Hr Hi]. unfold kschedule. destruct (kitem s) as [j|] eqn:Ei.
    - destruct Hi as (Hf & b & Hb & Hc & Hd). rewrite (bool_decide_eq_false_2 (n = 0)) by lia. unfold kleft. cbn. rewrite Ei.
      rewrite list_lookup_alter, Hb. rewrite bool_decide_eq_false_2 by lia. split_and!; [done|done|]. eexists. split; [done|]. cbn. lia.
    - unfold kleft. cbn. rewrite lookup_app_r, Nat.sub_diag by lia. rewrite Hi in *. cbn in *. split_and!; try done. eexists. split; [done|]. cbn. lia. }
  destruct (kleft_run es2 n _ s' Hs1 Hn2 Hr2) as [Hru Hi]. destruct (kitem s') as [j|] eqn:Ei.
  - destruct Hi as (Hf & b & Hb & Hc & Hcb & Hd & Hle). split; [lia|]. split; [done|]. intros _.
    destruct (kprocs s') as [|p ps] eqn:Ep; [right|by left]. change (krunning s' = 0) in Hru. eexists. split; [reflexivity|].
    unfold kprocess. rewrite Ei, Hb, Hru. rewrite bool_decide_eq_false_2 by lia. cbv zeta. rewrite bool_decide_eq_false_2 by lia.
    destruct (bool_decide_reflect (kcount b - 0 < 1)) as [H|H]; [lia|]. rewrite bool_decide_eq_false_2 by lia. cbn. lia.
  - destruct Hi as [Hi Hp]. rewrite Hp. cbn. split; [lia|]. split; [intros _; split; [lia|done]|done].
Qed.
