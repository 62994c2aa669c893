(** Proofs of the resource protector properties. *)
From Coq Require Import ZArith Lia.
From stdpp Require Import base option gmap list sorting.
From RecordUpdate Require Import RecordSet.
From Verif Require Import RpModel RpSpec RpProofs.
Import RecordSetNotations.
Open Scope Z_scope.

(** ** What a step does to [used] and to the trace *)
Inductive effect (s : pstate) (o : pop) : pstate → list event → Prop :=
| eff_quiet s' e : receipts e = [] → grants e = [] → returned e = [] → EShutdown ∉ e → used s' = used s → effect s o s' e
| eff_receipt s' n : o = PRequest n → n ≤ pmax s → used s' = used s → effect s o s' [EReceipt (nextid s) n]
| eff_grant s' id r rest : pending s = id :: rest → store s !! id = Some r → used s ≠ pmax s → (1 < rtokens r → rtokens r ≤ pmax s - used s) →
    used s' = rtokens r + used s → effect s o s' [EGrant id (now s)]
| eff_return s' id r : watch s !! id = Some WOut → store s !! id = Some r → used s' = used s - rtokens r → effect s o s' [EReturned id (now s)]
| eff_shutdown s' : o = PShutdown → used s' = 0 → effect s o s' [EShutdown].

Ltac eq := by apply eff_quiet; [..|repeat constructor; set_solver|].
Lemma not_shut1 e : e ≠ EShutdown → EShutdown ∉ [e].
Proof. intros H ?%elem_of_list_singleton. congruence. Qed.
Ltac quiet := apply eff_quiet; [reflexivity|reflexivity|reflexivity|first [apply not_elem_of_nil|by apply not_shut1]|reflexivity].

Lemma pstep_effect s o : effect s o (pstep s o).1 (pstep s o).2.
Proof.
  destruct o; cbn [pstep].
  - destruct (_ <? _); quiet.
  - unfold request. destruct (pmax s <? n) eqn:E; [quiet|]. destruct (stuck s); [quiet|]. destruct (disabled s); [quiet|].
    apply eff_receipt; [done|lia|]. simpl. destruct (lastp s); [done|]. by destruct (pending s ++ _) as [|? []].
  - destruct (stuck s); [quiet|]. destruct (decide _); quiet.
  - destruct (decide _); [|quiet]. unfold wait. destruct (store s !! id); [|quiet]. destruct (rblocked r); [quiet|].
    set (s1 := match timeout with Some t => _ | None => s end).
    assert (used s1 = used s) as E by (subst s1; destruct timeout; [destruct (0 <? _)|]; done).
    clearbody s1. destruct (_ || _); [|destruct (ractive r)]; (apply eff_quiet; [reflexivity|reflexivity|reflexivity|first [apply not_elem_of_nil|by apply not_shut1]|done]).
  - destruct (store s !! id); [|quiet]. destruct (_ && _); quiet.
  - destruct (store s !! id); [|quiet]. destruct (_ && _); quiet.
  - destruct (decide _); [|quiet]. destruct (store s !! id); [|quiet]. destruct (rblocked r); quiet.
  - destruct (decide _); [|quiet]. destruct (store s !! id); [|quiet]. destruct (_ || _); [quiet|]. destruct (rtouch_ch r); quiet.
  - destruct (decide _); [|quiet]. destruct (store s !! id); [|quiet]. destruct (_ || _); quiet.
  - unfold timer. destruct (timers s !! i) as [[id t]|]; [|quiet]. destruct (store s !! id); [|quiet]. destruct (_ || _ || _ || _); [quiet|].
    destruct (_ && _); [quiet|]. destruct (rcancel_ch r); quiet.
  - unfold shutdown. destruct (_ || _); [quiet|]. by apply eff_shutdown.
  - unfold process. destruct (nproc s); [quiet|]. destruct (stuck s); [quiet|]. simpl. destruct (pending s) as [|id rest] eqn:Ep; [quiet|].
    destruct (used s =? pmax s) eqn:E1; [quiet|]. destruct (store s !! id) as [r|] eqn:Er; [|quiet].
    destruct (match avail with Some _ => _ | None => _ end); [quiet|]. destruct (_ && _) eqn:E2; [quiet|].
    apply (eff_grant _ _ _ _ r rest); [done|done|lia| |].
    + intros H. apply andb_false_iff in E2 as [?|?]; lia.
    + by destruct rest.
  - apply eff_quiet; [done|done|done|apply not_elem_of_nil|]. apply (reprocess_frame s).
  - destruct (sleepers s !! i); [|quiet]. destruct (_ || _); quiet.
  - destruct (watch s !! id) as [[]|]; try quiet. destruct (store s !! id); [|quiet]. destruct (rrelease_ch r); quiet.
  - destruct (watch s !! id) as [[]|]; try quiet. destruct (store s !! id); [|quiet]. destruct (rtouch_ch r); quiet.
  - destruct (watch s !! id) as [[]|]; try quiet. destruct (_ <? _); quiet.
  - destruct (watch s !! id) as [[]|]; try quiet. destruct (store s !! id); [|quiet]. destruct (rblocked r); quiet.
  - unfold return_tokens. destruct (watch s !! id) as [[]|] eqn:Ew; try quiet. destruct (store s !! id) eqn:Er; [|quiet]. destruct (stuck s); [quiet|].
    simpl. apply (eff_return _ _ _ _ r); [done|done|]. by destruct (pending s).
Qed.
Lemma pstep_const s o : pmax (pstep s o).1 = pmax s ∧ pdelay (pstep s o).1 = pdelay s ∧ ptimeout (pstep s o).1 = ptimeout s ∧ now s ≤ now (pstep s o).1.
Proof.
  destruct o; cbn [pstep].
  - destruct (d <? 0) eqn:E; simpl; split_and!; try done; lia.
  - unfold request. destruct (pmax s <? n) eqn:E; [done|]. destruct (stuck s); [done|]. destruct (disabled s); [done|].
    simpl. destruct (lastp s); [done|]. by destruct (pending s ++ _) as [|? []].
  - destruct (stuck s); [done|]. destruct (decide _); done.
  - destruct (decide _); [|done]. unfold wait. destruct (store s !! id); [|done]. destruct (rblocked r); [done|].
    set (s1 := match timeout with Some t => _ | None => s end).
    assert (pmax s1 = pmax s ∧ pdelay s1 = pdelay s ∧ ptimeout s1 = ptimeout s ∧ now s ≤ now s1) as E by (subst s1; destruct timeout; [destruct (0 <? _)|]; done).
    clearbody s1. destruct (_ || _); [|destruct (ractive r)]; done.
  - destruct (store s !! id); [|done]. destruct (_ && _); done.
  - destruct (store s !! id); [|done]. destruct (_ && _); done.
  - destruct (decide _); [|done]. destruct (store s !! id); [|done]. destruct (rblocked r); done.
  - destruct (decide _); [|done]. destruct (store s !! id); [|done]. destruct (_ || _); [done|]. destruct (rtouch_ch r); done.
  - destruct (decide _); [|done]. destruct (store s !! id); [|done]. destruct (_ || _); done.
  - unfold timer. destruct (timers s !! i) as [[id t]|]; [|done]. destruct (store s !! id); [|done]. destruct (_ || _ || _ || _); [done|].
    destruct (_ && _); [done|]. destruct (rcancel_ch r); done.
  - unfold shutdown. destruct (_ || _); done.
  - unfold process. destruct (nproc s); [done|]. destruct (stuck s); [done|]. simpl. destruct (pending s) as [|id rest] eqn:Ep; [done|].
    destruct (used s =? pmax s) eqn:E1; [done|]. destruct (store s !! id) as [r|] eqn:Er; [|done].
    destruct (match avail with Some _ => _ | None => _ end); [done|]. destruct (_ && _) eqn:E2; [done|]. by destruct rest.
  - destruct (reprocess_frame s) as (?&?&?&?&?&?&?&?&?&?&?&?). simpl. split_and!; try done. lia.
  - destruct (sleepers s !! i); [|done]. destruct (_ || _); done.
  - destruct (watch s !! id) as [[]|]; try done. destruct (store s !! id); [|done]. destruct (rrelease_ch r); done.
  - destruct (watch s !! id) as [[]|]; try done. destruct (store s !! id); [|done]. destruct (rtouch_ch r); done.
  - destruct (watch s !! id) as [[]|]; try done. destruct (_ <? _); done.
  - destruct (watch s !! id) as [[]|]; try done. destruct (store s !! id); [|done]. destruct (rblocked r); done.
  - unfold return_tokens. destruct (watch s !! id) as [[]|] eqn:Ew; try done. destruct (store s !! id) eqn:Er; [|done]. destruct (stuck s); [done|].
    simpl. by destruct (pending s).
Qed.

(** ** Sums *)
Lemma sum_ext P Q rs : (∀ id, id ∈ rs.*1 → P id = Q id) → sum_tokens P rs = sum_tokens Q rs.
Proof.
  induction rs as [|[id n] rs IH]; intros H; [done|]. simpl. rewrite (H id) by (left; done). rewrite IH; [done|]. intros j Hj. apply H. by right.
Qed.
Lemma sum_flip P Q rs id n : NoDup rs.*1 → (id, n) ∈ rs → P id = false → Q id = true → (∀ j, j ≠ id → Q j = P j) →
  sum_tokens Q rs = sum_tokens P rs + n.
Proof.
  intros Hnd Hin HP HQ Hne. induction rs as [|[j m] rs IH]; [by apply elem_of_nil in Hin|]. simpl in Hnd. apply NoDup_cons in Hnd as [Hj Hnd].
  simpl. apply elem_of_cons in Hin as [[= <- <-]|Hin].
  - rewrite HP, HQ. rewrite (sum_ext Q P rs); [lia|]. intros k Hk. apply Hne. by intros ->.
  - assert (j ≠ id) by (intros ->; apply Hj, elem_of_list_fmap; by exists (id, n)). rewrite (Hne j) by done. rewrite IH by done. lia.
Qed.
Lemma sum_app P a b : sum_tokens P (a ++ b) = sum_tokens P a + sum_tokens P b.
Proof. induction a as [|[j m] a IH]; simpl; [done|]. rewrite IH. lia. Qed.
Lemma sum_mono P Q rs : (∀ id n, (id, n) ∈ rs → 0 ≤ n) → (∀ id, P id = true → Q id = true) → sum_tokens P rs ≤ sum_tokens Q rs.
Proof.
  intros Hn HPQ. induction rs as [|[j m] rs IH]; simpl; [done|]. assert (0 ≤ m) by (apply (Hn j m); by left).
  assert (sum_tokens P rs ≤ sum_tokens Q rs) by (apply IH; intros; apply (Hn id); by right).
  destruct (P j) eqn:E; [rewrite (HPQ j E); lia|]. destruct (Q j); lia.
Qed.

(** ** C23 *)
Record US (s : pstate) (es : list event) : Prop := {
  us_pi : PI s es;
  us_used : used s = in_use es;
  us_max : used s ≤ pmax s ∨ used s = 0;
  us_sens : ∀ id n, (id, n) ∈ receipts es → 0 ≤ n;
  us_le : ∀ id n, (id, n) ∈ receipts es → n ≤ pmax s }.
Lemma out_ext es es' id : (id ∈ (grants es').*1 ↔ id ∈ (grants es).*1) → (id ∈ returned es' ↔ id ∈ returned es) → out es' id = out es id.
Proof.
  intros H1 H2. unfold out. f_equal; [by apply bool_decide_ext|]. f_equal. by apply bool_decide_ext.
Qed.
Lemma US_step s es o : sensible o ∧ no_shutdown o → US s es → US (pstep s o).1 (es ++ (pstep s o).2).
Proof.
  intros [Hs Hns] HU. pose proof (PI_step s es o (us_pi _ _ HU)) as HP. destruct (pstep_const s o) as (Cm & _ & _ & _).
  pose proof (pstep_effect s o) as He. destruct (pstep s o) as [s' e]. simpl in *. destruct HU as [HI Hu Hm Hse Hle].
  destruct He as [s' e R1 R2 R3 R4 Hu'|s' n -> Hn Hu'|s' id r rest Ep Er Hne Hfit Hu'|s' id r Ew Er Hu'|s' -> Hu']; [..|done].
  - assert (receipts (es ++ e) = receipts es) as F1 by (by rewrite receipts_app, R1, app_nil_r).
    assert (grants (es ++ e) = grants es) as F2 by (by rewrite grants_app, R2, app_nil_r).
    assert (returned (es ++ e) = returned es) as F3 by (by rewrite returned_app, R3, app_nil_r).
    split; rewrite ?F1, ?Cm, ?Hu'; try done. unfold in_use. rewrite Hu, F1. apply sum_ext. intros id _. apply out_ext; by rewrite ?F2, ?F3.
  - assert (receipts (es ++ [EReceipt (nextid s) n]) = receipts es ++ [(nextid s, n)]) as F1 by (by rewrite receipts_app).
    assert (grants (es ++ [EReceipt (nextid s) n]) = grants es) as F2 by (by rewrite grants_app, app_nil_r).
    assert (returned (es ++ [EReceipt (nextid s) n]) = returned es) as F3 by (by rewrite returned_app, app_nil_r).
    split; rewrite ?F1, ?Cm, ?Hu'; try done.
    + unfold in_use. rewrite F1, sum_app, Hu. simpl.
      assert (out (es ++ [EReceipt (nextid s) n]) (nextid s) = false) as ->.
      { unfold out. rewrite F2. rewrite bool_decide_eq_false_2; [done|]. intros H%(pi_gdom _ _ HI). lia. }
      rewrite !Z.add_0_r. apply sum_ext. intros id _. symmetry. apply out_ext; by rewrite ?F2, ?F3.
    + intros id m. rewrite elem_of_app, elem_of_list_singleton. intros [?|[= -> ->]]; [eauto|done].
    + intros id m. rewrite elem_of_app, elem_of_list_singleton. intros [?|[= -> ->]]; [eauto|done].
  - pose proof (pi_ri _ _ HI id r Er) as HR.
    assert (ractive r = false) as Ha by (apply (ri_pend _ _ _ _ _ _ _ HR); rewrite Ep; by left).
    assert (id ∉ (grants es).*1) as Hng by (rewrite <- (ri_act _ _ _ _ _ _ _ HR), Ha; done).
    assert (id ∉ returned es) as Hnr by (intros H; apply Hng, (ri_ret _ _ _ _ _ _ _ HR), H).
    pose proof (ri_rec _ _ _ _ _ _ _ HR) as Hrec.
    assert (receipts (es ++ [EGrant id (now s)]) = receipts es) as F1 by (by rewrite receipts_app, app_nil_r).
    assert (returned (es ++ [EGrant id (now s)]) = returned es) as F3 by (by rewrite returned_app, app_nil_r).
    pose proof (Hse id _ Hrec) as H0. pose proof (Hle id _ Hrec) as H1.
    split; rewrite ?F1, ?Cm, ?Hu'; try done.
    + unfold in_use. rewrite F1, (sum_flip (out es) _ _ id (rtokens r)).
      * rewrite Hu. unfold in_use. lia.
      * apply (pi_nodup _ _ HI).
      * done.
      * unfold out. rewrite bool_decide_eq_false_2 by done. done.
      * unfold out. rewrite F3. rewrite bool_decide_eq_true_2, bool_decide_eq_false_2; [done|done|].
        rewrite grants_app, fmap_app, elem_of_app. right. by left.
      * intros j Hj. apply out_ext; [|by rewrite F3]. rewrite grants_app, fmap_app, elem_of_app. simpl. rewrite elem_of_list_singleton. tauto.
    + left. destruct (decide (1 < rtokens r)) as [H|H]; [specialize (Hfit H); lia|]. lia.
  - pose proof (pi_ri _ _ HI id r Er) as HR.
    assert (id ∈ (grants es).*1 ∧ id ∉ returned es) as [Hg Hnr] by (apply (ri_wat _ _ _ _ _ _ _ HR); rewrite Ew; eauto).
    pose proof (ri_rec _ _ _ _ _ _ _ HR) as Hrec.
    assert (receipts (es ++ [EReturned id (now s)]) = receipts es) as F1 by (by rewrite receipts_app, app_nil_r).
    assert (grants (es ++ [EReturned id (now s)]) = grants es) as F2 by (by rewrite grants_app, app_nil_r).
    pose proof (Hse id _ Hrec) as H0. pose proof (Hle id _ Hrec) as H1.
    assert (in_use es = in_use (es ++ [EReturned id (now s)]) + rtokens r) as Hin.
    { unfold in_use. rewrite F1. apply (sum_flip _ _ _ id).
      - apply (pi_nodup _ _ HI).
      - done.
      - unfold out. rewrite F2. rewrite (bool_decide_eq_true_2 (id ∈ returned (es ++ _))); [by rewrite andb_false_r|].
        rewrite returned_app, elem_of_app. right. by left.
      - unfold out. by rewrite bool_decide_eq_true_2, bool_decide_eq_false_2.
      - intros j Hj. symmetry. apply out_ext; [by rewrite F2|]. rewrite returned_app, elem_of_app. simpl. rewrite elem_of_list_singleton. tauto. }
    split; rewrite ?F1, ?Cm, ?Hu'; try done.
    + lia.
    + destruct Hm as [?|Hz]; [left; lia|]. assert (rtokens r = 0 ∨ 0 < rtokens r) as [->|Hp] by lia; [right; lia|]. left.
      assert (0 ≤ in_use (es ++ [EReturned id (now s)])) as Hpos; [|lia].
      unfold in_use. rewrite F1. clear -Hse. induction (receipts es) as [|[j m] l IH]; simpl; [done|].
      assert (0 ≤ m) by (apply (Hse j m); by left). assert (0 ≤ sum_tokens (out (es ++ [EReturned id (now s)])) l) by (apply IH; intros; apply (Hse id0); by right).
      destruct (out _ j); lia.
Qed.
Lemma US_run d m t ops : Forall (λ o, sensible o ∧ no_shutdown o) ops → US (prun (p_new d m t) ops).1 (prun (p_new d m t) ops).2.
Proof.
  intros HF. apply (prun_ind US (λ o, sensible o ∧ no_shutdown o) _ [] ops); [|intros s es o; apply US_step|exact HF].
  split; simpl; [apply PI_new|done|by right|by intros ? ? ?%elem_of_nil..].
Qed.

Lemma prun_const s ops : pmax (prun s ops).1 = pmax s ∧ pdelay (prun s ops).1 = pdelay s ∧ ptimeout (prun s ops).1 = ptimeout s ∧ now s ≤ now (prun s ops).1.
Proof.
  revert s. induction ops as [|o ops IH]; intros s; [done|]. simpl. destruct (pstep_const s o) as (A & B & C & D). destruct (pstep s o) as [s' e]. simpl in *.
  destruct (IH s') as (E & F & G & H). destruct (prun s' ops) as [s2 e2]. simpl in *. split_and!; congruence || lia.
Qed.

Lemma tokens_bounded d m t ops : 0 ≤ m → Forall (λ o, sensible o ∧ no_shutdown o) ops →
  let '(s, es) := prun (p_new d m t) ops in used s = in_use es ∧ in_use es ≤ m ∧ sum_tokens (unreleased es) (receipts es) ≤ m.
Proof.
  intros Hm HF. pose proof (US_run d m t ops HF) as [HI Hu Hmx Hse Hle]. destruct (prun_const (p_new d m t) ops) as (Cm & _). simpl in Cm.
  destruct (prun (p_new d m t) ops) as [s es]. simpl in *. assert (in_use es ≤ m) by (rewrite <- Hu; destruct Hmx; lia). split_and!; [done|done|].
  etrans; [|done]. apply sum_mono; [done|]. intros id H0. unfold unreleased in H0. by apply andb_true_iff in H0 as [? _].
Qed.

(** ** C24, order *)
Lemma grants_sorted d m t ops : StronglySorted lt (grants (prun (p_new d m t) ops).2).*1.
Proof. apply (pi_grants _ _ (PI_run d m t ops)). Qed.

(** ** C25 *)
Lemma snoc_split {A} (P : list A → A → Prop) (l e : list A) :
  (∀ l1 x l2, l = l1 ++ x :: l2 → P l1 x) → (∀ e1 x e2, e = e1 ++ x :: e2 → P (l ++ e1) x) →
  ∀ l1 x l2, l ++ e = l1 ++ x :: l2 → P l1 x.
Proof.
  intros Hl He l1 x l2 H. apply app_eq_app in H as (k & [[-> Hk]|[-> Hk]]).
  - destruct k as [|y k]; simpl in Hk.
    + destruct e as [|y e]; [done|]. injection Hk as -> ->. rewrite app_nil_r in *. pose proof (He [] y e eq_refl) as H. by rewrite app_nil_r in H.
    + injection Hk as -> ->. by apply (Hl l1 y k).
  - by apply (He k x l2).
Qed.
Definition ret_ok (to : Z) (l1 : list event) (x : event) : Prop :=
  match x with
  | EReturned id t => id ∉ returned l1 ∧ ∃ t0, (id, t0) ∈ grants l1 ∧ (id ∈ released l1 ∨ EShutdown ∈ l1 ∨ t0 + to ≤ t)
  | EGrant id t => id ∉ (grants l1).*1 ∧ id ∈ (receipts l1).*1
  | _ => True
  end.
Lemma ret_ok_run d m to ops l1 x l2 : (prun (p_new d m to) ops).2 = l1 ++ x :: l2 → ret_ok to l1 x.
Proof.
  assert (∀ s es, (PI s es ∧ ptimeout s = to ∧ ∀ l1 x l2, es = l1 ++ x :: l2 → ret_ok to l1 x) → ∀ o,
    (PI (pstep s o).1 (es ++ (pstep s o).2) ∧ ptimeout (pstep s o).1 = to ∧ ∀ l1 x l2, es ++ (pstep s o).2 = l1 ++ x :: l2 → ret_ok to l1 x)) as Hstep.
  { intros s es (HI & Hto & Hall) o. split; [by apply PI_step|]. split; [by rewrite (proj1 (proj2 (proj2 (pstep_const s o))))|].
    apply snoc_split; [done|]. pose proof (pstep_effect s o) as He. destruct (pstep s o) as [s' e]. simpl in *. intros e1 y e2 ->.
    inversion He as [s0 e R1 R2 R3 R4 Hu' H1 H2|s0 n Ho Hn Hu' H1 H2|s0 id r rest Ep Er Hne Hfit Hu' H1 H2|s0 id r Ew Er Hu' H1 H2|s0 Ho Hu' H1 H2]; clear He; subst.
    - rewrite grants_app in R2. rewrite returned_app in R3. apply app_nil in R2 as [_ R2]. apply app_nil in R3 as [_ R3]. by destruct y.
    - destruct e1 as [|? []]; [|done..]. by injection H2 as <- <-.
    - destruct e1 as [|? []]; [|done..]. injection H2 as <- <-. rewrite app_nil_r. simpl. pose proof (pi_ri _ _ HI id r Er) as HR. split.
      + rewrite <- (ri_act _ _ _ _ _ _ _ HR), (ri_pend _ _ _ _ _ _ _ HR); [done|]. rewrite Ep. by left.
      + apply elem_of_list_fmap. exists (id, rtokens r). split; [done|]. apply HR.
    - destruct e1 as [|? []]; [|done..]. injection H2 as <- <-. rewrite app_nil_r. simpl. pose proof (pi_ri _ _ HI id r Er) as HR.
      assert (id ∈ (grants es).*1 ∧ id ∉ returned es) as [Hg Hnr] by (apply (ri_wat _ _ _ _ _ _ _ HR); rewrite Ew; eauto).
      split; [done|]. apply elem_of_list_fmap in Hg as ([? t0] & -> & Hg). exists t0. split; [done|].
      pose proof (ri_time _ _ _ _ _ _ _ HR t0 Hg) as Ht. rewrite Ew in Ht. done.
    - destruct e1 as [|? []]; [|done..]. by injection H2 as <- <-. }
  destruct (prun_ind (λ s es, PI s es ∧ ptimeout s = to ∧ ∀ l1 x l2, es = l1 ++ x :: l2 → ret_ok to l1 x) (λ _, True) (p_new d m to) [] ops) as (_ & _ & H).
  - split_and!; [apply PI_new|done|]. by intros [].
  - intros s es o _ Hx. by apply Hstep.
  - by apply Forall_true.
  - apply H.
Qed.
