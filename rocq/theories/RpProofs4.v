(** Proofs of the resource protector properties: what blocks for ever. *)
From Coq Require Import ZArith Lia.
From stdpp Require Import base option gmap list sorting.
From RecordUpdate Require Import RecordSet.
From Verif Require Import RpModel RpSpec RpProofs RpProofs2 RpProofs3.
Import RecordSetNotations.
Open Scope Z_scope.

(** ** C49: the lock *)
Record ST (s : pstate) (rem : list nat) : Prop := {
  st_stuck : stuck s = false;
  st_nodup : NoDup ((timers s).*1 ++ rem);
  st_ch : ∀ id r, store s !! id = Some r → rcancel_ch r = true → id ∉ (timers s).*1 ∧ id ∉ rem;
  st_dom : ∀ id, id ∈ (timers s).*1 → is_Some (store s !! id);
  st_next : ∀ id, (nextid s ≤ id)%nat → store s !! id = None }.
Lemma ST_same s s' rem : ST s rem → stuck s' = stuck s → timers s' = timers s → nextid s' = nextid s →
  (∀ id r', store s' !! id = Some r' → ∃ r, store s !! id = Some r ∧ (rcancel_ch r' = true → rcancel_ch r = true)) →
  (∀ id, is_Some (store s !! id) → is_Some (store s' !! id)) → ST s' rem.
Proof.
  intros [H1 H2 H3 H4 H5] E1 E2 E3 E4 E5. split; rewrite ?E1, ?E2, ?E3; auto.
  - intros id r' Hr' Hc. destruct (E4 id r' Hr') as (r & Hr & Hi). eauto.
  - intros id Hid. destruct (store s' !! id) as [r'|] eqn:E; [|done]. destruct (E4 id r' E) as (r & Hr & _). rewrite H5 in Hr; done.
Qed.
Lemma ST_upd s s' id f rem : ST s rem → stuck s' = stuck s → timers s' = timers s → nextid s' = nextid s →
  store s' = alter f id (store s) → (∀ r, rcancel_ch (f r) = true → rcancel_ch r = true) → ST s' rem.
Proof.
  intros HS E1 E2 E3 E4 Hf. apply (ST_same s); auto; intros j; rewrite E4; destruct (decide (j = id)) as [->|].
  - rewrite lookup_alter. intros r'. destruct (store s !! id) as [r|]; [|done]. intros [= <-]. eauto.
  - rewrite lookup_alter_ne by done. eauto.
  - rewrite lookup_alter. intros [r ->]. simpl. eauto.
  - by rewrite lookup_alter_ne.
Qed.
Lemma ST_weaken s id rem : ST s (id :: rem) → ST s rem.
Proof.
  intros [H1 H2 H3 H4 H5]. split; auto.
  - apply NoDup_app in H2 as (A & B & C). apply NoDup_app. apply NoDup_cons in C as [_ C]. split_and!; auto. intros x Hx Hr. apply (B x Hx). by right.
  - intros j r Hr Hc. destruct (H3 j r Hr Hc) as [A B]. split; [done|]. intros Hj. apply B. by right.
Qed.
Ltac same HS := apply (ST_same _ _ _ HS); [reflexivity|reflexivity|reflexivity|cbn; eauto|cbn; eauto].
Ltac updated HS := eapply (ST_upd _ _ _ _ _ HS); [reflexivity|reflexivity|reflexivity|reflexivity|cbn; done].
Definition tw (o : pop) : list nat := match o with PWait id (Some _) => [id] | _ => [] end.
Lemma ST_step s o rem : ST s (tw o ++ rem) → ST (pstep s o).1 rem.
Proof.
  destruct o; cbn [pstep tw]; intros HS; try (change (ST s rem) in HS).
  - destruct (_ <? _); same HS.
  - unfold request. destruct (pmax s <? n); [same HS|]. destruct (stuck s) eqn:Es; [same HS|]. destruct (disabled s); [same HS|].
    simpl. match goal with |- ST ?a _ => set (s2 := a) end.
    assert (stuck s2 = stuck s ∧ timers s2 = timers s ∧ nextid s2 = S (nextid s) ∧
      store s2 = <[nextid s := Req n false false false false false false false false false]> (store s)) as (E1 & E2 & E3 & E4).
    { subst s2. destruct (lastp s); simpl; [by split_and!|]. destruct (pending s ++ _) as [|? []]; by split_and!. }
    clearbody s2. destruct HS as [H1 H2 H3 H4 H5]. split; rewrite ?E1, ?E2, ?E3, ?E4; auto.
    + intros id r. destruct (decide (id = nextid s)) as [->|]; [rewrite lookup_insert; by intros [= <-]|rewrite lookup_insert_ne by done; eauto].
    + intros id Hid. destruct (decide (id = nextid s)) as [->|]; [rewrite lookup_insert|rewrite lookup_insert_ne by done]; eauto.
    + intros id Hid. rewrite lookup_insert_ne by lia. apply H5. lia.
  - destruct (stuck s) eqn:Es; [same HS|]. destruct (decide (id ∈ reqs s)); same HS.
  - destruct timeout as [t|].
    + simpl in HS. destruct (decide (id ∈ held s)); [|by eapply ST_weaken]. unfold wait. destruct (store s !! id) as [r|] eqn:Er; [|by eapply ST_weaken].
      destruct (rblocked r); [by eapply ST_weaken|].
      assert (ST (if 0 <? t then s <| timers ::= λ l, l ++ [(id, now s + t)] |> else s) rem) as HS'.
      { destruct (0 <? t); [|by eapply ST_weaken]. destruct HS as [H1 H2 H3 H4 H5]. split; simpl; auto.
        - rewrite fmap_app. simpl. by rewrite <- app_assoc.
        - intros j r' Hr' Hc. destruct (H3 j r' Hr' Hc) as [A B]. rewrite fmap_app, elem_of_app. simpl. rewrite elem_of_list_singleton.
          rewrite elem_of_cons in B. tauto.
        - intros j. rewrite fmap_app, elem_of_app. simpl. rewrite elem_of_list_singleton. intros [?| ->]; eauto. }
      destruct (_ || _); [done|]. destruct (ractive r); [done|]. updated HS'.
    + destruct (decide (id ∈ held s)); [|same HS]. unfold wait. destruct (store s !! id) as [r|] eqn:Er; [|same HS].
      destruct (rblocked r); [same HS|]. destruct (_ || _); [same HS|]. destruct (ractive r); [same HS|]. updated HS.
  - destruct (store s !! id); [|same HS]. destruct (_ && _); [|same HS]. updated HS.
  - destruct (store s !! id); [|same HS]. destruct (_ && _); [|same HS]. updated HS.
  - destruct (decide (id ∈ held s)); [|same HS]. destruct (store s !! id); [|same HS]. destruct (rblocked r); same HS.
  - destruct (decide (id ∈ held s)); [|same HS]. destruct (store s !! id); [|same HS]. destruct (_ || _); [same HS|]. destruct (rtouch_ch r); updated HS.
  - destruct (decide (id ∈ held s)); [|same HS]. destruct (store s !! id); [|same HS]. destruct (_ || _); [same HS|].
    eapply (ST_upd _ _ _ _ _ HS); [reflexivity|reflexivity|reflexivity|reflexivity|]. intros r'. unfold release. by destruct (_ || _).
  - unfold timer. destruct (timers s !! i) as [[id t]|] eqn:Ei; [|same HS]. destruct (store s !! id) as [r|] eqn:Er; [|same HS].
    destruct (_ || _ || _ || _); [same HS|].
    assert (timers s ≡ₚ (id, t) :: delete i (timers s)) as Hperm by (by apply delete_Permutation).
    destruct HS as [H1 H2 H3 H4 H5].
    assert (∀ j, j ∈ (delete i (timers s)).*1 → j ∈ (timers s).*1) as Hsub by (intros j Hj; rewrite Hperm; by right).
    assert (id ∉ (delete i (timers s)).*1 ∧ id ∉ rem ∧ NoDup ((delete i (timers s)).*1 ++ rem)) as (Hn1 & Hn2 & Hn3).
    { rewrite Hperm in H2. simpl in H2. apply NoDup_cons in H2 as [A B]. rewrite elem_of_app in A. tauto. }
    assert (ST (s <| timers ::= delete i |>) rem) as HS'.
    { split; simpl; auto. intros j r' Hr' Hc. destruct (H3 j r' Hr' Hc). auto. }
    destruct (_ && _); [same HS'|].
    destruct (rcancel_ch r) eqn:Ec.
    { exfalso. destruct (H3 id r Er Ec) as [A _]. apply A. rewrite Hperm. by left. }
    split; simpl; auto.
    + intros j r' Hr' Hc. destruct (decide (j = id)) as [->|]; [auto|]. rewrite lookup_alter_ne in Hr' by done. destruct (H3 j r' Hr' Hc). auto.
    + intros j Hj. destruct (decide (j = id)) as [->|]; [rewrite lookup_alter, Er; simpl; eauto|]. rewrite lookup_alter_ne by done. auto.
    + intros j Hj. destruct (decide (j = id)) as [->|]; [|rewrite lookup_alter_ne by done; auto]. rewrite H5 in Er; done.
  - unfold shutdown. destruct (_ || _); [same HS|].
    assert (∀ j, (map_imap (λ id r, Some (if decide (id ∈ reqs s) then release r else r)) (store s) : gmap nat req) !! j =
      (λ r, if decide (j ∈ reqs s) then release r else r) <$> store s !! j) as Hlk.
    { intros j. rewrite map_lookup_imap. by destruct (store s !! j). }
    apply (ST_same _ _ _ HS); [reflexivity|reflexivity|reflexivity|..]; cbn -[release].
    + intros j r'. rewrite Hlk, fmap_Some. intros (r & Hr & ->). exists r. split; [done|]. destruct (decide _); [|done]. unfold release. by destruct (_ || _).
    + intros j. by rewrite Hlk, fmap_is_Some.
  - unfold process. destruct (nproc s); [same HS|]. destruct (stuck s) eqn:Es; [same HS|]. simpl. destruct (pending s) as [|id rest] eqn:Ep; [same HS|].
    destruct (used s =? pmax s) eqn:E1; [same HS|]. destruct (store s !! id) as [r|] eqn:Er; [|same HS].
    destruct (match avail with Some _ => _ | None => _ end); [same HS|]. destruct (_ && _) eqn:E2; [same HS|].
    destruct rest; (eapply (ST_upd _ _ id grant _ HS); [reflexivity|reflexivity|reflexivity|reflexivity|]; intros r'; unfold grant; simpl; by destruct (rwaiting r')).
  - destruct (reprocess_frame s) as (E1 & E2 & E3 & E4 & E5 & E6 & E7 & E8 & E9 & E10 & _). simpl.
    apply (ST_same _ _ _ HS); auto; rewrite E1; eauto.
  - destruct (sleepers s !! i); [|same HS]. destruct (_ || _); same HS.
  - destruct (watch s !! id) as [[]|]; try same HS. destruct (store s !! id); [|same HS]. destruct (rrelease_ch r); [updated HS|same HS].
  - destruct (watch s !! id) as [[]|]; try same HS. destruct (store s !! id); [|same HS]. destruct (rtouch_ch r); [|same HS].
    eapply (ST_upd _ _ _ _ _ HS); [reflexivity|reflexivity|reflexivity|reflexivity|]. intros r'. cbn beta. destruct (rblocked r'); done.
  - destruct (watch s !! id) as [[]|]; try same HS. destruct (_ <? _); same HS.
  - destruct (watch s !! id) as [[]|]; try same HS. destruct (store s !! id); [|same HS]. destruct (rblocked r); [same HS|updated HS].
  - unfold return_tokens. destruct (watch s !! id) as [[]|] eqn:Ew; try same HS. destruct (store s !! id) eqn:Er; [|same HS]. destruct (stuck s) eqn:Es; [same HS|].
    simpl. destruct (pending s); same HS.
Qed.
Lemma ST_run s ops : ST s (timed_waits ops) → stuck (prun s ops).1 = false.
Proof.
  revert s. induction ops as [|o ops IH]; intros s HS; simpl; [apply HS|].
  assert (ST (pstep s o).1 (timed_waits ops)) as HS'.
  { apply ST_step. destruct o; try exact HS. by destruct timeout. }
  destruct (pstep s o) as [s' e]. simpl in HS'. specialize (IH s' HS'). by destruct (prun s' ops).
Qed.
Lemma never_stuck d m t ops : NoDup (timed_waits ops) → stuck (prun (p_new d m t) ops).1 = false.
Proof.
  intros H. apply ST_run. split; simpl; try done; [by intros ? ?%elem_of_nil].
Qed.

(** Once stuck, nothing is received, granted or returned again. *)
Definition silent (e : list event) : Prop := receipts e = [] ∧ grants e = [] ∧ returned e = [].
Lemma stuck_step s o : stuck s = true → stuck (pstep s o).1 = true ∧ silent (pstep s o).2.
Proof.
  intros Hs. assert (∀ e : event, match e with EReceipt _ _ | EGrant _ _ | EReturned _ _ => False | _ => True end → silent [e]) as H1 by (by intros []).
  assert (silent []) as H0 by done.
  destruct o; cbn [pstep].
  - destruct (_ <? _); done.
  - unfold request. destruct (pmax s <? n); [by split; [|apply H1]|]. rewrite Hs. done.
  - by rewrite Hs.
  - destruct (decide _); [|done]. unfold wait. destruct (store s !! id); [|done]. destruct (rblocked r); [done|].
    set (s1 := match timeout with Some t => _ | None => s end).
    assert (stuck s1 = true) as E by (subst s1; destruct timeout; [destruct (0 <? _)|]; done).
    clearbody s1. destruct (_ || _); [|destruct (ractive r)]; (split; [done|]; first [exact H0|by apply H1]).
  - destruct (store s !! id); [|done]. destruct (_ && _); done.
  - destruct (store s !! id); [|done]. destruct (_ && _); done.
  - destruct (decide _); [|done]. destruct (store s !! id); [|done]. destruct (rblocked r); done.
  - destruct (decide _); [|done]. destruct (store s !! id); [|done]. destruct (_ || _); [done|]. destruct (rtouch_ch r); done.
  - destruct (decide _); [|done]. destruct (store s !! id); [|done]. destruct (_ || _); done.
  - unfold timer. destruct (timers s !! i) as [[id t]|]; [|done]. destruct (store s !! id); [|done]. by rewrite Hs.
  - unfold shutdown. by rewrite Hs.
  - unfold process. destruct (nproc s); [done|]. by rewrite Hs.
  - destruct (reprocess_frame s) as (?&?&?&?&?&?&?&?&E&_). simpl. by rewrite E.
  - destruct (sleepers s !! i); [|done]. by rewrite Hs.
  - destruct (watch s !! id) as [[]|]; try done. destruct (store s !! id); [|done]. destruct (rrelease_ch r); done.
  - destruct (watch s !! id) as [[]|]; try done. destruct (store s !! id); [|done]. destruct (rtouch_ch r); done.
  - destruct (watch s !! id) as [[]|]; try done. destruct (_ <? _); done.
  - destruct (watch s !! id) as [[]|]; try done. destruct (store s !! id); [|done]. destruct (rblocked r); done.
  - unfold return_tokens. destruct (watch s !! id) as [[]|] eqn:Ew; try done. destruct (store s !! id) eqn:Er; [|done]. by rewrite Hs.
Qed.
Lemma stuck_forever s ops : stuck s = true → silent (prun s ops).2.
Proof.
  revert s. induction ops as [|o ops IH]; intros s Hs; [done|]. simpl. destruct (stuck_step s o Hs) as [A (B1 & B2 & B3)]. destruct (pstep s o) as [s' e]. simpl in *.
  destruct (IH s' A) as (C1 & C2 & C3). destruct (prun s' ops) as [s2 e2]. simpl in *. unfold silent. by rewrite receipts_app, grants_app, returned_app, B1, B2, B3.
Qed.

(** ** C25: touch and the time limit *)
Lemma deadlocked_step s es o id : PI s es → deadlocked s id → deadlocked (pstep s o).1 id ∧ id ∉ returned (pstep s o).2.
Proof.
  intros HI (Hw & r & Hr & Hb).
  assert (∀ j, watch s !! j = Some WFinish → j ∉ pending s) as Hnp.
  { intros j Hj Hp. assert (is_Some (store s !! j)) as [r' Hr'] by (apply (pi_watch _ _ HI); eauto). pose proof (pi_ri _ _ HI j r' Hr') as HR.
    assert (ractive r' = true) as Ha.
    { apply (ri_act _ _ _ _ _ _ _ HR). apply (ri_wat _ _ _ _ _ _ _ HR). eauto. }
    rewrite (ri_pend _ _ _ _ _ _ _ HR Hp) in Ha. done. }
  assert (∀ s' e, returned e = [] → watch s' !! id = watch s !! id → (∀ r, store s !! id = Some r → rblocked r = true → ∃ r', store s' !! id = Some r' ∧ rblocked r' = true) →
    deadlocked s' id ∧ id ∉ returned e) as Hsame.
  { intros s' e -> E1 E2. destruct (E2 r Hr Hb) as (r' & ? & ?). split; [|apply not_elem_of_nil]. split; [congruence|]. eauto. }
  assert (∀ s' e, returned e = [] → watch s' = watch s → store s' = store s → deadlocked s' id ∧ id ∉ returned e) as Hsame'.
  { intros s' e H1 E1 E2. apply Hsame; [done|by rewrite E1|]. rewrite E2. eauto. }
  assert (∀ j f, (∀ r, rblocked r = true → j = id → rblocked (f r) = true) → ∀ r, store s !! id = Some r → rblocked r = true →
     ∃ r', alter f j (store s) !! id = Some r' ∧ rblocked r' = true) as Halt.
  { intros j f Hf r1 Hr1 Hb1. destruct (decide (j = id)) as [->|Hne]; [rewrite lookup_alter, Hr1; simpl; eauto|]. rewrite lookup_alter_ne by done. eauto. }
  destruct o; cbn [pstep].
  - destruct (_ <? _); by apply Hsame'.
  - unfold request. destruct (pmax s <? n); [by apply Hsame'|]. destruct (stuck s); [by apply Hsame'|]. destruct (disabled s); [by apply Hsame'|].
    cbn [fst snd]. match goal with |- deadlocked ?a _ ∧ _ => set (s2 := a) end.
    assert (watch s2 = watch s ∧ store s2 = <[nextid s := Req n false false false false false false false false false]> (store s)) as (E1 & E2).
    { subst s2. simpl. destruct (lastp s); simpl; [by split_and!|]. destruct (pending s ++ _) as [|? []]; by split_and!. }
    clearbody s2. apply Hsame; [done|by rewrite E1|]. rewrite E2. intros r' Hr' Hb'. rewrite lookup_insert_ne; [eauto|].
    assert (id < nextid s)%nat by (apply (pi_dom _ _ HI); eauto). lia.
  - destruct (stuck s); [by apply Hsame'|]. destruct (decide (id0 ∈ reqs s)); by apply Hsame'.
  - destruct (decide (id0 ∈ held s)); [|by apply Hsame']. unfold wait. destruct (store s !! id0) as [r0|] eqn:Er; [|by apply Hsame'].
    destruct (rblocked r0) eqn:Eb; [by apply Hsame'|].
    set (s1 := match timeout with Some t => _ | None => s end).
    assert (watch s1 = watch s ∧ store s1 = store s) as (E1 & E2) by (subst s1; destruct timeout; [destruct (0 <? _)|]; done).
    clearbody s1. destruct (_ || _); [by apply Hsame'|]. destruct (ractive r0); [by apply Hsame'|].
    apply Hsame; [done|simpl; by rewrite E1|]. simpl. rewrite E2. apply Halt. done.
  - destruct (store s !! id0); [|by apply Hsame']. destruct (_ && _); [|by apply Hsame']. apply Hsame; [done|done|]. simpl. by apply Halt.
  - destruct (store s !! id0); [|by apply Hsame']. destruct (_ && _); [|by apply Hsame']. apply Hsame; [done|done|]. simpl. by apply Halt.
  - destruct (decide (id0 ∈ held s)); [|by apply Hsame']. destruct (store s !! id0); [|by apply Hsame']. destruct (rblocked r0); by apply Hsame'.
  - destruct (decide (id0 ∈ held s)); [|by apply Hsame']. destruct (store s !! id0); [|by apply Hsame']. destruct (_ || _); [by apply Hsame'|].
    destruct (rtouch_ch r0); (apply Hsame; [done|done|]; simpl; by apply Halt).
  - destruct (decide (id0 ∈ held s)); [|by apply Hsame']. destruct (store s !! id0); [|by apply Hsame']. destruct (_ || _); [by apply Hsame'|].
    apply Hsame; [done|done|]. simpl. apply Halt. intros r' Hb' _. unfold release. by destruct (_ || _).
  - unfold timer. destruct (timers s !! i) as [[j t]|]; [|by apply Hsame']. destruct (store s !! j) as [r0|]; [|by apply Hsame'].
    destruct (_ || _ || _ || _); [by apply Hsame'|]. destruct (_ && _); [by apply Hsame'|]. destruct (rcancel_ch r0); [by apply Hsame'|].
    apply Hsame; [done|done|]. simpl. by apply Halt.
  - unfold shutdown. destruct (_ || _); [by apply Hsame'|]. apply Hsame; [done|done|]. simpl. intros r' Hr' Hb'. rewrite map_lookup_imap, Hr'. simpl.
    eexists. split; [done|]. destruct (decide _); [|done]. unfold release. by destruct (_ || _).
  - unfold process. destruct (nproc s); [by apply Hsame'|]. destruct (stuck s); [by apply Hsame'|]. simpl. destruct (pending s) as [|j rest] eqn:Ep; [by apply Hsame'|].
    destruct (used s =? pmax s); [by apply Hsame'|]. destruct (store s !! j) as [r0|] eqn:Er; [|by apply Hsame'].
    destruct (match avail with Some _ => _ | None => _ end); [by apply Hsame'|]. destruct (_ && _); [by apply Hsame'|].
    assert (j ≠ id) as Hne by (intros ->; apply (Hnp id Hw); by left).
    destruct rest; (apply Hsame; [done|simpl; by rewrite lookup_insert_ne|]; simpl; by apply Halt).
  - destruct (reprocess_frame s) as (E1 & E2 & _). by apply Hsame'.
  - destruct (sleepers s !! i); [|by apply Hsame']. destruct (_ || _); by apply Hsame'.
  - destruct (watch s !! id0) as [[]|] eqn:Ew; try (by apply Hsame'). destruct (store s !! id0); [|by apply Hsame']. destruct (rrelease_ch r0); [|by apply Hsame'].
    apply Hsame; [done| |simpl; by apply Halt]. simpl. rewrite lookup_insert_ne; [done|]. congruence.
  - destruct (watch s !! id0) as [[]|] eqn:Ew; try (by apply Hsame'). destruct (store s !! id0); [|by apply Hsame']. destruct (rtouch_ch r0); [|by apply Hsame'].
    assert (id0 ≠ id) by congruence. apply Hsame; [done|simpl; by rewrite lookup_insert_ne|simpl; by apply Halt].
  - destruct (watch s !! id0) as [[]|] eqn:Ew; try (by apply Hsame'). destruct (_ <? _); [by apply Hsame'|].
    assert (id0 ≠ id) by congruence. apply Hsame; [done|simpl; by rewrite lookup_insert_ne|simpl; eauto].
  - destruct (watch s !! id0) as [[]|] eqn:Ew; try (by apply Hsame'). destruct (store s !! id0) as [r0|] eqn:Er; [|by apply Hsame'].
    destruct (rblocked r0) eqn:Eb; [by apply Hsame'|]. assert (id0 ≠ id) by congruence.
    apply Hsame; [done|simpl; by rewrite lookup_insert_ne|simpl; by apply Halt].
  - unfold return_tokens. destruct (watch s !! id0) as [[]|] eqn:Ew; try (by apply Hsame'). destruct (store s !! id0) eqn:Er; [|by apply Hsame'].
    destruct (stuck s); [by apply Hsame'|]. assert (id0 ≠ id) by congruence. simpl.
    assert (id ∉ [id0]) by (rewrite elem_of_list_singleton; congruence). split; [|done].
    split; [|exists r; split; [|done]].
    + destruct (pending s); simpl; by rewrite lookup_delete_ne.
    + by destruct (pending s).
Qed.
Lemma deadlocked_forever s es ops id : PI s es → deadlocked s id → id ∉ returned (prun s ops).2.
Proof.
  revert s es. induction ops as [|o ops IH]; intros s es HI Hd; [apply not_elem_of_nil|]. simpl. pose proof (PI_step s es o HI) as HI'.
  destruct (deadlocked_step s es o id HI Hd) as [A B]. destruct (pstep s o) as [s' e]. simpl in *.
  specialize (IH s' _ HI' A). destruct (prun s' ops) as [s2 e2]. simpl in *. rewrite returned_app, elem_of_app. tauto.
Qed.
