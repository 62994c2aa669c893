(** Proofs about the resource protector. *)
From Coq Require Import ZArith Lia.
From stdpp Require Import base option gmap list sorting.
From RecordUpdate Require Import RecordSet.
From Verif Require Import RpModel RpSpec.
Import RecordSetNotations.
Open Scope Z_scope.

Lemma receipts_app a b : receipts (a ++ b) = receipts a ++ receipts b. Proof. apply omap_app. Qed.
Lemma grants_app a b : grants (a ++ b) = grants a ++ grants b. Proof. apply omap_app. Qed.
Lemma returned_app a b : returned (a ++ b) = returned a ++ returned b. Proof. apply omap_app. Qed.
Lemma released_app a b : released (a ++ b) = released a ++ released b. Proof. apply omap_app. Qed.

(** ** What holds of one request, its goroutine and the trace *)
Record RI (es : list event) (nw to : Z) (pend : list nat) (w : option wat) (id : nat) (r : req) : Prop := {
  ri_rec : (id, rtokens r) ∈ receipts es;
  ri_act : ractive r = true ↔ id ∈ (grants es).*1;
  ri_wat : is_Some w ↔ id ∈ (grants es).*1 ∧ id ∉ returned es;
  ri_time : ∀ t, (id, t) ∈ grants es →
      match w with
      | Some (WSelect dl) => t + to ≤ dl
      | Some WFinish => t + to ≤ nw
      | Some WOut => id ∈ released es ∨ EShutdown ∈ es ∨ t + to ≤ nw
      | None => True
      end;
  ri_rel : rrelease_ch r = true → id ∈ released es ∨ EShutdown ∈ es;
  ri_ret : id ∈ returned es → id ∈ (grants es).*1;
  ri_pend : id ∈ pend → ractive r = false;
  ri_done : id ∈ released es → rdone r = true ∧ rblocked r = false ∧ ractive r = true ∧ ∀ dl, w = Some (WSelect dl) → rrelease_ch r = true;
  ri_block : rblocked r = true → rtouch_ch r = true;
  ri_gnow : ∀ t, (id, t) ∈ grants es → t ≤ nw }.

(** Events about other requests. *)
Definition elsewhere (id : nat) (e : list event) : Prop :=
  id ∉ (grants e).*1 ∧ id ∉ returned e ∧ id ∉ released e.
Lemma RI_mono es nw to pend w id r e nw' pend' :
  RI es nw to pend w id r → elsewhere id e → nw ≤ nw' → (id ∈ pend' → id ∈ pend) → RI (es ++ e) nw' to pend' w id r.
Proof.
  intros [H1 H2 H3 H4 H5 H6 H7 H8 H9 H10] (E1 & E2 & E3) Hn Hp.
  assert (∀ t, (id, t) ∈ grants (es ++ e) → (id, t) ∈ grants es) as Hg.
  { intros t. rewrite grants_app, elem_of_app. intros [?|H]; [done|]. exfalso. apply E1. apply elem_of_list_fmap. by exists (id, t). }
  assert (id ∈ (grants (es ++ e)).*1 ↔ id ∈ (grants es).*1) as G1 by (rewrite grants_app, fmap_app, elem_of_app; tauto).
  assert (id ∈ returned (es ++ e) ↔ id ∈ returned es) as G2 by (rewrite returned_app, elem_of_app; tauto).
  assert (id ∈ released (es ++ e) ↔ id ∈ released es) as G3 by (rewrite released_app, elem_of_app; tauto).
  assert (EShutdown ∈ es → EShutdown ∈ es ++ e) as G4 by (rewrite elem_of_app; tauto).
  split; rewrite ?G1, ?G2, ?G3; auto.
  - rewrite receipts_app, elem_of_app. auto.
  - intros t Ht. specialize (H4 t (Hg t Ht)). destruct w as [[]|]; auto; [lia|]. rewrite G3. destruct H4 as [|[|]]; auto. right; right; lia.
  - intros Hr. destruct (H5 Hr); auto.
  - intros t Ht. specialize (H10 t (Hg t Ht)). lia.
Qed.

Record PI (s : pstate) (es : list event) : Prop := {
  pi_dom : ∀ id, is_Some (store s !! id) ↔ (id < nextid s)%nat;
  pi_ri : ∀ id r, store s !! id = Some r → RI es (now s) (ptimeout s) (pending s) (watch s !! id) id r;
  pi_watch : ∀ id, is_Some (watch s !! id) → is_Some (store s !! id);
  pi_recs : ∀ id n, (id, n) ∈ receipts es → ∃ r, store s !! id = Some r ∧ rtokens r = n;
  pi_nodup : NoDup (receipts es).*1;
  pi_pend : StronglySorted lt (pending s);
  pi_pdom : ∀ id, id ∈ pending s → (id < nextid s)%nat;
  pi_order : ∀ g id, g ∈ (grants es).*1 → id ∈ pending s → (g < id)%nat;
  pi_grants : StronglySorted lt (grants es).*1;
  pi_gdom : ∀ g, g ∈ (grants es).*1 → (g < nextid s)%nat;
  pi_retdom : ∀ g, g ∈ returned es → (g < nextid s)%nat;
  pi_reldom : ∀ g, g ∈ released es → (g < nextid s)%nat }.

Lemma ss_filter (P : nat → Prop) `{∀ x, Decision (P x)} l : StronglySorted lt l → StronglySorted lt (filter P l).
Proof.
  induction 1 as [|x l Hs IH Hx]; [constructor|]. rewrite filter_cons. destruct (decide (P x)); [|done].
  constructor; [done|]. rewrite Forall_forall in *. intros y [_ Hy]%elem_of_list_filter. by apply Hx.
Qed.
Lemma ss_snoc l (x : nat) : StronglySorted lt l → (∀ y, y ∈ l → (y < x)%nat) → StronglySorted lt (l ++ [x]).
Proof.
  induction 1 as [|y l Hs IH Hy]; intros Hx; simpl; [repeat constructor|]. constructor.
  - apply IH. intros z Hz. apply Hx. by right.
  - rewrite Forall_forall in *. intros z [Hz|Hz]%elem_of_app; [by apply Hy|]. apply elem_of_list_singleton in Hz as ->. apply Hx. by left.
Qed.

(** A step that concerns only request [id]: its record and its goroutine. *)
Lemma PI_one s es s' e id :
  PI s es → 
  (∀ j, j ≠ id → store s' !! j = store s !! j) → (∀ j, j ≠ id → watch s' !! j = watch s !! j) →
  nextid s' = nextid s → ptimeout s' = ptimeout s → now s' = now s →
  (is_Some (store s' !! id) ↔ is_Some (store s !! id)) →
  (∀ r, store s !! id = Some r → ∃ r', store s' !! id = Some r' ∧ rtokens r' = rtokens r) →
  (is_Some (watch s' !! id) → is_Some (store s !! id)) →
  (∀ j, j ≠ id → elsewhere j e) → receipts e = [] →
  (∀ r', store s' !! id = Some r' → RI (es ++ e) (now s') (ptimeout s') (pending s') (watch s' !! id) id r') →
  StronglySorted lt (pending s') → (∀ j, j ∈ pending s' → j ∈ pending s) →
  (id < nextid s)%nat →
  (∀ t, e = [EGrant id t] → ∃ rest, pending s = id :: rest ∧ pending s' = rest) →
  (∀ g, g ∈ (grants e).*1 → ∃ t, e = [EGrant id t]) →
  PI s' (es ++ e).
Proof.
  intros HI Hst Hwa Hn Hto Hnow Hid Htok Hwid Hel Hrec HRI Hps Hpsub Hlt Hgr Hgr'. destruct HI. split.
  - intros j. rewrite Hn, <- pi_dom0. destruct (decide (j = id)) as [->|]; [done|by rewrite Hst].
  - intros j r Hj. destruct (decide (j = id)) as [->|Hne]; [by apply HRI|]. rewrite Hst in Hj by done. rewrite Hwa by done.
    rewrite Hnow, Hto. eapply RI_mono; [by apply pi_ri0|by apply Hel|lia|apply Hpsub].
  - intros j Hj. destruct (decide (j = id)) as [->|Hne]; [apply Hid; auto|]. rewrite Hst, Hwa in * by done. auto.
  - intros j n. rewrite receipts_app, Hrec, app_nil_r. intros Hj. destruct (pi_recs0 j n Hj) as (r & Hr & Hrn).
    destruct (decide (j = id)) as [->|Hne]; [|rewrite Hst by done; eauto]. destruct (Htok r Hr) as (r' & Hr' & E). exists r'. split; [done|congruence].
  - by rewrite receipts_app, Hrec, app_nil_r.
  - done.
  - intros j Hj. rewrite Hn. auto.
  - intros g j. rewrite grants_app, fmap_app, elem_of_app. intros [Hg|Hg] Hj; [auto|].
    destruct (Hgr' g Hg) as [t ->]. apply elem_of_list_singleton in Hg as ->. simpl. destruct (Hgr t eq_refl) as (rest & E1 & E2).
    rewrite E1 in pi_pend0. apply StronglySorted_inv in pi_pend0 as [_ Hf]. rewrite Forall_forall in Hf. apply Hf. by rewrite <- E2.
  - rewrite grants_app, fmap_app. destruct ((grants e).*1) as [|g l] eqn:E; [by rewrite app_nil_r|].
    destruct (Hgr' g) as [t ->]; [by left|]. simpl in E. injection E as <- <-. apply ss_snoc; [done|].
    intros y Hy. apply (pi_order0 y id Hy). destruct (Hgr t eq_refl) as (rest & -> & _). by left.
  - intros g. rewrite grants_app, fmap_app, elem_of_app, Hn. intros [Hg|Hg]; [auto|].
    destruct (Hgr' g Hg) as [t ->]. by apply elem_of_list_singleton in Hg as ->.
  - intros g. rewrite returned_app, elem_of_app, Hn. intros [Hg|Hg]; [auto|]. destruct (decide (g = id)) as [->|Hne]; [done|].
    by destruct (Hel g Hne) as (_ & ? & _).
  - intros g. rewrite released_app, elem_of_app, Hn. intros [Hg|Hg]; [auto|]. destruct (decide (g = id)) as [->|Hne]; [done|].
    by destruct (Hel g Hne) as (_ & _ & ?).
Qed.
(** A step that concerns none. *)
Lemma PI_none s es s' e : PI s es → store s' = store s → watch s' = watch s → nextid s' = nextid s → ptimeout s' = ptimeout s →
  now s ≤ now s' → StronglySorted lt (pending s') → (∀ j, j ∈ pending s' → j ∈ pending s) →
  (∀ j, elsewhere j e) → receipts e = [] → PI s' (es ++ e).
Proof.
  intros HI Hst Hwa Hn Hto Hnow Hps Hpsub Hel Hrec.
  assert (grants e = []) as Hg0.
  { destruct (grants e) as [|[g t] l] eqn:E; [done|]. destruct (Hel g) as [H _]. rewrite E in H. exfalso. apply H. by left. }
  assert (returned e = []) as Hr0.
  { destruct (returned e) as [|g l] eqn:E; [done|]. destruct (Hel g) as (_ & H & _). rewrite E in H. exfalso. apply H. by left. }
  assert (released e = []) as Hl0.
  { destruct (released e) as [|g l] eqn:E; [done|]. destruct (Hel g) as (_ & _ & H). rewrite E in H. exfalso. apply H. by left. }
  destruct HI. split; rewrite ?receipts_app, ?grants_app, ?returned_app, ?released_app, ?Hrec, ?Hg0, ?Hr0, ?Hl0, ?app_nil_r, ?Hst, ?Hwa, ?Hn; auto.
  intros id r Hr. rewrite Hto. eapply RI_mono; eauto.
Qed.
Lemma elsewhere_nil j : elsewhere j []. Proof. split_and!; apply not_elem_of_nil. Qed.

Ltac ids := repeat match goal with
  | H : _ ∈ [_] |- _ => apply elem_of_list_singleton in H
  | H : _ ∈ [] |- _ => by apply elem_of_nil in H
  end.

Lemma PI_new d m t : PI (p_new d m t) [].
Proof.
  split; simpl.
  - intros id. rewrite lookup_empty. split; [by intros []|lia].
  - intros id r. by rewrite lookup_empty.
  - intros id. rewrite lookup_empty. by intros [].
  - by intros id n ?%elem_of_nil.
  - constructor.
  - constructor.
  - by intros ? ?%elem_of_nil.
  - by intros ? ? ?%elem_of_nil.
  - constructor.
  - by intros ? ?%elem_of_nil.
  - by intros ? ?%elem_of_nil.
  - by intros ? ?%elem_of_nil.
Qed.

(** the updates that leave what RI is about alone, or nearly *)
Lemma RI_flags es nw to pend w id r r' : RI es nw to pend w id r →
  rtokens r' = rtokens r → ractive r' = ractive r → (rrelease_ch r' = true → rrelease_ch r = true) → (rdone r = true → rdone r' = true) →
  (rdone r = true → rblocked r = false → rblocked r' = false) → (rblocked r' = true → rtouch_ch r' = true) →
  (∀ dl, w = Some (WSelect dl) → rrelease_ch r = true → rrelease_ch r' = true) → RI es nw to pend w id r'.
Proof.
  intros [H1 H2 H3 H4 H5 H6 H7 H8 H9 H10] E1 E2 E3 E4 E5 E6 E7. split; rewrite ?E1, ?E2; auto.
  intros Hr. destruct (H8 Hr) as (A & B & C & D). split_and!; eauto.
Qed.
Lemma RI_app_nil es nw to pend w id r : RI es nw to pend w id r → RI (es ++ []) nw to pend w id r.
Proof. by rewrite app_nil_r. Qed.

(** Changes of the flags of one request, with an event that is not followed. *)
Definition quiet (e : list event) : Prop := receipts e = [] ∧ grants e = [] ∧ returned e = [] ∧ released e = [].
Lemma quiet_elsewhere e j : quiet e → elsewhere j e.
Proof. intros (_ & H2 & H3 & H4). unfold elsewhere. rewrite H2, H3, H4. split_and!; apply not_elem_of_nil. Qed.
Lemma RI_quiet es nw to pend w id r e : RI es nw to pend w id r → quiet e → RI (es ++ e) nw to pend w id r.
Proof. intros H He. eapply RI_mono; [done|by apply quiet_elsewhere|lia|done]. Qed.

Lemma PI_quiet s es e : PI s es → quiet e → PI s (es ++ e).
Proof.
  intros HI He. eapply PI_none; eauto; [lia|apply HI|intros j; by apply quiet_elsewhere|apply He].
Qed.

(** One request's record and goroutine change, quietly. *)
Lemma PI_upd s es s' e id f w' : PI s es → quiet e →
  store s' = alter f id (store s) → (∀ j, j ≠ id → watch s' !! j = watch s !! j) → watch s' !! id = w' →
  nextid s' = nextid s → ptimeout s' = ptimeout s → now s' = now s → pending s' = pending s →
  (∀ r, store s !! id = Some r → RI es (now s) (ptimeout s) (pending s) (watch s !! id) id r →
     rtokens (f r) = rtokens r ∧ RI es (now s) (ptimeout s) (pending s) w' id (f r)) →
  (is_Some (store s !! id)) → PI s' (es ++ e).
Proof.
  intros HI He Hst Hwa Hw Hn Hto Hnow Hp HRI [r Hr]. pose proof (pi_ri _ _ HI id r Hr) as HR. destruct (HRI r Hr HR) as [Ht HR'].
  eapply (PI_one _ _ _ _ id HI); try done.
  - intros j Hj. rewrite Hst. by apply lookup_alter_ne.
  - rewrite Hst, lookup_alter, Hr. simpl. split; eauto.
  - intros r0 Hr0. rewrite Hst, lookup_alter, Hr0. simpl. rewrite Hr in Hr0. injection Hr0 as <-. eauto.
  - intros j _. by apply quiet_elsewhere.
  - apply He.
  - intros r' Hr'. rewrite Hst, lookup_alter, Hr in Hr'. simpl in Hr'. injection Hr' as <-. rewrite Hw, Hnow, Hto, Hp. by apply RI_quiet.
  - rewrite Hp. apply HI.
  - rewrite Hp. done.
  - apply (pi_dom _ _ HI). eauto.
  - intros t E. rewrite E in He. by destruct He as (_ & ? & _).
  - intros g. destruct He as (_ & -> & _). by intros ?%elem_of_nil.
Qed.

Lemma quiet_nil : quiet []. Proof. by split_and!. Qed.

Lemma RI_release es nw to pend w id r : RI es nw to pend w id r → ractive r = true → rblocked r = false → rdone r = false →
  RI (es ++ [ERelease id]) nw to pend w id (release r).
Proof.
  intros [H1 H2 H3 H4 H5 H6 H7 H8 H9 H10] Ha Hb Hd. unfold release. rewrite Ha, Hd. simpl.
  assert (id ∈ released (es ++ [ERelease id])) as Hin by (rewrite released_app, elem_of_app; right; by left).
  assert (grants (es ++ [ERelease id]) = grants es) as Hg by (by rewrite grants_app, app_nil_r).
  assert (returned (es ++ [ERelease id]) = returned es) as Hret by (by rewrite returned_app, app_nil_r).
  assert (receipts (es ++ [ERelease id]) = receipts es) as Hrec by (by rewrite receipts_app, app_nil_r).
  split; rewrite ?Hg, ?Hret, ?Hrec; simpl; auto.
  intros t Ht. specialize (H4 t Ht). destruct w as [[]|]; auto.
Qed.
Lemma RI_shut es nw to pend w id r e : RI (es ++ e) nw to pend w id r → EShutdown ∈ es ++ e → id ∉ released (es ++ e) ∨ rdone r = true →
  RI (es ++ e) nw to pend w id (release r).
Proof.
  intros HR He Hd. unfold release. destruct (negb (ractive r) || rdone r) eqn:E; [done|].
  apply orb_false_iff in E as [Ha Hdn]. apply negb_false_iff in Ha. destruct Hd as [Hd|]; [|congruence].
  destruct HR as [H1 H2 H3 H4 H5 H6 H7 H8 H9 H10]. split; simpl; auto; done.
Qed.

Lemma RI_grant es nw to rest id r : RI es nw to (id :: rest) None id r → id ∉ rest → id ∉ returned es →
  RI (es ++ [EGrant id nw]) nw to rest (Some (WSelect (nw + to))) id (grant r).
Proof.
  intros [H1 H2 H3 H4 H5 H6 H7 H8 H9 H10] Hnin Hret.
  assert (ractive r = false) as Ha by (apply H7; by left).
  assert (id ∉ (grants es).*1) as Hng by (rewrite <- H2, Ha; done).
  assert (∀ t, (id, t) ∈ grants es → False) as Hng' by (intros t Ht; apply Hng, elem_of_list_fmap; by exists (id, t)).
  assert (rtokens (grant r) = rtokens r ∧ ractive (grant r) = true ∧ rrelease_ch (grant r) = rrelease_ch r ∧ rdone (grant r) = rdone r
    ∧ rblocked (grant r) = rblocked r ∧ rtouch_ch (grant r) = rtouch_ch r) as (E1 & E2 & E3 & E4 & E5 & E6).
  { unfold grant. simpl. by destruct (rwaiting r). }
  assert (id ∈ (grants (es ++ [EGrant id nw])).*1) as Hin by (rewrite grants_app, fmap_app, elem_of_app; right; by left).
  assert (returned (es ++ [EGrant id nw]) = returned es) as Hret' by (by rewrite returned_app, app_nil_r).
  assert (released (es ++ [EGrant id nw]) = released es) as Hrel' by (by rewrite released_app, app_nil_r).
  assert (receipts (es ++ [EGrant id nw]) = receipts es) as Hrec' by (by rewrite receipts_app, app_nil_r).
  assert (∀ t, (id, t) ∈ grants (es ++ [EGrant id nw]) → t = nw) as Ht.
  { intros t. rewrite grants_app, elem_of_app. intros [Hx|Hx]; [by apply Hng' in Hx|]. apply elem_of_list_singleton in Hx. congruence. }
  split; rewrite ?Hret', ?Hrel', ?Hrec', ?E1, ?E2, ?E3, ?E4, ?E5, ?E6; auto; try done.
  - intros t Hx%Ht. lia.
  - intros Hr. destruct (H5 Hr); auto. right. rewrite elem_of_app. auto.
  - intros Hr. destruct (H8 Hr) as (_ & _ & Hx & _). congruence.
  - intros t Hx%Ht. lia.
Qed.

Lemma RI_returned es nw to pend id r t : RI es nw to pend (Some WOut) id r →
  RI (es ++ [EReturned id t]) nw to pend None id r.
Proof.
  intros [H1 H2 H3 H4 H5 H6 H7 H8 H9 H10].
  assert (id ∈ returned (es ++ [EReturned id t])) as Hin by (rewrite returned_app, elem_of_app; right; by left).
  assert (grants (es ++ [EReturned id t]) = grants es) as Hg by (by rewrite grants_app, app_nil_r).
  assert (released (es ++ [EReturned id t]) = released es) as Hret by (by rewrite released_app, app_nil_r).
  assert (receipts (es ++ [EReturned id t]) = receipts es) as Hrec by (by rewrite receipts_app, app_nil_r).
  assert (id ∈ (grants es).*1) as Hgr by (apply H3; eauto).
  split; rewrite ?Hg, ?Hret, ?Hrec; auto.
  - split; [by intros []|]. by intros [_ ?].
  - intros Hr. destruct (H5 Hr); auto. right. rewrite elem_of_app. auto.
  - intros Hr. destruct (H8 Hr) as (? & ? & ? & ?). split_and!; auto. done.
Qed.

Ltac quietly := apply PI_quiet; [assumption|by split_and!].
Ltac setw := simpl; intros ? ?; by rewrite lookup_insert_ne.

Lemma reprocess_frame s : store (reprocess s) = store s ∧ watch (reprocess s) = watch s ∧ nextid (reprocess s) = nextid s ∧
  ptimeout (reprocess s) = ptimeout s ∧ now (reprocess s) = now s ∧ pending (reprocess s) = pending s ∧ used (reprocess s) = used s ∧
  pmax (reprocess s) = pmax s ∧ stuck (reprocess s) = stuck s ∧ timers (reprocess s) = timers s ∧ lastp (reprocess s) = lastp s ∧ pdelay (reprocess s) = pdelay s.
Proof.
  unfold reprocess. destruct (nre s); [by split_and!|]. destruct (stuck s) eqn:E; [by split_and!|]. simpl. destruct (reproc s); [by split_and!|].
  destruct (lastp s) eqn:E2; [|by split_and!]. destruct (_ <? _); by split_and!.
Qed.

Lemma PI_step s es o : PI s es → PI (pstep s o).1 (es ++ (pstep s o).2).
Proof.
  intros HI. destruct o; simpl.
  - (* advance *) destruct (d <? 0) eqn:Ed; [quietly|]. eapply PI_none; try done; [simpl; lia|apply HI|intros; apply elsewhere_nil].
  - (* request *)
    unfold request. destruct (pmax s <? n); [quietly|]. destruct (stuck s); [quietly|]. destruct (disabled s); [quietly|].
    set (id := nextid s).
    set (r0 := Req n false false false false false false false false false).
    match goal with |- PI ?x _ => set (s' := x) end.
    assert (store s' = <[id := r0]> (store s) ∧ watch s' = watch s ∧ nextid s' = S (nextid s) ∧ ptimeout s' = ptimeout s ∧ now s' = now s
      ∧ pending s' = pending s ++ [id]) as (E1 & E2 & E3 & E4 & E5 & E6).
    { subst s'. simpl. destruct (lastp s); simpl; [by split_and!|]. destruct (pending s) as [|x [|y l]] eqn:E; simpl; rewrite ?E; by split_and!. }
    clearbody s'. simpl.
    assert (id ∉ (grants es).*1) as N1 by (intros H%(pi_gdom _ _ HI); unfold id in H; lia).
    assert (id ∉ returned es) as N2 by (intros H%(pi_retdom _ _ HI); unfold id in H; lia).
    assert (id ∉ released es) as N3 by (intros H%(pi_reldom _ _ HI); unfold id in H; lia).
    assert (store s !! id = None) as N4.
    { destruct (store s !! id) eqn:E; [|done]. assert (id < nextid s)%nat as H by (apply (pi_dom _ _ HI); eauto). unfold id in H. lia. }
    assert (watch s !! id = None) as N5.
    { destruct (watch s !! id) eqn:E; [|done]. assert (is_Some (store s !! id)) as [? H] by (apply (pi_watch _ _ HI); eauto). congruence. }
    assert (grants (es ++ [EReceipt id n]) = grants es) as Hg by (by rewrite grants_app, app_nil_r).
    assert (returned (es ++ [EReceipt id n]) = returned es) as Hret by (by rewrite returned_app, app_nil_r).
    assert (released (es ++ [EReceipt id n]) = released es) as Hrel by (by rewrite released_app, app_nil_r).
    destruct HI. split; rewrite ?Hg, ?Hret, ?Hrel, ?E1, ?E2, ?E3, ?E4, ?E5, ?E6.
    + intros j. destruct (decide (j = id)) as [->|Hne].
      * rewrite lookup_insert. unfold id. split; [lia|eauto].
      * rewrite lookup_insert_ne by done. rewrite pi_dom0. unfold id in Hne. lia.
    + intros j r. destruct (decide (j = id)) as [->|Hne].
      * rewrite lookup_insert, N5. intros [= <-]. split; rewrite ?Hg, ?Hret, ?Hrel; simpl; try done.
        -- rewrite receipts_app, elem_of_app. right. by left.
        -- split; [by intros []|by intros []].
        -- intros t Ht. exfalso. apply N1, elem_of_list_fmap. by exists (id, t).
      * rewrite lookup_insert_ne by done. intros Hj. eapply RI_mono; [by apply pi_ri0|split_and!; apply not_elem_of_nil|lia|].
        rewrite elem_of_app, elem_of_list_singleton. by intros [|].
    + intros j Hj. destruct (decide (j = id)) as [->|Hne]; [rewrite lookup_insert|rewrite lookup_insert_ne by done]; eauto.
    + intros j m. rewrite receipts_app, elem_of_app. simpl. rewrite elem_of_list_singleton. intros [Hj|[= -> ->]].
      * destruct (pi_recs0 j m Hj) as (r & Hr & Hm). exists r. split; [|done]. rewrite lookup_insert_ne; [done|congruence].
      * exists r0. by rewrite lookup_insert.
    + rewrite receipts_app, fmap_app. apply NoDup_app. split_and!; [done| |apply NoDup_singleton].
      intros j ((j' & m) & -> & Hj)%elem_of_list_fmap. simpl. rewrite elem_of_list_singleton. intros ->.
      destruct (pi_recs0 id m Hj) as (r & Hr & Hm). congruence.
    + apply ss_snoc; [done|]. intros y Hy. by apply pi_pdom0.
    + intros j. rewrite elem_of_app, elem_of_list_singleton. intros [Hj| ->]; [|unfold id; lia]. specialize (pi_pdom0 j Hj). lia.
    + intros g j Hgg. rewrite elem_of_app, elem_of_list_singleton. intros [Hj| ->]; [auto|]. by apply pi_gdom0.
    + done.
    + intros g Hgg. specialize (pi_gdom0 g Hgg). lia.
    + intros g Hgg. specialize (pi_retdom0 g Hgg). lia.
    + intros g Hgg. specialize (pi_reldom0 g Hgg). lia.
  - (* find *) destruct (stuck s); [quietly|]. destruct (decide (id ∈ reqs s)); [|quietly].
    eapply PI_none; try done; [apply HI|intros; apply elsewhere_nil].
  - (* wait *) destruct (decide (id ∈ held s)); [|quietly]. unfold wait. destruct (store s !! id) as [r|] eqn:Er; [|quietly].
    destruct (rblocked r) eqn:Eb; [quietly|].
    set (s1 := match timeout with Some t => _ | None => s end).
    assert (store s1 = store s ∧ watch s1 = watch s ∧ nextid s1 = nextid s ∧ ptimeout s1 = ptimeout s ∧ now s1 = now s ∧ pending s1 = pending s)
      as (E1 & E2 & E3 & E4 & E5 & E6).
    { subst s1. destruct timeout as [t|]; [destruct (0 <? t)|]; by split_and!. }
    clearbody s1.
    destruct (rdone r || rwaiting r) eqn:Ed; [eapply PI_none; try done; [simpl; lia|simpl; rewrite E6; apply HI|simpl; rewrite E6; done|intros; by apply quiet_elsewhere]|].
    destruct (ractive r) eqn:Ea; [eapply PI_none; try done; [simpl; lia|simpl; rewrite E6; apply HI|simpl; rewrite E6; done|intros; by apply quiet_elsewhere]|].
    eapply (PI_upd s es _ _ id); try done; [simpl; by rewrite E1|simpl; by rewrite E2|].
    intros r' Hr' HR. simpl. rewrite E2. split; [done|]. apply (RI_flags _ _ _ _ _ _ r'); auto. apply HR.
  - (* waited, true *) destruct (store s !! id) as [r|] eqn:Er; [|quietly]. destruct (rselect r && rgranted_ch r); [|quietly].
    eapply (PI_upd s es _ _ id); try done; eauto.
    intros r' Hr' HR. split; [done|]. apply (RI_flags _ _ _ _ _ _ r'); auto. apply HR.
  - (* waited, false *) destruct (store s !! id) as [r|] eqn:Er; [|quietly]. destruct (rselect r && rcancel_ch r && negb (rblocked r)); [|quietly].
    eapply (PI_upd s es _ _ id); try done; eauto.
    intros r' Hr' HR. split; [done|]. apply (RI_flags _ _ _ _ _ _ r'); auto. apply HR.
  - (* granted *) destruct (decide (id ∈ held s)); [|quietly]. destruct (store s !! id) as [r|] eqn:Er; [|quietly]. destruct (rblocked r); quietly.
  - (* touch *) destruct (decide (id ∈ held s)); [|quietly]. destruct (store s !! id) as [r|] eqn:Er; [|quietly].
    destruct (rblocked r || negb (ractive r) || rdone r) eqn:Ed; [quietly|]. apply orb_false_iff in Ed as [Ed Ed3]. apply orb_false_iff in Ed as [Ed1 Ed2].
    destruct (rtouch_ch r) eqn:Et.
    + eapply (PI_upd s es _ _ id); try done; eauto.
      intros r' Hr' HR. rewrite Er in Hr'. injection Hr' as <-. split; [done|]. apply (RI_flags _ _ _ _ _ _ r); auto. intros. congruence.
    + eapply (PI_upd s es _ _ id); try done; eauto.
      intros r' Hr' HR. split; [done|]. apply (RI_flags _ _ _ _ _ _ r'); auto.
  - (* release *) destruct (decide (id ∈ held s)); [|quietly]. destruct (store s !! id) as [r|] eqn:Er; [|quietly].
    destruct (rblocked r || negb (ractive r) || rdone r) eqn:Ed; [quietly|]. apply orb_false_iff in Ed as [Ed Ed3]. apply orb_false_iff in Ed as [Ed1 Ed2].
    apply negb_false_iff in Ed2. simpl.
    assert (rtokens (release r) = rtokens r) as Htok by (unfold release; by rewrite Ed2, Ed3).
    eapply (PI_one _ _ _ _ id HI); try done; simpl.
    + intros j Hj. by apply lookup_alter_ne.
    + rewrite lookup_alter, Er. simpl. split; eauto.
    + intros r' Hr'. rewrite lookup_alter, Hr'. simpl. rewrite Er in Hr'. injection Hr' as <-. eauto.
    + intros j Hj. split_and!; try apply not_elem_of_nil. by intros ?%elem_of_list_singleton.
    + intros r' Hr'. rewrite lookup_alter, Er in Hr'. simpl in Hr'. injection Hr' as <-. apply RI_release; auto. by apply (pi_ri _ _ HI).
    + apply HI.
    + apply (pi_dom _ _ HI). eauto.
    + by intros g ?%elem_of_nil.
  - (* timer *) unfold timer. destruct (timers s !! i) as [[id t]|]; [|quietly]. destruct (store s !! id) as [r|] eqn:Er; [|quietly].
    destruct (_ || _ || _ || _); [quietly|]. destruct (ractive r && negb (rdone r)).
    { eapply PI_none; try done; [apply HI|intros; apply elsewhere_nil]. }
    assert (PI (s <| timers ::= delete i |> <| pending ::= filter (λ j, j ≠ id) |> <| reqs ::= λ m, m ∖ {[id]} |>) es) as HI'.
    { rewrite <- (app_nil_r es). eapply PI_none; try done; [apply ss_filter, HI| |intros; apply elsewhere_nil].
      by intros j [_ ?]%elem_of_list_filter. }
    destruct (rcancel_ch r).
    + eapply PI_none; try done; [apply HI'|intros; apply elsewhere_nil].
    + eapply (PI_upd _ es _ _ id _ _ HI'); try done; eauto.
      intros r' Hr' HR. split; [done|]. apply (RI_flags _ _ _ _ _ _ r'); auto. apply HR.
  - (* shutdown *) unfold shutdown. destruct (_ || _); [quietly|]. simpl.
    assert (PI s (es ++ [EShutdown])) as HI'.
    { eapply PI_none; try done; [apply HI|]. intros j. split_and!; apply not_elem_of_nil. }
    assert (∀ j, (map_imap (λ id r, Some (if decide (id ∈ reqs s) then release r else r)) (store s) : gmap nat req) !! j =
      (λ r, if decide (j ∈ reqs s) then release r else r) <$> store s !! j) as Hlk.
    { intros j. rewrite map_lookup_imap. by destruct (store s !! j). }
    destruct HI'. split; simpl; auto.
    + intros j. rewrite Hlk, fmap_is_Some. auto.
    + intros j r. rewrite Hlk, fmap_Some. intros (r' & Hr' & ->). specialize (pi_ri0 j r' Hr'). destruct (decide (j ∈ reqs s)); [|done].
      apply RI_shut; [done|rewrite elem_of_app; right; by left|]. destruct (decide (j ∈ released (es ++ [EShutdown]))) as [Hd|Hd]; [right|by left].
      by apply (ri_done _ _ _ _ _ _ _ pi_ri0).
    + intros j. rewrite Hlk, fmap_is_Some. auto.
    + intros j m Hj. destruct (pi_recs0 j m Hj) as (r & Hr & Hm). rewrite Hlk, Hr. simpl. eexists. split; [done|].
      destruct (decide (j ∈ reqs s)); [|done]. unfold release. by destruct (_ || _).
  - (* process *) unfold process. destruct (nproc s) as [|np]; [quietly|]. destruct (stuck s); [quietly|]. simpl.
    assert (PI (s <| nproc := np |>) es) as HI'.
    { rewrite <- (app_nil_r es). eapply PI_none; try done; [apply HI|intros; apply elsewhere_nil]. }
    destruct (pending s) as [|id rest] eqn:Ep; [quietly|]. destruct (used s =? pmax s); [quietly|].
    destruct (store s !! id) as [r|] eqn:Er; [|quietly].
    destruct (match avail with Some a => _ | None => _ end).
    { eapply PI_none; try done; [apply HI|intros; apply elsewhere_nil]. }
    destruct (_ && _); [quietly|].
    match goal with |- PI (?a, ?e).1 _ => set (s2 := a) end. simpl.
    assert (store s2 = alter grant id (store s) ∧ watch s2 = <[id := WSelect (now s + ptimeout s)]> (watch s) ∧ nextid s2 = nextid s ∧ ptimeout s2 = ptimeout s
      ∧ now s2 = now s ∧ pending s2 = rest) as (E1 & E2 & E3 & E4 & E5 & E6).
    { subst s2. by destruct rest. }
    clearbody s2.
    pose proof (pi_ri _ _ HI id r Er) as HR. pose proof (pi_pend _ _ HI) as Hs. rewrite Ep in Hs. apply StronglySorted_inv in Hs as [Hs Hf].
    rewrite Forall_forall in Hf.
    assert (ractive r = false) as Ha by (apply (ri_pend _ _ _ _ _ _ _ HR); rewrite Ep; by left).
    assert (id ∉ (grants es).*1) as Hng by (rewrite <- (ri_act _ _ _ _ _ _ _ HR), Ha; done).
    assert (watch s !! id = None) as Hw.
    { destruct (watch s !! id) eqn:E; [|done]. destruct (ri_wat _ _ _ _ _ _ _ HR) as [H _]. destruct H as [? _]; [eauto|done]. }
    assert (id ∉ returned es) as Hnr by (intros H; apply Hng, (ri_ret _ _ _ _ _ _ _ HR), H).
    assert (rtokens (grant r) = rtokens r) as Htok by (unfold grant; simpl; by destruct (rwaiting r)).
    eapply (PI_one _ _ _ _ id HI); try done.
    + intros j Hj. rewrite E1. by apply lookup_alter_ne.
    + intros j Hj. rewrite E2. by apply lookup_insert_ne.
    + rewrite E1, lookup_alter, Er. simpl. split; eauto.
    + intros r' Hr'. rewrite E1, lookup_alter, Hr'. simpl. rewrite Er in Hr'. injection Hr' as <-. eauto.
    + intros j Hj. split_and!; try apply not_elem_of_nil. by intros ?%elem_of_list_singleton.
    + intros r' Hr'. rewrite E1, lookup_alter, Er in Hr'. simpl in Hr'. injection Hr' as <-. rewrite E2, lookup_insert, E4, E5, E6.
      apply RI_grant; [|intros H; specialize (Hf id H); lia|done]. by rewrite Ep, Hw in HR.
    + by rewrite E6.
    + rewrite E6, Ep. by right.
    + apply (pi_dom _ _ HI). eauto.
    + intros t _. exists rest. by rewrite Ep, E6.
    + intros g Hgg. by exists (now s).
  - (* reprocess *) destruct (reprocess_frame s) as (E1 & E2 & E3 & E4 & E5 & E6 & _).
    eapply PI_none; try done; [lia|rewrite E6; apply HI|by rewrite E6|intros; apply elsewhere_nil].
  - (* wake *) destruct (sleepers s !! i); [|quietly]. destruct (_ || _); [quietly|].
    eapply PI_none; try done; [apply HI|intros; apply elsewhere_nil].
  - (* read release *) destruct (watch s !! id) as [[dl| |]|] eqn:Ew; try quietly. destruct (store s !! id) as [r|] eqn:Er; [|quietly].
    destruct (rrelease_ch r) eqn:Ech; [|quietly].
    eapply (PI_upd s es _ _ id _ (Some WOut)); try done; [setw|simpl; by rewrite lookup_insert|].
    intros r' Hr' HR. rewrite Er in Hr'. injection Hr' as <-. rewrite Ew in HR. split; [done|].
    destruct HR as [H1 H2 H3 H4 H5 H6 H7 H8 H9 H10]. split; simpl; auto; try done.
    + split; [|eauto]. intros _. apply H3. eauto.
    + intros t Ht. destruct (H5 Ech); auto.
    + intros Hr. destruct (H8 Hr) as (? & ? & ? & ?). by split_and!.
  - (* read touch *) destruct (watch s !! id) as [[dl| |]|] eqn:Ew; try quietly. destruct (store s !! id) as [r|] eqn:Er; [|quietly].
    destruct (rtouch_ch r) eqn:Ech; [|quietly].
    eapply (PI_upd s es _ _ id _ (Some (WSelect (now s + ptimeout s)))); try done; [setw|simpl; by rewrite lookup_insert|].
    intros r' Hr' HR. rewrite Er in Hr'. injection Hr' as <-. rewrite Ew in HR.
    set (r1 := if rblocked r then _ else _).
    assert (rtokens r1 = rtokens r ∧ ractive r1 = ractive r ∧ rdone r1 = rdone r ∧ rrelease_ch r1 = rrelease_ch r ∧ rblocked r1 = false)
      as (F1 & F2 & F3 & F4 & F5). { subst r1. by destruct (rblocked r) eqn:E; rewrite ?E. }
    clearbody r1. split; [done|].
    destruct HR as [H1 H2 H3 H4 H5 H6 H7 H8 H9 H10]. split; rewrite ?F1, ?F2, ?F3, ?F4, ?F5; auto; try done.
    + split; [|eauto]. intros _. apply H3. eauto.
    + intros t Ht. specialize (H10 t Ht). lia.
    + intros Hr. destruct (H8 Hr) as (? & ? & ? & Hx). split_and!; auto. intros dl' _. by apply (Hx dl).
  - (* limit *) destruct (watch s !! id) as [[dl| |]|] eqn:Ew; try quietly. destruct (now s <? dl) eqn:El; [quietly|].
    assert (is_Some (store s !! id)) as [r Er] by (apply (pi_watch _ _ HI); eauto).
    eapply (PI_upd s es _ _ id (λ r, r) (Some WFinish)); try done; [simpl|setw|simpl; by rewrite lookup_insert|].
    { symmetry. apply map_eq. intros j. destruct (decide (j = id)) as [->|Hj]; [rewrite lookup_alter; by destruct (store s !! id)|by rewrite lookup_alter_ne]. }
    intros r' Hr' HR. rewrite Ew in HR. split; [done|].
    destruct HR as [H1 H2 H3 H4 H5 H6 H7 H8 H9 H10]. split; auto; try done.
    + split; [|eauto]. intros _. apply H3. eauto.
    + intros t Ht. specialize (H4 t Ht). simpl in H4. lia.
    + intros Hr. destruct (H8 Hr) as (? & ? & ? & ?). by split_and!.
  - (* finish *) destruct (watch s !! id) as [[dl| |]|] eqn:Ew; try quietly. destruct (store s !! id) as [r|] eqn:Er; [|quietly].
    destruct (rblocked r) eqn:Eb; [quietly|].
    eapply (PI_upd s es _ _ id _ (Some WOut)); try done; [setw|simpl; by rewrite lookup_insert|].
    intros r' Hr' HR. rewrite Er in Hr'. injection Hr' as <-. rewrite Ew in HR. split; [done|].
    destruct HR as [H1 H2 H3 H4 H5 H6 H7 H8 H9 H10]. split; simpl; auto; try done.
    + split; [|eauto]. intros _. apply H3. eauto.
    + intros Hr. destruct (H8 Hr) as (? & ? & ? & ?). by split_and!.
  - (* return *) unfold return_tokens. destruct (watch s !! id) as [[dl| |]|] eqn:Ew; try quietly. destruct (store s !! id) as [r|] eqn:Er; [|quietly].
    destruct (stuck s); [quietly|].
    match goal with |- PI (?a, ?e).1 _ => set (s2 := a) end. simpl.
    assert (store s2 = store s ∧ watch s2 = delete id (watch s) ∧ nextid s2 = nextid s ∧ ptimeout s2 = ptimeout s
      ∧ now s2 = now s ∧ pending s2 = pending s) as (E1 & E2 & E3 & E4 & E5 & E6).
    { subst s2. simpl. destruct (pending s) eqn:E; simpl; by rewrite ?E. }
    clearbody s2.
    eapply (PI_one _ _ _ _ id HI); try done.
    + intros j Hj. by rewrite E1.
    + intros j Hj. rewrite E2. by apply lookup_delete_ne.
    + by rewrite E1.
    + intros r' Hr'. rewrite E1. eauto.
    + intros j Hj. split_and!; try apply not_elem_of_nil. by intros ?%elem_of_list_singleton.
    + intros r' Hr'. rewrite E1, Er in Hr'. injection Hr' as <-. rewrite E2, lookup_delete, E4, E5, E6.
      apply RI_returned. rewrite <- Ew. by apply (pi_ri _ _ HI).
    + rewrite E6. apply HI.
    + by rewrite E6.
    + apply (pi_dom _ _ HI). eauto.
    + by intros g ?%elem_of_nil.
Qed.

Lemma prun_app s a b : prun s (a ++ b) = let '(s1, e1) := prun s a in let '(s2, e2) := prun s1 b in (s2, e1 ++ e2).
Proof.
  revert s. induction a as [|o a IH]; intros s; simpl; [by destruct (prun s b)|].
  destruct (pstep s o) as [s' e]. rewrite IH. destruct (prun s' a) as [s1 e1]. destruct (prun s1 b) as [s2 e2]. by rewrite app_assoc.
Qed.
(** Induction along a run: [P] of the state and the trace so far. *)
Lemma prun_ind (P : pstate → list event → Prop) (Q : pop → Prop) s es ops :
  P s es → (∀ s es o, Q o → P s es → P (pstep s o).1 (es ++ (pstep s o).2)) → Forall Q ops →
  P (prun s ops).1 (es ++ (prun s ops).2).
Proof.
  intros H0 Hstep. revert s es H0. induction ops as [|o ops IH]; intros s es H0 HQ; simpl; [by rewrite app_nil_r|].
  apply Forall_cons in HQ as [Ho HQ]. specialize (Hstep s es o Ho H0) as Hs. destruct (pstep s o) as [s' e]. simpl in *.
  specialize (IH s' (es ++ e) Hs HQ). destruct (prun s' ops) as [s2 e2]. simpl in *. by rewrite app_assoc.
Qed.
Lemma prun_ind_always (P : pstate → list event → Prop) (Q : pstate → pop → Prop) s es ops :
  P s es → (∀ s es o, Q s o → P s es → P (pstep s o).1 (es ++ (pstep s o).2)) → palways Q s ops →
  P (prun s ops).1 (es ++ (prun s ops).2).
Proof.
  intros H0 Hstep. revert s es H0. induction ops as [|o ops IH]; intros s es H0 HQ; simpl; [by rewrite app_nil_r|].
  destruct HQ as [Ho HQ]. specialize (Hstep s es o Ho H0) as Hs. destruct (pstep s o) as [s' e]. simpl in *.
  specialize (IH s' (es ++ e) Hs HQ). destruct (prun s' ops) as [s2 e2]. simpl in *. by rewrite app_assoc.
Qed.
Lemma PI_run d m t ops : PI (prun (p_new d m t) ops).1 (prun (p_new d m t) ops).2.
Proof.
  apply (prun_ind PI (λ _, True) _ [] ops (PI_new d m t)); [|by apply Forall_true].
  intros s es o _ H. by apply PI_step.
Qed.
