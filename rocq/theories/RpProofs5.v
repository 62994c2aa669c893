(** Touches renew the time limit of a granted request. *)
From Coq Require Import ZArith Lia.
From stdpp Require Import base option gmap list sorting.
From RecordUpdate Require Import RecordSet.
From Verif Require Import RpModel RpSpec RpProofs RpProofs2.
Import RecordSetNotations.
Open Scope Z_scope.

Definition noted (es : list event) : list (nat * Z) :=
  omap (λ e, match e with ENoted id t => Some (id, t) | _ => None end) es.
Lemma noted_app a b : noted (a ++ b) = noted a ++ noted b. Proof. apply omap_app. Qed.

(** the limit of the goroutine's select counts from the last touch it received *)
Definition limit_ok (es : list event) (s : pstate) (id : nat) (t : Z) : Prop :=
  match watch s !! id with
  | Some (WSelect dl) => t + ptimeout s ≤ dl
  | Some WFinish => t + ptimeout s ≤ now s
  | Some WOut => id ∈ released es ∨ EShutdown ∈ es ∨ t + ptimeout s ≤ now s
  | None => True
  end.
Definition NI (s : pstate) (es : list event) : Prop :=
  ∀ id t, (id, t) ∈ noted es → id ∈ (grants es).*1 ∧ t ≤ now s ∧ limit_ok es s id t.

Lemma limit_mono es e s s' id t : limit_ok es s id t → watch s' !! id = watch s !! id → now s ≤ now s' → ptimeout s' = ptimeout s →
  limit_ok (es ++ e) s' id t.
Proof.
  unfold limit_ok. intros H -> Hn ->. destruct (watch s !! id) as [[]|]; try done; [lia|].
  rewrite released_app, !elem_of_app. destruct H as [?|[?|?]]; auto. right; right. lia.
Qed.
(** a step that leaves the goroutines where they are *)
Lemma NI_quiet s es s' e : NI s es → watch s' = watch s → now s ≤ now s' → ptimeout s' = ptimeout s → noted e = [] → NI s' (es ++ e).
Proof.
  intros HN Hw Hn Ht He id t. rewrite noted_app, He, app_nil_r. intros Hin. destruct (HN id t Hin) as (H1 & H2 & H3).
  split_and!; [rewrite grants_app, fmap_app, elem_of_app; by left|lia|]. eapply limit_mono; try done. by rewrite Hw.
Qed.
(** a step of the goroutine of request [id] *)
Lemma NI_one s es s' e id : NI s es → (∀ j, j ≠ id → watch s' !! j = watch s !! j) → now s' = now s → ptimeout s' = ptimeout s →
  (∀ j t, (j, t) ∈ noted e → j = id ∧ t = now s ∧ id ∈ (grants es).*1 ∧ limit_ok (es ++ e) s' id t) →
  (∀ t, (id, t) ∈ noted es → t ≤ now s → limit_ok es s id t → limit_ok (es ++ e) s' id t) → NI s' (es ++ e).
Proof.
  intros HN Hw Hn Ht He Hid j t. rewrite noted_app, elem_of_app. intros [Hin|Hin].
  - destruct (HN j t Hin) as (H1 & H2 & H3). split_and!; [rewrite grants_app, fmap_app, elem_of_app; by left|lia|].
    destruct (decide (j = id)) as [->|Hne]; [by apply Hid|]. eapply limit_mono; try done; [by apply Hw|lia].
  - destruct (He j t Hin) as (-> & -> & Hg & Hl). split_and!; [rewrite grants_app, fmap_app, elem_of_app; by left|lia|done].
Qed.
Lemma NI_step s es o : PI s es → NI s es → NI (pstep s o).1 (es ++ (pstep s o).2).
Proof.
  intros HI HN.
  assert (Hq : ∀ s' e, watch s' = watch s → now s' = now s → ptimeout s' = ptimeout s → noted e = [] → NI (s', e).1 (es ++ (s', e).2)).
  { intros s' e Hw Hn Ht He. cbn. eapply NI_quiet; try done. lia. }
  destruct o; cbn [pstep].
  - destruct (Z.ltb_spec d 0); [by apply Hq|]. cbn. eapply NI_quiet; try done. cbn. lia.
  - unfold request. repeat (case_match; try by apply Hq).
  - repeat (case_match; try by apply Hq).
  - unfold wait. repeat (case_match; try by apply Hq).
  - repeat (case_match; try by apply Hq).
  - repeat (case_match; try by apply Hq).
  - repeat (case_match; try by apply Hq).
  - repeat (case_match; try by apply Hq).
  - repeat (case_match; try by apply Hq).
  - unfold timer. repeat (case_match; try by apply Hq).
  - unfold shutdown. repeat (case_match; try by apply Hq).
  - unfold process. destruct (nproc s); [by apply Hq|]. destruct (stuck s); [by apply Hq|].
    cbn [pending used pmax store set]. destruct (pending s) as [|id rest] eqn:Ep; [by apply Hq|].
    change (used (s <| nproc := n |>)) with (used s). change (pmax (s <| nproc := n |>)) with (pmax s). change (store (s <| nproc := n |>)) with (store s).
    destruct (used s =? pmax s); [by apply Hq|]. destruct (store s !! id) as [r|] eqn:Er; [|by apply Hq].
    destruct (match avail with Some a => _ | None => _ end); [by apply Hq|]. destruct (_ && _); [by apply Hq|].
    pose proof (pi_ri _ _ HI id r Er) as HR.
    assert (Hng : id ∉ (grants es).*1).
    { rewrite <- (ri_act _ _ _ _ _ _ _ HR), (ri_pend _ _ _ _ _ _ _ HR); [done|]. rewrite Ep. by left. }
    assert (Hgo : ∀ s' t, watch s' = <[id := WSelect (now s + ptimeout s)]> (watch s) → now s' = now s → ptimeout s' = ptimeout s →
      NI s' (es ++ [EGrant id t])).
    { intros s' t Hw Hn Ht. eapply (NI_one _ _ _ _ id); try done.
      - intros j Hj. by rewrite Hw, lookup_insert_ne.
      - intros j t' []%elem_of_nil.
      - intros t' Ht'. exfalso. apply Hng. by apply (HN id t'). }
    cbn [fst snd]. destruct rest; by apply Hgo.
  - unfold reprocess. repeat (case_match; try by apply Hq).
  - repeat (case_match; try by apply Hq).
  - destruct (watch s !! id) as [[dl| |]|] eqn:Ew; try by apply Hq. destruct (store s !! id) as [r|] eqn:Er; [|by apply Hq].
    destruct (rrelease_ch r) eqn:Ech; [|by apply Hq]. cbn [fst snd]. eapply (NI_one _ _ _ _ id); try done.
    + intros j Hj. cbn. by rewrite lookup_insert_ne.
    + intros j t []%elem_of_nil.
    + intros t _ _ _. unfold limit_ok. cbn. rewrite lookup_insert, app_nil_r.
      pose proof (pi_ri _ _ HI id r Er) as HR. destruct (ri_rel _ _ _ _ _ _ _ HR Ech); auto.
  - destruct (watch s !! id) as [[dl| |]|] eqn:Ew; try by apply Hq. destruct (store s !! id) as [r|] eqn:Er; [|by apply Hq].
    destruct (rtouch_ch r) eqn:Ech; [|by apply Hq]. cbn [fst snd]. eapply (NI_one _ _ _ _ id); try done.
    + intros j Hj. cbn. by rewrite lookup_insert_ne.
    + intros j t. cbn. rewrite elem_of_list_singleton. intros [= -> ->]. split_and!; [done|done| |].
      * pose proof (pi_ri _ _ HI id r Er) as HR. apply (ri_wat _ _ _ _ _ _ _ HR). rewrite Ew. eauto.
      * unfold limit_ok. cbn. rewrite lookup_insert. lia.
    + intros t _ Hle _. unfold limit_ok. cbn. rewrite lookup_insert. lia.
  - destruct (watch s !! id) as [[dl| |]|] eqn:Ew; try by apply Hq. destruct (Z.ltb_spec (now s) dl); [by apply Hq|].
    cbn [fst snd]. eapply (NI_one _ _ _ _ id); try done.
    + intros j Hj. cbn. by rewrite lookup_insert_ne.
    + intros j t []%elem_of_nil.
    + intros t _ Hle Hl. unfold limit_ok in *. rewrite Ew in Hl. cbn. rewrite lookup_insert. lia.
  - destruct (watch s !! id) as [[dl| |]|] eqn:Ew; try by apply Hq. destruct (store s !! id) as [r|] eqn:Er; [|by apply Hq].
    destruct (rblocked r); [by apply Hq|]. cbn [fst snd]. eapply (NI_one _ _ _ _ id); try done.
    + intros j Hj. cbn. by rewrite lookup_insert_ne.
    + intros j t []%elem_of_nil.
    + intros t _ Hle Hl. unfold limit_ok in *. rewrite Ew in Hl. cbn. rewrite lookup_insert. auto.
  - unfold return_tokens. destruct (watch s !! id) as [[dl| |]|] eqn:Ew; try by apply Hq. destruct (store s !! id) as [r|] eqn:Er; [|by apply Hq].
    destruct (stuck s); [by apply Hq|].
    assert (Hgo : ∀ s' t, watch s' = delete id (watch s) → now s' = now s → ptimeout s' = ptimeout s → NI s' (es ++ [EReturned id t])).
    { intros s' t Hw Hn Ht. eapply (NI_one _ _ _ _ id); try done.
      - intros j Hj. by rewrite Hw, lookup_delete_ne.
      - intros j t' []%elem_of_nil.
      - intros t' _ _ _. unfold limit_ok. by rewrite Hw, lookup_delete. }
    destruct (pending _); cbn [fst snd]; by apply Hgo.
Qed.
Definition renewed (to : Z) (l1 : list event) (x : event) : Prop :=
  match x with
  | EReturned id t => ∀ t0, (id, t0) ∈ noted l1 → id ∈ released l1 ∨ EShutdown ∈ l1 ∨ t0 + to ≤ t
  | _ => True
  end.
Lemma renewed_run d m to ops l1 x l2 : (prun (p_new d m to) ops).2 = l1 ++ x :: l2 → renewed to l1 x.
Proof.
  destruct (prun_ind (λ s es, (PI s es ∧ NI s es ∧ ptimeout s = to) ∧ ∀ l1 x l2, es = l1 ++ x :: l2 → renewed to l1 x) (λ _, True) (p_new d m to) [] ops) as (_ & H).
  - split; [split_and!; [apply PI_new|by intros ? ? []%elem_of_nil|done]|]. by intros [].
  - intros s es o _ [(HI & HN & Hto) Hall]. split.
    { split_and!; [by apply PI_step|by apply NI_step|]. by rewrite (proj1 (proj2 (proj2 (pstep_const s o)))). }
    apply snoc_split; [done|]. pose proof (pstep_effect s o) as He. destruct (pstep s o) as [s' e]. simpl in *. intros e1 y e2 ->.
    inversion He as [s0 e R1 R2 R3 R4 Hu' H1 H2|s0 n Ho Hn Hu' H1 H2|s0 id r rest Ep Er Hne Hfit Hu' H1 H2|s0 id r Ew Er Hu' H1 H2|s0 Ho Hu' H1 H2]; clear He; subst.
    + rewrite returned_app in R3. apply app_nil in R3 as [_ R3]. by destruct y.
    + destruct e1 as [|? []]; [|done..]. by injection H2 as <- <-.
    + destruct e1 as [|? []]; [|done..]. by injection H2 as <- <-.
    + destruct e1 as [|? []]; [|done..]. injection H2 as <- <-. rewrite app_nil_r. cbn. intros t0 Ht0.
      destruct (HN id t0 Ht0) as (_ & _ & Hl). unfold limit_ok in Hl. by rewrite Ew in Hl.
    + destruct e1 as [|? []]; [|done..]. by injection H2 as <- <-.
  - by apply Forall_true.
  - apply H.
Qed.
