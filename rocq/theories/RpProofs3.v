(** Proofs of the resource protector properties: spacing, wake-ups, progress. *)
From Coq Require Import ZArith Lia.
From stdpp Require Import base option gmap list sorting.
From RecordUpdate Require Import RecordSet.
From Verif Require Import RpModel RpSpec RpProofs RpProofs2.
Import RecordSetNotations.
Open Scope Z_scope.

(** ** What the scheduling of process() depends on *)
Definition sched (s : pstate) := (pending s, used s, lastp s, (reproc s, nproc s, nre s), sleepers s).
Definition passive (o : pop) : Prop :=
  match o with
  | PRequest _ | PTimer _ | PShutdown | PProcess _ | PReprocess | PWake _ | PReturn _ => False
  | _ => True
  end.
Lemma passive_step s o : passive o → sched (pstep s o).1 = sched s ∧ stuck (pstep s o).1 = stuck s ∧ receipts (pstep s o).2 = [] ∧ grants (pstep s o).2 = [] ∧
  ∀ id, rtokens <$> store (pstep s o).1 !! id = rtokens <$> store s !! id.
Proof.
  assert (∀ id f (e : list event), (∀ r, rtokens (f r) = rtokens r) → ∀ j, rtokens <$> (alter f id (store s)) !! j = rtokens <$> store s !! j) as Hu.
  { intros id f e Hf j. destruct (decide (j = id)) as [->|]; [rewrite lookup_alter|by rewrite lookup_alter_ne]. destruct (store s !! id); simpl; [|done]. by rewrite Hf. }
  destruct o; intros Ho; try done; cbn [pstep].
  - destruct (_ <? _); by split_and!.
  - destruct (stuck s) eqn:E; [by split_and!|]. destruct (decide _); by split_and!.
  - destruct (decide _); [|by split_and!]. unfold wait. destruct (store s !! id) as [r|] eqn:Er; [|by split_and!]. destruct (rblocked r); [by split_and!|].
    set (s1 := match timeout with Some t => _ | None => s end).
    assert (sched s1 = sched s ∧ stuck s1 = stuck s ∧ store s1 = store s) as (E1 & E2 & E3) by (subst s1; destruct timeout; [destruct (0 <? _)|]; done).
    clearbody s1. destruct (_ || _); [|destruct (ractive r)]; simpl; split_and!; try done; try (by rewrite E3).
    rewrite E3. by apply (Hu _ _ []).
  - destruct (store s !! id); [|by split_and!]. destruct (_ && _); split_and!; try done; simpl; by apply (Hu _ _ []).
  - destruct (store s !! id); [|by split_and!]. destruct (_ && _); split_and!; try done; simpl; by apply (Hu _ _ []).
  - destruct (decide _); [|by split_and!]. destruct (store s !! id); [|by split_and!]. destruct (rblocked r); by split_and!.
  - destruct (decide _); [|by split_and!]. destruct (store s !! id); [|by split_and!]. destruct (_ || _); [by split_and!|].
    destruct (rtouch_ch r); split_and!; try done; simpl; by apply (Hu _ _ []).
  - destruct (decide _); [|by split_and!]. destruct (store s !! id); [|by split_and!]. destruct (_ || _); [by split_and!|].
    split_and!; try done; simpl. apply (Hu _ _ []). intros r'. unfold release. by destruct (_ || _).
  - destruct (watch s !! id) as [[]|]; try by split_and!. destruct (store s !! id); [|by split_and!]. destruct (rrelease_ch r); split_and!; try done; simpl; by apply (Hu _ _ []).
  - destruct (watch s !! id) as [[]|]; try by split_and!. destruct (store s !! id); [|by split_and!]. destruct (rtouch_ch r); split_and!; try done; simpl.
    apply (Hu _ _ []). intros r'. by destruct (rblocked r').
  - destruct (watch s !! id) as [[]|]; try by split_and!. destruct (_ <? _); by split_and!.
  - destruct (watch s !! id) as [[]|]; try by split_and!. destruct (store s !! id); [|by split_and!]. destruct (rblocked r); split_and!; try done; simpl; by apply (Hu _ _ []).
Qed.

(** ** C24, spacing *)
Lemma ss_snoc_gen {A} (R : A → A → Prop) l x : StronglySorted R l → (∀ y, y ∈ l → R y x) → StronglySorted R (l ++ [x]).
Proof.
  induction 1 as [|y l Hs IH Hy]; intros Hx; simpl; [repeat constructor|]. constructor.
  - apply IH. intros z Hz. apply Hx. by right.
  - rewrite Forall_forall in *. intros z [Hz|Hz]%elem_of_app; [by apply Hy|]. apply elem_of_list_singleton in Hz as ->. apply Hx. by left.
Qed.
Record SP (s : pstate) (es : list event) : Prop := {
  sp_pi : PI s es;
  sp_last : ∀ g t, (g, t) ∈ grants es → ∃ l, lastp s = Some l ∧ t ≤ l;
  sp_n1 : (nproc s ≤ 1)%nat;
  sp_proc : nproc s = 1%nat → ∀ l, lastp s = Some l → l + pdelay s ≤ now s ∧ sleepers s = [];
  sp_re : reproc s = false → sleepers s = [];
  sp_len : (length (sleepers s) ≤ 1)%nat;
  sp_sl : ∀ sl l, sl ∈ sleepers s → lastp s = Some l → l + pdelay s ≤ sl;
  sp_used : lastp s = None → used s = 0;
  sp_none : lastp s = None → sleepers s ≠ [] ∨ (0 < nre s)%nat ∨ (pending s ≠ [] ∧ nproc s = O) → pmax s = 0;
  sp_le : ∀ id n, (id, n) ∈ receipts es → n ≤ pmax s;
  sp_apart : StronglySorted (apart (pdelay s)) (grants es) }.
Lemma SP_step s es o : prompt s o → SP s es → SP (pstep s o).1 (es ++ (pstep s o).2).
Proof.
  intros Hpr HS. pose proof (PI_step s es o (sp_pi _ _ HS)) as HP. destruct (pstep_const s o) as (Cm & Cd & Ct & Cn).
  assert (passive o ∨ ¬ passive o) as [Hpas|Hpas] by (destruct o; simpl; tauto).
  { destruct (passive_step s o Hpas) as (E & _ & F1 & F2 & _). destruct (pstep s o) as [s' e]. simpl in *. unfold sched in E. injection E as E1 E2 E3 E4 E5 E6 E7.
    destruct HS. split; rewrite ?receipts_app, ?grants_app, ?F1, ?F2, ?app_nil_r, ?Cm, ?Cd, ?E1, ?E2, ?E3, ?E4, ?E5, ?E6, ?E7; auto.
    intros Hx l Hl. destruct (sp_proc0 Hx l Hl). split; [lia|done]. }
  assert ((∃ a, o = PProcess a) ∨ (nproc s = O ∧ ∀ a, o ≠ PProcess a)) as [[avail ->]|[Hn0 Hnp]].
  { destruct (nproc s) as [|k] eqn:Ek; [|left; apply Hpr; lia]. destruct o; try (right; split; [done|by intros]). left; eauto. }
  - (* process *) clear Hpr Hpas. cbn [pstep] in *. unfold process in *. pose proof (sp_n1 _ _ HS) as Hn1. destruct (nproc s) as [|np] eqn:En; [by rewrite app_nil_r|].
    assert (np = O) as -> by lia. destruct (stuck s); [by rewrite app_nil_r|]. simpl in *.
    destruct (pending s) as [|id rest] eqn:Ep.
    { simpl in *. rewrite app_nil_r in *. destruct HS. split; simpl; auto; try done. rewrite Ep in *. intros H [?|[?|[? _]]]; [apply sp_none0; auto..|done]. }
    destruct (used s =? pmax s) eqn:E1.
    { simpl in *. rewrite app_nil_r in *. destruct HS. split; simpl; auto; try done. intros Hl _. specialize (sp_used0 Hl). lia. }
    assert (∃ r, store s !! id = Some r) as [r Er].
    { apply (pi_dom _ _ (sp_pi _ _ HS)), (pi_pdom _ _ (sp_pi _ _ HS)). rewrite Ep. by left. }
    rewrite Er in *.
    assert (rtokens r ≤ pmax s) as Hle by (apply (sp_le _ _ HS id), (pi_ri _ _ (sp_pi _ _ HS) id r Er)).
    assert (sleepers s = []) as Hsl.
    { destruct (lastp s) as [l|] eqn:El; [by apply (sp_proc _ _ HS En l)|]. destruct (sleepers s) eqn:Es; [done|].
      assert (pmax s = 0) by (apply (sp_none _ _ HS El); left; by rewrite Es). pose proof (sp_used _ _ HS El). lia. }
    assert (∀ g t, (g, t) ∈ grants es → t + pdelay s ≤ now s) as Hgap.
    { intros g t Hg. destruct (sp_last _ _ HS g t Hg) as (l & Hl & Ht). destruct (sp_proc _ _ HS En l Hl). lia. }
    assert (∀ g t, (g, t) ∈ grants es → t ≤ now s) as Hgn.
    { intros g t Hg. destruct (pi_dom _ _ (sp_pi _ _ HS) g) as [_ Hd]. destruct Hd as [r' Hr'].
      { apply (pi_gdom _ _ (sp_pi _ _ HS)), elem_of_list_fmap. by exists (g, t). }
      by apply (ri_gnow _ _ _ _ _ _ _ (pi_ri _ _ (sp_pi _ _ HS) g r' Hr')). }
    destruct (match avail with Some a => _ | None => _ end).
    { simpl in *. rewrite app_nil_r in *. destruct HS. split; simpl; auto; try done.
      - intros g t Hg. exists (now s). split; [done|]. eauto.
      - intros sl l. rewrite Hsl. by intros ?%elem_of_nil. }
    destruct (_ && _) eqn:E2.
    { simpl in *. rewrite app_nil_r in *. apply andb_true_iff in E2 as [E2 E3]. destruct HS. split; simpl; auto; try done.
      intros Hl _. specialize (sp_used0 Hl). lia. }
    simpl in *. match goal with |- SP ?a _ => set (s2 := a) in * end.
    assert (lastp s2 = Some (now s) ∧ pdelay s2 = pdelay s ∧ nproc s2 = O ∧ sleepers s2 = [] ∧ reproc s2 = reproc s ∧ pmax s2 = pmax s)
      as (G1 & G2 & G3 & G4 & G5 & G6).
    { subst s2. destruct rest; simpl; rewrite ?Hsl; by split_and!. }
    clearbody s2. destruct HS. split; rewrite ?G1, ?G2, ?G3, ?G4, ?G5, ?G6; auto; try done; try lia.
    + intros g t. rewrite grants_app, elem_of_app. intros [Hg|Hg]; [eauto|]. apply elem_of_list_singleton in Hg as [= -> ->]. exists (now s). by split.
    + by intros sl l ?%elem_of_nil.
    + rewrite receipts_app. simpl. rewrite app_nil_r. done.
    + rewrite grants_app. simpl. apply ss_snoc_gen; [done|]. intros [g t] Hg. unfold apart. simpl. eauto.
  - assert (∀ e, receipts e = [] → grants e = [] → receipts (es ++ e) = receipts es ∧ grants (es ++ e) = grants es) as Hq.
    { intros e R1 R2. by rewrite receipts_app, grants_app, R1, R2, !app_nil_r. }
    destruct o; try (by exfalso; apply Hpas); try (by exfalso; eapply Hnp); clear Hpas Hnp Hpr; cbn [pstep] in *.
    + (* request *) unfold request in *. destruct (pmax s <? n) eqn:E; [|destruct (stuck s); [|destruct (disabled s)]].
      1,3: destruct (Hq [EError] eq_refl eq_refl) as [Q1 Q2]; destruct HS; split; simpl; rewrite ?Q1, ?Q2; auto.
      1: simpl; by rewrite app_nil_r.
      simpl in *. match goal with |- SP ?a _ => set (s2 := a) in * end.
      assert (receipts (es ++ [EReceipt (nextid s) n]) = receipts es ++ [(nextid s, n)]) as F1 by (by rewrite receipts_app).
      assert (grants (es ++ [EReceipt (nextid s) n]) = grants es) as F2 by (by rewrite grants_app, app_nil_r).
      assert (lastp s2 = lastp s ∧ pdelay s2 = pdelay s ∧ sleepers s2 = sleepers s ∧ reproc s2 = reproc s ∧ pmax s2 = pmax s ∧ used s2 = used s)
        as (G1 & G2 & G4 & G5 & G6 & G7).
      { subst s2. destruct (lastp s) eqn:El; simpl; [by split_and!|]. destruct (pending s) as [|? [|? ?]]; simpl; by split_and!. }
      assert ((nproc s2 = 1%nat ∧ nre s2 = nre s ∧ lastp s = None) ∨ (nproc s2 = O ∧ (lastp s = None → pending s ≠ []))) as HG.
      { subst s2. destruct (lastp s) eqn:El; simpl; [right; by split_and!|]. destruct (pending s) as [|? [|? ?]] eqn:Epp; simpl; rewrite ?Hn0; auto. }
      clearbody s2. destruct HS. split; rewrite ?F1, ?F2, ?G1, ?G2, ?G4, ?G5, ?G6, ?G7; auto.
      * destruct HG as [(-> & _)|(-> & _)]; lia.
      * intros Hn l Hl. destruct HG as [(_ & _ & ?)|(? & _)]; congruence.
      * intros Hl Hor. destruct HG as [(H1 & H2 & _)|(H1 & H2)].
        -- apply sp_none0; [done|]. rewrite H1, H2 in Hor. destruct Hor as [?|[?|[_ ?]]]; auto.
        -- apply sp_none0; [done|]. auto.
      * intros id m. rewrite elem_of_app, elem_of_list_singleton. intros [?|[= -> ->]]; [eauto|lia].
    + (* timer *) unfold timer in *. destruct (timers s !! i) as [[id t]|]; [|simpl; by rewrite app_nil_r].
      destruct (store s !! id) as [r|] eqn:Er; [|simpl; by rewrite app_nil_r]. destruct (_ || _ || _ || _); [simpl; by rewrite app_nil_r|].
      destruct (_ && _); [|destruct (rcancel_ch r)]; simpl in *; rewrite app_nil_r in *; destruct HS; split; simpl; auto.
      * intros Hl Hor. apply sp_none0; [done|]. destruct Hor as [?|[?|[Hx _]]]; auto. right; right. split; [|done]. intros Hy. by rewrite Hy in Hx.
      * intros Hl Hor. apply sp_none0; [done|]. destruct Hor as [?|[?|[Hx _]]]; auto. right; right. split; [|done]. intros Hy. by rewrite Hy in Hx.
    + (* shutdown *) unfold shutdown in *. destruct (_ || _); [simpl; by rewrite app_nil_r|]. simpl in *. destruct (Hq [EShutdown] eq_refl eq_refl) as [Q1 Q2].
      destruct HS. split; simpl; rewrite ?Q1, ?Q2; auto.
    + (* reprocess *) simpl in *. rewrite app_nil_r in *. unfold reprocess in *. destruct (nre s) as [|k] eqn:Ek; [done|]. destruct (stuck s); [done|]. simpl in *.
      destruct (reproc s) eqn:Er.
      { destruct HS. split; simpl; auto; try congruence. intros Hl Hor. apply sp_none0; [done|]. destruct Hor as [?|[?|?]]; auto. right; left; lia. }
      pose proof (sp_re _ _ HS Er) as Hsl.
      destruct (lastp s) as [l|] eqn:El.
      * destruct (now s - l <? pdelay s) eqn:E.
        -- destruct HS. split; simpl; auto; try congruence.
           ++ rewrite Hsl. simpl. lia.
           ++ intros sl l'. rewrite Hsl, elem_of_list_singleton. intros -> Hl'. rewrite El in Hl'. injection Hl' as <-. lia.
        -- destruct HS. split; simpl; auto; try congruence.
           ++ rewrite Hn0. lia.
           ++ intros _ l'. rewrite El. intros [= <-]. split; [lia|done].
      * destruct HS. split; simpl; auto; try congruence.
        -- rewrite Hsl. simpl. lia.
        -- intros _ _. apply sp_none0; [done|]. right; left. lia.
    + (* wake *) destruct (sleepers s !! i) as [t|] eqn:Ei; [|simpl; by rewrite app_nil_r]. destruct (stuck s || (now s <? t)) eqn:Eg; [simpl; by rewrite app_nil_r|].
      simpl in *. rewrite app_nil_r in *. apply orb_false_iff in Eg as [_ Eg]. pose proof (sp_len _ _ HS) as Hlen.
      assert (sleepers s = [t] ∧ i = O) as [Hsl ->].
      { destruct (sleepers s) as [|x [|y l]]; [done| |simpl in Hlen; lia]. destruct i; [|done]. by injection Ei as ->. }
      destruct HS. split; simpl; rewrite ?Hsl; simpl; auto.
      * rewrite Hn0. lia.
      * intros _ l Hl. split; [|done]. specialize (sp_sl0 t l). rewrite Hsl in sp_sl0. specialize (sp_sl0 (elem_of_list_here _ _) Hl). lia.
      * by intros sl l ?%elem_of_nil.
      * intros Hl _. apply sp_none0; [done|]. left. by rewrite Hsl.
    + (* return *) unfold return_tokens in *. destruct (watch s !! id) as [[]|] eqn:Ew; try (simpl; by rewrite app_nil_r).
      destruct (store s !! id) as [r|] eqn:Er; [|simpl; by rewrite app_nil_r]. destruct (stuck s); [simpl; by rewrite app_nil_r|].
      simpl in *. match goal with |- SP ?a _ => set (s2 := a) in * end. destruct (Hq [EReturned id (now s)] eq_refl eq_refl) as [Q1 Q2].
      assert (lastp s2 = lastp s ∧ pdelay s2 = pdelay s ∧ sleepers s2 = sleepers s ∧ reproc s2 = reproc s ∧ pmax s2 = pmax s ∧ nproc s2 = nproc s)
        as (G1 & G2 & G4 & G5 & G6 & G7).
      { subst s2. destruct (pending s); simpl; by split_and!. }
      clearbody s2.
      assert (∃ l, lastp s = Some l) as [l Hl].
      { pose proof (pi_ri _ _ (sp_pi _ _ HS) id r Er) as HR. destruct (ri_wat _ _ _ _ _ _ _ HR) as [Hw _]. destruct Hw as [Hw _]; [rewrite Ew; eauto|].
        apply elem_of_list_fmap in Hw as ([? t] & -> & Hw). destruct (sp_last _ _ HS _ _ Hw) as (l & ? & _). eauto. }
      destruct HS. split; rewrite ?Q1, ?Q2, ?G1, ?G2, ?G4, ?G5, ?G6, ?G7; auto; try congruence; try lia.
Qed.
Lemma grants_apart d m t ops : palways prompt (p_new d m t) ops → StronglySorted (apart d) (grants (prun (p_new d m t) ops).2).
Proof.
  intros HF.
  assert (SP (prun (p_new d m t) ops).1 ([] ++ (prun (p_new d m t) ops).2)) as HS.
  { apply (prun_ind_always SP prompt); [|intros s es o; apply SP_step|exact HF].
    split; [apply PI_new|simpl..|apply SSorted_nil]; try done; try lia; try (by intros ? ? ?%elem_of_nil).
    intros _ [?|[?|[? _]]]; done || lia. }
  apply sp_apart in HS. rewrite (proj1 (proj2 (prun_const _ _))) in HS. exact HS.
Qed.

(** ** C48 *)
Record LW (s : pstate) (es : list event) : Prop := {
  lw_pi : PI s es;
  lw_stuck : stuck s = false;
  lw_re : reproc s = true → sleepers s ≠ [];
  lw_nore : reproc s = false → sleepers s = [];
  lw_len : (length (sleepers s) ≤ 1)%nat;
  lw_look : could_grant s → will_look s }.
Lemma LW_step s es o : no_cancel o ∧ no_shutdown o → LW s es → LW (pstep s o).1 (es ++ (pstep s o).2).
Proof.
  intros [Hnc Hns] HL. pose proof (PI_step s es o (lw_pi _ _ HL)) as HP. destruct (pstep_const s o) as (Cm & _).
  assert (passive o ∨ ¬ passive o) as [Hpas|Hpas] by (destruct o; simpl; tauto).
  { destruct (passive_step s o Hpas) as (E & E0 & F1 & F2 & F3). destruct (pstep s o) as [s' e]. simpl in *. unfold sched in E. injection E as E1 E2 E3 E4 E5 E6 E7.
    destruct HL. split; rewrite ?E0, ?E4, ?E7; auto. unfold will_look. rewrite E5, E6, E7. intros (id & rest & r & H1 & H2 & H3 & H4). apply lw_look0.
    specialize (F3 id). rewrite H2 in F3. destruct (store s !! id) as [r'|] eqn:Er; [|done]. injection F3 as F3.
    exists id, rest, r'. rewrite <- E1, <- E2, <- Cm, <- F3. auto. }
  destruct o; try done; try (by exfalso; apply Hpas); clear Hpas; cbn [pstep] in *.
  - (* request *) unfold request in *. destruct (pmax s <? n) eqn:E; [|destruct (stuck s) eqn:Es; [|destruct (disabled s)]].
    1,2,3: destruct HL; split; simpl; auto; congruence.
    simpl in *. match goal with |- LW ?a _ => set (s2 := a) in * end.
    assert (stuck s2 = stuck s ∧ sleepers s2 = sleepers s ∧ reproc s2 = reproc s ∧ ((0 < nproc s2)%nat ∨ (0 < nre s2)%nat)) as (G1 & G2 & G3 & G4).
    { subst s2. destruct (lastp s) eqn:El; simpl; [split_and!; auto; lia|]. destruct (pending s) as [|? [|? ?]]; simpl; split_and!; auto; lia. }
    clearbody s2. destruct HL. split; rewrite ?G1, ?G2, ?G3; auto. intros _. unfold will_look. tauto.
  - (* process *) unfold process in *. destruct (nproc s) as [|np] eqn:En; [by rewrite app_nil_r|]. destruct (stuck s) eqn:Es; [by rewrite app_nil_r|].
    simpl in *. destruct (pending s) as [|id rest] eqn:Ep.
    { destruct HL. split; simpl; auto. intros (id & rest & r & H1 & _). simpl in H1. congruence. }
    destruct (used s =? pmax s) eqn:E1.
    { destruct HL. split; simpl; auto. intros (id' & rest' & r & H1 & H2 & H3 & H4). simpl in *. lia. }
    assert (∃ r, store s !! id = Some r) as [r Er].
    { apply (pi_dom _ _ (lw_pi _ _ HL)), (pi_pdom _ _ (lw_pi _ _ HL)). rewrite Ep. by left. }
    rewrite Er in *. destruct (match avail with Some a => _ | None => _ end).
    { destruct HL. split; simpl; auto. intros _. right; left. simpl. lia. }
    destruct (_ && _) eqn:E2.
    { apply andb_true_iff in E2 as [E2 E3]. destruct HL. split; simpl; auto. intros (id' & rest' & r' & H1 & H2 & H3 & H4). simpl in *.
      rewrite Ep in H1. injection H1 as <- <-. rewrite Er in H2. injection H2 as <-. lia. }
    simpl in *. destruct rest as [|j rest].
    + destruct HL. split; simpl; auto. intros (id' & rest' & r' & H1 & _). done.
    + destruct HL. split; simpl; auto. intros _. right; left. simpl. lia.
  - (* reprocess *) simpl in *. rewrite app_nil_r in *. unfold reprocess in *. destruct (nre s) as [|k] eqn:Ek; [done|]. destruct (stuck s) eqn:Es; [done|]. simpl in *.
    destruct (reproc s) eqn:Er.
    { destruct HL. split; simpl; auto; try congruence. intros _. right; right. auto. }
    pose proof (lw_nore _ _ HL Er) as Hsl. destruct (lastp s) as [l|] eqn:El; [destruct (now s - l <? pdelay s)|].
    + destruct HL. split; simpl; auto; try done; [rewrite Hsl; simpl; lia|]. intros _. right; right. done.
    + destruct HL. split; simpl; auto; try congruence. intros _. left. simpl. lia.
    + destruct HL. split; simpl; auto; try done; [rewrite Hsl; simpl; lia|]. intros _. right; right. done.
  - (* wake *) destruct (sleepers s !! i) as [t|] eqn:Ei; [|simpl; by rewrite app_nil_r]. destruct (stuck s || (now s <? t)) eqn:Eg; [simpl; by rewrite app_nil_r|].
    simpl in *. rewrite app_nil_r in *. pose proof (lw_len _ _ HL) as Hlen.
    assert (delete i (sleepers s) = []) as Hsl.
    { destruct (sleepers s) as [|x [|y l]]; [done| |simpl in Hlen; lia]. by destruct i. }
    destruct HL. split; simpl; rewrite ?Hsl; simpl; auto; try done; try lia. intros _. left. simpl. lia.
  - (* return *) unfold return_tokens in *. destruct (watch s !! id) as [[]|] eqn:Ew; try (simpl; by rewrite app_nil_r).
    destruct (store s !! id) as [r|] eqn:Er; [|simpl; by rewrite app_nil_r]. destruct (stuck s) eqn:Es; [simpl; by rewrite app_nil_r|].
    simpl in *. destruct (pending s) as [|j rest] eqn:Ep.
    + destruct HL. split; simpl; auto. intros (id' & rest' & r' & H1 & _). simpl in H1. congruence.
    + destruct HL. split; simpl; auto. intros _. right; left. simpl. lia.
Qed.
Lemma LW_run d m t ops : Forall (λ o, no_cancel o ∧ no_shutdown o) ops → LW (prun (p_new d m t) ops).1 (prun (p_new d m t) ops).2.
Proof.
  intros HF. apply (prun_ind LW (λ o, no_cancel o ∧ no_shutdown o) _ [] ops); [|intros s es o; apply LW_step|exact HF].
  split; simpl; try done; [apply PI_new|lia|]. by intros (id & rest & r & H1 & _).
Qed.

Ltac fa := repeat (first [apply List.Forall_nil | apply List.Forall_cons]); unfold own_or_time, own; eauto 10.
Lemma looking_all o : (∃ d, o = PAdvance d) ∨ o = PReprocess ∨ o = PWake 0 ∨ o = PProcess None → looking o. Proof. done. Qed.
#[local] Hint Resolve looking_all : core.
Lemma grant_by_process s id rest r : stuck s = false → (0 < nproc s)%nat → pending s = id :: rest → store s !! id = Some r →
  used s < pmax s → used s + rtokens r ≤ pmax s → id ∈ (grants (prun s [PProcess None]).2).*1.
Proof.
  intros Hs Hn Hp Hr H1 H2. cbn [prun pstep]. unfold process. destruct (nproc s) as [|k]; [lia|]. rewrite Hs. simpl. rewrite Hp.
  assert (used s =? pmax s = false) as -> by lia. rewrite Hr. assert ((1 <? rtokens r) && (pmax s - used s <? rtokens r) = false) as ->.
  { apply andb_false_iff. right. lia. }
  simpl. by left.
Qed.
Lemma grant_by_wake s id rest r : stuck s = false → sleepers s ≠ [] → pending s = id :: rest → store s !! id = Some r →
  used s < pmax s → used s + rtokens r ≤ pmax s → ∃ ops, Forall looking ops ∧ id ∈ (grants (prun s ops).2).*1.
Proof.
  intros Hs Hsl Hp Hr H1 H2. destruct (sleepers s) as [|t l] eqn:Es; [done|].
  set (d := Z.max 0 (t - now s)). exists [PAdvance d; PWake 0; PProcess None]. split.
  { fa. }
  change [PAdvance d; PWake 0; PProcess None] with ([PAdvance d; PWake 0] ++ [PProcess None]). rewrite prun_app.
  cbn [prun pstep]. assert (d <? 0 = false) as -> by lia. simpl. rewrite Es. simpl. rewrite Hs. assert (d + now s <? t = false) as -> by lia. simpl.
  match goal with |- context [process None ?x] => set (s1 := x) end.
  pose proof (grant_by_process s1 id rest r) as H. cbn [prun pstep] in H. destruct (process None s1) as [s2 e2]. simpl in *.
  apply H; auto. lia.
Qed.
Lemma grant_follows s es : LW s es → could_grant s → ∃ id rest ops, pending s = id :: rest ∧ Forall looking ops ∧ id ∈ (grants (prun s ops).2).*1.
Proof.
  intros HL Hc. destruct (lw_look _ _ HL Hc) as [Hn|[Hn|Hn]]; destruct Hc as (id & rest & r & Hp & Hr & H1 & H2); exists id, rest; pose proof (lw_stuck _ _ HL) as Hst.
  - exists [PProcess None]. split; [done|]. split; [fa|]. by apply (grant_by_process s id rest r).
  - destruct (reprocess_frame s) as (E1 & E2 & E3 & E4 & E5 & E6 & E7 & E8 & E9 & _).
    assert ((0 < nproc (reprocess s))%nat ∨ sleepers (reprocess s) ≠ []) as [Hx|Hx].
    { unfold reprocess. destruct (nre s) as [|k]; [lia|]. rewrite Hst. simpl. destruct (reproc s) eqn:Er; [right; apply HL, Er|].
      destruct (lastp s); [destruct (_ <? _)|]; simpl; auto. left; lia. }
    + exists (PReprocess :: [PProcess None]). split; [done|]. split; [fa|].
      pose proof (grant_by_process (reprocess s) id rest r) as H. cbn [prun pstep] in *. destruct (process None (reprocess s)). simpl in *.
      apply H; auto; congruence || (rewrite ?E7, ?E8; lia).
    + destruct (grant_by_wake (reprocess s) id rest r) as (ops & Ho & Hg); try (congruence || (rewrite ?E7, ?E8; lia)).
      exists (PReprocess :: ops). split; [done|]. split; [constructor; [unfold looking; eauto|done]|]. cbn [prun pstep]. by destruct (prun (reprocess s) ops).
  - destruct (grant_by_wake s id rest r) as (ops & Ho & Hg); auto. eauto.
Qed.

(** ** C25, progress *)
Lemma prun2 s a b s1 e1 : pstep s a = (s1, e1) → prun s (a :: b) = let '(s2, e2) := prun s1 b in (s2, e1 ++ e2).
Proof. intros H. simpl. by rewrite H. Qed.
Lemma return_from_out s id r : stuck s = false → store s !! id = Some r → watch s !! id = Some WOut → id ∈ returned (prun s [PReturn id]).2.
Proof. intros Hs Hr Hw. cbn [prun pstep]. unfold return_tokens. rewrite Hw, Hr, Hs. simpl. by left. Qed.
Lemma return_from_finish s id r : stuck s = false → store s !! id = Some r → rblocked r = false → watch s !! id = Some WFinish →
  id ∈ returned (prun s [PFinish id; PReturn id]).2.
Proof.
  intros Hs Hr Hb Hw. rewrite (prun2 _ _ _ (upd id (λ r, r <| rdone := true |>) s <| watch ::= <[id := WOut]> |>) []).
  - pose proof (return_from_out (upd id (λ r, r <| rdone := true |>) s <| watch ::= <[id := WOut]> |>) id (r <| rdone := true |>)) as H.
    destruct (prun _ _). simpl in *. apply H; [done| |by rewrite lookup_insert]. by rewrite lookup_alter, Hr.
  - cbn [pstep]. by rewrite Hw, Hr, Hb.
Qed.
Lemma return_from_select s id r dl : stuck s = false → store s !! id = Some r → rblocked r = false → watch s !! id = Some (WSelect dl) →
  ∃ ops, Forall (own_or_time id) ops ∧ id ∈ returned (prun s ops).2.
Proof.
  intros Hs Hr Hb Hw. set (d := Z.max 0 (dl - now s)). exists [PAdvance d; PLimit id; PFinish id; PReturn id]. split.
  { fa. }
  rewrite (prun2 _ _ _ (s <| now ::= Z.add d |>) []); [|cbn [pstep]; by assert (d <? 0 = false) as -> by lia].
  rewrite (prun2 _ _ _ (s <| now ::= Z.add d |> <| watch ::= <[id := WFinish]> |>) []).
  2:{ cbn [pstep]. simpl. rewrite Hw. by assert (d + now s <? dl = false) as -> by lia. }
  pose proof (return_from_finish (s <| now ::= Z.add d |> <| watch ::= <[id := WFinish]> |>) id r) as H.
  destruct (prun _ _). simpl in *. apply H; try done. by rewrite lookup_insert.
Qed.
Lemma returnable s es id : PI s es → stuck s = false → id ∈ (grants es).*1 → id ∉ returned es → ¬ deadlocked s id →
  ∃ ops, Forall (own_or_time id) ops ∧ id ∈ returned (prun s ops).2.
Proof.
  intros HI Hs Hg Hn Hd. assert (is_Some (store s !! id)) as [r Hr] by (apply (pi_dom _ _ HI), (pi_gdom _ _ HI), Hg).
  pose proof (pi_ri _ _ HI id r Hr) as HR. assert (is_Some (watch s !! id)) as [w Hw] by (apply (ri_wat _ _ _ _ _ _ _ HR); done).
  destruct w as [dl| |].
  - destruct (rblocked r) eqn:Hb; [|by eapply return_from_select].
    pose proof (ri_block _ _ _ _ _ _ _ HR Hb) as Ht.
    set (f := λ r : req, if rblocked r then r <| rblocked := false |> else r <| rtouch_ch := false |>).
    destruct (return_from_select (upd id f s <| watch ::= <[id := WSelect (now s + ptimeout s)]> |>) id (f r) (now s + ptimeout s)) as (ops & Ho & Hret).
    + done.
    + simpl. by rewrite lookup_alter, Hr.
    + unfold f. by rewrite Hb.
    + simpl. by rewrite lookup_insert.
    + exists (PReadTouch id :: ops). split; [constructor; [left; left; done|done]|].
      rewrite (prun2 _ _ _ (upd id f s <| watch ::= <[id := WSelect (now s + ptimeout s)]> |>) [ENoted id (now s)]); [by destruct (prun _ ops)|].
      cbn [pstep]. by rewrite Hw, Hr, Ht.
  - exists [PFinish id; PReturn id]. split; [fa|]. apply (return_from_finish s id r); try done.
    destruct (rblocked r) eqn:Hb; [|done]. exfalso. apply Hd. split; eauto.
  - exists [PReturn id]. split; [fa|]. by apply (return_from_out s id r).
Qed.
Lemma released_returnable s es id : PI s es → stuck s = false → id ∈ released es → id ∉ returned es →
  ∃ ops, Forall (own id) ops ∧ id ∈ returned (prun s ops).2.
Proof.
  intros HI Hs Hrel Hn. assert (is_Some (store s !! id)) as [r Hr] by (apply (pi_dom _ _ HI), (pi_reldom _ _ HI), Hrel).
  pose proof (pi_ri _ _ HI id r Hr) as HR. destruct (ri_done _ _ _ _ _ _ _ HR Hrel) as (Hdone & Hb & Ha & Hch).
  pose proof (proj1 (ri_act _ _ _ _ _ _ _ HR) Ha) as Hg. assert (is_Some (watch s !! id)) as [w Hw] by (apply (ri_wat _ _ _ _ _ _ _ HR); done).
  destruct w as [dl| |].
  - specialize (Hch dl Hw). exists [PReadRelease id; PReturn id]. split; [fa|].
    rewrite (prun2 _ _ _ (upd id (λ r, r <| rrelease_ch := false |>) s <| watch ::= <[id := WOut]> |>) []); [|cbn [pstep]; by rewrite Hw, Hr, Hch].
    pose proof (return_from_out (upd id (λ r, r <| rrelease_ch := false |>) s <| watch ::= <[id := WOut]> |>) id (r <| rrelease_ch := false |>)) as H.
    destruct (prun _ _). simpl in *. apply H; [done| |by rewrite lookup_insert]. by rewrite lookup_alter, Hr.
  - exists [PFinish id; PReturn id]. split; [fa|]. by apply (return_from_finish s id r).
  - exists [PReturn id]. split; [fa|]. by apply (return_from_out s id r).
Qed.
