(** What one call does to one item. *)
From Coq Require Import ZArith Lia String.
From stdpp Require Import base option strings gmap list.
From RecordUpdate Require Import RecordSet.
From Verif Require Import GoHeap GoHeapProofs QueueModel QueueCore QueueInv QueueInvAdd
  QueueInvUpd QueueInvRem QueueInvTick QueueEff.
Import RecordSetNotations.
Open Scope Z_scope.

Definition set_delay (now delay : Z) (it : item) : item :=
  if idelay it =? delay then it
  else match ist it with
       | SDelay => restart now (it <| idelay := delay |>)
       | _ => it <| idelay := delay |>
       end.
Definition released (now : Z) (it : item) : item :=
  if idelay it =? 0 then switch_run_ready it else switch_run_delay false (restart now it).

Inductive ichange (s : qstate) (x : nat) (it : item) : op → qres → item → Prop :=
| IcSame o r : ichange s x it o r it
| IcUpdate now g d prio delay ttr deps :
    ist it ≠ SRemoved → (deps = Some [] → iremain it ≠ ∅ → ist it = SDep) →
    ichange s x it (OUpdate now (ikey it) g d prio delay ttr deps) ROk (updated now g d prio delay ttr deps it)
| IcRekey old new : ist it ≠ SRemoved →
    ichange s x it (OChangeKey old new) ROk (changed_key old new it)
| IcDelay now delay : ist it ≠ SRemoved →
    ichange s x it (OSetDelay now (ikey it) delay) ROk (set_delay now delay it)
| IcGroup g : ist it ≠ SRemoved →
    ichange s x it (OSetGroup (ikey it) g) ROk (it <| igroup := g |>)
| IcReserve now retry : ist it = SReady →
    ichange s x it (OReserve now (igroup it) retry) (RItem x) (switch_ready_run (touch now it))
| IcTouch now : ist it = SRun → ichange s x it (OTouch now (ikey it)) ROk (touch now it)
| IcRelease now : ist it = SRun → ichange s x it (ORelease now (ikey it)) ROk (released now it)
| IcBury : ist it = SRun → ichange s x it (OBury (ikey it)) ROk (switch_run_bury false it)
| IcKick : ist it = SBury →
    ichange s x it (OKick (ikey it)) ROk
      ((if item_has_deps x s then switch_bury_dependent else switch_bury_ready) it)
| IcRemove ord it' : ist it ≠ SRemoved → it' = it ∨ it' = resolve (ikey it) it →
    ichange s x it (ORemove (ikey it) ord) ROk (removal_cleanup it')
| IcResolve k ord m y : items s !! k = Some y → x ≠ y → dependants s !! k = Some m → x ∈ vals m →
    ichange s x it (ORemove k ord) ROk (resolve k it)
| IcTickDelay now : ist it = SDelay → readyAt it < now →
    ichange s x it (OTickDelay now) ROk (switch_delay_ready it)
| IcTickTTR now cb j : ist it = SRun → releaseAt it ≠ 0 → releaseAt it < now →
    ichange s x it (OTickTTR now cb) ROk (ttr_apply now (cb j) it).

Lemma items_inj b s x k it : Inv b s → items s !! k = Some x → objs s !! x = Some it → ikey it = k ∧ ist it ≠ SRemoved.
Proof. intros HI Hk Hx. apply (i_items HI) in Hk as (it' & Hx' & ? & ?). simplify_eq. done. Qed.

Lemma alter_one (o o' : gmap nat item) f x y it :
  o' = alter f y o → o !! x = Some it → ∃ it', o' !! x = Some it' ∧ (x = y ∧ it' = f it ∨ x ≠ y ∧ it' = it).
Proof.
  intros -> Hx. destruct (decide (x = y)) as [->|Hne].
  - rewrite lookup_alter, Hx. eauto.
  - rewrite lookup_alter_ne by done. eauto.
Qed.

Lemma eff_item b s o s' r e x it :
  Inv b s → eff b s o s' r e → objs s !! x = Some it →
  ∃ it', objs s' !! x = Some it' ∧ ichange s x it o r it'.
Proof.
  intros HI He Hx. assert (Hold : (x < nextid s)%nat) by (apply (i_ids HI); by eexists).
  destruct He.
  - exists it. split; [congruence|constructor].
  - exists it. split; [done|constructor].
  - exists it. split; [done|constructor].
  - exists it. match goal with H : objs s' = _ |- _ => rewrite H end.
    rewrite lookup_insert_ne by lia. split; [done|constructor].
  - destruct (abs_adds_old now ds (abs_of s) x) as [Ho _]; [done|].
    match goal with H : abs_of s' = _ |- _ => rewrite <- H in Ho end. unfold abs_objs, abs_of in Ho. simpl in Ho.
    exists it. split; [congruence|constructor].
  - match goal with H : objs s' = _ |- _ => rewrite H end. destruct (decide (x = x0)) as [->|Hne].
    + rewrite lookup_insert. simplify_eq. eexists. split; [done|]. by constructor.
    + rewrite lookup_insert_ne by done. eexists. split; [done|constructor].
  - match goal with H : objs s' = _ |- _ => rewrite H end. rewrite lookup_fmap, Hx. simpl.
    eexists. split; [done|]. unfold rekey. case_decide; constructor. done.
  - match goal with H : objs s' = _ |- _ => destruct (alter_one _ _ _ _ _ _ H Hx) as (it' & Hx' & [[-> ->]|[Hne ->]]) end.
    + destruct (items_inj _ _ _ _ _ HI ltac:(eassumption) Hx) as [<- Hr].
      eexists. split; [done|]. by apply (IcDelay s _ _ now delay).
    + eexists. split; [done|constructor].
  - match goal with H : objs s' = _ |- _ => destruct (alter_one _ _ _ _ _ _ H Hx) as (it' & Hx' & [[-> ->]|[Hne ->]]) end.
    + destruct (items_inj _ _ _ _ _ HI ltac:(eassumption) Hx) as [<- Hr].
      eexists. split; [done|]. by constructor.
    + eexists. split; [done|constructor].
  - match goal with H : objs s' = _ |- _ => destruct (alter_one _ _ _ _ _ _ H Hx) as (it' & Hx' & [[-> ->]|[Hne ->]]) end.
    + simplify_eq. eexists. split; [done|]. by constructor.
    + eexists. split; [done|constructor].
  - match goal with H : objs s' = _ |- _ => destruct (alter_one _ _ _ _ _ _ H Hx) as (it' & Hx' & [[-> ->]|[Hne ->]]) end.
    + destruct (items_inj _ _ _ _ _ HI ltac:(eassumption) Hx) as [<- Hr]. simplify_eq.
      eexists. split; [done|]. by constructor.
    + eexists. split; [done|constructor].
  - match goal with H : objs s' = _ |- _ => destruct (alter_one _ _ _ _ _ _ H Hx) as (it' & Hx' & [[-> ->]|[Hne ->]]) end.
    + destruct (items_inj _ _ _ _ _ HI ltac:(eassumption) Hx) as [<- Hr]. simplify_eq.
      eexists. split; [done|]. by apply (IcRelease s _ _ now).
    + eexists. split; [done|constructor].
  - match goal with H : objs s' = _ |- _ => destruct (alter_one _ _ _ _ _ _ H Hx) as (it' & Hx' & [[-> ->]|[Hne ->]]) end.
    + destruct (items_inj _ _ _ _ _ HI ltac:(eassumption) Hx) as [<- Hr]. simplify_eq.
      eexists. split; [done|]. by constructor.
    + eexists. split; [done|constructor].
  - match goal with H : objs s' = _ |- _ => destruct (alter_one _ _ _ _ _ _ H Hx) as (it' & Hx' & [[-> ->]|[Hne ->]]) end.
    + destruct (items_inj _ _ _ _ _ HI ltac:(eassumption) Hx) as [<- Hr]. simplify_eq.
      eexists. split; [done|]. by constructor.
    + eexists. split; [done|constructor].
  - assert (Hra : ∃ it1, resolve_all k m (objs s) !! x = Some it1 ∧
        (it1 = it ∨ it1 = resolve k it ∧ ∃ m', dependants s !! k = Some m' ∧ x ∈ vals m')).
    { rewrite resolve_all_lookup, Hx. destruct (decide (x ∈ vals m)) as [Hv|Hv]; simpl; [|eexists; split; [done|by left]].
      eexists. split; [done|]. right. split; [done|]. subst m.
      destruct (dependants s !! k) as [m'|]; [by eauto|]. unfold vals in Hv. simpl in Hv.
      rewrite map_to_list_empty in Hv. by apply elem_of_nil in Hv. }
    destruct Hra as (it1 & Hx1 & Hc).
    match goal with H : objs s' = _ |- _ => destruct (alter_one _ _ _ _ _ _ H Hx1) as (it2 & Hx2 & [[-> ->]|[Hne ->]]) end.
    + destruct (items_inj _ _ _ _ _ HI ltac:(eassumption) Hx) as [Hkey Hr]. clear it' H4; simplify_eq.
      eexists. split; [done|]. constructor; [done|]. destruct Hc as [->|[-> _]]; [by left|by right].
    + eexists. split; [done|]. destruct Hc as [->|(-> & m' & Hm & Hv)]; [constructor|].
      by econstructor.
  - exists it. split; [congruence|constructor].
  - match goal with H : ∀ y, objs s' !! y = _ |- _ => pose proof (H x) as Hx' end.
    rewrite Hx in Hx'. destruct (decide (x ∈ moved)) as [Hm|Hm].
    + eexists. split; [done|].
      match goal with H : ∀ y, y ∈ moved ↔ _ |- _ => apply H in Hm as (it' & Hx2 & Hst & Hrd) end.
      simplify_eq. constructor; [done|]. unfold isready in Hrd. lia.
    + eexists. split; [done|constructor].
  - destruct (decide (x ∈ ord)) as [Hm|Hm].
    + match goal with H : ∀ y, y ∈ ord → overdue _ _ _ |- _ => pose proof (H _ Hm) as (it' & Hx2 & Hst & Hrd) end.
      simplify_eq. apply elem_of_list_lookup in Hm as [j Hj].
      match goal with H : ∀ j y, ord !! j = Some y → _ |- _ => pose proof (H _ _ Hj) as Hx' end.
      rewrite Hx in Hx'. eexists. split; [done|].
      unfold releasable, time_zero in Hrd. apply andb_true_iff in Hrd as [Hrd1 Hrd2]. constructor; [done| |]; lia.
    + match goal with H : ∀ y, y ∉ ord → _ |- _ => rewrite (H x Hm) end.
      eexists. split; [done|constructor].
Qed.

(** Items that appear *)
Lemma abs_adds_fresh now ds a x it :
  (∀ x, is_Some (abs_objs a !! x) → (x < a.2)%nat) →
  abs_objs (abs_adds now ds a) !! x = Some it → abs_objs a !! x = None →
  ∃ d, d ∈ ds ∧ it = added_def now d.
Proof.
  revert a. induction ds as [|d ds IH]; intros a Hlt H Hn.
  { unfold abs_adds in H. simpl in H. congruence. }
  unfold abs_adds in H. simpl in H. fold (abs_adds now ds (abs_add now a d)) in H.
  destruct a as [[[o its] dp] n]. simpl in *. destruct (its !! d_key d) eqn:Hk.
  - edestruct (IH (o, its, dp, n)) as (d' & Hd & ->); try done. exists d'. split; [by right|done].
  - destruct (decide (x = n)) as [->|Hne].
    + destruct (abs_adds_old now ds (<[n:=added_def now d]> o, <[d_key d:=n]> its,
         add_dependants (d_key d) n (d_deps d) dp, S n) n) as [H1 _]; [simpl; lia|].
      rewrite H1 in H. unfold abs_objs in H. simpl in H. rewrite lookup_insert in H. simplify_eq.
      exists d. split; [by left|done].
    + edestruct (IH (<[n:=added_def now d]> o, <[d_key d:=n]> its,
         add_dependants (d_key d) n (d_deps d) dp, S n)) as (d' & Hd & ->); [|done| |].
      * unfold abs_objs. simpl. intros y. rewrite lookup_insert_is_Some. unfold abs_objs in Hlt. simpl in Hlt.
        intros [->|[_ Hy]]; [lia|]. apply Hlt in Hy. lia.
      * unfold abs_objs in *. simpl in *. by rewrite lookup_insert_ne.
      * exists d'. split; [by right|done].
Qed.

Inductive inew : op → qres → nat → item → Prop :=
| InAdd now k g d prio size delay ttr start deps x :
    inew (OAdd now k g d prio size delay ttr start deps) (RItem x) x
      (added_item false now k g d prio size delay ttr start deps)
| InMany now ds d r x : d ∈ ds → inew (OAddMany now ds) r x (added_def now d).

Lemma eff_new b s o s' r e x it :
  Inv b s → eff b s o s' r e → objs s !! x = None → objs s' !! x = Some it → inew o r x it.
Proof.
  intros HI He Hx Hx'.
  assert (Hno : ∀ f y, objs s' = alter f y (objs s) → inew o r x it).
  { intros f y Ho. rewrite Ho in Hx'. destruct (decide (x = y)) as [->|Hne].
    - by rewrite lookup_alter, Hx in Hx'.
    - by rewrite lookup_alter_ne, Hx in Hx'. }
  destruct He; try (by congruence);
    try (by match goal with H : objs s' = alter _ _ (objs s) |- _ => apply (Hno _ _ H) end).
  - match goal with H : objs s' = _ |- _ => rewrite H in Hx' end.
    apply lookup_insert_Some in Hx' as [[<- <-]|[_ ?]]; [|congruence]. subst. constructor.
  - match goal with H : abs_of s' = _ |- _ => pose proof H as Ha; apply (f_equal abs_objs) in Ha end.
    unfold abs_objs at 1 in Ha. simpl in Ha. rewrite Ha in Hx'.
    destruct (abs_adds_fresh now ds (abs_of s) x it) as (d & Hd & ->); [|done|done|].
    { intros y Hy. by apply (i_ids HI). }
    by constructor.
  - match goal with H : objs s' = _ |- _ => rewrite H in Hx' end.
    apply lookup_insert_Some in Hx' as [[<- <-]|[_ ?]]; congruence.
  - match goal with H : objs s' = _ |- _ => rewrite H in Hx' end.
    by rewrite lookup_fmap, Hx in Hx'.
  - match goal with H : objs s' = _ |- _ => rewrite H in Hx' end.
    destruct (decide (x = x0)) as [->|Hne]; [by congruence|].
    rewrite lookup_alter_ne, resolve_all_lookup, Hx in Hx' by done. simpl in Hx'. by case_decide.
  - match goal with H : ∀ y, objs s' !! y = _ |- _ => rewrite (H x) in Hx' end.
    rewrite Hx in Hx'. by case_decide.
  - destruct (decide (x ∈ ord)) as [Hm|Hm].
    + match goal with H : ∀ y, y ∈ ord → overdue _ _ _ |- _ => pose proof (H _ Hm) as (it' & Hx2 & Hst & Hrd) end.
      congruence.
    + match goal with H : ∀ y, y ∉ ord → _ |- _ => rewrite (H x Hm) in Hx' end. congruence.
Qed.

(** One step from either kind of state *)
Definition Ok (b : bool) (s : qstate) : Prop := Inv b s ∨ Dead s.
Lemma ok_step b s o s' r e :
  Ok b s → good b s o → step s o = Some (s', r, e) →
  Ok b s' ∧ (Inv b s ∧ eff b s o s' r e ∨
             Dead s ∧ Dead s' ∧ objs s' = objs s ∧ rest_eq s s' ∧ r = dead_answer o ∧ e = []).
Proof.
  intros [HI|HD] Hg Hs.
  - destruct (step_eff b s o s' r e HI Hg Hs) as [He [H|[_ H]]]; (split; [|by left]); [by left|by right].
  - destruct (dead_step s o HD) as (s1 & Hs1 & HD1 & Ho & Hre). rewrite Hs in Hs1. injection Hs1 as <- -> ->.
    split; [by right|]. right. by split_and!.
Qed.
Lemma ok_item b s o s' r e x it :
  Ok b s → good b s o → step s o = Some (s', r, e) → objs s !! x = Some it →
  ∃ it', objs s' !! x = Some it' ∧ ichange s x it o r it'.
Proof.
  intros HO Hg Hs Hx. destruct (ok_step b s o s' r e HO Hg Hs) as [_ [[HI He]|(_ & _ & Ho & _)]].
  - by eapply eff_item.
  - exists it. split; [congruence|constructor].
Qed.
Lemma ok_new b s o s' r e x it :
  Ok b s → good b s o → step s o = Some (s', r, e) → objs s !! x = None → objs s' !! x = Some it →
  inew o r x it.
Proof.
  intros HO Hg Hs Hx Hx'. destruct (ok_step b s o s' r e HO Hg Hs) as [_ [[HI He]|(_ & _ & Ho & _)]].
  - by eapply eff_new.
  - congruence.
Qed.
Lemma ok_hist b t ops s :
  (∃ out, run (q_new t) ops = Some (s, out)) → good_run b (q_new t) ops → Ok b s.
Proof. intros [out Hr] Hg. eapply run_inv; [left; apply inv_new|done|done]. Qed.
