(** When the queue's two timers fire: never later than the first item is due. *)
From Coq Require Import ZArith Lia String.
From stdpp Require Import base option strings gmap list.
From RecordUpdate Require Import RecordSet.
From Verif Require Import GoHeap GoHeapProofs QueueModel QueueSpec QueueCore QueueInv QueueInvAdd QueueInvUpd QueueInvRem QueueInvTick QueueEff QueueFrame QueueProofs.
Import RecordSetNotations.
Open Scope Z_scope.

(** ** The timers are left alone *)
Definition tk (s s' : qstate) : Prop := delayTime s' = delayTime s ∧ ttrTime s' = ttrTime s.
Lemma tk_refl s : tk s s.
Proof. done. Qed.
Lemma tk_trans s1 s2 s3 : tk s1 s2 → tk s2 s3 → tk s1 s3.
Proof. intros [? ?] [? ?]. split; congruence. Qed.
Lemma delay_push_tk x s s' : delay_push x s = Some s' → tk s s'.
Proof. unfold delay_push. intros H. mdest H. by subst. Qed.
Lemma delay_remove_tk x s s' : delay_remove x s = Some s' → tk s s'.
Proof. unfold delay_remove. intros H. mdest H. by subst. Qed.
Lemma delay_update_tk x s s' : delay_update x s = Some s' → tk s s'.
Proof. unfold delay_update. intros H. mdest H. by subst. Qed.
Lemma run_push_tk x s s' : run_push x s = Some s' → tk s s'.
Proof. unfold run_push. intros H. mdest H. by subst. Qed.
Lemma run_remove_tk x s s' : run_remove x s = Some s' → tk s s'.
Proof. unfold run_remove. intros H. mdest H. by subst. Qed.
Lemma run_update_tk x s s' : run_update x s = Some s' → tk s s'.
Proof. unfold run_update. intros H. mdest H. by subst. Qed.
Lemma bury_remove_tk x s s' : bury_remove x s = Some s' → tk s s'.
Proof. unfold bury_remove. intros H. mdest H. by subst. Qed.
Lemma dep_remove_tk x s s' : dep_remove x s = Some s' → tk s s'.
Proof. unfold dep_remove. intros H. mdest H. by subst. Qed.
Lemma rheap_push_tk x s s' : rheap_push x s = Some s' → tk s s'.
Proof. unfold rheap_push. intros H. mdest H. by subst. Qed.
Lemma rheap_remove_tk x s s' : rheap_remove x s = Some s' → tk s s'.
Proof. unfold rheap_remove. intros H. mdest H; by subst. Qed.
Lemma rheap_fix_tk x s s' : rheap_fix x s = Some s' → tk s s'.
Proof. unfold rheap_fix. intros H. mdest H; by subst. Qed.
Lemma ready_push_tk x s s' : ready_push x s = Some s' → tk s s'.
Proof. unfold ready_push. intros H. mdest H. by apply rheap_push_tk in H. Qed.
Lemma ready_remove_tk x s s' : ready_remove x s = Some s' → tk s s'.
Proof. unfold ready_remove. intros H. mdest H. by apply rheap_remove_tk in H. Qed.
Lemma ready_update_tk x g s s' : ready_update x g s = Some s' → tk s s'.
Proof.
  unfold ready_update. intros H. mdest H. case_decide; [by apply rheap_fix_tk in H|]. mdest H.
  match goal with H0 : rheap_remove _ _ = Some _ |- _ => apply rheap_remove_tk in H0 end. apply rheap_push_tk in H.
  by eapply tk_trans.
Qed.
Lemma ready_pop_tk g s o s' : ready_pop g s = Some (o, s') → tk s s'.
Proof.
  unfold ready_pop. intros H. destruct (rgroups (readyQ s) !! g) as [l|]; [|mdest H; by subst].
  destruct l; mdest H; by subst.
Qed.
Lemma set_queue_deps_tk x s s' : set_queue_deps x s = Some s' → tk s s'.
Proof. unfold set_queue_deps. intros H. mdest H. by subst. Qed.
Lemma set_item_dependencies_tk x ds s s' : set_item_dependencies x ds s = Some s' → tk s s'.
Proof. unfold set_item_dependencies. intros H. mdest H. subst. by match goal with H0 : set_queue_deps _ _ = Some _ |- _ => apply set_queue_deps_tk in H0 end. Qed.
Lemma drop_dependants_tk k ds s : tk s (fold_left (drop_dependant k) ds s).
Proof.
  revert s. induction ds as [|d ds IH]; intros s; cbn [fold_left]; [done|]. eapply tk_trans; [|apply IH].
  unfold drop_dependant. by destruct (items s !! d).
Qed.

(** collects what the primitives say *)
Ltac tks :=
  repeat match goal with
  | H : delay_push _ _ = Some _ |- _ => apply delay_push_tk in H
  | H : delay_remove _ _ = Some _ |- _ => apply delay_remove_tk in H
  | H : delay_update _ _ = Some _ |- _ => apply delay_update_tk in H
  | H : run_push _ _ = Some _ |- _ => apply run_push_tk in H
  | H : run_remove _ _ = Some _ |- _ => apply run_remove_tk in H
  | H : run_update _ _ = Some _ |- _ => apply run_update_tk in H
  | H : bury_remove _ _ = Some _ |- _ => apply bury_remove_tk in H
  | H : dep_remove _ _ = Some _ |- _ => apply dep_remove_tk in H
  | H : ready_push _ _ = Some _ |- _ => apply ready_push_tk in H
  | H : ready_remove _ _ = Some _ |- _ => apply ready_remove_tk in H
  | H : ready_update _ _ _ = Some _ |- _ => apply ready_update_tk in H
  | H : ready_pop _ _ = Some _ |- _ => apply ready_pop_tk in H
  | H : set_queue_deps _ _ = Some _ |- _ => apply set_queue_deps_tk in H
  | H : set_item_dependencies _ _ _ = Some _ |- _ => apply set_item_dependencies_tk in H
  end.
Ltac tkdone :=
  tks; unfold tk in *; cbn in *; repeat match goal with H : _ ∧ _ |- _ => destruct H end; split; congruence.

(** ** The top of the goroutines' loops *)
Definition dtop (s : qstate) : Prop :=
  match arr (delayQ s) with [] => True | x :: _ => ∃ it, objs s !! x = Some it ∧ delayTime s = readyAt it end.
Definition rtop (s : qstate) : Prop :=
  match arr (runQ s) with [] => True | x :: _ => ∃ it, objs s !! x = Some it ∧ ttrTime s = releaseAt it end.
Lemma dtop_min b s x it : Inv b s → dtop s → objs s !! x = Some it → ist it = SDelay → delayTime s ≤ readyAt it.
Proof.
  intros HI Ht Hx Hst. unfold dtop in Ht.
  assert (Hin : x ∈ arr (delayQ s)).
  { change (delayQ s) with (cont s LDelay). apply (c_in (i_core HI)). rewrite (locs_Some _ _ _ Hx). unfold loc_of. by rewrite Hst. }
  destruct (arr (delayQ s)) as [|y l] eqn:Ha; [by apply elem_of_nil in Hin|]. destruct Ht as (it0 & Hy & ->).
  pose proof (heap_min _ (arr (delayQ s)) y x (c_ord (i_core HI) LDelay ltac:(done))) as Hm.
  rewrite Ha in Hm. specialize (Hm eq_refl Hin). cbn in Hm. unfold less_delay in Hm.
  rewrite (obj_Some _ _ _ Hx), (obj_Some _ _ _ Hy) in Hm. lia.
Qed.
Lemma rtop_min b s x it : Inv b s → rtop s → objs s !! x = Some it → ist it = SRun → ttrTime s ≤ releaseAt it.
Proof.
  intros HI Ht Hx Hst. unfold rtop in Ht.
  assert (Hin : x ∈ arr (runQ s)).
  { change (runQ s) with (cont s LRun). apply (c_in (i_core HI)). rewrite (locs_Some _ _ _ Hx). unfold loc_of. by rewrite Hst. }
  destruct (arr (runQ s)) as [|y l] eqn:Ha; [by apply elem_of_nil in Hin|]. destruct Ht as (it0 & Hy & ->).
  pose proof (heap_min _ (arr (runQ s)) y x (c_ord (i_core HI) LRun ltac:(done))) as Hm.
  rewrite Ha in Hm. specialize (Hm eq_refl Hin). cbn in Hm. unfold less_run in Hm.
  rewrite (obj_Some _ _ _ Hx), (obj_Some _ _ _ Hy) in Hm. lia.
Qed.
Lemma delay_loop_top_top now s s' : delay_loop_top now s = Some s' → dtop s' ∧ ttrTime s' = ttrTime s.
Proof.
  unfold delay_loop_top, dtop. destruct (arr (delayQ s)) as [|x l] eqn:Ha; intros H; mdest H; subst; cbn; rewrite Ha; [done|].
  split; [|done]. eauto.
Qed.
Lemma ttr_loop_top_top now s s' : ttr_loop_top now s = Some s' →
  rtop s' ∧ delayTime s' = delayTime s ∧ delayQ s' = delayQ s ∧ objs s' = objs s.
Proof.
  unfold ttr_loop_top, rtop. destruct (arr (runQ s)) as [|x l] eqn:Ha; intros H; mdest H; subst; cbn; rewrite Ha; [done|].
  split; [eauto|done].
Qed.
(** After a trigger for item [x]: it was not needed, or the loop top was passed. *)
Definition dtrig (now t : Z) (x : nat) (s' : qstate) : Prop :=
  delayTime s' = t ∧ (∀ it, objs s' !! x = Some it → t ≤ now + idelay it) ∨ dtop s'.
Definition rtrig (now t : Z) (x : nat) (s' : qstate) : Prop :=
  ttrTime s' = t ∧ (∀ it, objs s' !! x = Some it → t ≤ now + ittr it) ∨ rtop s'.
Lemma delay_trigger_trig now x s s' : delay_trigger now x s = Some s' → dtrig now (delayTime s) x s' ∧ ttrTime s' = ttrTime s.
Proof.
  unfold delay_trigger. intros H. mdest H. destruct (Z.ltb_spec (now + idelay i) (delayTime s)).
  - apply delay_loop_top_top in H as [? ?]. split; [by right|done].
  - mdest H. subst. split; [left|done]. split; [done|]. intros it Hit. congruence.
Qed.
Lemma ttr_trigger_trig now x s s' : ttr_trigger now x s = Some s' →
  rtrig now (ttrTime s) x s' ∧ delayTime s' = delayTime s ∧ delayQ s' = delayQ s ∧ objs s' = objs s.
Proof.
  unfold ttr_trigger. intros H. mdest H. destruct (Z.ltb_spec (now + ittr i) (ttrTime s)).
  - apply ttr_loop_top_top in H as (? & ?). split; [by right|done].
  - mdest H. subst. split; [left|done]. split; [done|]. intros it Hit. congruence.
Qed.

(** ** What the calls do to the timers *)
Definition plain (o : op) : Prop :=
  match o with
  | OGet _ | OUpdate _ _ _ _ _ _ _ _ | OChangeKey _ _ | OSetGroup _ _ | OBury _ | OKick _ | ORemove _ _ | OHasDependents _ | ODestroy => True
  | _ => False
  end.
Lemma resolve_tk k xs s l s' added : fold_left (resolve_one k) xs (Some (s, l)) = Some (s', added) → tk s s'.
Proof.
  revert s l. induction xs as [|x xs IH]; intros s l; cbn [fold_left]; [by intros [= <- <-]|].
  destruct (resolve_one k (Some (s, l)) x) as [[s1 l1]|] eqn:H1.
  - intros H. apply IH in H. apply (tk_trans s s1); [|done]. unfold resolve_one in H1.
    mdest H1. repeat (case_match; mdest H1; subst; try tkdone).
  - intros H. exfalso. clear -H. induction xs as [|y xs IH]; [done|]. exact (IH H).
Qed.
Lemma plain_tk s o s' r e : step s o = Some (s', r, e) → plain o → tk s s'.
Proof.
  intros H Hp. revert H. destruct o; try done; clear Hp; cbn [step].
  - unfold q_get. intros H. repeat (case_match; try done); by injection H as <- _ _.
  - unfold q_update. intros H. destruct (closed s); [by injection H as <- _ _|].
    destruct (items s !! k) as [x|]; [|by injection H as <- _ _].
    set (s0 := mod_obj _ x s) in H.
    assert (H0 : tk s s0) by done.
    match type of H with (?m ≫= _) = _ => destruct m as [[[s1 ad] from]|] eqn:H1 end; [|done]. cbn beta iota zeta delta [mbind option_bind] in H.
    destruct (update_props now x g prio delay ttr ad s1) as [s2|] eqn:H2; [|done]. injection H as <- _ _.
    assert (T1 : tk s0 s1).
    { destruct deps as [deps|]; [|injection H1 as <- <- <-; done]. unfold update_deps in H1. mdest H1.
      destruct (_ && _); [mdest H1; by subst|]. pose proof (drop_dependants_tk k (elements g0) s0) as Hd.
      revert H1 Hd. generalize (fold_left (drop_dependant k) (elements g0) s0). intros sd H1 Hd. mdest H1.
      destruct deps; [|destruct (ist i)]; mdest H1; subst; tkdone. }
    assert (T2 : tk s1 s2).
    { unfold update_props in H2. mdest H2. repeat (case_match; mdest H2; subst; try tkdone). }
    tkdone.
  - unfold q_change_key. intros H. repeat (case_match; try done); by injection H as <- _ _.
  - unfold q_set_reserve_group. intros H. repeat (case_match; mdest H; subst; try tkdone).
  - unfold q_bury. intros H. repeat (case_match; mdest H; subst; try tkdone).
  - unfold q_kick. intros H. repeat (case_match; mdest H; subst; try tkdone).
  - unfold q_remove. intros H. destruct (closed s); [by injection H as <- _ _|].
    destruct (items s !! k) as [x|]; [|by injection H as <- _ _].
    match type of H with (?m ≫= _) = _ => destruct m as [[s1 added]|] eqn:H1 end; [|done]. cbn beta iota zeta delta [mbind option_bind] in H.
    assert (T1 : tk s s1).
    { destruct (dependants s !! k) as [m|]; [|injection H1 as <- <-; done].
      destruct (fold_left _ _ _) as [[s2 l]|] eqn:H2; [|done]. cbn in H1. injection H1 as <- <-. by apply resolve_tk in H2. }
    destruct (objs s1 !! x) as [it|]; [|done]. cbn beta iota zeta delta [mbind option_bind] in H.
    match type of H with context [remove_from_sub ?a ?b ?c] => destruct (remove_from_sub a b c) as [[s2 evs]|] eqn:H2 end; [|done].
    cbn beta iota zeta delta [mbind option_bind] in H. injection H as <- _ _.
    assert (T2 : tk s1 s2) by (unfold remove_from_sub in H2; destruct (ist it); mdest H2; subst; tkdone).
    tkdone.
  - unfold q_has_dependents. intros H. repeat (case_match; try done); by injection H as <- _ _.
  - unfold q_destroy. intros H. repeat (case_match; try done); by injection H as <- _ _.
Qed.

(** ** The times of the items *)
Definition dgood (s s' : qstate) : Prop :=
  delayTime s' = delayTime s ∧
  (∀ x it', objs s' !! x = Some it' → ist it' = SDelay →
     (∃ it, objs s !! x = Some it ∧ ist it = SDelay ∧ readyAt it ≤ readyAt it') ∨ delayTime s ≤ readyAt it') ∨ dtop s'.
Definition rgood (s s' : qstate) : Prop :=
  ttrTime s' = ttrTime s ∧
  (∀ x it', objs s' !! x = Some it' → ist it' = SRun →
     (∃ it, objs s !! x = Some it ∧ ist it = SRun ∧ releaseAt it ≤ releaseAt it') ∨ ttrTime s ≤ releaseAt it') ∨ rtop s'.
(** one object changed *)
Lemma dgood_alter s s' f x : objs s' = alter f x (objs s) →
  dtop s' ∨ delayTime s' = delayTime s ∧
    (∀ it, objs s !! x = Some it → ist (f it) = SDelay →
      (ist it = SDelay ∧ readyAt it ≤ readyAt (f it)) ∨ delayTime s ≤ readyAt (f it)) → dgood s s'.
Proof.
  intros Ho [Ht|[Ht Hf]]; [by right|left]. split; [done|]. intros y it'. rewrite Ho, lookup_alter_Some.
  intros [(<- & it & Hx & ->)|[Hne Hy]] Hst.
  - destruct (Hf it Hx Hst) as [[? ?]|?]; [left; eauto|by right].
  - left. exists it'. split_and!; try done; lia.
Qed.
Lemma rgood_alter s s' f x : objs s' = alter f x (objs s) →
  rtop s' ∨ ttrTime s' = ttrTime s ∧
    (∀ it, objs s !! x = Some it → ist (f it) = SRun →
      (ist it = SRun ∧ releaseAt it ≤ releaseAt (f it)) ∨ ttrTime s ≤ releaseAt (f it)) → rgood s s'.
Proof.
  intros Ho [Ht|[Ht Hf]]; [by right|left]. split; [done|]. intros y it'. rewrite Ho, lookup_alter_Some.
  intros [(<- & it & Hx & ->)|[Hne Hy]] Hst.
  - destruct (Hf it Hx Hst) as [[? ?]|?]; [left; eauto|by right].
  - left. exists it'. split_and!; try done; lia.
Qed.
Lemma good_same s s' : objs s' = objs s → tk s s' → dgood s s' ∧ rgood s s'.
Proof.
  intros Ho [H1 H2]. split; left; (split; [done|]); rewrite Ho; intros x it Hx Hst; left; exists it; split_and!; try done; lia.
Qed.
Lemma dtrig_alter now s s' f x : objs s' = alter f x (objs s) → dtrig now (delayTime s) x s' →
  (∀ it, objs s !! x = Some it → ist (f it) = SDelay → readyAt (f it) = now + idelay (f it)) → dgood s s'.
Proof.
  intros Ho [[Ht Hm]|Ht] Hf; (eapply dgood_alter; [done|]); [right|by left]. split; [done|].
  intros it Hx Hst. right. rewrite Hf by done. apply Hm. by rewrite Ho, lookup_alter, Hx.
Qed.
Lemma rtrig_alter now s s' f x : objs s' = alter f x (objs s) → rtrig now (ttrTime s) x s' →
  (∀ it, objs s !! x = Some it → ist (f it) = SRun → releaseAt (f it) = now + ittr (f it)) → rgood s s'.
Proof.
  intros Ho [[Ht Hm]|Ht] Hf; (eapply rgood_alter; [done|]); [right|by left]. split; [done|].
  intros it Hx Hst. right. rewrite Hf by done. apply Hm. by rewrite Ho, lookup_alter, Hx.
Qed.

Ltac trigs :=
  match goal with
  | H : ttr_trigger _ _ _ = Some _ |- _ =>
      let Ht := fresh "Ht" in destruct (ttr_trigger_trig _ _ _ _ H) as (Ht & ? & ? & ?); clear H
  | H : delay_trigger _ _ _ = Some _ |- _ =>
      let Ht := fresh "Ht" in destruct (delay_trigger_trig _ _ _ _ H) as (Ht & ?); clear H
  end.
Ltac trigdone :=
  trigs; tks; unfold tk in *; cbn in *; repeat match goal with H : _ ∧ _ |- _ => destruct H end;
  match goal with
  | H : rtrig ?now ?t ?x ?s |- rtrig ?now ?t' ?x ?s ∧ _ => split; [by replace t' with t by congruence|congruence]
  | H : dtrig ?now ?t ?x ?s |- dtrig ?now ?t' ?x ?s ∧ _ => split; [by replace t' with t by congruence|congruence]
  end.
Lemma reserve_times now g retry s s' x e : q_reserve now g retry s = Some (s', RItem x, e) →
  rtrig now (ttrTime s) x s' ∧ delayTime s' = delayTime s.
Proof.
  unfold q_reserve. intros H. destruct (_ && _); [done|].
  destruct (ready_pop g s) as [[[y|] q]|] eqn:Hp; [|done|done]. mdest H. subst. trigdone.
Qed.
Lemma touch_times now k s s' e x : q_touch now k s = Some (s', ROk, e) → items s !! k = Some x →
  rtrig now (ttrTime s) x s' ∧ delayTime s' = delayTime s.
Proof.
  unfold q_touch. intros H Hk. rewrite Hk in H. destruct (closed s); [done|]. destruct (objs s !! x) as [it|]; [|done].
  cbn beta iota zeta delta [mbind option_bind] in H. destruct (ist it); try done. mdest H. subst. trigdone.
Qed.
Lemma set_delay_times now k delay s s' e x it : q_set_delay now k delay s = Some (s', ROk, e) → items s !! k = Some x → objs s !! x = Some it →
  (if bool_decide (ist it = SDelay) && negb (idelay it =? delay) then dtrig now (delayTime s) x s' else delayTime s' = delayTime s) ∧
  ttrTime s' = ttrTime s.
Proof.
  unfold q_set_delay. intros H Hk Hx. rewrite Hk, Hx in H. destruct (closed s); [done|].
  cbn beta iota zeta delta [mbind option_bind] in H. destruct (idelay it =? delay); [mdest H; subst; by rewrite andb_false_r|].
  destruct (ist it); mdest H; subst; try done. rewrite bool_decide_true by done. cbn [andb negb]. trigdone.
Qed.
Lemma release_times now k s s' e x it : q_release now k s = Some (s', ROk, e) → items s !! k = Some x → objs s !! x = Some it →
  (if idelay it =? 0 then delayTime s' = delayTime s else dtrig now (delayTime s) x s') ∧ ttrTime s' = ttrTime s.
Proof.
  unfold q_release. intros H Hk Hx. rewrite Hk, Hx in H. destruct (closed s); [done|].
  cbn beta iota zeta delta [mbind option_bind] in H. destruct (ist it); try done. mdest H.
  destruct (idelay it =? 0); mdest H; subst; [tkdone|trigdone].
Qed.
Lemma add_times now k g d prio size delay ttr start deps s s' x e :
  q_add now k g d prio size delay ttr start deps s = Some (s', RItem x, e) →
  match deps, start with
  | [], StartDefault => (if delay =? 0 then delayTime s' = delayTime s else dtrig now (delayTime s) x s') ∧ ttrTime s' = ttrTime s
  | [], StartRun => rtrig now (ttrTime s) x s' ∧ delayTime s' = delayTime s
  | _, _ => tk s s'
  end.
Proof.
  unfold q_add. intros H. destruct (closed s); [done|]. destruct (items s !! k); [done|].
  destruct (alloc_item now k g d prio size delay ttr s) as [y s0] eqn:Ha.
  assert (Hs0 : tk s s0) by (by injection Ha as <- <-). clear Ha. unfold handle_item_for_add in H.
  destruct deps; [destruct start|].
  - destruct (delay =? 0); mdest H; subst; [tkdone|trigdone].
  - mdest H. subst. trigdone.
  - mdest H. subst. tkdone.
  - mdest H. subst. tkdone.
Qed.
Lemma tick_delay_times now s s' r e : q_tick_delay now s = Some (s', r, e) → dtop s' ∧ ttrTime s' = ttrTime s.
Proof.
  unfold q_tick_delay. intros H. mdest H. subst.
  match goal with H : delay_loop_top _ _ = Some _ |- _ => destruct (delay_loop_top_top _ _ _ H) as [? E] end.
  split; [done|]. rewrite E. clear E.
  match goal with H : delay_loop now ?n ?s0 ?m = Some (?s1, _) |- ttrTime ?s1 = ttrTime _ => clear -H; revert H; generalize m; generalize n end.
  intros n. revert s. induction n as [|n IH]; intros s m; cbn [delay_loop]; intros H; [mdest H; by subst|].
  destruct (arr (delayQ s)) as [|x l']; [done|]. mdest H. destruct (isready now i); [|mdest H; by subst].
  mdest H. apply IH in H. cbn in H. tks. unfold tk in *. intuition congruence.
Qed.

(** *** AddMany *)
Lemma add_many_one_trig now d s a s' a' : add_many_one now d s a = Some (s', a') → items s !! d_key d = None →
  tk s s' ∧
  a_dtrig a' = (if bool_decide (ist (added_def now d) = SDelay) && bool_decide (a_dtrig a = None) && (now + d_delay d <? delayTime s)
                then Some (nextid s) else a_dtrig a) ∧
  a_ttrig a' = (if bool_decide (ist (added_def now d) = SRun) && bool_decide (a_ttrig a = None) && (now + d_ttr d <? ttrTime s)
                then Some (nextid s) else a_ttrig a).
Proof.
  intros H Hk. unfold add_many_one in H. rewrite Hk in H.
  destruct (alloc_item now (d_key d) (d_group d) (d_data d) (d_prio d) 0%N (d_delay d) (d_ttr d) s) as [y s0] eqn:Ha.
  assert (Hs0 : tk s s0 ∧ y = nextid s) by (by injection Ha as <- <-). clear Ha. destruct Hs0 as [Hs0 ->].
  unfold added_def, added_item. destruct (d_deps d); [destruct (d_start d)|].
  - destruct (d_delay d =? 0).
    + mdest H. subst. cbn. split; [tkdone|done].
    + destruct (delay_push (nextid s) s0) as [s1|] eqn:Hp; [|done]. apply delay_push_tk in Hp as [E3 E4]. destruct Hs0 as [E1 E2].
      cbn beta iota zeta delta [mbind option_bind] in H.
      injection H as <- <-. rewrite E3, E1. split; [split; congruence|].
      change (ist (new_item _ _ _ _ _ _ _ _)) with SDelay. rewrite (bool_decide_true (SDelay = SDelay)), (bool_decide_false (SDelay = SRun)) by done.
      cbn [andb]. change (a_dtrig (a <| a_added ::= S |> <| a_delay ::= λ l, l ++ [nextid s] |>)) with (a_dtrig a).
      destruct (bool_decide (a_dtrig a = None) && _); done.
  - destruct (run_push (nextid s) _) as [s1|] eqn:Hp; [|done]. apply run_push_tk in Hp as [E3 E4]. destruct Hs0 as [E1 E2].
    cbn beta iota zeta delta [mbind option_bind] in H. cbn in E3, E4.
    injection H as <- <-. split; [split; cbn; congruence|]. cbn. rewrite E4, E2.
    rewrite (bool_decide_true (SRun = SRun)), (bool_decide_false (SRun = SDelay)) by done. cbn [andb].
    destruct (bool_decide (a_ttrig a = None) && _); done.
  - mdest H. subst. cbn. split; [tkdone|done].
  - mdest H. subst. cbn. split; [tkdone|done].
Qed.
Lemma added_times many now k g d prio size delay ttr start deps :
  let it := added_item many now k g d prio size delay ttr start deps in
  idelay it = delay ∧ ittr it = ttr ∧ (ist it = SDelay → readyAt it = now + delay) ∧ (ist it = SRun → releaseAt it = now + ttr).
Proof.
  unfold added_item. destruct deps; [|done]. destruct start; [|done|by destruct many]. by destruct (delay =? 0).
Qed.
Record pending (now : Z) (s0 s : qstate) (a : addacc) : Prop := {
  p_tk : tk s0 s;
  p_old x it : objs s0 !! x = Some it → objs s !! x = Some it;
  p_d : match a_dtrig a with
        | Some y => ∃ it, objs s !! y = Some it ∧ now + idelay it < delayTime s0
        | None => ∀ x it, objs s !! x = Some it → objs s0 !! x = None → ist it = SDelay → delayTime s0 ≤ readyAt it
        end;
  p_r : match a_ttrig a with
        | Some y => ∃ it, objs s !! y = Some it ∧ now + ittr it < ttrTime s0
        | None => ∀ x it, objs s !! x = Some it → objs s0 !! x = None → ist it = SRun → ttrTime s0 ≤ releaseAt it
        end;
}.
Lemma pending_one b now d s0 s a s' a' : Inv b s → acc_eq s a a → items s !! d_key d = None →
  add_many_one now d s a = Some (s', a') → pending now s0 s a → pending now s0 s' a'.
Proof.
  intros HI Ha Hk H [P1 P2 P3 P4]. destruct (add_many_one_trig _ _ _ _ _ _ H Hk) as ([E1 E2] & Ed & Er).
  destruct (add_many_one_ok b now d s a HI Hk Ha) as (s1 & a1 & H1 & _ & Habs & _).
  rewrite H in H1. injection H1 as <- <-. unfold abs_add, abs_of in Habs. rewrite Hk in Habs. injection Habs as Ho _ _ _.
  assert (Hf : objs s !! nextid s = None) by (apply eq_None_not_Some; rewrite (i_ids HI); lia).
  destruct P1 as [Q1 Q2].
  assert (Hold : ∀ x it, objs s !! x = Some it → objs s' !! x = Some it).
  { intros x it Hx. rewrite Ho, lookup_insert_ne; [done|]. intros <-. congruence. }
  destruct (added_times true now (d_key d) (d_group d) (d_data d) (d_prio d) 0 (d_delay d) (d_ttr d) (d_start d) (d_deps d)) as (F1 & F2 & F3 & F4).
  fold (added_def now d) in F1, F2, F3, F4.
  split.
  - split; congruence.
  - intros x it Hx. by apply Hold, P2.
  - rewrite Ed. destruct (a_dtrig a) as [y|] eqn:Hd.
    + rewrite (bool_decide_false (Some y = None)), andb_false_r by done. cbn [andb].
      destruct P3 as (it & Hy & Hlt). exists it. split; [by apply Hold|done].
    + rewrite (bool_decide_true (None = None)), andb_true_r by done.
      destruct (bool_decide_reflect (ist (added_def now d) = SDelay)) as [Hst|Hst]; cbn [andb];
        [destruct (Z.ltb_spec (now + d_delay d) (delayTime s))|].
      * exists (added_def now d). rewrite Ho, lookup_insert. split; [done|]. rewrite F1. lia.
      * intros x it. rewrite Ho. intros [[<- <-]|[Hne Hx]]%lookup_insert_Some Hn Hs; [rewrite F3 by done; lia|by eapply P3].
      * intros x it. rewrite Ho. intros [[<- <-]|[Hne Hx]]%lookup_insert_Some Hn Hs; [done|by eapply P3].
  - rewrite Er. destruct (a_ttrig a) as [y|] eqn:Hd.
    + rewrite (bool_decide_false (Some y = None)), andb_false_r by done. cbn [andb].
      destruct P4 as (it & Hy & Hlt). exists it. split; [by apply Hold|done].
    + rewrite (bool_decide_true (None = None)), andb_true_r by done.
      destruct (bool_decide_reflect (ist (added_def now d) = SRun)) as [Hst|Hst]; cbn [andb];
        [destruct (Z.ltb_spec (now + d_ttr d) (ttrTime s))|].
      * exists (added_def now d). rewrite Ho, lookup_insert. split; [done|]. rewrite F2. lia.
      * intros x it. rewrite Ho. intros [[<- <-]|[Hne Hx]]%lookup_insert_Some Hn Hs; [rewrite F4 by done; lia|by eapply P4].
      * intros x it. rewrite Ho. intros [[<- <-]|[Hne Hx]]%lookup_insert_Some Hn Hs; [done|by eapply P4].
Qed.
Lemma pending_loop b now ds s0 s a s' a' : Inv b s → acc_eq s a a →
  add_many_loop now ds s a = Some (s', a') → pending now s0 s a → pending now s0 s' a'.
Proof.
  revert s a. induction ds as [|d ds IH]; intros s a HI Ha; cbn [add_many_loop]; [by intros [= <- <-]|].
  intros H HP. destruct (items s !! d_key d) as [x|] eqn:Hk.
  - assert (add_many_one now d s a = Some (s, a <| a_dups ::= S |>)) as Hone by (unfold add_many_one; by rewrite Hk).
    rewrite Hone in H. cbn beta iota zeta delta [mbind option_bind] in H. eapply IH in H; [done|done| |].
    + destruct Ha as (_&_&_&_&_&_&_&H1&H2). by unfold acc_eq; split_and!.
    + destruct HP. by split.
  - destruct (add_many_one_ok b now d s a HI Hk Ha) as (s1 & a1 & Hone & HI1 & _ & Hacc1).
    rewrite Hone in H. cbn beta iota zeta delta [mbind option_bind] in H. eapply IH in H; [done|done| |by apply (pending_one b now d s0 s a)].
    destruct Hacc1 as (_&_&_&_&_&_&_&H1&H2). by unfold acc_eq; split_and!.
Qed.
Lemma add_many_good b now ds s s' r e : Inv b s → q_add_many now ds s = Some (s', r, e) → dgood s s' ∧ rgood s s'.
Proof.
  intros HI H. unfold q_add_many in H. rewrite (i_open HI) in H.
  destruct (add_many_loop now ds s (AddAcc 0 0 [] [] [] [] [] None None)) as [[s1 a]|] eqn:H1; [|done].
  cbn beta iota zeta delta [mbind option_bind] in H.
  assert (HP : pending now s s1 a).
  { apply (pending_loop b now ds s s (AddAcc 0 0 [] [] [] [] [] None None)); [done|by unfold acc_eq; split_and!|done|]. split; [done|done| |]; cbn; intros; congruence. }
  destruct (trig_opt (delay_trigger now) (a_dtrig a) s1) as [s2|] eqn:H2; [|done]. cbn beta iota zeta delta [mbind option_bind] in H.
  destruct (trig_opt (ttr_trigger now) (a_ttrig a) s2) as [s3|] eqn:H3; [|done]. cbn beta iota zeta delta [mbind option_bind] in H.
  injection H as <- _ _. destruct HP as [[T1 T2] Hold P3 P4].
  assert (Hcase : ∀ x it, objs s1 !! x = Some it → objs s !! x = Some it ∨ objs s !! x = None).
  { intros x it Hx. destruct (objs s !! x) as [it0|] eqn:E; [|by right]. apply Hold in E. left. congruence. }
  assert (D2 : (delayTime s2 = delayTime s ∧ a_dtrig a = None ∨ dtop s2) ∧ ttrTime s2 = ttrTime s ∧ objs s2 = objs s1).
  { destruct (a_dtrig a) as [y|]; cbn [trig_opt] in H2; [|injection H2 as <-; auto].
    destruct P3 as (it & Hy & Hlt). pose proof (delay_trigger_same _ _ _ _ H2) as (Eo & _).
    destruct (delay_trigger_trig _ _ _ _ H2) as [[[_ Hm]|Hd] E]; [|split; [by right|split; congruence]].
    rewrite Eo in Hm. apply Hm in Hy. lia. }
  destruct D2 as (D2 & E2 & O2).
  assert (R3 : (ttrTime s3 = ttrTime s ∧ a_ttrig a = None ∨ rtop s3) ∧ delayTime s3 = delayTime s2 ∧ objs s3 = objs s1 ∧ delayQ s3 = delayQ s2).
  { destruct (a_ttrig a) as [y|]; cbn [trig_opt] in H3; [|injection H3 as <-; auto].
    destruct P4 as (it & Hy & Hlt). destruct (ttr_trigger_trig _ _ _ _ H3) as (Ht & F1 & F2 & F3).
    split; [|split_and!; congruence]. destruct Ht as [[_ Hm]|Hd]; [|by right].
    rewrite F3, O2 in Hm. apply Hm in Hy. lia. }
  destruct R3 as (R3 & E3 & O3 & Q3). split.
  - destruct D2 as [[D2 En]|D2].
    + left. split; [congruence|]. rewrite En in P3. intros x it Hx Hst. rewrite O3 in Hx.
      destruct (Hcase x it Hx) as [?|?]; [left; exists it; split_and!; [done|done|lia]|right; by eapply P3].
    + right. unfold dtop in *. by rewrite Q3, E3, O3, <- O2.
  - destruct R3 as [[R3 En]|R3]; [|by right].
    left. split; [done|]. rewrite En in P4. intros x it Hx Hst. rewrite O3 in Hx.
    destruct (Hcase x it Hx) as [?|?]; [left; exists it; split_and!; [done|done|lia]|right; by eapply P4].
Qed.

(** *** The TTR timer *)
Lemma delay_trigger_parts now x s s' : delay_trigger now x s = Some s' →
  objs s' = objs s ∧ runQ s' = runQ s ∧ delayQ s' = delayQ s ∧ ttrTime s' = ttrTime s.
Proof.
  unfold delay_trigger, delay_loop_top. intros H. destruct (objs s !! x); [|done]. cbn beta iota zeta delta [mbind option_bind] in H.
  destruct (_ <? _); [|by injection H as <-].
  destruct (arr (delayQ s)) as [|y ?]; [injection H as <-; by destruct s|].
  destruct (objs s !! y); [|done]. cbn beta iota zeta delta [mbind option_bind] in H. injection H as <-. by destruct s.
Qed.
Lemma trigger_all_trig now xs s s' : trigger_all now xs s = Some s' →
  (delayTime s' = delayTime s ∧ (∀ x it, x ∈ xs → objs s !! x = Some it → delayTime s ≤ now + idelay it) ∨ dtop s') ∧
  objs s' = objs s ∧ runQ s' = runQ s ∧ delayQ s' = delayQ s.
Proof.
  revert s. induction xs as [|x xs IH]; intros s; cbn [trigger_all].
  { intros [= <-]. split; [|done]. left. split; [done|]. by intros ? ? ?%elem_of_nil. }
  intros H. destruct (delay_trigger now x s) as [s1|] eqn:H1; [|done]. cbn beta iota zeta delta [mbind option_bind] in H.
  destruct (IH _ H) as (Ht & E1 & E2 & E3). pose proof (delay_trigger_parts _ _ _ _ H1) as (Eo & Er & Ed & _).
  split; [|split_and!; congruence]. destruct Ht as [[Ht Hm]|Ht]; [|by right].
  destruct (delay_trigger_trig _ _ _ _ H1) as [[[F1 F2]|F] _].
  - left. split; [congruence|]. intros y it [->|Hy]%elem_of_cons Hx; [apply F2; by rewrite Eo|]. rewrite <- F1. apply (Hm y it Hy). by rewrite Eo.
  - right. unfold dtop in *. by rewrite E3, E1, Ht.
Qed.
Lemma ttr_loop_tk now cb n i s dl bl rl s' l : ttr_loop now n cb i s dl bl rl = Some (s', l) → tk s s'.
Proof.
  revert i s dl bl rl. induction n as [|n IH]; intros i s dl bl rl; cbn [ttr_loop]; [by intros [= <- _]|].
  destruct (arr (runQ s)) as [|x rest]; [done|]. destruct (objs s !! x) as [it|]; [|done]. cbn beta iota zeta delta [mbind option_bind].
  destruct (releasable now it); [|by intros [= <- _]].
  destruct (cb i); intros H.
  - destruct (run_update _ _) as [s1|] eqn:E1; [|done]. cbn beta iota zeta delta [mbind option_bind] in H. apply IH in H. tkdone.
  - destruct (run_remove x s) as [s1|] eqn:E1; [|done]. cbn beta iota zeta delta [mbind option_bind] in H.
    destruct (delay_push _ _) as [s2|] eqn:E2; [|done]. apply IH in H. tkdone.
  - destruct (run_remove x s) as [s1|] eqn:E1; [|done]. cbn beta iota zeta delta [mbind option_bind] in H. apply IH in H. tkdone.
  - destruct (run_remove x s) as [s1|] eqn:E1; [|done]. cbn beta iota zeta delta [mbind option_bind] in H.
    destruct (ready_push _ _) as [s2|] eqn:E2; [|done]. apply IH in H. tkdone.
Qed.
Lemma tick_ttr_good b now cb s s' r e : Inv b s → q_tick_ttr now cb s = Some (s', r, e) → dgood s s' ∧ rgood s s'.
Proof.
  intros HI H. unfold q_tick_ttr in H.
  destruct (ttr_loop_ok b now cb (length (arr (runQ s))) 0 s [] [] [] (i_core HI))
    as (s1 & ord & E & Hc & Hr & Hnd & H1 & H2 & H3 & H4).
  { split; [|done]. apply filter_length. }
  rewrite !app_nil_l in E. rewrite E in H. cbn beta iota zeta delta [mbind option_bind] in H. apply ttr_loop_tk in E as [T1 T2].
  destruct (trigger_all _ _ s1) as [s2|] eqn:E2; [|done]. cbn beta iota zeta delta [mbind option_bind] in H.
  destruct (ttr_loop_top now s2) as [s3|] eqn:E3; [|done]. cbn beta iota zeta delta [mbind option_bind] in H. injection H as <- _ _.
  apply trigger_all_trig in E2 as (D & O2 & R2 & Q2). apply ttr_loop_top_top in E3 as (Ht & F1 & F2 & F3).
  split; [|by right]. destruct D as [[D Hm]|D]; [|right; unfold dtop in *; by rewrite F2, F1, F3].
  left. split; [congruence|]. intros x it Hx Hst. rewrite F3, O2 in Hx.
  destruct (decide (x ∈ ord)) as [Hin|Hin].
  - right. pose proof Hin as (j & Hj)%elem_of_list_lookup_1. destruct (H1 _ Hin) as (it0 & Hx0 & Hst0 & _).
    rewrite (H3 _ _ Hj), Hx0 in Hx. cbn [fmap option_fmap option_map] in Hx. injection Hx as <-.
    change (cb j) with (cb (0 + j)%nat) in *.
    assert (Hcb : cb (0 + j)%nat = ToDelay).
    { destruct (cb (0 + j)%nat); cbn in Hst; congruence. }
    rewrite Hcb in *. specialize (Hm x (ttr_apply now ToDelay it0)).
    rewrite (H3 _ _ Hj), Hx0, Hcb in Hm. specialize (Hm ltac:(apply elem_of_picks; eauto) eq_refl). cbn in Hm |- *. lia.
  - left. exists it. rewrite <- H4 by done. split_and!; [done|done|lia].
Qed.

(** ** Every call *)
Lemma err_tk s o s' r e : step s o = Some (s', r, e) → is_err r → tk s s'.
Proof.
  intros H Hr. destruct o; try exact (plain_tk s _ s' r e H I); cbn [step] in H.
  - unfold q_add in H. destruct (closed s); [by injection H as <- _ _|].
    destruct (items s !! k); [by injection H as <- _ _|]. exfalso.
    destruct (alloc_item _ _ _ _ _ _ _ _ _) as [y s0]. unfold handle_item_for_add in H.
    destruct deps; [destruct start|]; [destruct (delay =? 0)| | |]; mdest H; subst; done.
  - unfold q_add_many in H. destruct (closed s); [by injection H as <- _ _|]. exfalso. mdest H. by subst.
  - unfold q_set_delay in H. destruct (closed s); [by injection H as <- _ _|].
    destruct (items s !! k); [|by injection H as <- _ _]. exfalso. mdest H. destruct (_ =? _); [mdest H; by subst|].
    destruct (ist _); mdest H; by subst.
  - unfold q_reserve in H. destruct (_ && _); [by injection H as <- _ _|].
    destruct (ready_pop g s) as [[[y|] q]|] eqn:Hp; [| |done]; mdest H; subst; [done|tkdone].
  - unfold q_touch in H. destruct (closed s); [by injection H as <- _ _|].
    destruct (items s !! k); [|by injection H as <- _ _]. mdest H. destruct (ist _); mdest H; by subst.
  - unfold q_release in H. destruct (closed s); [by injection H as <- _ _|].
    destruct (items s !! k); [|by injection H as <- _ _]. mdest H. destruct (ist _); mdest H; try by subst.
    destruct (_ =? 0); mdest H; by subst.
  - unfold q_tick_delay in H. mdest H. by subst.
  - unfold q_tick_ttr in H. mdest H. by subst.
Qed.
Lemma updated_times now g d prio delay ttr deps it :
  let it' := updated now g d prio delay ttr deps it in
  (ist it' = SDelay → ist it = SDelay ∧ (readyAt it' = readyAt it ∨ delay ≠ idelay it ∧ readyAt it' = now + delay)) ∧
  (ist it' = SRun → ist it = SRun ∧ (releaseAt it' = releaseAt it ∨ ttr ≠ ittr it ∧ releaseAt it' = now + ttr)).
Proof.
  unfold updated. destruct (dep_part deps (it <| idata := d |>)) as [[it0 ad] fr] eqn:Hdp.
  assert (Hd : (ist it0 = SDelay ∨ ist it0 = SRun) → ist it0 = ist it ∧ readyAt it0 = readyAt it ∧ releaseAt it0 = releaseAt it ∧ idelay it0 = idelay it ∧ ittr it0 = ittr it).
  { intros Hst. unfold dep_part in Hdp. destruct deps as [ds|]; [|injection Hdp as <- _ _; by destruct it].
    destruct (dep_changed ds _); [|injection Hdp as <- _ _; by destruct it].
    apply pair_equal_spec in Hdp as [Hdp _]. apply pair_equal_spec in Hdp as [<- _].
    unfold dep_change in *. destruct it as [k0 g0 d0 st0]. cbn [ist set] in *. destruct ds; [by destruct Hst|]. destruct st0; cbn in Hst |- *; by destruct Hst. }
  unfold prop_change. cbv zeta.
  destruct (Z.eqb_spec (idelay it0) delay) as [E1|E1]; cbn [negb].
  - destruct (_ || _).
    + destruct it0; cbn in *. split; intros Hst; destruct Hd as (? & ? & ? & ? & ?); auto; subst; auto.
    + destruct (Z.eqb_spec (ittr it0) ttr) as [E2|E2]; cbn [negb].
      * split; intros Hst; destruct Hd as (? & ? & ? & ? & ?); auto; split; try congruence; left; congruence.
      * destruct it0 as [k0 g0 d0 st0]; cbn in *. split; destruct st0; intros Hst; cbn in Hst; try done;
          (destruct Hd as (? & ? & ? & ? & ?); [auto|]); cbn; (split; [congruence|]); [left; congruence|right; split; congruence].
  - destruct it0 as [k0 g0 d0 st0]; cbn in *. split; destruct st0; intros Hst; cbn in Hst; try done;
          (destruct Hd as (? & ? & ? & ? & ?); [auto|]); cbn; (split; [congruence|]); [right; split; congruence|left; congruence].
Qed.
Lemma eff_good b s o s' r e : Inv b s → eff b s o s' r e → step s o = Some (s', r, e) → postpones s o → o ≠ ODestroy →
  dgood s s' ∧ rgood s s'.
Proof.
  intros HI He Hs Hp Hd. destruct He.
  - apply good_same; [done|]. by eapply err_tk.
  - by apply good_same.
  - by apply good_same.
  - cbn [step] in Hs. apply add_times in Hs.
    assert (Hold : ∀ y it', objs s' !! y = Some it' → objs s !! y = Some it' ∨ y = nextid s ∧ it' = it).
    { rewrite H1. intros y it' [[<- <-]|[? ?]]%lookup_insert_Some; auto. }
    destruct (added_times false now k g d prio size delay ttr start deps) as (F1 & F2 & F3 & F4). rewrite <- H in *.
    assert (Hx : objs s' !! nextid s = Some it) by (by rewrite H1, lookup_insert).
    assert (Gd : dtrig now (delayTime s) (nextid s) s' ∨ delayTime s' = delayTime s ∧ ist it ≠ SDelay → dgood s s').
    { intros [[[T1 T2]|T]|[T1 T2]]; [|by right|]; left; (split; [done|]); intros y it' Hy Hst;
        (destruct (Hold y it' Hy) as [?|[-> ->]]; [left; exists it'; split_and!; [done|done|lia]|]); [|done].
      right. rewrite F3, <- F1 by done. by apply T2. }
    assert (Gr : rtrig now (ttrTime s) (nextid s) s' ∨ ttrTime s' = ttrTime s ∧ ist it ≠ SRun → rgood s s').
    { intros [[[T1 T2]|T]|[T1 T2]]; [|by right|]; left; (split; [done|]); intros y it' Hy Hst;
        (destruct (Hold y it' Hy) as [?|[-> ->]]; [left; exists it'; split_and!; [done|done|lia]|]); [|done].
      right. rewrite F4, <- F2 by done. by apply T2. }
    clear -Hs H Gd Gr. unfold added_item in H. destruct deps; [destruct start|]; [destruct (delay =? 0)| | |]; subst it; cbn in Gd, Gr; unfold tk in Hs; destruct Hs as [? ?]; (split; [apply Gd|apply Gr]); first [by left|by right].
  - by eapply add_many_good.
  - destruct (plain_tk s _ _ _ _ Hs I) as [T1 T2]. destruct (Hp x it ltac:(done)) as [P1 P2].
    destruct (updated_times now g d prio delay ttr deps it) as [U1 U2].
    split; left; (split; [done|]); rewrite H4; intros y it'; intros [[<- <-]|[? ?]]%lookup_insert_Some Hst.
    + left. destruct (U1 Hst) as [Hst' Hc]. exists it. split_and!; try done. destruct Hc as [->|[? ->]]; [lia|]. by apply P1.
    + left. exists it'. split_and!; try done; lia.
    + left. destruct (U2 Hst) as [Hst' Hc]. exists it. split_and!; try done. destruct Hc as [->|[? ->]]; [lia|]. by apply P2.
    + left. exists it'. split_and!; try done; lia.
  - destruct (plain_tk s _ _ _ _ Hs I) as [T1 T2].
    assert (Hr : ∀ it, ist (rekey old new it) = ist it ∧ readyAt (rekey old new it) = readyAt it ∧ releaseAt (rekey old new it) = releaseAt it).
    { intros it. unfold rekey, changed_key. repeat case_decide; by destruct it. }
    split; left; (split; [done|]); rewrite H1; intros y it'; rewrite lookup_fmap, fmap_Some; intros (it & Hy & ->);
      destruct (Hr it) as (E1 & E2 & E3); rewrite ?E1, ?E2, ?E3; intros Hst; left; exists it; split_and!; try done; lia.
  - cbn [step] in Hs. destruct (set_delay_times _ _ _ _ _ _ _ _ Hs H H0) as [Td Tr]. split.
    + destruct (bool_decide_reflect (ist it = SDelay)) as [Hst|Hst]; [destruct (Z.eqb_spec (idelay it) delay) as [Hdl|Hdl]|]; cbn [andb negb] in Td.
      * eapply dgood_alter; [done|]. right. split; [done|]. intros it0 Hx0 Hs0. simplify_eq. rewrite Z.eqb_refl in *. left. split; [done|lia].
      * eapply dtrig_alter; [done|done|]. intros it0 Hx0. simplify_eq. apply Z.eqb_neq in Hdl. by rewrite Hdl, Hst.
      * eapply dgood_alter; [done|]. right. split; [done|]. intros it0 Hx0 Hs0. simplify_eq. exfalso.
        destruct (_ =? _); [done|]. destruct it as [k0 g0 d0 st0]. cbn in Hs0, Hst. by destruct st0.
    + eapply rgood_alter; [done|]. right. split; [done|]. intros it0 Hx0 Hs0. simplify_eq. left.
      destruct (_ =? _); [split; [done|lia]|]. destruct it as [k0 g0 d0 st0]. cbn in Hs0 |- *. by destruct st0.
  - destruct (plain_tk s _ _ _ _ Hs I) as [T1 T2].
    split; [eapply dgood_alter|eapply rgood_alter]; try done; right; (split; [done|]); intros it0 Hx0 Hst; destruct it0; cbn in *; left; (split; [done|lia]).
  - cbn [step] in Hs. destruct (reserve_times _ _ _ _ _ _ _ Hs) as [Tr Td]. split.
    + eapply dgood_alter; [done|]. right. split; [done|]. intros it0 Hx0 Hst. exfalso. by destruct it0.
    + eapply rtrig_alter; [done|done|]. intros it0 Hx0 Hst. by destruct it0.
  - cbn [step] in Hs. destruct (touch_times _ _ _ _ _ _ Hs H) as [Tr Td]. split.
    + eapply dgood_alter; [done|]. right. split; [done|]. intros it0 Hx0 Hst. destruct it0; cbn in *. left. split; [done|lia].
    + eapply rtrig_alter; [done|done|]. intros it0 Hx0 Hst. by destruct it0.
  - cbn [step] in Hs. destruct (release_times _ _ _ _ _ _ _ Hs H H0) as [Td Tr]. split.
    + destruct (idelay it =? 0) eqn:Hdl.
      * eapply dgood_alter; [done|]. right. split; [done|]. intros it0 Hx0. simplify_eq. rewrite Hdl. intros Hst. exfalso. by destruct it.
      * eapply dtrig_alter; [done|done|]. intros it0 Hx0. simplify_eq. rewrite Hdl. by destruct it.
    + eapply rgood_alter; [done|]. right. split; [done|]. intros it0 Hx0. simplify_eq. intros Hst. exfalso.
      destruct (idelay it =? 0); by destruct it.
  - destruct (plain_tk s _ _ _ _ Hs I) as [T1 T2].
    split; [eapply dgood_alter|eapply rgood_alter]; try done; right; (split; [done|]); intros it0 Hx0 Hst; exfalso; by destruct it0.
  - destruct (plain_tk s _ _ _ _ Hs I) as [T1 T2].
    split; [eapply dgood_alter|eapply rgood_alter]; try done; right; (split; [done|]); intros it0 Hx0 Hst; exfalso; destruct (item_has_deps x s); by destruct it0.
  - destruct (plain_tk s _ _ _ _ Hs I) as [T1 T2].
    assert (Hr : ∀ y it0, objs s' !! y = Some it0 → (ist it0 = SDelay ∨ ist it0 = SRun) →
      ∃ it1, objs s !! y = Some it1 ∧ ist it1 = ist it0 ∧ readyAt it1 = readyAt it0 ∧ releaseAt it1 = releaseAt it0).
    { rewrite H5. intros y it0. rewrite lookup_alter_Some. intros [(<- & it1 & _ & ->)|[_ Hy]] Hst; [by destruct it1, Hst|].
      rewrite resolve_all_lookup in Hy. case_decide; [|by eauto]. apply fmap_Some in Hy as (it1 & Hy & ->). exists it1. split; [done|].
      rewrite resolve_cases in Hst |- *. case_decide; [by destruct it1, Hst|]. by destruct it1. }
    split; left; (split; [done|]); intros y it0 Hy Hst; (destruct (Hr y it0 Hy) as (it1 & ? & ? & ? & ?); [auto|]); left; exists it1; split_and!; [done|congruence|lia|done|congruence|lia].
  - done.
  - cbn [step] in Hs. apply tick_delay_times in Hs as [Td Tr]. split; [by right|].
    left. split; [done|]. intros y it'. rewrite H2. case_decide; [|intros Hy Hst; left; exists it'; split_and!; [done|done|lia]].
    rewrite fmap_Some. intros (it & Hy & ->) Hst. exfalso. by destruct it.
  - by eapply tick_ttr_good.
Qed.

(** ** Histories *)
Definition timely (s : qstate) : Prop :=
  ∀ x it, objs s !! x = Some it →
    (ist it = SDelay → delayTime s ≤ readyAt it) ∧ (ist it = SRun → ttrTime s ≤ releaseAt it).
Lemma good_timely b s s' : Inv b s' → timely s → dgood s s' → rgood s s' → timely s'.
Proof.
  intros HI Ht Hd Hr x it Hx. split; intros Hst.
  - destruct Hd as [[E Hd]|Hd]; [|by eapply dtop_min]. rewrite E.
    destruct (Hd x it Hx Hst) as [(it0 & Hx0 & Hst0 & Hle)|?]; [|done]. pose proof (proj1 (Ht x it0 Hx0) Hst0). lia.
  - destruct Hr as [[E Hr]|Hr]; [|by eapply rtop_min]. rewrite E.
    destruct (Hr x it Hx Hst) as [(it0 & Hx0 & Hst0 & Hle)|?]; [|done]. pose proof (proj2 (Ht x it0 Hx0) Hst0). lia.
Qed.
Lemma run_timely ops s s' l : Inv false s ∧ timely s ∨ Dead s → always timed_safely s ops → run s ops = Some (s', l) →
  Inv false s' ∧ timely s' ∨ Dead s'.
Proof.
  revert s l. induction ops as [|o ops IH]; intros s l HI Ha; cbn [run]; [by intros [= <- <-]|].
  cbn [always] in Ha. destruct Ha as [[Hc Hp] Ha]. destruct (step s o) as [[[s1 r] e]|] eqn:Hs; [|done].
  cbn beta iota zeta delta [mbind option_bind]. intros H. destruct (run s1 ops) as [[s2 l2]|] eqn:Hr; [|done].
  cbn beta iota zeta delta [mbind option_bind] in H. injection H as <- <-.
  refine (IH _ _ _ Ha Hr). destruct HI as [[HI Ht]|HD].
  - destruct (step_eff _ _ _ _ _ _ HI (good_false _ _ Hc) Hs) as [He [HI1|[_ HD]]]; [|by right].
    left. split; [done|]. assert (o = ODestroy ∨ o ≠ ODestroy) as [->|Hne] by (destruct o; auto).
    + cbn [step] in Hs. unfold q_destroy in Hs. rewrite (i_open HI) in Hs. injection Hs as <- _ _.
      exfalso. pose proof (i_open HI1). done.
    + destruct (eff_good _ _ _ _ _ _ HI He Hs Hp Hne) as [? ?]. by eapply good_timely.
  - right. destruct (dead_step s o HD) as (s3 & Hs3 & HD3 & _). rewrite Hs in Hs3. by injection Hs3 as <- _ _.
Qed.
Lemma timers_ok t ops s k x it T : history t ops s → always timed_safely (q_new t) ops →
  named s k x it → due_at it = Some T → wakes_at s (ist it) ≤ T.
Proof.
  intros [out Hr] Ha [Hk Hx] Hd. apply run_timely in Hr as [[_ Ht]|HD]; [| |by left; split; [apply inv_new|]|done].
  - destruct (Ht x it Hx) as [H1 H2]. unfold due_at, wakes_at in *. destruct (ist it); try done; injection Hd as <-; auto.
  - by rewrite (dd_items _ HD) in Hk.
Qed.
