(** What no operation touches, whatever state the queue is in: proved by
    following the code, without the invariant. *)
From Coq Require Import ZArith Lia String.
From stdpp Require Import base option strings gmap list.
From RecordUpdate Require Import RecordSet.
From Verif Require Import GoHeap QueueModel.
Import RecordSetNotations.
Open Scope Z_scope.

Definition same (s s' : qstate) : Prop :=
  objs s' = objs s ∧ items s' = items s ∧ dependants s' = dependants s ∧
  nextid s' = nextid s ∧ closed s' = closed s.
Lemma same_refl s : same s s.
Proof. by split_and!. Qed.
Lemma same_trans s1 s2 s3 : same s1 s2 → same s2 s3 → same s1 s3.
Proof. unfold same. naive_solver congruence. Qed.

Ltac mdest H :=
  repeat first
    [ progress cbn beta iota zeta delta [mbind option_bind] in H
    | match type of H with
      | Some _ = Some _ => injection H as H
      | None = Some _ => discriminate H
      | (?x ≫= _) = Some _ => destruct x eqn:?
      | context [match ?x with Some _ => _ | None => _ end] => destruct x eqn:?
      | context [match ?x with (_, _) => _ end] => is_var x; destruct x
      | context [match ?x with (_, _) => _ end] => destruct x eqn:?
      end ].

Lemma delay_push_same x s s' : delay_push x s = Some s' → same s s'.
Proof. unfold delay_push. intros H. mdest H. subst. by split_and!. Qed.
Lemma delay_remove_same x s s' : delay_remove x s = Some s' → same s s'.
Proof. unfold delay_remove. intros H. mdest H. subst. by split_and!. Qed.
Lemma delay_update_same x s s' : delay_update x s = Some s' → same s s'.
Proof. unfold delay_update. intros H. mdest H. subst. by split_and!. Qed.
Lemma run_push_same x s s' : run_push x s = Some s' → same s s'.
Proof. unfold run_push. intros H. mdest H. subst. by split_and!. Qed.
Lemma run_remove_same x s s' : run_remove x s = Some s' → same s s'.
Proof. unfold run_remove. intros H. mdest H. subst. by split_and!. Qed.
Lemma run_update_same x s s' : run_update x s = Some s' → same s s'.
Proof. unfold run_update. intros H. mdest H. subst. by split_and!. Qed.
Lemma bury_remove_same x s s' : bury_remove x s = Some s' → same s s'.
Proof. unfold bury_remove. intros H. mdest H. subst. by split_and!. Qed.
Lemma dep_remove_same x s s' : dep_remove x s = Some s' → same s s'.
Proof. unfold dep_remove. intros H. mdest H. subst. by split_and!. Qed.
Lemma rheap_push_same x s s' : rheap_push x s = Some s' → same s s'.
Proof. unfold rheap_push. intros H. mdest H. subst. by split_and!. Qed.
Lemma rheap_remove_same x s s' : rheap_remove x s = Some s' → same s s'.
Proof. unfold rheap_remove. intros H. mdest H; subst; by split_and!. Qed.
Lemma rheap_fix_same x s s' : rheap_fix x s = Some s' → same s s'.
Proof. unfold rheap_fix. intros H. mdest H; subst; by split_and!. Qed.
Lemma set_rlast_same g s : same s (set_rlast g s).
Proof. by split_and!. Qed.
Lemma ready_push_same x s s' : ready_push x s = Some s' → same s s'.
Proof.
  unfold ready_push. intros H. mdest H. eapply same_trans; [apply set_rlast_same|by eapply rheap_push_same].
Qed.
Lemma ready_remove_same x s s' : ready_remove x s = Some s' → same s s'.
Proof.
  unfold ready_remove. intros H. mdest H. eapply same_trans; [apply set_rlast_same|by eapply rheap_remove_same].
Qed.
Lemma ready_update_same x g s s' : ready_update x g s = Some s' → same s s'.
Proof.
  unfold ready_update. intros H. mdest H. case_decide; [by eapply rheap_fix_same|]. mdest H.
  eapply same_trans; [apply set_rlast_same|]. eapply same_trans; [by eapply rheap_remove_same|].
  eapply same_trans; [apply set_rlast_same|]. by eapply rheap_push_same.
Qed.
Lemma ready_pop_same g s o s' : ready_pop g s = Some (o, s') → same s s'.
Proof.
  unfold ready_pop. intros H. destruct (rgroups (readyQ s) !! g) as [l|]; [|mdest H; by subst].
  destruct l; mdest H; subst; by split_and!.
Qed.
Lemma delay_loop_top_same now s s' : delay_loop_top now s = Some s' → same s s'.
Proof. unfold delay_loop_top. intros H. destruct (arr (delayQ s)); mdest H; subst; by split_and!. Qed.
Lemma ttr_loop_top_same now s s' : ttr_loop_top now s = Some s' → same s s'.
Proof. unfold ttr_loop_top. intros H. destruct (arr (runQ s)); mdest H; subst; by split_and!. Qed.
Lemma delay_trigger_same now x s s' : delay_trigger now x s = Some s' → same s s'.
Proof.
  unfold delay_trigger. intros H. mdest H. destruct (_ <? _); [by eapply delay_loop_top_same|].
  mdest H. subst. apply same_refl.
Qed.
Lemma ttr_trigger_same now x s s' : ttr_trigger now x s = Some s' → same s s'.
Proof.
  unfold ttr_trigger. intros H. mdest H. destruct (_ <? _); [by eapply ttr_loop_top_same|].
  mdest H. subst. apply same_refl.
Qed.
Lemma trig_opt_same f o s s' : (∀ x s s', f x s = Some s' → same s s') → trig_opt f o s = Some s' → same s s'.
Proof. intros Hf. destruct o; simpl; [apply Hf|]. intros [= <-]. apply same_refl. Qed.
Lemma trigger_all_same now xs s s' : trigger_all now xs s = Some s' → same s s'.
Proof.
  revert s. induction xs as [|x xs IH]; intros s; simpl.
  - intros [= <-]. apply same_refl.
  - intros H. mdest H. eapply same_trans; [by eapply delay_trigger_same|by eapply IH].
Qed.

Section keeps.
Context {A : Type} (P : item → A).
(** keys, flags, and [P] of every object *)
Definition keeps (s s' : qstate) : Prop :=
  items s' = items s ∧ nextid s' = nextid s ∧ closed s' = closed s ∧
  ∀ x, P <$> objs s' !! x = P <$> objs s !! x.
Lemma keeps_refl s : keeps s s.
Proof. by split_and!. Qed.
Lemma keeps_trans s1 s2 s3 : keeps s1 s2 → keeps s2 s3 → keeps s1 s3.
Proof. intros (?&?&?&Ha) (?&?&?&Hb). split_and!; [congruence..|]. intros x. by rewrite Hb, Ha. Qed.
Lemma same_keeps s s' : same s s' → keeps s s'.
Proof. intros (Ho&?&?&?&?). split_and!; try done. intros x. by rewrite Ho. Qed.
Lemma keeps_mod f x s : (∀ it, P (f it) = P it) → keeps s (mod_obj f x s).
Proof.
  intros Hf. split_and!; try done. intros y. simpl. destruct (decide (y = x)) as [->|Hne].
  - rewrite lookup_alter. destruct (objs s !! x); simpl; [by rewrite Hf|done].
  - by rewrite lookup_alter_ne.
Qed.
End keeps.

(** what stays with an item through every move between sub-queues *)
Definition props (it : item) : key * group * N * N * N * Z * Z * Z :=
  (ikey it, igroup it, idata it, iprio it, isize it, idelay it, ittr it, creation it).
(** [P] reads only those *)
Definition reads_props {A} (P : item → A) : Prop := ∀ a b, props a = props b → P a = P b.
Lemma reads_data : reads_props idata.
Proof. intros a b. unfold props. naive_solver. Qed.
Lemma reads_all : reads_props props.
Proof. by intros a b. Qed.

(** chain of state changes: [keep H] uses the hypothesis about the next one *)
Ltac prim :=
  first [ by eapply delay_push_same | by eapply delay_remove_same | by eapply delay_update_same
        | by eapply run_push_same | by eapply run_remove_same | by eapply run_update_same
        | by eapply bury_remove_same | by eapply dep_remove_same | by eapply ready_push_same
        | by eapply ready_remove_same | by eapply ready_update_same | by eapply ready_pop_same
        | by eapply delay_loop_top_same | by eapply ttr_loop_top_same | by eapply delay_trigger_same
        | by eapply ttr_trigger_same | by eapply trigger_all_same
        | by eapply trig_opt_same; [|eassumption]; intros; eapply delay_trigger_same
        | by eapply trig_opt_same; [|eassumption]; intros; eapply ttr_trigger_same ].

Lemma set_queue_deps_keeps {A} (P : item → A) x s s' : set_queue_deps x s = Some s' → keeps P s s'.
Proof. unfold set_queue_deps. intros H. mdest H. subst. by split_and!. Qed.
Lemma drop_dependant_keeps {A} (P : item → A) k s d : keeps P s (drop_dependant k s d).
Proof. unfold drop_dependant. destruct (items s !! d); by split_and!. Qed.
Lemma drop_dependants_keeps {A} (P : item → A) k l s : keeps P s (fold_left (drop_dependant k) l s).
Proof.
  revert s. induction l as [|d l IH]; intros s; simpl; [apply keeps_refl|].
  eapply keeps_trans; [apply drop_dependant_keeps|apply IH].
Qed.

Section props.
Context {A : Type} (P : item → A) (HP : reads_props P).
Lemma keeps_clr_delay x s : keeps P s (clr_delay x s).
Proof using. by split_and!. Qed.
Lemma keeps_clr_ready x s : keeps P s (clr_ready x s).
Proof using. by split_and!. Qed.
Lemma keeps_clr_run x s : keeps P s (clr_run x s).
Proof using. by split_and!. Qed.
Lemma keeps_clr_bury x s : keeps P s (clr_bury x s).
Proof using. by split_and!. Qed.
Lemma keeps_clr_dep x s : keeps P s (clr_dep x s).
Proof using. by split_and!. Qed.
Lemma keeps_dep_push x s : keeps P s (dep_push x s).
Proof using. by split_and!. Qed.
Lemma keeps_bury_push x s : keeps P s (bury_push x s).
Proof using. by split_and!. Qed.

Ltac mods := apply keeps_mod; intros; apply HP; unfold switch_run_delay, switch_run_bury; by repeat match goal with |- context [if ?b then _ else _] => destruct b end.
Ltac chain :=
  repeat first
    [ apply keeps_refl
    | match goal with
      | |- keeps _ _ (clr_delay _ _) => eapply keeps_trans; [|apply keeps_clr_delay]
      | |- keeps _ _ (clr_ready _ _) => eapply keeps_trans; [|apply keeps_clr_ready]
      | |- keeps _ _ (clr_run _ _) => eapply keeps_trans; [|apply keeps_clr_run]
      | |- keeps _ _ (clr_bury _ _) => eapply keeps_trans; [|apply keeps_clr_bury]
      | |- keeps _ _ (clr_dep _ _) => eapply keeps_trans; [|apply keeps_clr_dep]
      | |- keeps _ _ (dep_push _ _) => eapply keeps_trans; [|apply keeps_dep_push]
      | |- keeps _ _ (bury_push _ _) => eapply keeps_trans; [|apply keeps_bury_push]
      | |- keeps _ _ (mod_obj _ _ _) => eapply keeps_trans; [|mods]
      end
    | assumption
    | match goal with
      | H : set_queue_deps _ _ = Some ?s' |- keeps _ _ ?s' => eapply keeps_trans; [|by eapply set_queue_deps_keeps]
      | H : _ = Some ?s' |- keeps _ _ ?s' => eapply keeps_trans; [|apply same_keeps; prim]
      | H : _ = Some (_, ?s') |- keeps _ _ ?s' => eapply keeps_trans; [|apply same_keeps; prim]
      end ].

Lemma set_item_dependencies_keeps x deps s s' :
  set_item_dependencies x deps s = Some s' → keeps P s s'.
Proof using HP. unfold set_item_dependencies. intros H. mdest H. subst. chain. Qed.

Lemma handle_item_keeps now x start delay deps s s' r e :
  handle_item_for_add now x start delay deps s = Some (s', r, e) → keeps P s s' ∧ r = RItem x.
Proof using HP.
  unfold handle_item_for_add. destruct deps; [destruct start; [destruct (delay =? 0)| |]|];
    intros H; mdest H; simplify_eq; (split; [|done]); chain.
  by eapply set_item_dependencies_keeps.
Qed.

Lemma release_keeps now k s s' r e : q_release now k s = Some (s', r, e) → keeps P s s'.
Proof using HP.
  unfold q_release. destruct (closed s); [intros H; mdest H; simplify_eq; chain|].
  destruct (items s !! k) as [x|]; [|intros H; mdest H; simplify_eq; chain].
  intros H. mdest H. destruct (ist i); try (mdest H; simplify_eq; by chain).
  mdest H. destruct (idelay i =? 0); mdest H; simplify_eq; chain.
Qed.
Lemma touch_keeps now k s s' r e : q_touch now k s = Some (s', r, e) → keeps P s s'.
Proof using HP.
  unfold q_touch. destruct (closed s); [intros H; mdest H; simplify_eq; chain|].
  destruct (items s !! k) as [x|]; [|intros H; mdest H; simplify_eq; chain].
  intros H. mdest H. destruct (ist i); mdest H; simplify_eq; chain.
Qed.
Lemma bury_keeps k s s' r e : q_bury k s = Some (s', r, e) → keeps P s s'.
Proof using HP.
  unfold q_bury. destruct (closed s); [intros H; mdest H; simplify_eq; chain|].
  destruct (items s !! k) as [x|]; [|intros H; mdest H; simplify_eq; chain].
  intros H. mdest H. destruct (ist i); mdest H; simplify_eq; chain.
Qed.
Lemma kick_keeps k s s' r e : q_kick k s = Some (s', r, e) → keeps P s s'.
Proof using HP.
  unfold q_kick. destruct (closed s); [intros H; mdest H; simplify_eq; chain|].
  destruct (items s !! k) as [x|]; [|intros H; mdest H; simplify_eq; chain].
  intros H. mdest H. destruct (ist i); try (mdest H; simplify_eq; by chain).
  mdest H. destruct (item_has_deps x _); mdest H; simplify_eq; chain.
Qed.
Lemma reserve_keeps now g retry s s' r e : q_reserve now g retry s = Some (s', r, e) → keeps P s s'.
Proof using HP.
  unfold q_reserve. destruct (closed s && negb retry); [intros H; mdest H; simplify_eq; chain|].
  intros H. mdest H; simplify_eq; chain.
Qed.

Lemma resolve_fold_keeps k l s added s' added' :
  fold_left (resolve_one k) l (Some (s, added)) = Some (s', added') → keeps P s s'.
Proof using HP.
  assert (Hnone : ∀ l, fold_left (resolve_one k) l None = None) by (by induction l0).
  revert s added. induction l as [|x l IH]; intros s added; cbn [fold_left].
  { intros [= <- <-]. apply keeps_refl. }
  destruct (resolve_one k (Some (s, added)) x) as [[s1 a1]|] eqn:E; [|by rewrite Hnone].
  intros H. eapply keeps_trans; [|by eapply IH]. unfold resolve_one in E. mdest E.
  destruct (bool_decide _ && bool_decide _); mdest E; simplify_eq; chain.
Qed.

Lemma remove_keeps k ord s s' e : q_remove k ord s = Some (s', ROk, e) →
  ∃ x s1, items s !! k = Some x ∧ closed s = false ∧ keeps P s s1 ∧ items s' = delete k (items s) ∧
    keeps P (s1 <| items ::= delete k |>) s'.
Proof using HP.
  unfold q_remove. destruct (closed s); [done|]. destruct (items s !! k) as [x|]; [|done].
  intros H. mdest H. simplify_eq.
  match goal with H : remove_from_sub _ _ ?s2 = Some (?s3, _) |- _ =>
    assert (Hs : same s2 s3) by (unfold remove_from_sub in H; destruct (ist i); mdest H; simplify_eq; try prim; apply same_refl) end.
  assert (Hk : keeps P s q).
  { match goal with H : match dependants s !! k with _ => _ end = _ |- _ => rename H into Hd end.
    destruct (dependants s !! k) as [m|]; mdest Hd; simplify_eq; [|apply keeps_refl].
    eapply keeps_trans; [by eapply resolve_fold_keeps|]. by split_and!. }
  exists x, q. split_and!; try done.
  - destruct Hs as (_ & Hi & _). simpl in *. rewrite Hi. by destruct Hk as (-> & _).
  - chain. apply (same_keeps P) in Hs. destruct Hs as (?&?&?&?). by split_and!.
Qed.

Lemma delay_loop_keeps now n s moved s' moved' :
  delay_loop now n s moved = Some (s', moved') → keeps P s s'.
Proof using HP.
  revert s moved. induction n as [|n IH]; intros s moved; simpl.
  { intros [= <- <-]. apply keeps_refl. }
  destruct (arr (delayQ s)) as [|x l]; [done|]. intros H. mdest H.
  destruct (isready now i); mdest H; simplify_eq; [|apply keeps_refl].
  apply IH in H. eapply keeps_trans; [|exact H]. chain.
Qed.
Lemma ttr_loop_keeps now n cb i s dl bl rl s' l :
  ttr_loop now n cb i s dl bl rl = Some (s', l) → keeps P s s'.
Proof using HP.
  revert i s dl bl rl. induction n as [|n IH]; intros i s dl bl rl; simpl.
  { intros [= <- <-]. apply keeps_refl. }
  destruct (arr (runQ s)) as [|x l']; [done|]. intros H. mdest H.
  destruct (releasable now i0); [|mdest H; simplify_eq; apply keeps_refl].
  destruct (cb i); mdest H; simplify_eq; apply IH in H; (eapply keeps_trans; [|exact H]); chain.
Qed.
Lemma tick_delay_keeps now s s' r e : q_tick_delay now s = Some (s', r, e) → keeps P s s'.
Proof using HP.
  unfold q_tick_delay. intros H. mdest H. simplify_eq.
  eapply keeps_trans; [by eapply delay_loop_keeps|]. apply same_keeps. prim.
Qed.
Lemma tick_ttr_keeps now cb s s' r e : q_tick_ttr now cb s = Some (s', r, e) → keeps P s s'.
Proof using HP.
  unfold q_tick_ttr. intros H. mdest H. simplify_eq.
  eapply keeps_trans; [by eapply ttr_loop_keeps|]. eapply keeps_trans; apply same_keeps; prim.
Qed.

Lemma update_deps_keeps k x deps s s' a f :
  update_deps k x deps s = Some (s', a, f) → keeps P s s'.
Proof using HP.
  unfold update_deps. intros H. mdest H.
  destruct (bool_decide _ && _); [mdest H; simplify_eq; apply keeps_refl|].
  mdest H.
  match goal with E : set_queue_deps x ?sa = Some ?sb |- _ =>
    assert (Hk : keeps P s sb) by (eapply keeps_trans; [|by eapply set_queue_deps_keeps];
       eapply keeps_trans; [apply drop_dependants_keeps|mods]) end.
  eapply keeps_trans; [exact Hk|].
  destruct deps; [mdest H; simplify_eq; chain|].
  destruct (ist i); mdest H; simplify_eq; chain.
Qed.
End props.
