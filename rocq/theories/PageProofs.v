(** Proofs about the counts of the status web page. *)
From Coq Require Import ZArith Lia String Ascii.
From stdpp Require Import base option strings gmap list.
From Verif Require Import GoHeap QueueModel QueueSpec PageModel PageSpec.
Local Open Scope Z_scope.

Lemma queued_from st : queued_state st ↔ st ∈ from_states.
Proof. unfold queued_state, from_states. rewrite !elem_of_cons, elem_of_nil. tauto. Qed.
Lemma queued_has g st : queued_state st → has_to g st = true.
Proof. intros H%queued_from. unfold has_to. by rewrite bool_decide_true. Qed.
Lemma risen_app g st ms1 ms2 : risen g st (ms1 ++ ms2) = risen g st ms1 + risen g st ms2.
Proof. induction ms1 as [|m ms1 IH]; cbn [risen app]; [done|]. lia. Qed.
Lemma risen_perm g st ms1 ms2 : ms1 ≡ₚ ms2 → risen g st ms1 = risen g st ms2.
Proof. induction 1; cbn [risen]; lia. Qed.

(** ** One count of the page *)
Definition cnt (p : page) (k : string * string) : Z := default 0 (p_count p !! k).
Definition ign (p : page) (k : string * string) : Z := default 0 (p_ignore p !! k).
(** what a message does to a count and what is ignored of it *)
Definition cell (st : string) (m : message) (n i : Z) : Z * Z :=
  if decide (m_to m = st) then if (m_count m <=? i) && (0 <? i) then (n, i - m_count m) else (n + m_count m, i)
  else if decide (m_from m = st) then if 0 <=? n - m_count m then (n - m_count m, i) else (0, i + m_count m)
  else (n, i).
Definition pos_ign (p : page) : Prop := ∀ k x, p_ignore p !! k = Some x → 0 < x.
Lemma ignoring_spec p m b i : pos_ign p → 0 ≤ m_count m → ignoring p m = (b, i) →
  b = (m_count m <=? ign p (m_group m, m_to m)) && (0 <? ign p (m_group m, m_to m)) ∧
  (∀ k x, i !! k = Some x → 0 < x) ∧
  ∀ k, default 0 (i !! k) = if decide (k = (m_group m, m_to m)) then if b then ign p k - m_count m else ign p k else ign p k.
Proof.
  intros Hp Hc. unfold ignoring, ign. set (t := (m_group m, m_to m)).
  destruct (p_ignore p !! t) as [n|] eqn:E; cbn [default from_option]; unfold id.
  - specialize (Hp t n E) as Hn. destruct (Z.leb_spec (m_count m) n) as [Hle|Hlt].
    + intros [= <- <-]. rewrite (proj2 (Z.ltb_lt 0 n)) by done. split; [done|].
      destruct (Z.eqb_spec (n - m_count m) 0) as [Hz|Hz]; split.
      * intros k x [_ H]%lookup_delete_Some. by apply (Hp k).
      * intros k. destruct (decide (k = t)) as [->|Hk]; [rewrite lookup_delete, E; cbn; unfold id; lia|by rewrite lookup_delete_ne].
      * intros k x [[<- <-]|[_ H]]%lookup_insert_Some; [lia|by apply (Hp k)].
      * intros k. destruct (decide (k = t)) as [->|Hk]; [by rewrite lookup_insert, E|by rewrite lookup_insert_ne].
    + intros [= <- <-]. split; [done|]. split; [done|]. intros k. by destruct (decide (k = t)).
  - intros [= <- <-]. split; [by rewrite andb_comm|]. split; [done|]. intros k. by destruct (decide (k = t)).
Qed.
Definition page_ok (p : page) : Prop := pos_ign p ∧ ∀ k, 0 ≤ cnt p k.
Lemma handle_cell p m : page_ok p → 0 ≤ m_count m → m_from m ≠ m_to m →
  page_ok (handle p m) ∧
  ∀ g st, queued_state st →
    (cnt (handle p m) (g, st), ign (handle p m) (g, st)) =
      if decide (m_group m = g) then cell st m (cnt p (g, st)) (ign p (g, st)) else (cnt p (g, st), ign p (g, st)).
Proof.
  intros [Hp Hn] Hc Hne. unfold handle. set (f := (m_group m, m_from m)). set (t := (m_group m, m_to m)).
  assert (Hft : f ≠ t) by (unfold f, t; congruence).
  destruct (ignoring p m) as [b i] eqn:Ei. destruct (ignoring_spec p m b i Hp Hc Ei) as (Hb & Hpos & Hi). fold t in Hb, Hi.
  set (ci := if bool_decide (m_from m ∈ from_states) then _ else _).
  assert (Hci : (∀ k x, ci.2 !! k = Some x → 0 < x) ∧ (∀ k, 0 ≤ default 0 (ci.1 !! k)) ∧
    ∀ k, (default 0 (ci.1 !! k), default 0 (ci.2 !! k)) =
      if decide (k = f ∧ m_from m ∈ from_states) then
        if 0 <=? cnt p f - m_count m then (cnt p f - m_count m, default 0 (i !! k)) else (0, default 0 (i !! k) + m_count m)
      else (cnt p k, default 0 (i !! k))).
  { specialize (Hn f) as Hnf. unfold ci. destruct (bool_decide_reflect (m_from m ∈ from_states)) as [Hf|Hf].
    - fold (cnt p f). destruct (Z.leb_spec 0 (cnt p f - m_count m)) as [Hle|Hlt]; cbn [fst snd].
      + split; [done|]. split.
        * intros k. destruct (decide (k = f)) as [->|Hk]; [by rewrite lookup_insert|rewrite lookup_insert_ne by done; apply Hn].
        * intros k. destruct (decide (k = f ∧ _)) as [[-> _]|Hk]; [by rewrite lookup_insert|]. rewrite lookup_insert_ne; [done|]. intros <-. by apply Hk.
      + split; [|split].
        * intros k x [[<- <-]|[_ H]]%lookup_insert_Some; [|by apply (Hpos k)].
          destruct (i !! f) as [y|] eqn:Ey; cbn; unfold id; [specialize (Hpos f y Ey)|]; lia.
        * intros k. destruct (decide (k = f)) as [->|Hk]; [by rewrite lookup_insert|rewrite lookup_insert_ne by done; apply Hn].
        * intros k. destruct (decide (k = f ∧ _)) as [[-> _]|Hk]; [by rewrite !lookup_insert|].
          assert (f ≠ k) by (intros <-; by apply Hk). by rewrite !lookup_insert_ne.
    - split; [done|]. split; [apply Hn|]. intros k. destruct (decide (k = f ∧ _)) as [[_ ?]|_]; done. }
  destruct ci as [c i']. cbn [fst snd] in Hci. destruct Hci as (H1 & H2 & H3). split; [split|].
  - exact H1.
  - intros k. unfold cnt. cbn [p_count]. destruct (negb b && has_to (m_group m) (m_to m)); [|apply H2].
    destruct (decide (k = t)) as [->|Hk]; [rewrite lookup_insert; specialize (H2 t); cbn [default from_option]; unfold id at 1; lia|by rewrite lookup_insert_ne].
  - intros g st Hst. unfold cnt at 1, ign at 1. cbn [p_count p_ignore]. specialize (H3 (g, st)) as H4. specialize (Hi (g, st)) as Hi1.
    destruct (decide (m_group m = g)) as [Hg|Hg].
    + unfold cell. destruct (decide (m_to m = st)) as [Ht|Ht].
      * assert (E : (g, st) = t) by (unfold t; congruence). rewrite E in H4, Hi1 |- *. rewrite decide_True in Hi1 by done.
        rewrite decide_False in H4 by (intros [? _]; congruence). injection H4 as H5 H6. rewrite H6, Hi1, Hb.
        rewrite (queued_has (m_group m) (m_to m)) by (by rewrite Ht). rewrite andb_true_r.
        destruct ((m_count m <=? ign p t) && (0 <? ign p t)); cbn [negb]; [by rewrite H5|]. by rewrite lookup_insert, H5.
      * assert (E : t ≠ (g, st)) by (unfold t; congruence). rewrite decide_False in Hi1 by congruence.
        replace (default 0 ((if negb b && has_to (m_group m) (m_to m) then <[t:=default 0 (c !! t) + m_count m]> c else c) !! (g, st)))
          with (default 0 (c !! (g, st))) by (destruct (negb b && _); [by rewrite lookup_insert_ne|done]).
        rewrite H4, Hi1. destruct (decide (m_from m = st)) as [Hf|Hf].
        -- assert (Ef : (g, st) = f) by (unfold f; congruence). rewrite Ef. rewrite decide_True; [done|]. split; [done|]. apply queued_from. by rewrite Hf.
        -- rewrite decide_False; [done|]. intros [? _]. unfold f in *. congruence.
    + assert (E : t ≠ (g, st)) by (unfold t; congruence). rewrite decide_False in Hi1 by congruence.
      replace (default 0 ((if negb b && has_to (m_group m) (m_to m) then <[t:=default 0 (c !! t) + m_count m]> c else c) !! (g, st)))
        with (default 0 (c !! (g, st))) by (destruct (negb b && _); [by rewrite lookup_insert_ne|done]).
      rewrite H4, Hi1. rewrite decide_False; [done|]. intros [? _]. unfold f in *. congruence.
Qed.

(** ** Messages of single jobs, in any order *)
Definition sane (m : message) : Prop := 0 ≤ m_count m ∧ m_from m ≠ m_to m.
Definition balanced (p : page) (ms : list message) : Prop := ∀ g st, queued_state st →
  cnt p (g, st) - ign p (g, st) = risen g st ms ∧ 0 ≤ ign p (g, st) ∧ (cnt p (g, st) = 0 ∨ ign p (g, st) = 0).
Lemma units_fold ms : Forall (λ m, m_count m = 1 ∧ m_from m ≠ m_to m) ms → page_ok (after_messages ms) ∧ balanced (after_messages ms) ms.
Proof.
  induction ms as [|m ms IH] using rev_ind; intros H.
  - split; [split; [intros k x H1|intros k; unfold cnt]|intros g st _; unfold cnt, ign]; cbn [after_messages fold_left p_count p_ignore] in *; try by rewrite lookup_empty in *.
    rewrite lookup_empty. cbn. unfold id. lia.
  - apply Forall_app in H as [H1 [[Hc Hne] _]%Forall_cons]. destruct (IH H1) as [Hok Hb]. unfold after_messages in *. rewrite fold_left_app. cbn [fold_left].
    set (p := fold_left handle ms (Page ∅ ∅)) in *. destruct (handle_cell p m Hok ltac:(lia) Hne) as [Hok' Hcell]. split; [done|].
    intros g st Hst. specialize (Hcell g st Hst). destruct (Hb g st Hst) as (B1 & B2 & B3). destruct Hok as [_ Hn]. specialize (Hn (g, st)).
    rewrite risen_app. cbn [risen]. unfold rise. destruct (decide (m_group m = g)) as [Hg|Hg].
    + unfold cell in Hcell. rewrite Hc in *. destruct (decide (m_to m = st)) as [Ht|Ht].
      * rewrite (decide_False (P := m_from m = st)) by congruence.
        destruct (Z.leb_spec 1 (ign p (g, st))), (Z.ltb_spec 0 (ign p (g, st))); cbn [andb] in Hcell; injection Hcell as -> ->; lia.
      * destruct (decide (m_from m = st)) as [Hf|Hf]; [|injection Hcell as -> ->; lia].
        destruct (Z.leb_spec 0 (cnt p (g, st) - 1)); injection Hcell as -> ->; lia.
    + injection Hcell as -> ->. lia.
Qed.
Lemma units_shown ms g st : Forall (λ m, m_count m = 1 ∧ m_from m ≠ m_to m) ms → queued_state st → 0 ≤ risen g st ms →
  shows (after_messages ms) g st (risen g st ms).
Proof. intros H Hst Hr. destruct (units_fold ms H) as [_ Hb]. destruct (Hb g st Hst) as (B1 & B2 & B3). unfold shows. fold (cnt (after_messages ms) (g, st)). lia. Qed.

(** ** Messages in order *)
Lemma in_order_fold ms g st : Forall sane ms → queued_state st → (∀ ms1, ms1 `prefix_of` ms → 0 ≤ risen g st ms1) →
  page_ok (after_messages ms) ∧ cnt (after_messages ms) (g, st) = risen g st ms ∧ ign (after_messages ms) (g, st) = 0.
Proof.
  intros H Hst. induction ms as [|m ms IH] using rev_ind; intros Hpre.
  - split; [split; [intros k x H1|intros k; unfold cnt]|unfold cnt, ign]; cbn [after_messages fold_left p_count p_ignore] in *; try by rewrite lookup_empty in *.
  - apply Forall_app in H as [H1 [[Hc Hne] _]%Forall_cons]. destruct (IH H1) as [Hok [B1 B2]].
    { intros ms1 Hp. apply Hpre. by apply prefix_app_r. }
    unfold after_messages in *. rewrite fold_left_app. cbn [fold_left].
    set (p := fold_left handle ms (Page ∅ ∅)) in *. destruct (handle_cell p m Hok Hc Hne) as [Hok' Hcell]. split; [done|].
    specialize (Hcell g st Hst). specialize (Hpre (ms ++ [m])%list (reflexivity _)) as Hr.
    rewrite risen_app in *. cbn [risen] in *. unfold rise in *. rewrite B1, B2 in Hcell. destruct (decide (m_group m = g)) as [Hg|Hg].
    + unfold cell in Hcell. destruct (decide (m_to m = st)) as [Ht|Ht].
      * rewrite (decide_False (P := m_from m = st)) in * by congruence. rewrite (proj2 (Z.ltb_ge 0 0)), andb_false_r in Hcell by lia. injection Hcell as -> ->. lia.
      * destruct (decide (m_from m = st)) as [Hf|Hf]; [|injection Hcell as -> ->; lia].
        rewrite (proj2 (Z.leb_le 0 (risen g st ms - m_count m))) in Hcell by lia. injection Hcell as -> ->. lia.
    + injection Hcell as -> ->. lia.
Qed.

(** ** What is sent *)
Definition jump (st f t : string) (n : Z) : Z := (if decide (t = st) then n else 0) - (if decide (f = st) then n else 0).
Lemma rise_eq g st g' f t n : rise g st (Message g' f t n) = if decide (g' = g) then jump st f t n else 0.
Proof. done. Qed.
Lemma groups_risen (F : string → Z) g st f t gs : NoDup gs →
  risen g st ((λ g', Message g' f t (F g')) <$> gs) = if decide (g ∈ gs) then jump st f t (F g) else 0.
Proof.
  induction 1 as [|h gs Hn Hd IH]; [rewrite decide_False; [done|apply not_elem_of_nil]|].
  rewrite fmap_cons. cbn [risen]. rewrite IH, rise_eq. destruct (decide (h = g)) as [->|Hh].
  - rewrite (decide_False (P := g ∈ gs)) by done. rewrite decide_True by left. lia.
  - destruct (decide (g ∈ gs)) as [Hg|Hg]; [by rewrite decide_True by (by right)|]. rewrite decide_False; [done|]. intros [->|?]%elem_of_cons; done.
Qed.
Lemma filter_none {A} (P : A → Prop) `{∀ x, Decision (P x)} l : (∀ x, x ∈ l → ¬ P x) → filter P l = [].
Proof. induction l as [|x l IH]; intros Hl; [done|]. rewrite filter_cons_False; [apply IH; intros y Hy; apply Hl; by right|apply Hl; left]. Qed.
Lemma by_group_risen group g st f t data :
  risen g st (by_group group f t data) = jump st f t (how_many (λ d, group d = g) data).
Proof.
  unfold by_group. rewrite (groups_risen (λ g', Z.of_nat (length (filter (λ d, group d = g') data)))) by apply NoDup_remove_dups.
  destruct (decide (g ∈ _)) as [Hg|Hg]; [done|]. rewrite elem_of_remove_dups in Hg. unfold how_many. rewrite filter_none.
  - unfold jump. cbn. destruct (decide (t = st)), (decide (f = st)); done.
  - intros d Hd <-. apply Hg. apply elem_of_list_fmap. by exists d.
Qed.
Lemma how_many_ext (P Q : N → Prop) `{∀ d, Decision (P d), ∀ d, Decision (Q d)} data : (∀ d, P d ↔ Q d) → how_many P data = how_many Q data.
Proof. intros HPQ. unfold how_many. by rewrite (list_filter_iff P Q). Qed.
Lemma how_many_split (P Q : N → Prop) `{∀ d, Decision (P d), ∀ d, Decision (Q d)} data :
  how_many P data = how_many (λ d, P d ∧ Q d) data + how_many (λ d, P d ∧ ¬ Q d) data.
Proof.
  unfold how_many. induction data as [|d data IH]; [done|]. rewrite !filter_cons.
  repeat destruct (decide _); cbn [length]; try tauto; lia.
Qed.
Lemma how_many_filter (P Q : N → Prop) `{∀ d, Decision (P d), ∀ d, Decision (Q d)} data :
  how_many P (filter Q data) = how_many (λ d, P d ∧ Q d) data.
Proof.
  unfold how_many. induction data as [|d data IH]; [done|]. rewrite !filter_cons.
  repeat destruct (decide _); try tauto; rewrite ?filter_cons; repeat destruct (decide _); cbn [length]; try tauto; lia.
Qed.
Lemma left_lost lost from st d : queued_state st → left_state lost from st d ↔ (if as_lost lost from d then st = "lost" else from ≠ QRemoved ∧ st = state_of from)%string.
Proof.
  intros Hst. unfold left_state, as_lost. destruct from; try (rewrite decide_False by (intros [? _]; done)); cbn [called state_of]; try (split; [intros ->; done|intros [_ ->]; done]).
  - destruct (lost d); [by rewrite decide_True|]. rewrite decide_False by (intros [_ ?]; done). cbn [called]. naive_solver.
  - naive_solver.
Qed.
(** the messages about jobs of which [P] holds in one notification *)
Lemma event_sum (P : N → Prop) `{∀ d, Decision (P d)} (fin lost : N → bool) from to data st : queued_state st →
  jump st (state_of from) (going_to fin to data) (how_many P (filter (λ d, as_lost lost from d = false) data)) +
  jump st "lost" (going_to fin to data) (how_many P (filter (λ d, as_lost lost from d = true) data)) =
  (if decide (going_to fin to data = st) then how_many P data else 0) - how_many (λ d, P d ∧ left_state lost from st d) data.
Proof.
  intros Hst. rewrite !how_many_filter. set (t := going_to fin to data).
  rewrite (how_many_split P (λ d, as_lost lost from d = true)).
  rewrite (how_many_ext (λ d, P d ∧ as_lost lost from d ≠ true) (λ d, P d ∧ as_lost lost from d = false)).
  2:{ intros d. destruct (as_lost lost from d); naive_solver. }
  rewrite (how_many_split (λ d, P d ∧ left_state lost from st d) (λ d, as_lost lost from d = true)).
  assert (E1 : how_many (λ d, (P d ∧ left_state lost from st d) ∧ as_lost lost from d = true) data =
    if decide ("lost"%string = st) then how_many (λ d, P d ∧ as_lost lost from d = true) data else 0).
  { destruct (decide ("lost"%string = st)) as [He|He].
    - apply how_many_ext. intros d. rewrite (left_lost _ _ _ _ Hst). destruct (as_lost lost from d); naive_solver.
    - unfold how_many. rewrite filter_none; [done|]. intros d _ [[_ Hl] Ha]. rewrite (left_lost _ _ _ _ Hst), Ha in Hl. congruence. }
  assert (E2 : how_many (λ d, (P d ∧ left_state lost from st d) ∧ as_lost lost from d ≠ true) data =
    if decide (state_of from = st) then how_many (λ d, P d ∧ as_lost lost from d = false) data else 0).
  { destruct (decide (state_of from = st)) as [He|He].
    - assert (Hfrom : from ≠ QRemoved) by (intros ->; cbn in He; subst st; unfold queued_state in Hst; naive_solver).
      apply how_many_ext. intros d. rewrite (left_lost _ _ _ _ Hst). destruct (as_lost lost from d); naive_solver.
    - unfold how_many. rewrite filter_none; [done|]. intros d _ [[_ Hl] Ha]. rewrite (left_lost _ _ _ _ Hst) in Hl.
      destruct (as_lost lost from d); [done|]. destruct Hl as [_ Hl]. congruence. }
  rewrite E1, E2. unfold jump. repeat destruct (decide _); lia.
Qed.
Lemma how_many_all (P : N → Prop) `{∀ d, Decision (P d)} data : (∀ d, d ∈ data → P d) → how_many P data = Z.of_nat (length data).
Proof.
  unfold how_many. induction data as [|d data IH]; intros HP; [done|]. rewrite filter_cons_True by (apply HP; left). cbn [length].
  rewrite !Nat2Z.inj_succ, IH; [done|]. intros x Hx. apply HP. by right.
Qed.
Lemma not_lost_len (lost : N → bool) from data :
  Z.of_nat (length data) - Z.of_nat (length (filter (λ d, as_lost lost from d = true) data)) = Z.of_nat (length (filter (λ d, as_lost lost from d = false) data)).
Proof.
  induction data as [|d data IH]; [done|]. rewrite !filter_cons. destruct (as_lost lost from d).
  - rewrite decide_True, decide_False by done. cbn [length]. lia.
  - rewrite decide_False, decide_True by done. cbn [length]. lia.
Qed.
Lemma messages_risen group fin lost from to data g st : queued_state st →
  risen g st (messages group fin lost (from, to, data)) =
  (if decide (g = "+all+"%string) then (if decide (going_to fin to data = st) then Z.of_nat (length data) else 0) - how_many (left_state lost from st) data else 0) +
  ((if decide (going_to fin to data = st) then how_many (λ d, group d = g) data else 0) - how_many (λ d, group d = g ∧ left_state lost from st d) data).
Proof.
  intros Hst. unfold messages. set (l := filter (λ d, as_lost lost from d = true) data). set (t := going_to fin to data).
  assert (Hl : risen g st (match l with [] => [] | _ => Message "+all+" "lost" t (Z.of_nat (length l)) :: by_group group "lost" t l end) =
    (if decide (g = "+all+"%string) then jump st "lost" t (Z.of_nat (length l)) else 0) + jump st "lost" t (how_many (λ d, group d = g) l)).
  { destruct l as [|d l'] eqn:El.
    - cbn. unfold jump. repeat destruct (decide _); done.
    - cbn [risen]. rewrite by_group_risen, rise_eq. repeat destruct (decide _); congruence. }
  cbn [risen]. rewrite risen_app, Hl, by_group_risen, rise_eq. unfold l. rewrite not_lost_len.
  pose proof (event_sum (λ d, group d = g) fin lost from to data st Hst) as E1.
  pose proof (event_sum (λ _, True) fin lost from to data st Hst) as E2.
  rewrite !(how_many_all (λ _, True)) in E2 by done. fold t in E1, E2.
  rewrite (how_many_ext (λ d, True ∧ left_state lost from st d) (left_state lost from st)) in E2 by tauto.
  destruct (decide (g = "+all+"%string)) as [->|Hg].
  - rewrite (decide_True (P := "+all+"%string = "+all+"%string)) by done. cbv beta in E1. lia.
  - rewrite (decide_False (P := "+all+"%string = g)) by congruence. cbv beta in E1. lia.
Qed.

(** ** All messages of a history *)
Lemma going_iff fin to data q st : q ∈ [QDelay; QReady; QRun; QBury; QDep] → called q st → going_to fin to data = st ↔ to = q.
Proof.
  intros Hq Hc. repeat (apply elem_of_cons in Hq as [->|Hq]; [cbn in Hc; subst st; destruct to; cbn [going_to state_of]; try destruct (existsb fin data); done|]).
  by apply elem_of_nil in Hq.
Qed.
Lemma all_event group fin lost from to data st q : (∀ d, group d ≠ "+all+"%string) → q ∈ [QDelay; QReady; QBury; QDep] → called q st →
  risen "+all+" st (messages group fin lost (from, to, data)) = hears q (from, to, data).
Proof.
  intros Hg Hq Hc. assert (Hst : queued_state st).
  { repeat (apply elem_of_cons in Hq as [->|Hq]; [cbn in Hc; subst st; unfold queued_state; naive_solver|]). by apply elem_of_nil in Hq. }
  assert (Hq' : q ∈ [QDelay; QReady; QRun; QBury; QDep]) by set_solver.
  rewrite messages_risen by done. rewrite (decide_True (P := "+all+"%string = "+all+"%string)) by done.
  assert (E : how_many (λ d, group d = "+all+"%string) data = 0 ∧ how_many (λ d, group d = "+all+"%string ∧ left_state lost from st d) data = 0).
  { unfold how_many. rewrite !filter_none; [done|intros d _ [? _]; by apply (Hg d)|intros d _ ?; by apply (Hg d)]. }
  destruct E as [-> ->].
  assert (El : how_many (left_state lost from st) data = if decide (from = q) then Z.of_nat (length data) else 0).
  { destruct (decide (from = q)) as [->|Hne].
    - apply how_many_all. intros d _. unfold left_state. rewrite decide_False; [done|]. intros [-> _]. set_solver.
    - unfold how_many. rewrite filter_none; [done|]. intros d _. unfold left_state. destruct (decide (from = QRun ∧ lost d = true)) as [_|_].
      + intros ->. repeat (apply elem_of_cons in Hq as [->|Hq]; [done|]). by apply elem_of_nil in Hq.
      + intros Hf. apply Hne. repeat (apply elem_of_cons in Hq as [->|Hq]; [cbn in Hc; subst st; by destruct from|]). by apply elem_of_nil in Hq. }
  rewrite El. unfold hears. pose proof (going_iff fin to data q st Hq' Hc) as Hi.
  destruct (decide (going_to fin to data = st)) as [H1|H1], (decide (to = q)) as [H2|H2]; try tauto; lia.
Qed.
Lemma run_event group fin lost from to data : (∀ d, group d ≠ "+all+"%string) →
  risen "+all+" "running" (messages group fin lost (from, to, data)) + risen "+all+" "lost" (messages group fin lost (from, to, data)) = hears QRun (from, to, data).
Proof.
  intros Hg. rewrite !messages_risen by (unfold queued_state; tauto). rewrite !(decide_True (P := "+all+"%string = "+all+"%string)) by done.
  assert (E : ∀ st, how_many (λ d, group d = "+all+"%string) data = 0 ∧ how_many (λ d, group d = "+all+"%string ∧ left_state lost from st d) data = 0).
  { intros st. unfold how_many. rewrite !filter_none; [done|intros d _ [? _]; by apply (Hg d)|intros d _ ?; by apply (Hg d)]. }
  rewrite !(proj1 (E "running"%string)), !(proj2 (E "running"%string)), !(proj2 (E "lost"%string)).
  assert (El : how_many (left_state lost from "running") data + how_many (left_state lost from "lost") data = if decide (from = QRun) then Z.of_nat (length data) else 0).
  { rewrite (how_many_ext (left_state lost from "running") (λ d, from = QRun ∧ ¬ lost d = true)).
    2:{ intros d. unfold left_state. destruct (decide (from = QRun ∧ lost d = true)) as [[-> H]|H]; [naive_solver|]. destruct from; cbn [called]; naive_solver. }
    rewrite (how_many_ext (left_state lost from "lost") (λ d, from = QRun ∧ lost d = true)).
    2:{ intros d. unfold left_state. destruct (decide (from = QRun ∧ lost d = true)) as [[-> H]|H]; [naive_solver|]. destruct from; cbn [called]; naive_solver. }
    rewrite Z.add_comm, <- (how_many_split (λ _, from = QRun) (λ d, lost d = true)). destruct (decide (from = QRun)) as [->|H]; [by apply how_many_all|].
    unfold how_many. by rewrite filter_none. }
  unfold hears. pose proof (going_iff fin to data QRun "running" ltac:(set_solver) eq_refl) as Hi.
  assert (Hnl : going_to fin to data ≠ "lost"%string) by (destruct to; cbn [going_to state_of]; try destruct (existsb fin data); done).
  rewrite !(decide_False (P := going_to fin to data = "lost"%string)) by done.
  destruct (decide (going_to fin to data = "running"%string)) as [H1|H1], (decide (to = QRun)) as [H2|H2]; try tauto; lia.
Qed.
Lemma other_state q st : q ∈ [QDelay; QReady; QBury; QDep] → called q st → st ≠ "running"%string ∧ st ≠ "lost"%string.
Proof. intros Hq Hc. repeat (apply elem_of_cons in Hq as [->|Hq]; [cbn in Hc; by subst st|]). by apply elem_of_nil in Hq. Qed.
Lemma shift0 g' g st f t n : f ≠ st → t ≠ st → rise g st (Message g' f t n) = 0.
Proof. intros Hf Ht. rewrite rise_eq. unfold jump. rewrite (decide_False (P := t = st)), (decide_False (P := f = st)) by done. by destruct (decide (g' = g)). Qed.
Lemma told_sum es ms : told es ms →
  (∀ q st, q ∈ [QDelay; QReady; QBury; QDep] → called q st → risen "+all+" st ms = heard q es) ∧
  risen "+all+" "running" ms + risen "+all+" "lost" ms = heard QRun es.
Proof.
  induction 1 as [|group fin lost [[from to] data] es ms Hg _ [IH1 IH2]|g es ms Hg _ [IH1 IH2]|g es ms Hg _ [IH1 IH2]].
  - by split.
  - split.
    + intros q st Hq Hc. rewrite risen_app, (all_event group fin lost from to data st q Hg Hq Hc), (IH1 q st Hq Hc). done.
    + rewrite !risen_app. pose proof (run_event group fin lost from to data Hg) as E. cbn [heard fold_right]. fold (heard QRun es). lia.
  - cbn [risen]. split.
    + intros q st Hq Hc. destruct (other_state q st Hq Hc). rewrite !shift0, (IH1 q st Hq Hc) by done. done.
    + rewrite !rise_eq, !(decide_False (P := g = "+all+"%string)), !(decide_True (P := "+all+"%string = "+all+"%string)) by done. rewrite <- IH2.
      assert (J1 : jump "running" "running" "lost" 1 = -1 ∧ jump "lost" "running" "lost" 1 = 1) by (split; reflexivity).
      assert (J2 : jump "running" "lost" "running" 1 = 1 ∧ jump "lost" "lost" "running" 1 = -1) by (split; reflexivity). lia.
  - cbn [risen]. split.
    + intros q st Hq Hc. destruct (other_state q st Hq Hc). rewrite !shift0, (IH1 q st Hq Hc) by done. done.
    + rewrite !rise_eq, !(decide_False (P := g = "+all+"%string)), !(decide_True (P := "+all+"%string = "+all+"%string)) by done. rewrite <- IH2.
      assert (J1 : jump "running" "running" "lost" 1 = -1 ∧ jump "lost" "running" "lost" 1 = 1) by (split; reflexivity).
      assert (J2 : jump "running" "lost" "running" 1 = 1 ∧ jump "lost" "lost" "running" 1 = -1) by (split; reflexivity). lia.
Qed.
