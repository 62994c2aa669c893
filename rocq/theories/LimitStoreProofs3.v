(** Proofs about the limits that the server keeps: histories. *)
From Coq Require Import ZArith Lia String Ascii.
From stdpp Require Import base option strings gmap list.
From RecordUpdate Require Import RecordSet.
From Verif Require Import LimiterModel LimiterSpec LimiterProofs LimiterProofs2 LimitNameModel LimitNameSpec LimitNameProofs
  LimitStoreModel LimitStoreSpec LimitStoreProofs LimitStoreProofs2.
Import RecordSetNotations.
Open Scope Z_scope.

(** ** One request *)
Lemma op_or local s r : (∃ raws, r = QAdd raws) ∨ (∃ group, r = QGetSet group) ∨ r = QRestart ∨ ∃ o, op_of local s r = Some o.
Proof. destruct r; eauto; do 3 right; eexists; reflexivity. Qed.
Lemma op_unwritten local s r o : op_of local s r = Some o → written r = [].
Proof. by destruct r. Qed.
Lemma gives_none local r g n : written r = [] → ¬ gives local r g n.
Proof. intros E (a & raw & b & E' & _). rewrite E in E'. by destruct a. Qed.
Definition kept (local : zone) (s s' : lsrv) (r : lreq) (p : lreply) (g : string) : Prop :=
  in_force local s' g ∧ (lgs s' !! g = lgs s !! g ∨ is_Some (lgs s' !! g) ∧ limits local r g ∧ accepted p) ∧ (accepted p → ∀ n, gives local r g n → lgs s' !! g = Some n) ∧
  (∀ n, lgs s' !! g = Some n → lgs s !! g = Some n ∨ ∃ raw, raw ∈ written r ∧ numbers local raw g n).
Lemma kept_step local s r s' p g : colon_free g → in_force local s g → lreq_step local s r = (s', p) → kept local s s' r p g.
Proof.
  intros Hf Hin E. unfold kept. destruct (op_or local s r) as [[raws ->]|[[group ->]|[->|[o Ho]]]].
  - pose proof (add_step local s raws g Hf Hin) as H. rewrite E in H. by destruct H as (? & ? & ? & ? & _).
  - pose proof (get_set_step local s group g Hf Hin) as H. rewrite E in H. by destruct H as (? & ? & ? & ? & _).
  - cbn in E. injection E as <- <-. destruct s as [m lm]. cbn [lgs].
    assert (lgs (LSrv m lm <| mem := l_new |>) = m) as -> by done. split; [|split; [by left|split; [|by left]]].
    + apply in_force_iff; [done|]. apply in_force_iff in Hin; [|done]. cbn in Hin |- *. destruct (m !! g); [|by rewrite lookup_empty].
      split; [apply Hin|]. intros x. by rewrite lookup_empty.
    + intros _ n Hg. by apply gives_none in Hg.
  - destruct (op_step _ _ _ _ Ho) as [E' Hp]. rewrite E in E'. apply pair_equal_spec in E' as [-> ->].
    destruct (op_in_force _ _ _ _ Hf Hp Hin) as [H1 _]. split; [done|].
    assert (lgs (s <| mem := (lstep (mem s) o).1 |>) = lgs s) as -> by (by destruct s). split; [by left|]. split; [|by left].
    intros _ n Hg. apply op_unwritten in Ho. by apply gives_none in Hg.
Qed.
Lemma in_force0 local g : in_force local srv0 g.
Proof. unfold in_force, srv0. cbn [lgs mem]. rewrite lookup_empty. done. Qed.

(** ** Histories *)
Lemma run_app local s h1 h2 : lreq_run local s (h1 ++ h2) =
  let '(s1, p1) := lreq_run local s h1 in let '(s2, p2) := lreq_run local s1 h2 in (s2, (p1 ++ p2)%list).
Proof.
  revert s. induction h1 as [|r h1 IH]; intros s; cbn [lreq_run app]; [by destruct (lreq_run local s h2)|].
  destruct (lreq_step local s r) as [s1 p]. rewrite IH. destruct (lreq_run local s1 h1) as [s2 ps]. by destruct (lreq_run local s2 h2).
Qed.
Lemma run_cons local s r h : (lreq_run local s (r :: h)).1 = (lreq_run local (lreq_step local s r).1 h).1.
Proof. cbn [lreq_run]. destruct (lreq_step local s r) as [s1 p]. cbn [fst]. by destruct (lreq_run local s1 h). Qed.
Lemma run_in_force local s h g : colon_free g → in_force local s g → in_force local (lreq_run local s h).1 g.
Proof.
  intros Hf. revert s. induction h as [|r h IH]; intros s Hin; [done|]. rewrite run_cons. apply IH.
  destruct (lreq_step local s r) as [s1 p] eqn:E. by apply (kept_step local s r s1 p g Hf Hin).
Qed.
Lemma run_same local s h g : colon_free g → in_force local s g → (∀ r, r ∈ h → ¬ limits local r g) →
  lgs (lreq_run local s h).1 !! g = lgs s !! g.
Proof.
  intros Hf. revert s. induction h as [|r h IH]; intros s Hin Hno; [done|]. rewrite run_cons.
  destruct (lreq_step local s r) as [s1 p] eqn:E. destruct (kept_step local s r s1 p g Hf Hin E) as (H1 & H2 & _). cbn [fst].
  rewrite IH; [|done|intros r' Hr'; apply Hno; by right]. destruct H2 as [?|(_ & H2 & _)]; [done|]. by destruct (Hno r ltac:(by left)).
Qed.
(** ** What is asked *)
Lemma ask_limit local s g : plain g → in_force local s g →
  (lreq_step local s (QGetSet g)).2 = PLimit (Some (match lgs s !! g with Some n => n | None => 2 ^ 63 - 1 end)).
Proof.
  intros [Hne Hf] Hin. unfold lreq_step, get_set. destruct (String.eqb_spec g EmptyString) as [?|_]; [done|]. rewrite free_name by done.
  assert (srv_cb local (lgs s) 0%nat = retrieve local (lgs s)) as Hs by done. unfold in_force in Hin. cbn [lstep]. rewrite Hs.
  unfold vivify. pose proof (retrieve_free local (lgs s) g Hf) as Hr. unfold dat in Hin.
  destruct (lgs s !! g) as [n|]; [destruct Hin as (Hn & c & _ & Hin); rewrite new_count_pos in Hr by done|]; destruct (groups (mem s) !! g) as [x|].
  - injection Hin as Hin. cbn. by rewrite Hin.
  - rewrite Hr in *. cbn in Hin |- *. injection Hin as <-. done.
  - done.
  - rewrite Hr. done.
Qed.
Lemma known local s g : colon_free g → in_force local s g →
  data_of (retrieve local (lgs s)) (mem s) g = match lgs s !! g with Some n => Some (GData MCount n (count (mem s) g)) | None => None end.
Proof.
  intros Hf Hin. unfold in_force in Hin. rewrite data_dat. unfold dat in *. pose proof (retrieve_free local (lgs s) g Hf) as Hr. unfold count.
  destruct (lgs s !! g) as [n|]; [destruct Hin as (Hn & c & _ & Hin); rewrite new_count_pos in Hr by done|]; destruct (groups (mem s) !! g) as [x|].
  - injection Hin as Hin. by rewrite Hin.
  - by rewrite Hr.
  - done.
  - by rewrite Hr.
Qed.
Lemma tries_trying local s r o : op_of local s r = Some o →
  trying s r = match tries (mem s) o with Some (_, _, names) => Some names | None => None end ∧
  (∀ cb clk names, tries (mem s) o = Some (cb, clk, names) → cb = srv_cb local (lgs s)).
Proof.
  destruct r; cbn [op_of]; intros [= <-]; cbn [trying tries]; (split; [try done|try by intros ? ? ? [= <- _ _]]).
  - destruct (decide _); [|done]. by destruct (waiting (mem s) !! ch).
  - intros cb clk' names. destruct (decide _); [|done]. destruct (waiting (mem s) !! ch); [|done]. by intros [= <- _ _].
Qed.
Lemma trying_op local s r names : trying s r = Some names → ∃ o, op_of local s r = Some o.
Proof. destruct r; cbn [trying]; try done; intros _; eexists; reflexivity. Qed.
(** exactly if there is room is a job let start *)
Lemma started local s r s' names g n : colon_free g → in_force local s g → trying s r = Some names → lreq_step local s r = (s', PLim (RBool true)) →
  g ∈ names → lgs s !! g = Some n → count (mem s) g < n.
Proof.
  intros Hf Hin Ht E Hg Hn. destruct (trying_op local _ _ _ Ht) as [o Ho]. destruct (op_step _ _ _ _ Ho) as [E' _]. rewrite E in E'.
  apply pair_equal_spec in E' as [_ E']. injection E' as E'. destruct (tries_trying _ _ _ _ Ho) as [Ht' Hcb]. rewrite Ht' in Ht.
  destruct (tries (mem s) o) as [[[cb clk] nms]|] eqn:Et; [|done]. injection Ht as ->. rewrite (Hcb _ _ _ eq_refl) in Et.
  assert (stable (srv_cb local (lgs s)) (retrieve local (lgs s))) as Hs by done.
  assert (lstep (mem s) o = ((lstep (mem s) o).1, RBool true)) as El by (rewrite E'; by destruct (lstep (mem s) o)).
  destruct (all_or_nothing _ _ _ _ _ _ _ _ Et Hs El) as ([H _] & _). apply elem_of_list_lookup in Hg as [i Hi].
  pose proof (known local s g Hf Hin) as Hk. rewrite Hn in Hk. specialize (H eq_refl i g _ Hi Hk). done.
Qed.
Lemma try_one local s g clk : colon_free g → in_force local s g →
  ((lreq_step local s (QTry clk [g] false)).2 = PLim (RBool true) ↔ ∀ n, lgs s !! g = Some n → count (mem s) g < n).
Proof.
  intros Hf Hin. cbn [lreq_step]. unfold on_lim. destruct (lstep (mem s) _) as [lm r] eqn:E. cbn [snd].
  assert (stable (srv_cb local (lgs s)) (retrieve local (lgs s))) as Hs by done.
  destruct (all_or_nothing (mem s) (LIncrement (srv_cb local (lgs s)) clk [g] false) _ clk [g] _ _ _ eq_refl Hs E) as (H & _).
  assert (PLim r = PLim (RBool true) ↔ r = RBool true) as -> by (split; [by intros [= ->]|by intros ->]). rewrite H. clear H.
  pose proof (known local s g Hf Hin) as Hk. split.
  - intros H n Hn. rewrite Hn in Hk. exact (H 0%nat g _ eq_refl Hk).
  - intros H [|i] nm d Hi Hd; [|done]. injection Hi as <-. rewrite Hk in Hd. destruct (lgs s !! g) as [n|]; [|done]. injection Hd as <-. by apply H.
Qed.

(** ** How many run *)
Definition tidy (s : lsrv) : Prop := ∀ ch names, waiting (mem s) !! ch = Some names → NoDup names.
Lemma attempt_waiting lm cb clk names w ch nms : waiting (attempt lm cb clk names w).1 !! ch = Some nms → waiting lm !! ch = Some nms ∨ nms = names.
Proof.
  unfold attempt. destruct (check_groups _ _ _ _ _) as [gs []]; [by left|]. destruct w; [|by left]. destruct lm as [gs' wt st nc]. cbn.
  destruct (decide (nc = ch)) as [->|?]; [rewrite lookup_insert; intros [= <-]; by right|rewrite lookup_insert_ne by done; by left].
Qed.
Lemma op_waiting local lm s r o ch nms : op_of local s r = Some o → waiting (lstep lm o).1 !! ch = Some nms →
  (∃ ch', waiting lm !! ch' = Some nms) ∨ ∃ clk w, r = QTry clk nms w.
Proof.
  destruct r as [raws|gr| |clk nm w|clk c|c|nm|clk nm|]; cbn [op_of]; intros [= <-]; cbn [lstep].
  - left; eauto.
  - intros [?| ->]%attempt_waiting; [left; eauto|right; eauto].
  - destruct (waiting lm !! c) as [nm|] eqn:E; [|left; eauto]. destruct (decide _); [|left; eauto].
    intros [H| ->]%attempt_waiting; [|left; eauto]. left. exists ch. destruct lm as [gs wt st nc]. cbn in *. by apply lookup_delete_Some in H as [_ H].
  - destruct (waiting lm !! c) as [nm|] eqn:E; [|left; eauto]. destruct lm as [gs wt st nc]. cbn in *. intros [_ H]%lookup_delete_Some. left; eauto.
  - destruct (decrement_groups _ _). destruct lm. left; eauto.
  - destruct (lowest_capacity _ _ _ _ _ _). destruct lm. left; eauto.
Qed.
Lemma set_waiting lm g d : waiting (lstep lm (LSetLimit g d)).1 = waiting lm.
Proof. by destruct lm. Qed.
Lemma changed_waiting ds c lm : waiting (fold_left (set_changed ds) c lm) = waiting lm.
Proof. revert lm. induction c as [|a c IH]; intros lm; [done|]. cbn [fold_left]. rewrite IH. unfold set_changed. destruct (ds !! a); [apply set_waiting|done]. Qed.
Lemma remove_waiting r lm : waiting (fold_left remove_limit r lm) = waiting lm.
Proof. revert lm. induction r as [|a r IH]; intros lm; [done|]. cbn [fold_left]. rewrite IH. by destruct lm. Qed.
Lemma step_waiting local s r s' p ch nms : lreq_step local s r = (s', p) → waiting (mem s') !! ch = Some nms →
  (∃ ch', waiting (mem s) !! ch' = Some nms) ∨ ∃ clk w, r = QTry clk nms w.
Proof.
  intros E Hw. destruct (op_or local s r) as [[raws ->]|[[group ->]|[->|[o Ho]]]].
  - left. unfold lreq_step, srv_store in E. destruct (db_store _ _) as [[[m c] r]|]; injection E as <- <-; [|eauto].
    cbn [mem] in Hw. rewrite remove_waiting, changed_waiting in Hw. eauto.
  - left. unfold lreq_step, get_set in E. destruct (String.eqb group ""); [injection E as <- <-; eauto|].
    destruct (name_to_group local group) as [name [d|]].
    + destruct (db_store _ _) as [[[m c] r]|]; injection E as <- <-; [|eauto]. cbn [mem] in Hw. rewrite remove_waiting in Hw.
      exists ch. rewrite <- Hw. by destruct (dmode d), (mem s).
    + cbn [lstep] in E. destruct (vivify _ _ _) as [gs []]; injection E as <- <-; destruct s as [m lm]; destruct lm; cbn in Hw; eauto.
  - cbn in E. injection E as <- <-. destruct s. cbn in Hw. by rewrite lookup_empty in Hw.
  - destruct (op_step _ _ _ _ Ho) as [E' _]. rewrite E in E'. apply pair_equal_spec in E' as [-> _].
    apply (op_waiting local _ s r o ch); [done|]. by destruct s.
Qed.
Lemma tidy_step local s r s' p : tidy s → once r → lreq_step local s r = (s', p) → tidy s'.
Proof. intros Ht Ho E ch nms Hw. destruct (step_waiting _ _ _ _ _ _ _ E Hw) as [[ch' H]|(clk & w & ->)]; [by apply (Ht ch')|done]. Qed.
Lemma occ_once g names : NoDup names → occ g names = if decide (g ∈ names) then 1 else 0.
Proof.
  intros H. pose proof (occ_nodup g names H). destruct (decide (g ∈ names)) as [Hin|Hin]; [pose proof (occ_in g names Hin); lia|by apply occ_not_in].
Qed.
Lemma trying_once s r names : tidy s → once r → trying s r = Some names → NoDup names.
Proof. destruct r; cbn [trying once]; intros Ht Ho; try done; [by intros [= <-]|]. destruct (decide _); [apply Ht|done]. Qed.
(** what is counted of a group with a limit is what runs *)
Lemma count_step local s r s' p g k : colon_free g → in_force local s g → is_Some (lgs s !! g) → ¬ unlimiting local r g → once r → tidy s →
  (match r with QDone names => g ∈ names → 0 < k | _ => True end) → count (mem s) g = k → lreq_step local s r = (s', p) →
  count (mem s') g = running_step s r p g k.
Proof.
  intros Hf Hin Hi Hu Ho Ht Hm Hk E. destruct (op_or local s r) as [[raws ->]|[[group ->]|[->|[o Hop]]]].
  - pose proof (add_step local s raws g Hf Hin) as H. rewrite E in H. destruct H as (_ & _ & _ & _ & H & _). rewrite (H Hi Hu). unfold running_step. cbn [trying].
    rewrite Hk. destruct p as [| |[|[]| | | | |]|]; done.
  - pose proof (get_set_step local s group g Hf Hin) as H. rewrite E in H. destruct H as (_ & _ & _ & _ & H & _). rewrite (H Hi Hu). unfold running_step. cbn [trying].
    rewrite Hk. destruct p as [| |[|[]| | | | |]|]; done.
  - cbn in E. injection E as <- <-. by destruct s.
  - destruct (op_step _ _ _ _ Hop) as [E' Hp]. rewrite E in E'. apply pair_equal_spec in E' as [-> ->].
    destruct (op_in_force _ _ _ _ Hf Hp Hin) as [_ H]. assert (mem (s <| mem := (lstep (mem s) o).1 |>) = (lstep (mem s) o).1) as -> by (by destruct s).
    rewrite (H Hi), Hk. destruct (tries_trying _ _ _ _ Hop) as [Htr _]. unfold running_step, more.
    destruct (trying s r) as [names|] eqn:Et.
    + pose proof (trying_once _ _ _ Ht Ho Et) as Hnd. destruct (tries (mem s) o) as [[[cb clk] nms]|] eqn:Et'; [|done]. injection Htr as <-.
      rewrite (occ_once g names Hnd).
      assert (∀ l, o ≠ LDecrement l) as Hnl by (intros l ->; done).
      assert (r ≠ QRestart ∧ ∀ l, r ≠ QDone l) as [Hr1 Hr2] by (split; [|intros l]; by intros ->).
      destruct o; try done; destruct ((lstep (mem s) _).2) as [|[]| | | | |]; destruct r; try done; destruct (decide (g ∈ names)); lia.
    + destruct (tries (mem s) o) as [[[cb clk] nms]|] eqn:Et'; [done|].
      destruct r; cbn [op_of] in Hop; try discriminate Hop; injection Hop as <-; try done; try (destruct ((lstep (mem s) _).2) as [|[]| | | | |]; lia).
      assert ((lstep (mem s) (LDecrement names)).2 = RDone) as -> by (cbn; by destruct (decrement_groups _ _)).
      cbn [once] in Ho. rewrite (occ_once g names Ho). destruct (decide (g ∈ names)) as [Hg|Hng]; [specialize (Hm Hg)|]; try lia.
      pose proof (in_force_counts _ _ _ Hin) as Hc.
      assert (0 ≤ k); [|lia]. rewrite <- Hk. unfold count. destruct (groups (mem s) !! g) as [x|] eqn:Ex; [|done]. rewrite (Hc _ Ex).
      apply in_force_iff in Hin; [|done]. destruct Hi as [n Hn]. rewrite Hn in Hin. destruct (proj2 Hin x Ex) as (c & ? & ->). done.
Qed.
(** nobody asks for [g] *)
Lemma idle_step local s r s' p g k : once r → (∀ ch names, waiting (mem s) !! ch = Some names → g ∉ names) → ¬ asks r g →
  (match r with QDone names => g ∈ names → 0 < k | _ => True end) → k = 0 → lreq_step local s r = (s', p) →
  running_step s r p g k = 0 ∧ (∀ ch names, waiting (mem s') !! ch = Some names → g ∉ names).
Proof.
  intros Ho Hw Ha Hm -> E. split.
  - unfold running_step. destruct (trying s r) as [names|] eqn:Et.
    + assert (g ∉ names) as Hg. { destruct r; cbn [trying] in Et; try done; [by injection Et as <-|]. destruct (decide _); [by apply (Hw ch)|done]. }
      assert (∀ l, r ≠ QDone l) as Hr2 by (intros l; by intros ->). rewrite decide_False by done.
      destruct p as [| |[|[]| | | | |]|]; destruct r; done.
    + assert (∀ names, r = QDone names → g ∉ names) as Hd. { intros names -> Hg. specialize (Hm Hg). lia. }
      destruct p as [| |[|[]| | | | |]|]; destruct r; try done; rewrite decide_False by (by apply Hd); done.
  - intros ch names H. destruct (step_waiting _ _ _ _ _ _ _ E H) as [[ch' H']|(clk & w & ->)]; [by apply (Hw ch')|exact Ha].
Qed.

(** nothing is counted of it *)
Lemma idle_count local s r s' p g : colon_free g → in_force local s g → once r → (∀ ch names, waiting (mem s) !! ch = Some names → g ∉ names) → ¬ asks r g →
  count (mem s) g = 0 → lreq_step local s r = (s', p) → count (mem s') g = 0.
Proof.
  intros Hf Hin Ho Hw Ha Hc E. destruct (op_or local s r) as [[raws ->]|[[group ->]|[->|[o Hop]]]].
  - pose proof (add_step local s raws g Hf Hin) as H. rewrite E in H. destruct H as (_ & _ & _ & _ & _ & [H|H]); [by rewrite H|done].
  - pose proof (get_set_step local s group g Hf Hin) as H. rewrite E in H. destruct H as (_ & _ & _ & _ & _ & [H|H]); [by rewrite H|done].
  - cbn in E. injection E as <- <-. by destruct s.
  - pose proof (kept_step local s r s' p g Hf Hin E) as (Hin' & _).
    destruct (op_step _ _ _ _ Hop) as [E' Hp]. rewrite E in E'. apply pair_equal_spec in E' as [-> ->].
    destruct (op_in_force _ _ _ _ Hf Hp Hin) as [_ H]. revert Hin'.
    assert (mem (s <| mem := (lstep (mem s) o).1 |>) = (lstep (mem s) o).1) as -> by (by destruct s). intros Hin'.
    destruct (lgs s !! g) as [n|] eqn:Hg.
    + rewrite H, Hc by eauto. unfold more. destruct (tries_trying _ _ _ _ Hop) as [Htr _].
      destruct (tries (mem s) o) as [[[cb clk] names]|] eqn:Et.
      * assert (g ∉ names) as Hno. { destruct r; cbn [trying] in Htr; try done; [by injection Htr as <-|]. destruct (decide _); [by apply (Hw ch)|done]. }
        rewrite occ_not_in by done. destruct o; try done; by destruct ((lstep (mem s) _).2) as [|[]| | | | |].
      * destruct o; try done; try (by destruct ((lstep (mem s) _).2)). pose proof (occ_nonneg g names). lia.
    + apply in_force_iff in Hin'; [|done]. assert (lgs (s <| mem := (lstep (mem s) o).1 |>) = lgs s) as El by (by destruct s). rewrite El, Hg in Hin'.
      assert (mem (s <| mem := (lstep (mem s) o).1 |>) = (lstep (mem s) o).1) as Em by (by destruct s). rewrite Em in Hin'. unfold count. by rewrite Hin'.
Qed.
Record idle (local : zone) (s : lsrv) (g : string) : Prop := Idle {
  id_in : in_force local s g; id_tidy : tidy s; id_wait : ∀ ch names, waiting (mem s) !! ch = Some names → g ∉ names; id_count : count (mem s) g = 0 }.
Lemma idle_run local s h g : colon_free g → idle local s g → Forall once h → Forall (λ r, ¬ asks r g) h → matched local s h g 0 →
  idle local (lreq_run local s h).1 g ∧ running local s h g 0 = 0 ∧
  ∀ h', matched local s (h ++ h') g 0 → running local s (h ++ h') g 0 = running local (lreq_run local s h).1 h' g 0 ∧ matched local (lreq_run local s h).1 h' g 0.
Proof.
  intros Hf. revert s. induction h as [|r h IH]; intros s [Hin Ht Hw Hc] Ho Ha Hm; [done|].
  inversion Ho as [|?? Ho1 Ho2]; subst. inversion Ha as [|?? Ha1 Ha2]; subst. rewrite run_cons. cbn [matched running app] in Hm |- *.
  destruct Hm as [Hm1 Hm2]. destruct (lreq_step local s r) as [s1 p] eqn:E. cbn [fst].
  destruct (idle_step _ _ _ _ _ g 0 Ho1 Hw Ha1 Hm1 eq_refl E) as [Hk Hw']. rewrite Hk in *.
  assert (idle local s1 g) as Hi.
  { split; [by apply (kept_step local s r s1 p g Hf Hin)|by apply (tidy_step local s r s1 p)|done|by apply (idle_count local s r s1 p)]. }
  destruct (IH _ Hi Ho2 Ha2 Hm2) as (H1 & H2 & H3). split; [done|]. split; [done|]. intros h' [_ Hm']. by apply H3.
Qed.
(** ** The group has a limit *)
Record limited (local : zone) (s : lsrv) (g : string) (k : Z) (B : Z → Prop) : Prop := Limited {
  li_in : in_force local s g; li_tidy : tidy s; li_lim : ∃ n, lgs s !! g = Some n ∧ B n; li_count : count (mem s) g = k; li_k : B k }.
Lemma limited_step local s r s' p g k (B : Z → Prop) : (∀ a b, a ≤ b → B b → B a) → colon_free g → limited local s g k B → once r → ¬ unlimiting local r g →
  (∀ raw n, raw ∈ written r → numbers local raw g n → B n) →
  (match r with QDone names => g ∈ names → 0 < k | _ => True end) → lreq_step local s r = (s', p) → limited local s' g (running_step s r p g k) B.
Proof.
  intros HB Hf [Hin Ht (n & Hn & HnN) Hc Hk] Ho Hu HN Hm E. destruct (kept_step local s r s' p g Hf Hin E) as (K1 & K2 & _ & K4).
  assert (is_Some (lgs s' !! g)) as [n' Hn'] by (destruct K2 as [K2|[K2 _]]; [rewrite K2; eauto|done]).
  split; [done|by apply (tidy_step local s r s' p)|..].
  - exists n'. split; [done|]. destruct (K4 _ Hn') as [K|(raw & Hr & K)]; [|by apply (HN raw)]. rewrite Hn in K. by injection K as <-.
  - apply (count_step local); eauto.
  - unfold running_step. pose proof (in_force_iff local s g Hf) as [HI _]. specialize (HI Hin). rewrite Hn in HI.
    assert (B 0) as H0 by (apply (HB 0 n); [apply HI|done]).
    destruct (trying s r) as [names|] eqn:Et.
    + assert (r ≠ QRestart ∧ ∀ l, r ≠ QDone l) as [Hr1 Hr2] by (split; [|intros l]; by intros ->).
      destruct p as [| |[|[]| | | | |]|]; try (destruct r; done). destruct (decide (g ∈ names)) as [Hg|]; [|destruct r; done].
      pose proof (started _ _ _ _ _ _ _ Hf Hin Et E Hg Hn). apply (HB _ n); [lia|done].
    + destruct p as [| |[|[]| | | | |]|]; destruct r; try done; try (destruct (decide _); [|done]; apply (HB _ k); [lia|done]).
Qed.
Lemma limited_run local s h g k (B : Z → Prop) : (∀ a b, a ≤ b → B b → B a) → colon_free g → limited local s g k B → Forall once h → Forall (λ r, ¬ unlimiting local r g) h →
  (∀ r raw n, r ∈ h → raw ∈ written r → numbers local raw g n → B n) → matched local s h g k →
  limited local (lreq_run local s h).1 g (running local s h g k) B.
Proof.
  intros HB Hf. revert s k. induction h as [|r h IH]; intros s k Hl Ho Hu HN Hm; [done|].
  inversion Ho as [|?? Ho1 Ho2]; subst. inversion Hu as [|?? Hu1 Hu2]; subst. rewrite run_cons. cbn [matched running] in Hm |- *.
  destruct Hm as [Hm1 Hm2]. destruct (lreq_step local s r) as [s1 p] eqn:E. cbn [fst]. apply IH; try done.
  - apply (limited_step local s r s1 p g k B); try done. intros raw n. apply HN. by left.
  - intros r' raw n Hr'. apply HN. by right.
Qed.

(** ** The theorems *)
Lemma matched_app local s a b g k : matched local s (a ++ b) g k → matched local s a g k.
Proof. revert s k. induction a as [|r a IH]; intros s k; [done|]. cbn [matched app]. intros [H1 H2]. split; [done|]. destruct (lreq_step local s r). by apply (IH l). Qed.
Lemma run_app1 local s a b : (lreq_run local s (a ++ b)).1 = (lreq_run local (lreq_run local s a).1 b).1.
Proof. rewrite run_app. destruct (lreq_run local s a) as [s1 p1]. cbn [fst]. by destruct (lreq_run local s1 b). Qed.
Lemma begun_limited local h0 r0 h1 g (B : Z → Prop) : begun local h0 r0 h1 g → (∀ a b, a ≤ b → B b → B a) →
  (∀ r raw n, r ∈ (h0 ++ r0 :: h1)%list → raw ∈ written r → numbers local raw g n → B n) →
  limited local (lreq_run local srv0 (h0 ++ r0 :: h1)).1 g (running local srv0 (h0 ++ r0 :: h1) g 0) B.
Proof.
  intros [[Hne Hf] [n Hg] Hok Hno Hk Ho Hm] HB HN. apply Forall_app in Ho as [Ho0 Ho1]. inversion Ho1 as [|?? Hor Ho2]; subst.
  assert (idle local srv0 g) as Hi0 by (split; [apply in_force0|intros ch nm H; cbn in H; by rewrite lookup_empty in H|intros ch nm H; cbn in H; by rewrite lookup_empty in H|done]).
  destruct (idle_run local srv0 h0 g Hf Hi0 Ho0 Hno (matched_app _ _ _ _ _ _ Hm)) as ([Hin Ht Hw Hc] & _ & H). destruct (H _ Hm) as [-> Hm']. clear H.
  rewrite run_app1, run_cons. cbn [matched running] in Hm' |- *. destruct Hm' as [Hm1 Hm2].
  set (s0 := (lreq_run local srv0 h0).1) in *. destruct (lreq_step local s0 r0) as [s1 p] eqn:E. cbn [fst snd] in *.
  assert (¬ asks r0 g) as Hna. { destruct Hg as (a & raw & b & Ew & _). destruct r0; try (by destruct a); intros []. }
  destruct (idle_step _ _ _ _ _ g 0 Hor Hw Hna Hm1 eq_refl E) as [Hk0 _]. rewrite Hk0 in *.
  destruct (kept_step local s0 r0 s1 p g Hf Hin E) as (K1 & _ & K3 & _). specialize (K3 Hok n Hg).
  assert (B n) as HBn. { destruct Hg as (a & raw & b & Ew & Hn & _). apply (HN r0 raw); [apply elem_of_app; right; by left| |done]. rewrite Ew. apply elem_of_app. right. by left. }
  apply limited_run; try done; [split; [done|by apply (tidy_step local s0 r0 s1 p)|by exists n|by apply (idle_count local s0 r0 s1 p)|]|].
  - apply (HB 0 n); [|done]. apply in_force_iff in K1; [|done]. rewrite K3 in K1. apply K1.
  - intros r raw n' Hr. apply HN. apply elem_of_app. right. by right.
Qed.
Lemma starts_below local h0 r0 h1 g r names n : begun local h0 r0 h1 g → let s := (lreq_run local srv0 (h0 ++ r0 :: h1)).1 in
  (lreq_step local s (QGetSet g)).2 = PLimit (Some n) → trying s r = Some names → g ∈ names → (lreq_step local s r).2 = PLim (RBool true) →
  running local srv0 (h0 ++ r0 :: h1) g 0 < n.
Proof.
  intros Hb s Hn Ht Hg Hr. destruct (begun_limited local h0 r0 h1 g (λ _, True) Hb) as [Hin _ (n' & Hn' & _) Hc _]; [done|done|]. fold s in Hin, Hn', Hc.
  destruct Hb as [Hp _ _ _ _ _ _]. rewrite (ask_limit local s g Hp Hin), Hn' in Hn. injection Hn as <-. rewrite <- Hc.
  destruct (lreq_step local s r) as [s' p] eqn:E. cbn [snd] in Hr. subst p. by apply (started local s r s' names g n' (proj2 Hp) Hin Ht E).
Qed.
Lemma starts_if local h0 r0 h1 g clk n : begun local h0 r0 h1 g → let s := (lreq_run local srv0 (h0 ++ r0 :: h1)).1 in
  (lreq_step local s (QGetSet g)).2 = PLimit (Some n) → running local srv0 (h0 ++ r0 :: h1) g 0 < n →
  (lreq_step local s (QTry clk [g] false)).2 = PLim (RBool true).
Proof.
  intros Hb s Hn Hr. destruct (begun_limited local h0 r0 h1 g (λ _, True) Hb) as [Hin _ (n' & Hn' & _) Hc _]; [done|done|]. fold s in Hin, Hn', Hc.
  destruct Hb as [Hp _ _ _ _ _ _]. rewrite (ask_limit local s g Hp Hin), Hn' in Hn. injection Hn as <-.
  apply (try_one local s g clk (proj2 Hp) Hin). intros n Hn. rewrite Hn' in Hn. injection Hn as <-. by rewrite Hc.
Qed.
Lemma runs_within local h0 r0 h1 g N : begun local h0 r0 h1 g →
  (∀ r raw n, r ∈ (h0 ++ r0 :: h1)%list → raw ∈ written r → numbers local raw g n → n ≤ N) → running local srv0 (h0 ++ r0 :: h1) g 0 ≤ N.
Proof. intros Hb HN. destruct (begun_limited local h0 r0 h1 g (λ x, x ≤ N) Hb) as [_ _ _ _ H]; [intros; lia|done|done]. Qed.
(** the limit in force is the last given *)
Lemma last_given local h0 r0 h1 g n : plain g → gives local r0 g n → accepted (lreq_step local (lreq_run local srv0 h0).1 r0).2 →
  Forall (λ r, ¬ limits local r g) h1 → let s := (lreq_run local srv0 (h0 ++ r0 :: h1)).1 in
  (lreq_step local s (QGetSet g)).2 = PLimit (Some n) ∧ lgs s !! g = Some n.
Proof.
  intros Hp Hg Hok Hno s. destruct Hp as [Hne Hf]. assert (in_force local s g) as Hin by (apply run_in_force; [done|apply in_force0]).
  assert (lgs s !! g = Some n) as Hs; [|by rewrite (ask_limit local s g (conj Hne Hf) Hin), Hs].
  unfold s. rewrite run_app1, run_cons. assert (in_force local (lreq_run local srv0 h0).1 g) as Hin0 by (apply run_in_force; [done|apply in_force0]).
  destruct (lreq_step local (lreq_run local srv0 h0).1 r0) as [s1 p] eqn:E. cbn [fst snd] in *. destruct (kept_step _ _ _ _ _ _ Hf Hin0 E) as (K1 & _ & K3 & _).
  rewrite run_same; [by apply K3|done|done|]. by apply Forall_forall.
Qed.
Lemma never_given local h g clk : plain g → Forall (λ r, ¬ limits local r g) h → let s := (lreq_run local srv0 h).1 in
  (lreq_step local s (QTry clk [g] false)).2 = PLim (RBool true) ∧ lgs s !! g = None.
Proof.
  intros [Hne Hf] Hno s. assert (in_force local s g) as Hin by (apply run_in_force; [done|apply in_force0]).
  assert (lgs s !! g = None) as Hs. { unfold s. rewrite run_same; [done|done|apply in_force0|by apply Forall_forall]. }
  split; [|done]. apply try_one; [done|done|]. intros n. by rewrite Hs.
Qed.
(** ** The list *)
Lemma listed_in_force local h m g n : plain g → let s := (lreq_run local srv0 h).1 in
  (lreq_step local s QLimits).2 = PLim (RLimits m) → m !! g = Some n → (lreq_step local s (QGetSet g)).2 = PLimit (Some n).
Proof.
  intros Hp s Hm Hg. assert (in_force local s g) as Hin by (apply run_in_force; [apply Hp|apply in_force0]). rewrite (ask_limit local s g Hp Hin).
  cbn in Hm. injection Hm as <-. apply in_force_iff in Hin; [|apply Hp]. rewrite lookup_omap in Hg. destruct (groups (mem s) !! g) as [x|] eqn:Ex; [|done].
  cbn in Hg. destruct (lgs s !! g) as [n'|]; [|done]. destruct (proj2 Hin x eq_refl) as (c & _ & Ed). rewrite Ed in Hg. cbn in Hg. by injection Hg as <-.
Qed.
Lemma running_listed local h0 r0 h1 g m : begun local h0 r0 h1 g → let s := (lreq_run local srv0 (h0 ++ r0 :: h1)).1 in
  (lreq_step local s QLimits).2 = PLim (RLimits m) → 0 < running local srv0 (h0 ++ r0 :: h1) g 0 → is_Some (m !! g).
Proof.
  intros Hb s Hm Hr. destruct (begun_limited local h0 r0 h1 g (λ _, True) Hb) as [Hin _ (n' & Hn' & _) Hc _]; [done|done|]. fold s in Hin, Hn', Hc.
  rewrite <- Hc in Hr. cbn in Hm. injection Hm as <-. apply in_force_iff in Hin; [|apply Hb]. rewrite lookup_omap. unfold count in Hr.
  destruct (groups (mem s) !! g) as [x|] eqn:Ex; [|lia]. rewrite Hn' in Hin. destruct (proj2 Hin x eq_refl) as (c & _ & Ed). cbn. rewrite Ed. cbn. eauto.
Qed.
