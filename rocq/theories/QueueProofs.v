(** Proofs of the queue properties. *)
From Coq Require Import ZArith Lia String.
From stdpp Require Import base option strings gmap list.
From RecordUpdate Require Import RecordSet.
From Verif Require Import GoHeap GoHeapProofs QueueModel QueueCore QueueInv QueueInvAdd
  QueueInvUpd QueueInvRem QueueInvTick QueueEff QueueSpec.
Import RecordSetNotations.
Open Scope Z_scope.

Lemma always_impl (P Q : qstate → op → Prop) s ops :
  (∀ s o, P s o → Q s o) → always P s ops → always Q s ops.
Proof.
  intros H. revert s. induction ops as [|o ops IH]; intros s; simpl; [done|].
  intros [H1 H2]. split; [by apply H|]. destruct (step s o) as [[[s' ?] ?]|]; [|done]. by apply IH.
Qed.
Lemma always_forall (P : qstate → op → Prop) (Q : op → Prop) s ops :
  (∀ s o, Q o → P s o) → Forall Q ops → always P s ops.
Proof.
  intros H HF. revert s. induction HF as [|o ops Ho _ IH]; intros s; simpl; [done|].
  split; [by apply H|]. destruct (step s o) as [[[s' ?] ?]|]; [|done]. apply IH.
Qed.
Lemma good_false s o : clears_safely s o → good false s o.
Proof.
  destruct o; simpl; try done. intros H x it Hk Hx. split; [|done].
  intros -> Hr. by apply (H x it).
Qed.
Lemma good_true s o : safely s o → good true s o.
Proof.
  intros [H1 H2]. destruct o; simpl in *; try done. intros x it Hk Hx. split.
  - intros -> Hr. by apply (H1 x it).
  - intros _ Hst Hd Hg Hp. by apply (H2 x it).
Qed.
Lemma good_run_false s ops : always clears_safely s ops → good_run false s ops.
Proof.
  revert s. induction ops as [|o ops IH]; intros s; simpl; [done|].
  intros [H1 H2]. split; [by apply good_false|].
  destruct (step s o) as [[[s' ?] ?]|]; [|done]. by apply IH.
Qed.
Lemma good_run_true s ops : always safely s ops → good_run true s ops.
Proof.
  revert s. induction ops as [|o ops IH]; intros s; simpl; [done|].
  intros [H1 H2]. split; [by apply good_true|].
  destruct (step s o) as [[[s' ?] ?]|]; [|done]. by apply IH.
Qed.
Lemma never_clears_safely s o : never_clears o → clears_safely s o.
Proof. destruct o; simpl; try done. by destruct deps as [[]|]. Qed.
Lemma never_updates_safely s o : never_updates o → safely s o.
Proof. by destruct o. Qed.

Lemma hist_inv_false t ops s :
  history t ops s → always clears_safely (q_new t) ops → Inv false s ∨ Dead s.
Proof.
  intros [out Hr] Ha. eapply run_inv; [left; apply inv_new|by apply good_run_false|done].
Qed.
Lemma hist_inv_true t ops s :
  history t ops s → always safely (q_new t) ops → Inv true s ∨ Dead s.
Proof.
  intros [out Hr] Ha. eapply run_inv; [left; apply inv_new|by apply good_run_true|done].
Qed.

(** ** C01 *)
Lemma occurs_nodup x l : NoDup l → occurs x l = if decide (x ∈ l) then 1%nat else 0%nat.
Proof.
  unfold occurs. intros Hnd. induction Hnd as [|y l Hy Hnd IH].
  - rewrite decide_False; [done|]. apply not_elem_of_nil.
  - rewrite filter_cons. destruct (decide (y = x)) as [->|Hne].
    + simpl. rewrite IH, decide_False by done. by rewrite decide_True by (by left).
    + rewrite IH. apply decide_ext. rewrite elem_of_cons. naive_solver.
Qed.

Lemma elem_of_concat {A} (x : A) (ls : list (list A)) : x ∈ concat ls ↔ ∃ l, x ∈ l ∧ l ∈ ls.
Proof.
  rewrite elem_of_list_In, in_concat. setoid_rewrite elem_of_list_In. naive_solver.
Qed.

Lemma elem_of_ready s x : x ∈ holding s SReady ↔ ∃ g, x ∈ arr (cont s (LReady g)).
Proof.
  simpl. rewrite elem_of_concat. split.
  - intros (l & Hx & Hl). apply elem_of_list_fmap in Hl as ([g l'] & -> & Hg%elem_of_map_to_list).
    exists g. by rewrite Hg.
  - intros (g & Hx). destruct (rgroups (readyQ s) !! g) as [l|] eqn:Hg; simpl in Hx; [|by apply elem_of_nil in Hx].
    exists l. split; [done|]. apply elem_of_list_fmap. exists (g, l). split; [done|].
    by apply elem_of_map_to_list.
Qed.

Lemma nodup_ready b s lm : core b s lm → NoDup (holding s SReady).
Proof.
  intros Hc. simpl.
  assert (Hall : ∀ g l, (g, l) ∈ map_to_list (rgroups (readyQ s)) →
     NoDup l ∧ ∀ x, x ∈ l → lm !! x = Some (LReady g)).
  { intros g l Hg%elem_of_map_to_list. pose proof (c_wf Hc (LReady g)) as [Hnd _].
    pose proof (c_in Hc (LReady g)) as Hin. simpl in *. rewrite Hg in Hnd, Hin. split; [done|].
    intros x Hx. by apply Hin. }
  pose proof (NoDup_fst_map_to_list (rgroups (readyQ s))) as Hk.
  induction (map_to_list (rgroups (readyQ s))) as [|[g l] ls IH]; simpl; [constructor|].
  simpl in Hk. apply NoDup_cons in Hk as [Hg Hk].
  apply NoDup_app. split_and!.
  - eapply Hall. by left.
  - intros x Hx Hx'. apply elem_of_concat in Hx' as (l' & Hxl & Hl').
    apply elem_of_list_fmap in Hl' as ([g' l''] & -> & Hgl). simpl in Hxl.
    destruct (Hall g l) as [_ H1]; [by left|]. destruct (Hall g' l'') as [_ H2]; [by right|].
    specialize (H1 x Hx). specialize (H2 x Hxl). assert (g = g') as -> by congruence.
    apply Hg. apply elem_of_list_fmap. by exists (g', l'').
  - apply IH; [|done]. intros g' l' H. apply Hall. by right.
Qed.

Lemma holding_nodup b s lm q : core b s lm → NoDup (holding s q).
Proof.
  intros Hc. destruct q; simpl.
  - apply (c_wf Hc LDelay).
  - by eapply (nodup_ready b s lm).
  - apply (c_wf Hc LRun).
  - apply (c_wf Hc LBury).
  - apply (c_wf Hc LDep).
  - constructor.
Qed.
Lemma holding_in b s q x : core b s (locs (objs s)) →
  x ∈ holding s q ↔ ∃ it, objs s !! x = Some it ∧ ist it = q ∧ q ≠ SRemoved.
Proof.
  intros Hc.
  assert (Hgen : ∀ l, x ∈ arr (cont s l) ↔ ∃ it, objs s !! x = Some it ∧ loc_of it = Some l).
  { intros l. rewrite (c_in Hc l), locs_lookup. destruct (objs s !! x) as [it|]; naive_solver. }
  assert (Hlo : ∀ it l q, (q, l) ∈ [(SDelay, LDelay); (SRun, LRun); (SBury, LBury); (SDep, LDep)] →
     loc_of it = Some l ↔ ist it = q).
  { intros it l q' H. unfold loc_of. set_unfold. destruct (ist it); naive_solver. }
  destruct q.
  - change (holding s SDelay) with (arr (cont s LDelay)). rewrite Hgen.
    setoid_rewrite (Hlo _ _ SDelay); [naive_solver|set_solver].
  - rewrite elem_of_ready. setoid_rewrite Hgen. split.
    + intros (g & it & Hx & Hl). exists it. split; [done|]. unfold loc_of in Hl. by destruct (ist it).
    + intros (it & Hx & Hst & _). exists (igroup it), it. split; [done|]. unfold loc_of. by rewrite Hst.
  - change (holding s SRun) with (arr (cont s LRun)). rewrite Hgen.
    setoid_rewrite (Hlo _ _ SRun); [naive_solver|set_solver].
  - change (holding s SBury) with (arr (cont s LBury)). rewrite Hgen.
    setoid_rewrite (Hlo _ _ SBury); [naive_solver|set_solver].
  - change (holding s SDep) with (arr (cont s LDep)). rewrite Hgen.
    setoid_rewrite (Hlo _ _ SDep); [naive_solver|set_solver].
  - simpl. rewrite elem_of_nil. naive_solver.
Qed.

Lemma inv_well_filed b s : Inv b s → well_filed s.
Proof.
  intros HI. pose proof (i_core HI) as Hc. split.
  - intros k x Hk. destruct (inv_get _ _ _ _ HI Hk) as (it & Hx & Hkey & Hr).
    exists it. split_and!; try done.
    + intros q. rewrite occurs_nodup by (by eapply holding_nodup). apply decide_ext.
      rewrite (holding_in b) by done. naive_solver.
    + intros Hst. change (x ∈ arr (cont s (LReady (igroup it)))). apply (c_in Hc).
      rewrite (locs_Some _ _ _ Hx). unfold loc_of. by rewrite Hst.
  - intros q x Hx. apply (holding_in b) in Hx as (it & Hx & Hst & Hr); [|done].
    exists (ikey it). apply (i_items HI). exists it. split_and!; congruence.
Qed.

Lemma dead_well_filed s : Dead s → well_filed s.
Proof.
  intros HD. split.
  - intros k x. rewrite (dd_items _ HD). by rewrite lookup_empty.
  - intros q x. destruct q; simpl.
    + rewrite (dd_delay _ HD). by intros ?%elem_of_nil.
    + rewrite (dd_ready _ HD), map_to_list_empty. by intros ?%elem_of_nil.
    + rewrite (dd_run _ HD). by intros ?%elem_of_nil.
    + rewrite (dd_bury _ HD). by intros ?%elem_of_nil.
    + rewrite (dd_dep _ HD). by intros ?%elem_of_nil.
    + by intros ?%elem_of_nil.
Qed.

Lemma filed_ok t ops s : history t ops s → always clears_safely (q_new t) ops → well_filed s.
Proof.
  intros Hh Ha. destruct (hist_inv_false t ops s Hh Ha) as [HI|HD].
  - by eapply inv_well_filed.
  - by apply dead_well_filed.
Qed.

(** Stats *)
Lemma ready_count s :
  map_fold (λ _ l n, (length l + n)%nat) 0%nat (rgroups (readyQ s)) = length (holding s SReady).
Proof.
  unfold map_fold. simpl. induction (map_to_list (rgroups (readyQ s))) as [|[g l] ls IH]; [done|].
  rewrite fmap_cons. cbn [foldr uncurry concat snd]. by rewrite app_length, IH.
Qed.

Lemma inv_stats b s : Inv b s →
  size (items s) = (length (holding s SDelay) + length (holding s SReady) + length (holding s SRun)
     + length (holding s SBury) + length (holding s SDep))%nat.
Proof.
  intros HI. pose proof (i_core HI) as Hc.
  change (size (items s)) with (length (map_to_list (items s))).
  assert (Hnd : NoDup (map_to_list (items s)).*2).
  { apply NoDup_alt. intros i j y Hi Hj.
    rewrite list_lookup_fmap in Hi, Hj.
    destruct (map_to_list (items s) !! i) as [[k1 y1]|] eqn:E1; [|done].
    destruct (map_to_list (items s) !! j) as [[k2 y2]|] eqn:E2; [|done].
    simpl in Hi, Hj. injection Hi as ->. injection Hj as ->.
    assert (H1 : items s !! k1 = Some y) by (apply elem_of_map_to_list; by eapply elem_of_list_lookup_2).
    assert (H2 : items s !! k2 = Some y) by (apply elem_of_map_to_list; by eapply elem_of_list_lookup_2).
    apply (i_items HI) in H1 as (it1 & Ha & Hb & _). apply (i_items HI) in H2 as (it2 & Hc' & Hd & _).
    assert (k1 = k2) as -> by congruence.
    pose proof (NoDup_map_to_list (items s)) as Hnd. rewrite NoDup_alt in Hnd. by eapply Hnd. }
  rewrite <- (fmap_length snd).
  assert (Hp : (map_to_list (items s)).*2 ≡ₚ
     holding s SDelay ++ holding s SReady ++ holding s SRun ++ holding s SBury ++ holding s SDep).
  { apply NoDup_Permutation; [done| |].
    - repeat (apply NoDup_app; split_and!; [by eapply holding_nodup| |]);
        try (by eapply holding_nodup);
        intros x; rewrite ?elem_of_app, !(holding_in b) by done;
        intros (it1 & Hx1 & Hst1 & _) Hy;
        repeat match type of Hy with _ ∨ _ => destruct Hy as [Hy|Hy] end;
        destruct Hy as (it2 & Hx2 & Hst2 & _); congruence.
    - intros x. rewrite !elem_of_app, !(holding_in b) by done. rewrite elem_of_list_fmap. split.
      + intros ([k y] & -> & Hk%elem_of_map_to_list). simpl.
        apply (i_items HI) in Hk as (it & Hy & _ & Hr).
        destruct (ist it) eqn:Hst; [left|right; left|right; right; left|do 3 right; left|do 4 right|done];
          by exists it.
      + intros H. assert (∃ it, objs s !! x = Some it ∧ ist it ≠ SRemoved) as (it & Hx & Hr).
        { repeat match type of H with _ ∨ _ => destruct H as [H|H] end;
            destruct H as (it & Hx & Hst & Hr); exists it; by rewrite Hst. }
        exists (ikey it, x). split; [done|]. apply elem_of_map_to_list. apply (i_items HI). eauto. }
  rewrite Hp, !app_length. lia.
Qed.

Lemma stats_ok t ops s : history t ops s → always clears_safely (q_new t) ops →
  st_items (q_stats s) =
    (st_delayed (q_stats s) + st_ready (q_stats s) + st_running (q_stats s) +
     st_buried (q_stats s) + st_dependant (q_stats s))%nat ∧
  (∀ q n, (q, n) ∈ [(SDelay, st_delayed (q_stats s)); (SReady, st_ready (q_stats s));
                    (SRun, st_running (q_stats s)); (SBury, st_buried (q_stats s));
                    (SDep, st_dependant (q_stats s))] → n = length (holding s q)).
Proof.
  intros Hh Ha. unfold q_stats. cbn [st_items st_delayed st_ready st_running st_buried st_dependant].
  rewrite ready_count. split.
  - destruct (hist_inv_false t ops s Hh Ha) as [HI|HD].
    + by rewrite (inv_stats _ _ HI).
    + rewrite (dd_items _ HD), (dd_delay _ HD), (dd_run _ HD), (dd_bury _ HD), (dd_dep _ HD).
      simpl. rewrite (dd_ready _ HD), map_to_list_empty. done.
  - intros q n Hin. set_unfold. naive_solver.
Qed.

(** ** C02 *)
Lemma before_better a b : item_before a b = true ↔ better a b.
Proof.
  unfold item_before, better.
  destruct (N.eqb_spec (iprio a) (iprio b)), (N.eqb_spec (isize a) (isize b));
    rewrite ?Z.ltb_lt, ?N.ltb_lt; lia.
Qed.

Lemma reserve_ready t ops s now g retry s' r e :
  history t ops s → always clears_safely (q_new t) ops →
  step s (OReserve now g retry) = Some (s', r, e) → closed s = false →
  (r = RErr ENothingReady ∧ ¬ ∃ x it, objs s !! x = Some it ∧ ist it = SReady ∧ igroup it = g) ∨
  (∃ x it, r = RItem x ∧ objs s !! x = Some it ∧ ist it = SReady ∧ igroup it = g).
Proof.
  intros Hh Ha Hs Hcl. destruct (hist_inv_false t ops s Hh Ha) as [HI|HD].
  2: { by rewrite (dd_closed _ HD) in Hcl. }
  simpl in Hs. destruct (q_reserve_ok false now g retry s HI)
    as [(s1 & E & _ & _ & _ & Hn)|(s1 & x & it & E & Hx & Hst & Hg & _)]; rewrite E in Hs; injection Hs as <- <- <-.
  - left. split; [done|]. intros (x & it & Hx & Hst & Hg). by eapply Hn.
  - right. eauto 10.
Qed.

Lemma reserve_best t ops s now g retry s' x e :
  history t ops s → always safely (q_new t) ops →
  step s (OReserve now g retry) = Some (s', RItem x, e) →
  ∃ it, objs s !! x = Some it ∧ ist it = SReady ∧ igroup it = g ∧
    ∀ y it', objs s !! y = Some it' → ist it' = SReady → igroup it' = g → ¬ better it' it.
Proof.
  intros Hh Ha Hs. destruct (hist_inv_true t ops s Hh Ha) as [HI|HD].
  - destruct (step_eff true s (OReserve now g retry) _ _ _ HI I Hs) as [He _]. inversion He; subst.
    + done.
    + exists it. split_and!; try done. intros y it' Hy Hst Hg. rewrite <- before_better.
      match goal with H : true = true → _ |- _ => by rewrite (H eq_refl y it' Hy Hst Hg) end.
  - destruct (dead_step s (OReserve now g retry) HD) as (s1 & Hs1 & _). rewrite Hs in Hs1.
    injection Hs1 as _ Hr _. simpl in Hr. by destruct retry.
Qed.
