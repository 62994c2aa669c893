(** What one server step does to one job *)
From Coq Require Import ZArith Lia String.
From stdpp Require Import base option strings gmap list.
From RecordUpdate Require Import RecordSet.
From Verif Require Import GoHeap QueueModel QueueEff ServerModel ServerCore ServerTick ServerEff ServerEff4 ServerPrep ServerEff5 ServerEff6 QueueDep ServerQ ServerSpec.
Import RecordSetNotations.
Open Scope Z_scope.

Lemma seen_look s k : seen s k = look s k.
Proof.
  unfold seen, look, find_job. destruct (items (sq s) !! k) as [x|]; [|done]. cbn.
  destruct (objs (sq s) !! x) as [it|]; [|done]. cbn. by destruct (sjobs s !! idata it).
Qed.

(** ** touched is affected *)
Lemma kept_init js ignore d : kept_of (init_job <$> js) ignore d = init_job <$> really_added d js ignore.
Proof.
  unfold kept_of, really_added. destruct ignore; [|done]. induction js as [|j js IH]; [done|].
  rewrite fmap_cons, !filter_cons. change (jkey (init_job j)) with (jkey j).
  destruct (decide _) as [H|H]; by rewrite IH.
Qed.
Lemma keys_init (js : list job) : jkey <$> (init_job <$> js) = jkey <$> js.
Proof. rewrite <- list_fmap_compose. by apply list_fmap_ext. Qed.
Lemma groups_init js g : g ∈ member_groups (init_job <$> js) ↔ group_names js g.
Proof.
  unfold member_groups, group_names. rewrite elem_of_filter, elem_of_list_to_set, elem_of_list_bind.
  split.
  - intros (H & j & Hg & Hj). apply elem_of_list_fmap in Hj as (i & -> & Hi). split; [done|]. by exists i.
  - intros (H & j & Hj & Hg). split; [done|]. exists (init_job j). split; [done|]. by apply elem_of_list_fmap_1.
Qed.
Lemma touched_affected d js k :
  touched d js k ↔ affected d (list_to_set (jkey <$> (init_job <$> js))) (member_groups (init_job <$> js)) k.
Proof.
  rewrite keys_init. split.
  - induction 1 as [g k Hg Hk|k j g k' Hk IH Hr Hg Hne Hk'].
    + exists g. split; [|done]. constructor. by apply groups_init.
    + destruct IH as (g0 & Hg0 & Hgk). exists g. split; [|done].
      apply (reached_step _ _ _ g0 k j); [done|done| |done|done]. unfold record_of.
      destruct Hr as [->|(-> & Hn & ->)]; [done|]. rewrite decide_False; [done|]. by rewrite elem_of_list_to_set.
  - intros (g & Hg & Hk). revert k Hk. induction Hg as [g Hg|g k j g' Hg IH Hk Hr Hj Hne]; intros k' Hk'.
    + apply t_first with g; [|done]. by apply groups_init.
    + apply (t_next _ _ k j g'); [by apply IH| |done|done|done]. unfold record_of in Hr.
      destruct (live d !! k) as [j'|]; [left; done|]. right. destruct (decide _) as [|Hn]; [done|].
      split; [done|]. split; [|done]. by rewrite <- (elem_of_list_to_set (C := gset key)).
Qed.
Lemma spares_gentle s o : spares_busy s o → gentle s o.
Proof.
  destruct o; try done. unfold spares_busy, gentle. cbv zeta. intros H k st j Ha Hl.
  apply (H k st j); [|by rewrite seen_look]. rewrite kept_init in Ha. by apply touched_affected.
Qed.

(** ** Good states *)
Record Good (s : sstate) : Prop := { g_s : SInv s; g_d : DInv s; g_q : QI (sq s); g_w : queued (sq s) }.
Lemma good_new t : Good (s_new t).
Proof. destruct (s_new_inv t). split; [done|done|apply qi_new|apply qx_new]. Qed.
Lemma good_step s o s' r l : Good s → spares_busy s o → sstep s o = Some (s', r, l) → seff s o s' r l ∧ Good s'.
Proof.
  intros [H1 H2 H3 H4] Hg Hs. destruct (sstep_full _ _ _ _ _ H1 H2 H3 H4 (spares_gentle _ _ Hg) Hs) as (He & ? & ? & ? & ?).
  split; [done|]. by split.
Qed.
Lemma hist_good (ok : sstate → sop → Prop) s0 es s : (∀ s o, ok s o → spares_busy s o) → Good s0 → hist ok s0 es s → Good s.
Proof.
  intros Hok H0 H. induction H; [done|]. eapply good_step; [apply IHhist|by apply Hok|done].
Qed.
Lemma reach_good (ok : sstate → sop → Prop) es s : (∀ s o, ok s o → spares_busy s o) → reachable ok es s → Good s.
Proof. intros Hok (t & H). eapply hist_good; [done|apply good_new|done]. Qed.
Lemma hist_ind_good (ok : sstate → sop → Prop) s0 (P : list entry → sstate → Prop) : (∀ s o, ok s o → spares_busy s o) → Good s0 → P [] s0 →
  (∀ es s o s' r l, Good s → P es s → ok s o → sstep s o = Some (s', r, l) → seff s o s' r l → Good s' →
     P (Entry s o r l s' :: es) s') → ∀ es s, hist ok s0 es s → P es s.
Proof.
  intros Hok H0 Hn Hc es s H. induction H as [|es s o s' r l H IH Ho Hs]; [done|].
  pose proof (hist_good _ _ _ _ Hok H0 H) as HG.
  destruct (good_step _ _ _ _ _ HG (Hok _ _ Ho) Hs) as [He HG']. by apply Hc.
Qed.

(** ** One job *)
Definition hit (k : key) (o : sop) (r : sres) : Prop :=
  match o, r with
  | AReserve _ _ _ _ _, SReserved k' => k' = k
  | AStart _ _ k' _, SOk => k' = k
  | AArchive _ k' _ _, SOk => k' = k
  | _, _ => False
  end.
(** who may have a job released, and how *)
Definition releases (k : key) (o : sop) (st : istate) (j : job) (jes : option endstate) (force : bool) : Prop :=
  match o with
  | ARelease _ c k' jes' => k' = k ∧ c = jreserved j ∧ jes = jes' ∧ force = false
  | ABury _ c k' jes' => k' = k ∧ c = jreserved j ∧ jes = jes' ∧ force = true
  | AKill _ k' => k' = k ∧ jlost j = true ∧ st = SRun ∧ jes = Some lost_end ∧ force = false
  | ALostRelease _ k' => k' = k ∧ jlost j = true ∧ jkilled j = true ∧ jes = Some lost_end ∧ force = false
  | _ => False
  end.
Inductive kch (s s' : sstate) (k : key) : sop → sres → option (istate * job) → option (istate * job) → Prop :=
| KSame o r v : ¬ hit k o r → ¬ is_crash o → kch s s' k o r v v
| KReserve now c g gr d j : c ≠ 0%N →
    kch s s' k (AReserve now c g gr d) (SReserved k) (Some (SReady, j)) (Some (SRun, reserved_job c g j))
| KStart now c j : c = jreserved j →
    kch s s' k (AStart now c k true) SOk (Some (SRun, j)) (Some (SRun, started_job now j))
| KTweak o r st j f : tweaks f → ¬ hit k o r → match o with ATouch _ _ _ | AKill _ _ | ARegroup _ _ => True | _ => False end →
    kch s s' k o r (Some (st, j)) (Some (st, f j))
| KRefused c jes ord j : c = jreserved j → ¬ archivable (update_after_exit jes j).1 →
    kch s s' k (AArchive c k jes ord) (SErr EBadRequest) (Some (SRun, j)) (Some (SRun, (update_after_exit jes j).1))
| KArchive c jes ord j : c = jreserved j → archivable (update_after_exit jes j).1 →
    kch s s' k (AArchive c k jes ord) SOk (Some (SRun, j)) None
| KFreed o r j : match o with AArchive _ k' _ _ => k' ≠ k | ADelete _ _ => True | _ => False end →
    kch s s' k o r (Some (SDep, j)) (Some (SReady, j))
| KRel o r jes force st j f st' : releases k o st j jes force → tweaks f → ¬ hit k o r →
    ((st = SRun ∧ (if will_bury force j then st' = SBury else st' = SReady ∨ st' = SDelay)) ∨
     (st' = st ∧ (if will_bury force j then st = SBury ∧ jst j ≠ JBuried else st = SDelay ∧ jst j ≠ JDelayed))) →
    kch s s' k o r (Some (st, j)) (Some (st', (after_rel jes force (f j)).1))
| KKick ks r j st : k ∈ ks → st = SReady ∨ st = SDep →
    kch s s' k (AKick ks) r (Some (SBury, j)) (Some (st, kicked_job j))
| KDelete ks ord r st j : k ∈ ks → st ≠ SRun → kch s s' k (ADelete ks ord) r (Some (st, j)) None
| KDue now r j : kch s s' k (ATickDelay now) r (Some (SDelay, j)) (Some (SReady, j))
| KTTR now r j : kch s s' k (ATickTTR now) r (Some (SRun, j))
    (Some (match (ttr_callback now j).1.2 with ToRun => SRun | _ => SDelay end, (ttr_callback now j).1.1))
| KNew now js ignore r j st : st = SReady ∨ st = SDep →
    (∃ i, i ∈ js ∧ j = init_job i ∧ jkey i = k) ∨
    (touched (sdb s) (really_added (sdb s) js ignore) k ∧ complete (sdb s) !! k = Some j) →
    kch s s' k (AAdd now js ignore) r None (Some (st, j))
| KUpd now js ignore r st j st' j' : touched (sdb s) (really_added (sdb s) js ignore) k →
    live (sdb s) !! k = Some j' → st ≠ SRun → st ≠ SBury → st' = st ∨ st' = SReady ∨ st' = SDep →
    kch s s' k (AAdd now js ignore) r (Some (st, j)) (Some (st', j'))
| KCrash c now granted v :
    kch s s' k (ACrash c now granted) SOk v
      ((λ j, (recovered_state (sdb s') j, (recover_limits granted j).1)) <$> live (sdb s') !! k).

Lemma freed_kch s s' k o r : same_or_freed s s' k → ¬ hit k o r → ¬ is_crash o →
  match o with AArchive _ k' _ _ => k' ≠ k | ADelete _ _ => True | _ => False end → kch s s' k o r (look s k) (look s' k).
Proof.
  intros [H|(j & H & H')] ? ? ?; [rewrite H; by apply KSame|]. rewrite H, H'. by apply KFreed.
Qed.
Lemma rel_kch s s1 s' k k0 o r jes force l f : rel_eff s1 k0 jes force s' l →
  (∀ k, k ≠ k0 → look s1 k = look s k) → (∀ st j, look s k0 = Some (st, j) → look s1 k0 = Some (st, f j)) →
  is_Some (look s k0) → tweaks f →
  (∀ st j, look s k0 = Some (st, j) → releases k0 o st j jes force) → (∀ k, ¬ hit k o r) → ¬ is_crash o →
  kch s s' k o r (look s k) (look s' k).
Proof.
  intros (st & j1 & st' & Hl1 & Hr) Ho Hf [[st0 j] Hl] Ht Hrel Hh Hc.
  pose proof (Hf _ _ Hl) as Hl1'. rewrite Hl1 in Hl1'. injection Hl1' as -> ->.
  destruct (after_rel jes force (f j)) as [j' l'] eqn:Ha. destruct Hr as (Hl' & -> & Hoth & _ & Hst).
  destruct (decide (k = k0)) as [->|Hne].
  2: { rewrite (others_look _ _ _ Hoth _ Hne), Ho by done. by apply KSame. }
  rewrite Hl, Hl'. assert (j' = (after_rel jes force (f j)).1) as -> by (by rewrite Ha).
  apply KRel; [by apply Hrel|done|done|].
  destruct (Ht j) as (_ & _ & Hu & _ & Hs & _ & _ & Hj & _). unfold will_bury in *. by rewrite Hu, Hs, Hj in Hst.
Qed.

Lemma head_filter_some (toq : list job) k j : head (filter (λ j, jkey j = k) toq) = Some j → j ∈ toq ∧ jkey j = k.
Proof.
  intros H. assert (j ∈ filter (λ j, jkey j = k) toq) as [? ?]%elem_of_list_filter; [|done].
  destruct (filter _ toq); [done|]. injection H as ->. left.
Qed.

Ltac tw := apply KTweak; [done|simpl; tauto|done].
Ltac same := apply KSame; [simpl; tauto|simpl; tauto].
Lemma seff_kch s o s' r l k : Good s → spares_busy s o → seff s o s' r l → kch s s' k o r (seen s k) (seen s' k).
Proof.
  intros HG Hsp He. rewrite !seen_look. destruct He.
  - rewrite H. destruct H1 as [H1 _]. apply KSame; destruct o, r; simpl in *; tauto.
  - destruct (decide (k0 = k)) as [->|Hne]; [rewrite H, H1; by apply KReserve|]. rewrite H2 by done. by same.
  - destruct (decide (k0 = k)) as [->|Hne]; [rewrite H, H1; by apply KStart|]. rewrite H2 by done. by same.
  - destruct (decide (k0 = k)) as [->|Hne]; [rewrite H, H1; by tw|]. rewrite H3 by done. by same.
  - destruct (decide (k0 = k)) as [->|Hne].
    + rewrite H, H0. destruct o; try done; by tw.
    + rewrite H2 by done. by destruct o; try done; same.
  - destruct (decide (k0 = k)) as [->|Hne]; [rewrite H, H2; by apply KRefused|]. rewrite H3 by done. by same.
  - destruct (decide (k0 = k)) as [->|Hne]; [rewrite H, H2; by apply KArchive|]. apply freed_kch; [by apply H3|simpl; tauto|simpl; tauto|done].
  - eapply (rel_kch s s s' k k0 _ _ jes false l id); [done|done|done|rewrite H; by eexists|done| |simpl; tauto|simpl; tauto].
    intros st1 j1 Hl1. rewrite H in Hl1. by simplify_eq.
  - eapply (rel_kch s s s' k k0 _ _ jes true l id); [done|done|done|rewrite H; by eexists|done| |simpl; tauto|simpl; tauto].
    intros st1 j1 Hl1. rewrite H in Hl1. by simplify_eq.
  - eapply (rel_kch s s1 s' k k0 _ _ (Some lost_end) false l (λ j, j <| jkilled := true |>)); [done| | | |done| |simpl; tauto|simpl; tauto].
    + intros k1 Hk1. by apply (others_look s s1 k0).
    + intros st1 j1 Hl1. rewrite H in Hl1. by simplify_eq.
    + rewrite H. by eexists.
    + intros st1 j1 Hl1. rewrite H in Hl1. by simplify_eq.
  - eapply (rel_kch s s s' k k0 _ _ (Some lost_end) false l id); [done|done|done|rewrite H; by eexists|done| |simpl; tauto|simpl; tauto].
    intros st1 j1 Hl1. rewrite H in Hl1. by simplify_eq.
  - destruct (decide (k ∈ kicked)) as [Hk|Hk]; [|rewrite H2 by done; by same].
    destruct (H1 k Hk) as (st & j & -> & -> & Hst). apply KKick; [by apply H0|done].
  - destruct (decide (k ∈ del)) as [Hk|Hk]; [|apply freed_kch; [by apply H2|simpl; tauto|simpl; tauto|done]].
    destruct (H1 k Hk) as (st & j & -> & Hst & ->). apply KDelete; [by apply H0|done].
  - destruct (H k) as [->|(j & -> & ->)]; [by same|apply KDue].
  - destruct (decide (k ∈ ks)) as [Hk|Hk]; [|rewrite H1 by done; by same].
    destruct (H2 k Hk) as (j & -> & ->). apply KTTR.
  - rewrite H. by same.
  - pose proof (prepare_facts _ _ _ _ _ _ _ (dinv_keys _ (g_d _ HG)) H) as Hpf. cbv zeta in Hpf.
    destruct Hpf as (res & Hst & Htoq & Hal & Hun & Hrn & Hupd & Hres). rewrite kept_init in *.
    destruct (find_job k s) as [[[it p] j]|] eqn:Hf.
    + assert (Hl : look s k = Some (ist it, j)) by (unfold look; by rewrite Hf).
      destruct (H3 k it p j Hf) as [[_ He]|(it' & p' & j' & Hf' & Hj' & Hk & _ & Hi)].
      { rewrite (find_look_eq _ _ _ He). by same. }
      assert (look s' k = Some (ist it', j')) as -> by (unfold look; by rewrite Hf'). rewrite Hl.
      apply Hupd in Hj' as [Ha Hlv]. rewrite Hk in *. apply touched_affected in Ha.
      destruct (Hsp k (ist it) j Ha) as [? ?]; [by rewrite seen_look|].
      apply KUpd; try done. rewrite Hi. unfold upd_state. destruct (bool_decide _); [by left|].
      right. destruct (incomplete_keys _ j'); [by left|]. right. by destruct (ist it).
    + specialize (H2 k Hf). assert (look s k = None) as -> by (unfold look; by rewrite Hf).
      destruct (head (filter (λ j, jkey j = k) toq)) as [j|] eqn:Hh.
      * destruct H2 as (it & p & Hf' & _ & Hi). assert (look s' k = Some (ist it, j)) as -> by (unfold look; by rewrite Hf').
        apply head_filter_some in Hh as [Hj Hk]. apply KNew.
        { rewrite Hi. destruct (incomplete_keys _ j); [by left|by right]. }
        assert (Hjs : j ∈ init_job <$> js → ∃ i, i ∈ js ∧ j = init_job i ∧ jkey i = k).
        { intros (i & -> & Hi')%elem_of_list_fmap. by exists i. }
        assert (Hkept : j ∈ init_job <$> really_added (sdb s) js ignore → j ∈ init_job <$> js).
        { intros (i & -> & Hi')%elem_of_list_fmap. apply elem_of_list_fmap_1. unfold really_added in Hi'.
          destruct ignore; [|done]. by apply elem_of_list_filter in Hi' as [_ ?]. }
        destruct res as [|r0 res]; [left; rewrite Htoq in Hj; auto|]. rewrite Htoq in Hj.
        apply elem_of_app in Hj as [Hj|Hj]; [|left; auto]. right.
        apply Hres in Hj as (Ha & _ & _ & Hc). rewrite Hk in *. split; [|done]. by apply touched_affected.
      * assert (look s' k = None) as -> by (unfold look; by rewrite H2). by same.
  - rewrite H0. apply KCrash.
Qed.
