(** What jobs wait for (C46) *)
From Coq Require Import ZArith Lia String.
From stdpp Require Import base option strings gmap list.
From RecordUpdate Require Import RecordSet.
From Verif Require Import GoHeap QueueModel QueueCore QueueInv QueueInvAdd QueueInvUpd QueueInvRem
  QueueInvTick QueueEff QueueItem QueueFrame QueueProofs5 QueueDep
  ServerModel ServerCore ServerTick ServerEff ServerEff2 ServerEff4 ServerPrep ServerEff5 ServerEff6 ServerQ ServerSpec ServerKey
  ServerProofs ServerProofs2 ServerProofs3 ServerDep.
Import RecordSetNotations.
Open Scope Z_scope.

(** ** The queue: between adds, items only stop waiting for what left *)
Record less (q q' : qstate) : Prop := {
  ls_items d : is_Some (items q' !! d) → is_Some (items q !! d);
  ls_item k x it' : items q' !! k = Some x → objs q' !! x = Some it' →
    ∃ it, items q !! k = Some x ∧ objs q !! x = Some it ∧ iremain it' ⊆ iremain it ∧
      ∀ d, d ∈ iremain it → d ∈ iremain it' ∨ items q' !! d = None;
}.
Arguments ls_items {_ _} _ _ _.
Arguments ls_item {_ _} _ _ _ _ _ _.
Lemma less_refl q : less q q.
Proof. split; [done|]. intros k x it Hk Hx. exists it. split_and!; try done. by left. Qed.
Lemma less_trans q1 q2 q3 : less q1 q2 → less q2 q3 → less q1 q3.
Proof.
  intros H1 H2. split; [by intros d ?%(ls_items H2)%(ls_items H1)|].
  intros k x it3 Hk Hx. destruct (ls_item H2 _ _ _ Hk Hx) as (it2 & Hk2 & Hx2 & Hs2 & Hd2).
  destruct (ls_item H1 _ _ _ Hk2 Hx2) as (it1 & Hk1 & Hx1 & Hs1 & Hd1). exists it1. split_and!; try done; [by etrans|].
  intros d Hd. destruct (Hd1 d Hd) as [Hd'|Hn]; [by apply Hd2|]. right. apply eq_None_not_Some. intros H.
  apply (ls_items H2) in H. rewrite Hn in H. by destruct H.
Qed.
Lemma removed_items b q k ord q' e : eff b q (ORemove k ord) q' ROk e → items q' !! k = None.
Proof.
  intros He. inversion He; subst; [done|]. match goal with H : items q' = _ |- _ => rewrite H end. apply lookup_delete.
Qed.
Lemma less_step b q o q' r e : Inv b q → Inv b q' → eff b q o q' r e →
  match o with OUpdate _ _ _ _ _ _ _ _ | OAdd _ _ _ _ _ _ _ _ _ _ | OAddMany _ _ | OChangeKey _ _ | ODestroy => False | _ => True end →
  less q q'.
Proof.
  intros HI HI' He Ho.
  assert (Hi : items q' = items q ∨ ∃ k ord x, o = ORemove k ord ∧ items q !! k = Some x ∧ items q' = delete k (items q)).
  { destruct He; try (match goal with H : rest_eq _ _ |- _ => destruct H as (? & _); by left end); try done.
    all: try (by left). all: right; by eexists _, _, _. }
  split.
  { intros d. destruct Hi as [->|(k & ord & x & _ & _ & ->)]; [done|]. rewrite lookup_delete_is_Some. by intros [_ ?]. }
  intros k x it' Hk' Hx'.
  assert (Hk : items q !! k = Some x).
  { destruct Hi as [<-|(k0 & ord & x0 & _ & _ & E)]; [done|]. rewrite E in Hk'. by apply lookup_delete_Some in Hk' as [_ ?]. }
  destruct (items_inj _ _ _ _ _ HI' Hk' Hx') as [_ Hl'].
  apply (i_items HI) in Hk as H. destruct H as (it & Hx & Hik & Hl).
  destruct (eff_item b q o q' r e x it HI He Hx) as (it1 & Hx1 & Hc). simplify_eq.
  exists it. split; [done|]. split; [done|].
  assert (Hsame : iremain it' = iremain it → iremain it' ⊆ iremain it ∧ ∀ d, d ∈ iremain it → d ∈ iremain it' ∨ items q' !! d = None).
  { intros ->. split; [done|]. by left. }
  destruct Hc; try done; try (by apply Hsame).
  - apply Hsame. unfold set_delay. destruct (_ =? _); [done|]. by destruct (ist it).
  - apply Hsame. unfold released. by destruct (_ =? _).
  - apply Hsame. by destruct (item_has_deps x q).
  - match goal with H : dependants q !! ?k = Some m |- _ => rename k into k0 end.
    rewrite resolve_cases. cbn. split; [set_solver|]. intros d Hd.
    destruct (decide (d = k0)) as [->|]; [right|left; set_solver].
    destruct Hi as [Hi|(k1 & ord1 & x1 & [= <- <-] & _ & ->)]; [|by rewrite lookup_delete].
    by apply (removed_items b q k0 ord q' e).
  - apply Hsame. by destruct (cb j).
Qed.
Lemma less_reach q q' : QI q → qreach false q q' → less q q'.
Proof.
  intros HQ H. induction H as [|q q1 q2 o r e Ho Hs Hr IH]; [apply less_refl|].
  assert (HQ1 : QI q1) by (by eapply qi_step).
  eapply less_trans; [|by apply IH].
  destruct (step_eff false q o q1 r e (qi_inv _ HQ) (held_good _ _ _ (qi_held _ HQ) (qi_inv _ HQ) Ho) Hs) as [He _].
  apply (less_step false q o q1 r e (qi_inv _ HQ) (qi_inv _ HQ1) He).
  destruct o; try done. destruct deps; [|done]. by destruct Ho.
Qed.

(** ** The server *)
Section deps.
Context (gr : key → list string) (dp : key → list dependency).
Definition grpk (k d : key) : Prop := ∃ g, g ≠ ""%string ∧ DGroup g ∈ dp k ∧ g ∈ gr d.
Definition depk (k d : key) : Prop := grpk k d ∨ DJob d ∈ dp k.
Definition stored_key (d : db) (k : key) : Prop := is_Some (live d !! k) ∨ is_Some (complete d !! k).
(** the lookups say what the jobs say *)
Record WD (d : db) : Prop := {
  wd_live k j : live d !! k = Some j → jdepgroups j = gr k ∧ jdeps j = dp k;
  wd_comp k j : complete d !! k = Some j → jdepgroups j = gr k ∧ jdeps j = dp k;
  wd_dtk g k : (g, k) ∈ dtk d → g ∈ gr k ∧ g ≠ ""%string;
  wd_dtk' g k : stored_key d k → g ∈ gr k → g ≠ ""%string → (g, k) ∈ dtk d;
  wd_rdtk g k : stored_key d k → DGroup g ∈ dp k → (g, k) ∈ rdtk d;
}.
Arguments wd_live {_} _ _ _ _.
Arguments wd_comp {_} _ _ _ _.
Arguments wd_dtk {_} _ _ _ _.
Arguments wd_dtk' {_} _ _ _ _ _ _.
Arguments wd_rdtk {_} _ _ _ _ _.

Lemma incomplete_spec d j k k' : WD d → jdeps j = dp k →
  k' ∈ incomplete_keys d j ↔ is_Some (live d !! k') ∧ depk k k'.
Proof.
  intros HW Hj. unfold incomplete_keys. rewrite elem_of_elements, elem_of_union_list, Hj. split.
  - intros (X & HX & Hk). apply elem_of_list_fmap in HX as (x & -> & Hx). destruct x as [g|k0]; cbn [dep_keys] in Hk.
    + apply elem_of_map in Hk as ([g' k0] & -> & Hf). apply elem_of_filter in Hf as [[Hg Hl] Hf]. cbn in Hg, Hl. subst g'.
      destruct (wd_dtk HW _ _ Hf) as [? ?]. split; [done|]. left. by exists g.
    + destruct (decide _); [|by apply elem_of_empty in Hk]. apply elem_of_singleton in Hk as ->. split; [done|by right].
  - intros [Hl [(g & Hne & Hg & Hk')|Hx]].
    + exists (dep_keys d (DGroup g)). split; [by apply elem_of_list_fmap_1|]. cbn [dep_keys]. apply elem_of_map.
      exists (g, k'). split; [done|]. apply elem_of_filter. split; [done|]. apply (wd_dtk' HW); [by left|done|done].
    + exists (dep_keys d (DJob k')). split; [by apply elem_of_list_fmap_1|]. cbn [dep_keys].
      rewrite decide_True by done. by apply elem_of_singleton.
Qed.

Record WI (s : sstate) : Prop := {
  w_rec j : recorded s j → jdepgroups j = gr (jkey j) ∧ jdeps j = dp (jkey j);
  w_db : WD (sdb s);
  w_ph k : is_Some (find_job k s) → is_Some (live (sdb s) !! k);
  w_sub k it p j d : find_job k s = Some (it, p, j) → d ∈ iremain it → depk k d;
  w_sup k it p j d : find_job k s = Some (it, p, j) → is_Some (live (sdb s) !! d) → grpk k d → d ∈ iremain it;
}.
Arguments w_rec {_} _ _ _.
Arguments w_db {_} _.
Arguments w_ph {_} _ _ _.
Arguments w_sub {_} _ _ _ _ _ _ _ _.
Arguments w_sup {_} _ _ _ _ _ _ _ _ _.

Lemma recorded_step s o s' r l : Good s → spares_busy s o → steady gr dp o → sstep s o = Some (s', r, l) →
  (∀ j, recorded s j → jdepgroups j = gr (jkey j) ∧ jdeps j = dp (jkey j)) →
  ∀ j, recorded s' j → jdepgroups j = gr (jkey j) ∧ jdeps j = dp (jkey j).
Proof.
  intros HG Hsp Hst Hs Hrec j Hj. destruct (known_step s HG o s' r l j Hsp Hs Hj) as (j0 & E & H).
  unfold definition_of in E. injection E as E1 _ _ E2 E3. rewrite E1, E2, E3. destruct H as [H|H]; [by apply Hrec|by apply Hst].
Qed.

(** *** Requests that add nothing *)
Definition quiet (o : sop) : Prop := match o with AAdd _ _ _ | ACrash _ _ _ => False | _ => True end.
Global Instance quiet_dec o : Decision (quiet o) := match o with AAdd _ _ _ | ACrash _ _ _ => right (λ H, H) | _ => left I end.
Lemma quiet_db s o s' r l : Good s → Good s' → quiet o → seff s o s' r l →
  dtk (sdb s') = dtk (sdb s) ∧ rdtk (sdb s') = rdtk (sdb s) ∧
  (∀ k, is_Some (live (sdb s') !! k) → is_Some (live (sdb s) !! k)) ∧
  (∀ k, is_Some (live (sdb s) !! k) → is_Some (find_job k s') → is_Some (live (sdb s') !! k)) ∧
  (∀ k, is_Some (complete (sdb s') !! k) → is_Some (complete (sdb s) !! k) ∨ is_Some (find_job k s)).
Proof.
  intros HG HG' Hq He.
  assert (Hsame : sdb s' = sdb s → dtk (sdb s') = dtk (sdb s) ∧ rdtk (sdb s') = rdtk (sdb s) ∧
    (∀ k, is_Some (live (sdb s') !! k) → is_Some (live (sdb s) !! k)) ∧
    (∀ k, is_Some (live (sdb s) !! k) → is_Some (find_job k s') → is_Some (live (sdb s') !! k)) ∧
    (∀ k, is_Some (complete (sdb s') !! k) → is_Some (complete (sdb s) !! k) ∨ is_Some (find_job k s))).
  { intros ->. split_and!; try done. by left. }
  assert (Hpend : ∀ f, sdb s' = sdb s <| pend ::= f |> → dtk (sdb s') = dtk (sdb s) ∧ rdtk (sdb s') = rdtk (sdb s) ∧
    (∀ k, is_Some (live (sdb s') !! k) → is_Some (live (sdb s) !! k)) ∧
    (∀ k, is_Some (live (sdb s) !! k) → is_Some (find_job k s') → is_Some (live (sdb s') !! k)) ∧
    (∀ k, is_Some (complete (sdb s') !! k) → is_Some (complete (sdb s) !! k) ∨ is_Some (find_job k s))).
  { intros f ->. split_and!; try done. by left. }
  assert (Hrel : ∀ s1 k jes force l, rel_eff s1 k jes force s' l → sdb s1 = sdb s → ∃ f, sdb s' = sdb s <| pend ::= f |>).
  { intros s1 k jes force l0 (st & j & st' & _ & Hr) E. destruct (after_rel jes force j) as [j' l'].
    destruct Hr as (_ & _ & _ & -> & _). rewrite E. by eexists. }
  assert (Hln : ∀ k, look s' k = None → find_job k s' = None).
  { intros k. unfold look. by destruct (find_job k s') as [[[??]?]|]. }
  assert (Hls : ∀ k x, look s k = Some x → is_Some (find_job k s)).
  { intros k x. unfold look. by destruct (find_job k s) as [[[??]?]|]. }
  destruct He; try (by auto); try (by eapply Hpend);
    try (match goal with H : sdb s' = put_pend ?k ?j _ |- _ => by apply (Hpend (λ l, l ++ [(k, encode j)])) end);
    try (match goal with H : rel_eff _ _ _ _ _ _ |- _ => destruct (Hrel _ _ _ _ _ H) as [f Hf]; [done|by apply (Hpend f)] end).
  - match goal with H : sdb s' = _ |- _ => rewrite H end. cbn. split_and!; try done.
    + intros k0 [_ ?]%lookup_delete_is_Some. done.
    + intros k0 Hl Hf. apply lookup_delete_is_Some. split; [|done]. intros <-.
      rewrite (Hln k) in Hf by done. by destruct Hf.
    + intros k0 [<-|[_ ?]]%lookup_insert_is_Some; [right; by eapply Hls|by left].
  - match goal with H : sdb s' = _ |- _ => rewrite H end. cbn. split_and!; try done.
    + intros k0. rewrite foldr_delete_at. by destruct (decide _) as [?|?]; [intros [? ?]|].
    + intros k0 Hl Hf. rewrite foldr_delete_at. destruct (decide _) as [Hd|Hd]; [|done].
      match goal with H : ∀ k, k ∈ del → _ |- _ => destruct (H k0 Hd) as (? & ? & _ & _ & Hn) end.
      rewrite (Hln _ Hn) in Hf. by destruct Hf.
    + by left.
  - match goal with H : sdb s' = _ |- _ => rewrite H end. unfold s_land.
    destruct (pend (sdb s) !! i) as [[k0 j0]|]; [|split_and!; try done; by left].
    cbn. split_and!; try done.
    + intros k1. destruct (decide _); [|done]. intros [<-|[_ ?]]%lookup_insert_is_Some; done.
    + intros k1 Hk1 _. destruct (decide _); [|done]. apply lookup_insert_is_Some.
      destruct (decide (k0 = k1)) as [->|]; [by left|by right].
    + by left.
Qed.

Lemma wd_of s : DInv s → (∀ j, recorded s j → jdepgroups j = gr (jkey j) ∧ jdeps j = dp (jkey j)) →
  (∀ k j, live (sdb s) !! k = Some j → jdepgroups j = gr k ∧ jdeps j = dp k) ∧
  (∀ k j, complete (sdb s) !! k = Some j → jdepgroups j = gr k ∧ jdeps j = dp k).
Proof.
  intros HD Hrec. split; intros k j Hk.
  - destruct (di_live HD k j Hk) as [Hjk _]. rewrite <- Hjk. apply Hrec. by eapply r_live.
  - destruct (di_comp HD k j Hk) as [Hjk _]. rewrite <- Hjk. apply Hrec. by eapply r_comp.
Qed.

Lemma quiet_less s o s' r l : Good s → spares_busy s o → quiet o → sstep s o = Some (s', r, l) → less (sq s) (sq s').
Proof.
  intros [HS HD HQ HW] Hsp Hq Hs. apply less_reach; [done|].
  destruct (sstep_qi _ _ _ _ _ HS HD HQ HW (spares_gentle _ _ Hsp) Hs) as (_ & _ & [H|[(? & ? & ? & ->)|(? & ? & ? & ->)]]); done.
Qed.
Lemma less_find s s' k it' p' j' : SInv s → SInv s' → less (sq s) (sq s') → find_job k s' = Some (it', p', j') →
  ∃ it p j, find_job k s = Some (it, p, j) ∧ iremain it' ⊆ iremain it ∧
    ∀ d, d ∈ iremain it → d ∈ iremain it' ∨ find_job d s' = None.
Proof.
  intros HS HS' HL Hf. destruct (find_found _ _ _ _ _ HS' Hf) as (_ & x & HF).
  destruct (ls_item HL k x it' (f_item HF) (f_obj HF)) as (it & Hk & Hx & Hsub & Hsup).
  destruct (items_found _ _ _ HS Hk) as (it1 & j & HF1). assert (it1 = it) as -> by (pose proof (f_obj HF1); congruence).
  exists it, (idata it), j. split; [by apply (found_find _ _ x)|]. split; [done|]. intros d Hd.
  destruct (Hsup d Hd) as [|Hn]; [by left|right]. unfold find_job. by rewrite Hn.
Qed.

Lemma quiet_step s o s' r l : Good s → WI s → spares_busy s o → steady gr dp o → quiet o →
  sstep s o = Some (s', r, l) → WI s'.
Proof.
  intros HG HW Hsp Hst Hq Hs. destruct (good_step _ _ _ _ _ HG Hsp Hs) as [He HG'].
  destruct (quiet_db _ _ _ _ _ HG HG' Hq He) as (E1 & E2 & D1 & D2 & D3).
  pose proof (quiet_less _ _ _ _ _ HG Hsp Hq Hs) as HL.
  pose proof (recorded_step _ _ _ _ _ HG Hsp Hst Hs (w_rec HW)) as Hrec.
  destruct (wd_of s' (g_d _ HG') Hrec) as [W1 W2].
  assert (Hsk : ∀ k, stored_key (sdb s') k → stored_key (sdb s) k).
  { intros k [H|H]; [left; by apply D1|]. destruct (D3 k H) as [?|H']; [by right|left]. by apply (w_ph HW). }
  assert (Hfind : ∀ k, is_Some (find_job k s') → is_Some (find_job k s)).
  { intros k [[[it' p'] j'] Hf]. destruct (less_find _ _ _ _ _ _ (g_s _ HG) (g_s _ HG') HL Hf) as (it & p & j & -> & _). by eexists. }
  split; [done| | | |].
  - split; [done|done| | |]; rewrite ?E1, ?E2.
    + apply (wd_dtk (w_db HW)).
    + intros g k H. by apply (wd_dtk' (w_db HW)), Hsk.
    + intros g k H. by apply (wd_rdtk (w_db HW)), Hsk.
  - intros k Hk. apply D2; [|done]. by apply (w_ph HW), Hfind.
  - intros k it' p' j' d Hf Hd. destruct (less_find _ _ _ _ _ _ (g_s _ HG) (g_s _ HG') HL Hf) as (it & p & j & Hf0 & Hsub & _).
    apply (w_sub HW k it p j d Hf0). by apply Hsub.
  - intros k it' p' j' d Hf Hd Hg. destruct (less_find _ _ _ _ _ _ (g_s _ HG) (g_s _ HG') HL Hf) as (it & p & j & Hf0 & _ & Hsup).
    destruct (Hsup d) as [|Hn]; [|done|].
    + by apply (w_sup HW k it p j d Hf0); [apply D1|].
    + destruct (di_in (g_d _ HG') d Hd) as [? ?]. congruence.
Qed.

(** *** Adding *)
Lemma new_dtk_elem js g k : (g, k) ∈ new_dtk (init_job <$> js) ↔ g ≠ ""%string ∧ ∃ j, j ∈ js ∧ jkey j = k ∧ g ∈ jdepgroups j.
Proof.
  unfold new_dtk. rewrite elem_of_list_bind. split.
  - intros (j & H & Hj). apply elem_of_list_fmap in Hj as (i & -> & Hi).
    apply elem_of_list_fmap in H as (g' & [= -> ->] & Hg). apply elem_of_list_filter in Hg as [? ?]. split; [done|]. by exists i.
  - intros (Hg & j & Hj & <- & Hgj). exists (init_job j). split; [|by apply elem_of_list_fmap_1].
    apply elem_of_list_fmap. exists g. split; [done|]. by apply elem_of_list_filter.
Qed.
Lemma new_rdtk_elem js g k : (g, k) ∈ new_rdtk (init_job <$> js) ↔ ∃ j, j ∈ js ∧ jkey j = k ∧ DGroup g ∈ jdeps j.
Proof.
  unfold new_rdtk. rewrite elem_of_list_bind. split.
  - intros (j & H & Hj). apply elem_of_list_fmap in Hj as (i & -> & Hi).
    apply elem_of_list_fmap in H as (g' & [= -> ->] & Hg). unfold dep_groups_of in Hg.
    apply elem_of_list_omap in Hg as (x & Hx & E). destruct x; [|done]. injection E as ->. by exists i.
  - intros (j & Hj & <- & Hgj). exists (init_job j). split; [|by apply elem_of_list_fmap_1].
    apply elem_of_list_fmap. exists g. split; [done|]. unfold dep_groups_of. apply elem_of_list_omap. by exists (DGroup g).
Qed.

Lemma really_sub d js ignore j : j ∈ really_added d js ignore → j ∈ js.
Proof. unfold really_added. destruct ignore; [|done]. by intros [_ ?]%elem_of_list_filter. Qed.

Lemma touched_group d js g k : group_names js g → (g, k) ∈ rdtk d → touched d js k.
Proof. intros. by eapply t_first. Qed.

(** what an add request does to each job *)
Lemma add_cases s now js ignore s' r l : Good s → WI s → depending gr dp s (AAdd now js ignore) →
  sstep s (AAdd now js ignore) = Some (s', r, l) →
  (∃ a d n, r = SAdded a d n) ∧
  WD (sdb s') ∧
  (∀ k, is_Some (live (sdb s') !! k) ↔ is_Some (live (sdb s) !! k) ∨ k ∈ jkey <$> really_added (sdb s) js ignore ∨
     (touched (sdb s) (really_added (sdb s) js ignore) k ∧ is_Some (complete (sdb s) !! k))) ∧
  (∀ k, is_Some (find_job k s') ↔ is_Some (live (sdb s') !! k)) ∧
  (∀ k it p j, find_job k s' = Some (it, p, j) →
     (find_job k s = Some (it, p, j) ∧ ¬ touched (sdb s) (really_added (sdb s) js ignore) k) ∨
     ∀ d, d ∈ iremain it ↔ is_Some (live (sdb s') !! d) ∧ depk k d).
Proof.
  intros HG HW (Hsp & Hst & Hpl & _) Hs. destruct (good_step _ _ _ _ _ HG Hsp Hs) as [He HG'].
  pose proof (recorded_step _ _ _ _ _ HG Hsp Hst Hs (w_rec HW)) as Hrec.
  destruct (wd_of s' (g_d _ HG') Hrec) as [W1 W2].
  inversion He as [? ? ? ? Hl Hdb Hstay| | | | | | | | | | | | | | | |? ? ? ? ? stored toq upd already Hprep Hdb Hans Hnew Hold|]; subst;
    [by destruct Hstay|done|].
  pose proof (prepare_facts _ _ _ _ _ _ _ (dinv_keys _ (g_d _ HG)) Hprep) as Hpf. cbv zeta in Hpf.
  destruct Hpf as (res & Hstored & Htoq & _ & Hun & Hrn & Hupd & Hres). rewrite kept_init in *.
  set (RA := really_added (sdb s) js ignore) in *.
  assert (Hlv : ∀ k, is_Some (live (sdb s') !! k) ↔ is_Some (live (sdb s) !! k) ∨ k ∈ jkey <$> RA ∨
     (touched (sdb s) RA k ∧ is_Some (complete (sdb s) !! k))).
  { intros k. rewrite Hdb. cbn. rewrite stores_some, Hstored, fmap_app, elem_of_app, keys_init. split.
    - intros [[H|H]|H]; [by right; left| |by left]. right. right. apply elem_of_list_fmap in H as (j & -> & Hj).
      apply Hres in Hj as (Ha & _ & _ & Hc). split; [by apply touched_affected|by eexists].
    - intros [H|[H|[Ht [c Hc]]]]; [by right|by left; left|].
      destruct (decide (is_Some (live (sdb s) !! k))) as [|Hn]; [by right|]. apply eq_None_not_Some in Hn. left.
      destruct (decide (k ∈ jkey <$> RA)) as [|Hk]; [by left|]. right. apply elem_of_list_fmap. exists c.
      destruct (di_comp (g_d _ HG) k c Hc) as [Hjk _]. split; [done|]. apply Hres. rewrite Hjk. split_and!; try done.
      + by apply touched_affected.
      + rewrite elem_of_list_to_set, keys_init. done. }
  assert (Hst' : ∀ j, j ∈ RA → jdepgroups j = gr (jkey j) ∧ jdeps j = dp (jkey j)).
  { intros j Hj. apply Hst. cbn. by eapply really_sub. }
  assert (HWD : WD (sdb s')).
  { split; [done|done| | |].
    - intros g k. rewrite Hdb. cbn. rewrite elem_of_union, elem_of_list_to_set, new_dtk_elem.
      intros [(Hg & j & Hj & <- & Hgj)|H]; [|by apply (wd_dtk (w_db HW))]. split; [|done].
      destruct (Hst' j Hj) as [<- _]. done.
    - intros g k Hk Hg Hne. rewrite Hdb. cbn. rewrite elem_of_union, elem_of_list_to_set, new_dtk_elem.
      assert (Hk' : stored_key (sdb s) k ∨ k ∈ jkey <$> RA).
      { destruct Hk as [Hk|Hk]; [|left; right; by rewrite Hdb in Hk]. apply Hlv in Hk as [H|[H|[_ H]]]; [by left; left|by right|by left; right]. }
      destruct Hk' as [Hk'|Hk']; [right; by apply (wd_dtk' (w_db HW))|]. left. split; [done|].
      apply elem_of_list_fmap in Hk' as (j & -> & Hj). exists j. destruct (Hst' j Hj) as [-> _]. done.
    - intros g k Hk Hg. rewrite Hdb. cbn. rewrite elem_of_union, elem_of_list_to_set, new_rdtk_elem.
      assert (Hk' : stored_key (sdb s) k ∨ k ∈ jkey <$> RA).
      { destruct Hk as [Hk|Hk]; [|left; right; by rewrite Hdb in Hk]. apply Hlv in Hk as [H|[H|[_ H]]]; [by left; left|by right|by left; right]. }
      destruct Hk' as [Hk'|Hk']; [right; by apply (wd_rdtk (w_db HW))|]. left.
      apply elem_of_list_fmap in Hk' as (j & -> & Hj). exists j. destruct (Hst' j Hj) as [_ ->]. done. }
  assert (Hfound : ∀ k it p j, find_job k s' = Some (it, p, j) → jdeps j = dp k).
  { intros k it p j Hf. destruct (find_found _ _ _ _ _ (g_s _ HG') Hf) as (_ & x & HF). rewrite <- (f_jkey HF). apply Hrec.
    eapply (r_seen _ _ k (ist it)). rewrite seen_look. unfold look. by rewrite Hf. }
  split; [destruct Hans as (a & d & ->); by eexists _, _, _|]. split; [done|]. split; [done|]. split.
  - intros k. split; [|apply (di_in (g_d _ HG'))]. intros Hk.
    destruct (find_job k s) as [[[it p] j]|] eqn:Hf.
    + apply Hlv. left. apply (w_ph HW). by eexists.
    + specialize (Hnew k Hf). destruct (head (filter (λ j, jkey j = k) toq)) as [j|] eqn:Hh; [|rewrite Hnew in Hk; by destruct Hk].
      apply head_filter_some in Hh as [Hj Hjk].
      assert (Hkept : j ∈ init_job <$> RA → is_Some (live (sdb s') !! k)).
      { intros (i & -> & Hi)%elem_of_list_fmap. apply Hlv. right. left. rewrite <- Hjk.
        change (jkey (init_job i)) with (jkey i). by apply elem_of_list_fmap_1. }
      rewrite Htoq in Hj. destruct res as [|r0 res]; [by apply Hkept|].
      apply elem_of_app in Hj as [Hj|Hj].
      { apply Hres in Hj as (Ha & _ & _ & Hc). rewrite Hjk in *. apply Hlv. right. right. split; [by apply touched_affected|by eexists]. }
      destruct ignore; [|by apply Hkept]. apply elem_of_list_fmap in Hj as (i & -> & Hi).
      change (jkey (init_job i)) with (jkey i) in Hjk.
      destruct (decide (live (sdb s) !! jkey i = None ∧ complete (sdb s) !! jkey i = None)) as [Hn|Hn].
      { apply Hlv. right. left. rewrite <- Hjk. apply elem_of_list_fmap_1. by apply elem_of_list_filter. }
      exfalso. destruct Hpl as [Hpl|Hpl].
      * destruct (Hpl i Hi) as [H|H].
        -- destruct (live (sdb s) !! jkey i) eqn:El; [|by apply Hn].
           destruct (di_in (g_d _ HG) (jkey i)) as [? H']; [by eexists|]. congruence.
        -- apply seen_some in H as [? H]; [|apply HG]. congruence.
      * destruct (Hres r0) as [H _]. destruct H as (Ha & Hl0 & _ & Hc); [left|].
        destruct (Hpl (jkey r0)) as [H|H]; [by apply touched_affected|congruence|].
        apply seen_some, (w_ph HW) in H as [? H]; [|apply HG]. congruence.
  - intros k it p j Hf. destruct (find_job k s) as [[[it0 p0] j0]|] eqn:Hf0.
    + destruct (Hold k it0 p0 j0 Hf0) as [[Hnu E]|(it' & p' & j' & Hf' & Hj' & Hk & Hr & _)].
      * left. rewrite E, Hf0 in Hf. split; [done|]. intros Ht. apply Hnu.
        destruct (w_ph HW k) as [jl Hjl]; [by eexists|]. apply elem_of_list_fmap. exists jl.
        destruct (di_live (g_d _ HG) k jl Hjl) as [Hjk _]. split; [done|]. apply Hupd. rewrite Hjk.
        split; [by apply touched_affected|done].
      * right. rewrite Hf in Hf'. simplify_eq. intros d. rewrite Hr, elem_of_list_to_set. apply incomplete_spec; [done|].
        by eapply Hfound.
    + right. specialize (Hnew k Hf0). destruct (head _) as [j'|]; [|congruence].
      destruct Hnew as (it' & p' & Hf' & Hr & _). rewrite Hf in Hf'. simplify_eq.
      intros d. rewrite Hr, elem_of_list_to_set. apply incomplete_spec; [done|]. by eapply Hfound.
Qed.

Lemma add_step s now js ignore s' r l : Good s → WI s → depending gr dp s (AAdd now js ignore) →
  sstep s (AAdd now js ignore) = Some (s', r, l) → WI s'.
Proof.
  intros HG HW Hdep Hs. destruct (add_cases _ _ _ _ _ _ _ HG HW Hdep Hs) as (_ & HWD & Hlv & Hin & Hc).
  destruct Hdep as (Hsp & Hst & _). pose proof (recorded_step _ _ _ _ _ HG Hsp Hst Hs (w_rec HW)) as Hrec.
  split; [done|done|by intros k ?%Hin| |].
  - intros k it p j d Hf Hd. destruct (Hc k it p j Hf) as [[Hf0 _]|H]; [by apply (w_sub HW k it p j)|by apply H].
  - intros k it p j d Hf Hd Hg. destruct (Hc k it p j Hf) as [[Hf0 Hnt]|H]; [|apply H; split; [done|by left]].
    assert (Hkl : stored_key (sdb s) k) by (left; apply (w_ph HW); by eexists).
    destruct Hg as (g & Hne & Hg1 & Hg2). pose proof (wd_rdtk (w_db HW) g k Hkl Hg1) as Hr.
    apply Hlv in Hd as [Hd|[Hd|[Ht [c Hcd]]]].
    + apply (w_sup HW k it p j d Hf0 Hd). by exists g.
    + exfalso. apply Hnt. apply touched_group with g; [|done]. split; [done|].
      apply elem_of_list_fmap in Hd as (i & -> & Hi). exists i. split; [done|].
      destruct (Hst i) as [-> _]; [by eapply really_sub|done].
    + destruct (decide (is_Some (live (sdb s) !! d))) as [Hl|Hl]; [apply (w_sup HW k it p j d Hf0 Hl); by exists g|].
      apply eq_None_not_Some in Hl.
      destruct (decide (d ∈ jkey <$> really_added (sdb s) js ignore)) as [Hd|Hd].
      * exfalso. apply Hnt. apply touched_group with g; [|done]. split; [done|].
        apply elem_of_list_fmap in Hd as (i & -> & Hi). exists i. split; [done|].
        destruct (Hst i) as [-> _]; [by eapply really_sub|done].
      * exfalso. apply Hnt. apply (t_next _ _ d c g); [done| |by rewrite (proj1 (wd_comp (w_db HW) d c Hcd))|done|done].
        right. done.
Qed.

(** *** Restarting *)
Lemma cut_same s c : Good s → WI s → whole_adds (ACrash c 0 (λ _, true)) →
  dtk (cut_db s c) = dtk (sdb s) ∧ rdtk (cut_db s c) = rdtk (sdb s) ∧
  ∀ k, stored_key (cut_db s c) k → stored_key (sdb s) k.
Proof.
  intros HG HW Hc. destruct c as [|js ignore kj km kr|c k0 jes|ks ord n]; cbn [cut_db]; [done|done| |].
  - destruct (s_archive c k0 jes [] s) as [[[s1 r1] l1]|] eqn:Ha; [|done]. destruct r1; try done.
    change (sstep s (AArchive c k0 jes []) = Some (s1, SOk, l1)) in Ha.
    destruct (good_step2 _ _ _ _ _ HG Ha I) as [He HG1].
    destruct (quiet_db s (AArchive c k0 jes []) _ _ _ HG HG1 I He) as (E1 & E2 & D1 & _ & D3). split; [done|]. split; [done|].
    intros k [H|H]; [left; by apply D1|]. destruct (D3 k H) as [?|H']; [by right|left]. by apply (w_ph HW).
  - fold (deletable s ks). destruct (delete_rounds n ord (deletable s ks) s) as [[s1 dels]|] eqn:Hd; [|done].
    destruct (delete_rounds_facts _ _ _ _ _ _ (g_s _ HG) Hd) as (_ & _ & _ & _ & _ & ->). cbn. split; [done|]. split; [done|].
    intros k [H|H]; [left|by right]. revert H. cbn. rewrite foldr_delete_at. by destruct (decide _) as [?|?]; [intros [? ?]|].
Qed.

Lemma crash_remain now granted d s' r l k it p j : SInv s' →
  (∀ k j, live d !! k = Some j → jkey j = k) →
  s_recover now granted d = Some (s', r, l) → find_job k s' = Some (it, p, j) →
  ∃ jj, live d !! k = Some jj ∧ iremain it = list_to_set (incomplete_keys (sdb s') jj).
Proof.
  intros HS' Hkey. unfold s_recover. set (s0 := SState (q_new now) ∅ 1%N (d <| pend := [] |>)).
  destruct (itemdefs recover_start _ s0) as [defs s1] eqn:Hdefs.
  destruct (itemdefs_facts _ _ _ _ _ Hdefs (new_inv _ _)) as (_ & Hdb1 & Hq1 & _ & _ & _ & HF & _).
  destruct (qdo (OAddMany now defs) s1) as [[s2 r0]|] eqn:Hq; [|done].
  cbn beta iota zeta delta [mbind option_bind]. intros [= <- _ _].
  destruct (qdo_inv _ _ _ _ Hq) as (q & e & Hs & ->). rewrite Hq1 in Hs.
  assert (HI0 : Inv false (q_new now)) by apply inv_new.
  destruct (step_eff false (q_new now) (OAddMany now defs) _ _ _ HI0 I Hs) as [He _].
  intros Hf. destruct (find_found _ _ _ _ _ HS' Hf) as (_ & x & HFo).
  pose proof (f_obj HFo) as Hx. cbn [sq set] in Hx.
  assert (Hn : objs (q_new now) !! x = None) by (cbn; apply lookup_empty).
  pose proof (eff_new _ _ _ _ _ _ _ _ HI0 He Hn Hx) as Hin. pose proof (f_key HFo) as Hik. inversion Hin; subst.
  match goal with H : ?df ∈ defs |- _ => rename df into d1; apply elem_of_list_lookup in H as [i Hi] end.
  destruct (Forall2_lookup_r _ _ _ _ _ HF Hi) as (jj & Hjj & Hdk & _ & _ & _ & _ & Hdeps & _).
  apply elem_of_list_lookup_2, elem_of_list_fmap in Hjj as (jl0 & Hjl & Hjj).
  apply elem_of_list_fmap in Hjj as ([k1 j1] & -> & Hk1). apply elem_of_map_to_list in Hk1. cbn [snd] in Hjl.
  destruct (recover_limits_facts granted j1) as (E1 & _ & E3). rewrite <- Hjl in E1, E3.
  exists j1. assert (Hk : ikey (added_def now d1) = k1).
  { unfold added_def. rewrite added_item_key, Hdk, E1. by apply Hkey. }
  rewrite Hk. split; [done|]. unfold added_def. rewrite added_item_remain, Hdeps, (incomplete_keys_ext _ _ j1 E3).
  change (sdb (s1 <| sq := q |>)) with (sdb s1). by rewrite Hdb1.
Qed.

Lemma crash_facts s c now granted s' r l : Good s → WI s → depending gr dp s (ACrash c now granted) →
  sstep s (ACrash c now granted) = Some (s', r, l) →
  WD (sdb s') ∧ (∀ k, is_Some (find_job k s') → is_Some (live (sdb s') !! k)) ∧
  ∀ k it p j d, find_job k s' = Some (it, p, j) → d ∈ iremain it ↔ is_Some (live (sdb s') !! d) ∧ depk k d.
Proof.
  intros HG HW (Hsp & Hst & _ & Hwh) Hs. destruct (good_step _ _ _ _ _ HG Hsp Hs) as [He HG'].
  pose proof (recorded_step _ _ _ _ _ HG Hsp Hst Hs (w_rec HW)) as Hrec.
  destruct (wd_of s' (g_d _ HG') Hrec) as [W1 W2].
  destruct (cut_same s c HG HW Hwh) as (E1 & E2 & Hsk).
  assert (Hcr : sdb s' = cut_db s c <| pend := [] |> ∧
    ∀ k, look s' k = (λ j, (recovered_state (sdb s') j, (recover_limits granted j).1)) <$> live (sdb s') !! k).
  { by inversion He as [? ? ? ? Hl0 Hdb0 Hstay| | | | | | | | | | | | | | | | |? ? ? ? Hdb Hlook]; subst; [destruct Hstay|..]. }
  destruct Hcr as [Hdb Hlook].
  assert (HWD : WD (sdb s')).
  { split; [done|done| | |]; rewrite Hdb; cbn; rewrite ?E1, ?E2.
    - apply (wd_dtk (w_db HW)).
    - intros g k H. apply (wd_dtk' (w_db HW)), Hsk. exact H.
    - intros g k H. apply (wd_rdtk (w_db HW)), Hsk. exact H. }
  split; [done|]. split.
  - intros k [[[it p] j] Hf]. specialize (Hlook k). unfold look in Hlook. rewrite Hf in Hlook.
    destruct (live (sdb s') !! k); [by eexists|done].
  - intros k it p j d Hf.
    assert (El : live (sdb s') = live (cut_db s c)) by (by rewrite Hdb).
    destruct (crash_remain now granted (cut_db s c) s' r l k it p j (g_s _ HG')) as (jj & Hjj & Hr); [|exact Hs|done|].
    { intros k0 j0 H0. rewrite <- El in H0. by apply (di_live (g_d _ HG')) in H0 as []. }
    rewrite Hr, elem_of_list_to_set. apply incomplete_spec; [done|]. rewrite <- El in Hjj. by apply W1.
Qed.
Lemma crash_step s c now granted s' r l : Good s → WI s → depending gr dp s (ACrash c now granted) →
  sstep s (ACrash c now granted) = Some (s', r, l) → WI s'.
Proof.
  intros HG HW Hd Hs. destruct (crash_facts _ _ _ _ _ _ _ HG HW Hd Hs) as (HWD & Hin & Hrem). destruct Hd as (Hsp & Hst & _).
  split; [by eapply recorded_step; [..|apply HW]|done|done| |].
  - intros k it p j d Hf Hd. by apply (Hrem k it p j d Hf).
  - intros k it p j d Hf Hd Hg. apply (Hrem k it p j d Hf). split; [done|by left].
Qed.

Lemma wi_step s o s' r l : Good s → WI s → depending gr dp s o → sstep s o = Some (s', r, l) → WI s'.
Proof.
  intros HG HW Hd Hs. destruct o; try (destruct Hd as (? & ? & _); by eapply quiet_step).
  - by eapply add_step.
  - by eapply crash_step.
Qed.
Lemma wi_new t : WI (s_new t).
Proof.
  split.
  - intros j Hj. exfalso. destruct Hj as [k Hj|k Hj|k Hj|k st Hj]; cbn in Hj; try (by rewrite lookup_empty in Hj); [by apply elem_of_nil in Hj|].
    unfold seen in Hj. cbn in Hj. by rewrite lookup_empty in Hj.
  - split; cbn.
    + intros k j H. by rewrite lookup_empty in H.
    + intros k j H. by rewrite lookup_empty in H.
    + intros g k []%elem_of_empty.
    + intros g k [H|H]; cbn in H; rewrite lookup_empty in H; by destruct H.
    + intros g k [H|H]; cbn in H; rewrite lookup_empty in H; by destruct H.
  - intros k [? H]. done.
  - intros k it p j d H. done.
  - intros k it p j d H. done.
Qed.
Lemma wi_reach es s : reachable (depending gr dp) es s → Good s ∧ WI s.
Proof.
  intros (t & H). assert (Hok : ∀ s o, depending gr dp s o → spares_busy s o) by (by intros ? ? [? _]).
  induction H as [|es s o s' r l Hh IH Ho Hs]; [split; [apply good_new|apply wi_new]|]. destruct IH as [HG HW].
  split; [by eapply good_step; [|apply Hok|]|by eapply wi_step].
Qed.

(** ** In terms of what is seen *)
Lemma seen_def s k st j : Good s → WI s → seen s k = Some (st, j) → jkey j = k ∧ jdepgroups j = gr k ∧ jdeps j = dp k.
Proof.
  intros HG HW H. pose proof (w_rec HW j (r_seen _ _ _ _ H)) as Hr. rewrite seen_find in H by apply HG.
  destruct (find_job k s) as [[[it p] j']|] eqn:Hf; [|done]. cbn in H. injection H as <- <-.
  destruct (find_found _ _ _ _ _ (g_s _ HG) Hf) as (_ & x & HF). rewrite (f_jkey HF) in Hr. split; [apply HF|done].
Qed.
Lemma seen_live s k : Good s → WI s → is_Some (seen s k) ↔ is_Some (live (sdb s) !! k).
Proof. intros HG HW. rewrite seen_some by apply HG. split; [apply (w_ph HW)|apply (di_in (g_d _ HG))]. Qed.
Lemma group_grpk s k st j k' st' j' : Good s → WI s → seen s k = Some (st, j) → seen s k' = Some (st', j') →
  group_dep j j' ↔ grpk k k'.
Proof.
  intros HG HW H H'. destruct (seen_def _ _ _ _ HG HW H) as (_ & _ & E1). destruct (seen_def _ _ _ _ HG HW H') as (_ & E2 & _).
  unfold group_dep, grpk. by rewrite E1, E2.
Qed.
Lemma waits_held s k st j : Good s → seen s k = Some (st, j) → waits_for s k ≠ ∅ → st = SDep.
Proof.
  intros HG H Hw. rewrite seen_find in H by apply HG. rewrite waits_find in Hw by apply HG.
  destruct (find_job k s) as [[[it p] j']|] eqn:Hf; [|done]. cbn in H. injection H as <- <-.
  destruct (find_found _ _ _ _ _ (g_s _ HG) Hf) as (_ & x & HF).
  apply (qi_held _ (g_q _ HG) x it); [apply HF|apply HF|done].
Qed.
Lemma waits_all s k st j : Good s → WI s → seen s k = Some (st, j) →
  (∀ k' st' j', seen s k' = Some (st', j') → group_dep j j' → k' ∈ waits_for s k) ∧
  (∀ k', k' ∈ waits_for s k → ∃ st' j', seen s k' = Some (st', j') ∧ (group_dep j j' ∨ DJob k' ∈ jdeps j)) ∧
  (waits_for s k ≠ ∅ → st = SDep).
Proof.
  intros HG HW H. destruct (find_job k s) as [[[it p] j0]|] eqn:Hf.
  2: { assert (is_Some (seen s k)) as H' by (by eexists). apply seen_some in H'; [|apply HG]. rewrite Hf in H'. by destruct H'. }
  assert (Ew : waits_for s k = iremain it) by (rewrite waits_find by apply HG; by rewrite Hf).
  split; [|split; [|by apply (waits_held s k st j)]]; rewrite Ew.
  - intros k' st' j' H' Hg. apply (w_sup HW k it p j0 k' Hf); [|by eapply group_grpk].
    apply seen_live; [done|done|by eexists].
  - intros k' Hk'. pose proof (w_sub HW k it p j0 k' Hf Hk') as Hd.
    destruct (find_found _ _ _ _ _ (g_s _ HG) Hf) as (_ & x & HF).
    destruct (g_w _ HG x it k' (f_obj HF) (f_live HF) Hk') as [y Hy].
    destruct (items_found _ _ _ (g_s _ HG) Hy) as (it' & j' & HF').
    assert (H' : seen s k' = Some (ist it', j')).
    { rewrite seen_find by apply HG. by rewrite (found_find _ _ _ _ _ HF'). }
    exists (ist it'), j'. split; [done|]. destruct Hd as [Hd|Hd]; [left; by eapply group_grpk|right].
    destruct (seen_def _ _ _ _ HG HW H) as (_ & _ & ->). done.
Qed.

(** A job that is added waits for all it depends on. *)
Lemma waits_added s now js ignore s' r l k st j : Good s → WI s → depending gr dp s (AAdd now js ignore) →
  sstep s (AAdd now js ignore) = Some (s', r, l) → seen s k = None → seen s' k = Some (st, j) →
  ∀ k', k' ∈ waits_for s' k ↔ ∃ st' j', seen s' k' = Some (st', j') ∧ (group_dep j j' ∨ DJob k' ∈ jdeps j).
Proof.
  intros HG HW Hd Hs Hn Hk k'. pose proof (wi_step _ _ _ _ _ HG HW Hd Hs) as HW'.
  assert (HG' : Good s') by (eapply good_step; [done|apply Hd|done]).
  split; [by apply (waits_all s' k st j HG' HW' Hk)|].
  intros (st' & j' & H' & Hdep). destruct (add_cases _ _ _ _ _ _ _ HG HW Hd Hs) as (_ & _ & _ & _ & Hc).
  destruct (find_job k s') as [[[it p] j0]|] eqn:Hf.
  2: { assert (is_Some (seen s' k)) as Hx by (by eexists). apply seen_some in Hx; [|apply HG']. rewrite Hf in Hx. by destruct Hx. }
  rewrite waits_find, Hf by apply HG'. destruct (Hc k it p j0 Hf) as [[Hf0 _]|H].
  { apply seen_none in Hn; [|apply HG]. congruence. }
  apply H. split; [apply seen_live; [done|done|by eexists]|].
  destruct Hdep as [Hg|Hg]; [left; by eapply group_grpk|right]. destruct (seen_def _ _ _ _ HG' HW' Hk) as (_ & _ & <-). done.
Qed.
(** It goes on waiting for what it waits for. *)
Lemma waits_kept s o s' r l k k' : Good s → WI s → depending gr dp s o → sstep s o = Some (s', r, l) →
  k' ∈ waits_for s k → is_Some (seen s' k) → is_Some (seen s' k') → k' ∈ waits_for s' k.
Proof.
  intros HG HW Hd Hs Hw Hk Hk'. pose proof (wi_step _ _ _ _ _ HG HW Hd Hs) as HW'.
  assert (HG' : Good s') by (eapply good_step; [done|apply Hd|done]).
  apply seen_some in Hk as [[[it' p'] j'] Hf']; [|apply HG'].
  assert (Hl' : is_Some (live (sdb s') !! k')) by (by apply seen_live).
  rewrite waits_find in Hw by apply HG. rewrite waits_find, Hf' by apply HG'.
  destruct (find_job k s) as [[[it p] j]|] eqn:Hf; [|by apply elem_of_empty in Hw].
  pose proof (w_sub HW k it p j k' Hf Hw) as Hdep.
  destruct (decide (quiet o)) as [Hq|Hq].
  - pose proof (quiet_less _ _ _ _ _ HG (proj1 Hd) Hq Hs) as HL.
    destruct (less_find _ _ _ _ _ _ (g_s _ HG) (g_s _ HG') HL Hf') as (it1 & p1 & j1 & Hf1 & _ & Hsup).
    assert (it1 = it) as -> by congruence. destruct (Hsup k' Hw) as [|Hn]; [done|].
    apply seen_some in Hk' as [? ?]; [congruence|apply HG'].
  - destruct o; try done.
    + destruct (add_cases _ _ _ _ _ _ _ HG HW Hd Hs) as (_ & _ & _ & _ & Hc).
      destruct (Hc k it' p' j' Hf') as [[Hf0 _]|H]; [congruence|by apply H].
    + destruct (crash_facts _ _ _ _ _ _ _ HG HW Hd Hs) as (_ & _ & Hrem). by apply (Hrem k it' p' j').
Qed.
(** What an add request puts into the queue. *)
Lemma seen_new s now js ignore s' r l k : Good s → WI s → depending gr dp s (AAdd now js ignore) →
  sstep s (AAdd now js ignore) = Some (s', r, l) → seen s k = None →
  is_Some (seen s' k) ↔ k ∈ jkey <$> really_added (sdb s) js ignore ∨
    touched (sdb s) (really_added (sdb s) js ignore) k ∧ is_Some (complete (sdb s) !! k).
Proof.
  intros HG HW Hd Hs Hn. pose proof (wi_step _ _ _ _ _ HG HW Hd Hs) as HW'.
  assert (HG' : Good s') by (eapply good_step; [done|apply Hd|done]).
  destruct (add_cases _ _ _ _ _ _ _ HG HW Hd Hs) as (_ & _ & Hlv & _ & _).
  assert (Hnl : ¬ is_Some (live (sdb s) !! k)) by (rewrite <- (seen_live s k HG HW), Hn; by intros [? ?]).
  rewrite (seen_live s' k HG' HW'), Hlv. tauto.
Qed.
Lemma waits_restored s now js ignore s' r l j g k c : Good s → WI s → depending gr dp s (AAdd now js ignore) →
  sstep s (AAdd now js ignore) = Some (s', r, l) →
  j ∈ really_added (sdb s) js ignore → g ∈ jdepgroups j → g ≠ ""%string →
  complete (sdb s) !! k = Some c → DGroup g ∈ jdeps c →
  is_Some (seen s' k) ∧ jkey j ∈ waits_for s' k.
Proof.
  intros HG HW Hd Hs Hj Hg Hne Hc Hdc. pose proof (wi_step _ _ _ _ _ HG HW Hd Hs) as HW'.
  assert (HG' : Good s') by (eapply good_step; [done|apply Hd|done]).
  destruct (add_cases _ _ _ _ _ _ _ HG HW Hd Hs) as (_ & _ & Hlv & Hin & _).
  destruct (wd_comp (w_db HW) k c Hc) as [_ Ed]. rewrite Ed in Hdc.
  destruct (proj1 (proj2 Hd) j) as [Eg _]; [by eapply really_sub|]. rewrite Eg in Hg.
  assert (Ht : touched (sdb s) (really_added (sdb s) js ignore) k).
  { apply touched_group with g; [split; [done|]; exists j; split; [done|by rewrite Eg]|].
    apply (wd_rdtk (w_db HW)); [right; by eexists|done]. }
  assert (Hf : is_Some (find_job k s')) by (apply Hin, Hlv; right; right; split; [done|by eexists]).
  split; [apply seen_some; [apply HG'|done]|]. destruct Hf as [[[it p] j0] Hf].
  rewrite waits_find, Hf by apply HG'. apply (w_sup HW' k it p j0); [done| |by exists g].
  apply Hlv. right. left. by apply elem_of_list_fmap_1.
Qed.
End deps.
