(** What each server step does, key by key: add *)
From Coq Require Import ZArith Lia String.
From stdpp Require Import base option strings gmap list.
From RecordUpdate Require Import RecordSet.
From Verif Require Import GoHeap QueueModel QueueCore QueueInv QueueInvAdd QueueInvUpd QueueInvRem
  QueueInvTick QueueEff ServerModel ServerCore ServerTick ServerEff ServerEff2 ServerEff4 ServerPrep.
Import RecordSetNotations.
Open Scope Z_scope.

Lemma reached_empty d nk g : reached d nk ∅ g → False.
Proof. induction 1; set_solver. Qed.
Lemma affected_empty d nk k : affected d nk ∅ k → False.
Proof. intros (g & Hg & _). by apply reached_empty in Hg. Qed.

Lemma prepare_facts js ignore d stored toq upd already : db_keys d →
  prepare js ignore d = (stored, toq, upd, already) →
  let kept := kept_of js ignore d in
  let nk := list_to_set (jkey <$> kept) : gset key in
  let G := member_groups kept in
  ∃ res, stored = kept ++ res ∧ toq = match res with [] => kept | _ => res ++ js end ∧
    already = (length js - length kept)%nat ∧
    NoDup (jkey <$> upd) ∧ NoDup (jkey <$> res) ∧
    (∀ j, j ∈ upd ↔ affected d nk G (jkey j) ∧ live d !! jkey j = Some j) ∧
    (∀ j, j ∈ res ↔ affected d nk G (jkey j) ∧ live d !! jkey j = None ∧ jkey j ∉ nk ∧ complete d !! jkey j = Some j).
Proof.
  intros Hdb. unfold prepare. cbv zeta. set (kept := kept_of js ignore d).
  assert (Hnil : ∀ nk, NoDup (jkey <$> ([] : list job)) ∧
    (∀ j, j ∈ ([] : list job) ↔ affected d nk ∅ (jkey j) ∧ live d !! jkey j = Some j) ∧
    (∀ j, j ∈ ([] : list job) ↔ affected d nk ∅ (jkey j) ∧ live d !! jkey j = None ∧ jkey j ∉ nk ∧ complete d !! jkey j = Some j)).
  { intros nk. split; [constructor|]. split.
    - intros j. split; [by intros ?%elem_of_nil|]. intros [?%affected_empty _]. done.
    - intros j. split; [by intros ?%elem_of_nil|]. intros [?%affected_empty _]. done. }
  destruct kept as [|j0 kept0] eqn:Hkept.
  { intros [= <- <- <- <-]. exists []. destruct (Hnil (list_to_set (jkey <$> []))) as (H1 & H2 & H3).
    change (member_groups []) with (∅ : gset string). by split_and!. }
  rewrite <- Hkept in *. clear Hkept.
  destruct (decide (member_groups kept = ∅)) as [HG|HG].
  { intros [= <- <- <- <-]. exists []. destruct (Hnil (list_to_set (jkey <$> kept))) as (H1 & H2 & H3).
    rewrite HG. by split_and!. }
  destruct (dependents (S (size (rdtk d))) d (list_to_set (jkey <$> kept)) (member_groups kept) (member_groups kept) (∅, [], []))
    as [res upd0] eqn:Hd.
  intros [= <- <- <- <-]. exists res. destruct (dependents_all _ _ _ _ _ Hdb Hd) as (H1 & H2 & H3 & H4). by split_and!.
Qed.

Lemma dinv_keys s : DInv s → db_keys (sdb s).
Proof. intros HD. split; intros k j H; [by apply (di_live HD) in H as []|by apply (di_comp HD) in H as []]. Qed.

(** ** Storing *)
Lemma stores_lookup (l : list job) (m : gmap key job) k :
  fold_left (λ m j, <[jkey j := encode j]> m) l m !! k =
  match last (filter (λ j, jkey j = k) l) with Some j => Some (encode j) | None => m !! k end.
Proof.
  induction l as [|j l IH] using rev_ind; [done|].
  rewrite fold_left_app, filter_app. cbn [fold_left]. rewrite filter_cons, filter_nil.
  destruct (decide (jkey j = k)) as [<-|Hne].
  - rewrite lookup_insert, last_snoc. done.
  - rewrite lookup_insert_ne, app_nil_r by done. apply IH.
Qed.
Lemma last_filter_some (l : list job) k : is_Some (last (filter (λ j, jkey j = k) l)) ↔ k ∈ jkey <$> l.
Proof.
  rewrite last_is_Some. split.
  - intros Hne. destruct (filter (λ j, jkey j = k) l) as [|j l'] eqn:Hf; [done|].
    assert (j ∈ filter (λ j, jkey j = k) l) as Hj by (rewrite Hf; left).
    apply elem_of_list_filter in Hj as [<- Hj]. apply elem_of_list_fmap. by exists j.
  - intros (j & -> & Hj)%elem_of_list_fmap He.
    assert (j ∈ filter (λ j0, jkey j0 = jkey j) l) as Hj' by (by apply elem_of_list_filter).
    rewrite He in Hj'. by apply elem_of_nil in Hj'.
Qed.
Lemma stores_plain (l : list job) (m : gmap key job) :
  (∀ k j, m !! k = Some j → plain k j) →
  ∀ k j, fold_left (λ m j, <[jkey j := encode j]> m) l m !! k = Some j → plain k j.
Proof.
  intros Hm k j. rewrite stores_lookup. destruct (last _) as [j'|] eqn:Hl; [|apply Hm].
  intros [= <-]. apply last_Some_elem_of in Hl. apply elem_of_list_filter in Hl as [<- _]. apply plain_encode.
Qed.
Lemma stores_some (l : list job) (m : gmap key job) k :
  is_Some (fold_left (λ m j, <[jkey j := encode j]> m) l m !! k) ↔ k ∈ jkey <$> l ∨ is_Some (m !! k).
Proof.
  rewrite stores_lookup. rewrite <- last_filter_some. destruct (last _) as [j|].
  - split; [intros _; left; by eexists|intros _; by eexists].
  - split; [by right|]. by intros [[? ?]|?].
Qed.

(** ** Updating dependencies *)
Lemma update_deps_facts now js s s' b : SInv s → NoDup (jkey <$> js) →
  (∀ j, j ∈ js → ∃ it p j0, find_job (jkey j) s = Some (it, p, j0) ∧ (iremain it ≠ ∅ → ist it = SDep)) →
  update_deps_of now js s = Some (s', b) →
  b = true ∧ SInv s' ∧ sdb s' = sdb s ∧ (snext s ≤ snext s')%N ∧
  (∀ p, (p < snext s)%N → sjobs s' !! p = sjobs s !! p) ∧
  (∀ k, k ∉ jkey <$> js → find_job k s' = find_job k s) ∧
  (∀ j, j ∈ js → ∃ it p j0 it' p', find_job (jkey j) s = Some (it, p, j0) ∧ find_job (jkey j) s' = Some (it', p', j) ∧
     (snext s ≤ p')%N ∧
     ist it' = upd_state (incomplete_keys (sdb s) j) it ∧ iremain it' = list_to_set (incomplete_keys (sdb s) j)).
Proof.
  intros HS Hnd Hex. revert s HS Hnd Hex. induction js as [|j js IH]; intros s HS Hnd Hex; cbn [update_deps_of].
  { intros [= <- <-]. split_and!; try done. by intros j ?%elem_of_nil. }
  destruct (new_job j s) as [p s1] eqn:Hn.
  assert (Es1 : s1 = (new_job j s).2) by (by rewrite Hn).
  assert (HS1 : SInv s1) by (subst s1; by apply new_job_inv).
  assert (Hf1 : ∀ k, find_job k s1 = find_job k s) by (intros k; subst s1; by apply new_job_find).
  unfold new_job in Hn. injection Hn as <- Hs1.
  assert (E1 : sdb s1 = sdb s) by (by rewrite <- Hs1).
  assert (E2 : sq s1 = sq s) by (by rewrite <- Hs1).
  assert (E3 : snext s1 = N.succ (snext s)) by (by rewrite <- Hs1).
  assert (E4 : sjobs s1 = <[snext s := j]> (sjobs s)) by (by rewrite <- Hs1).
  destruct (qdo _ s1) as [[s2 r]|] eqn:Hq; [|done]. cbn beta iota zeta delta [mbind option_bind].
  destruct (Hex j ltac:(left)) as (it0 & p0 & j0 & Hj0 & Hcalm).
  apply NoDup_cons in Hnd as [Hjn Hnd].
  destruct (qdo_update now (jkey j) (jsched j) (snext s) (jprio j) 0 item_ttr (incomplete_keys (sdb s) j) s1 s2 r j HS1)
    as [(-> & x & it & j1 & it' & HF & HF' & HS2 & Hst & Hrem & Hdat & Hoth & Hdb2 & Hjb2 & Hn2)|(_ & _ & Hf)]; [..|exact Hq| |].
  - apply NoDup_elements.
  - intros it q j1 Hfj _ Hre. rewrite Hf1, Hj0 in Hfj. injection Hfj as <- <- <-. by apply Hcalm.
  - rewrite E4. apply lookup_insert.
  - done.
  - intros y ity Hy Hr He. rewrite E2 in Hy. destruct (si_ptr HS _ _ Hy Hr) as (jj & Hjj & _).
    pose proof (si_next HS _ (mk_is_Some _ _ Hjj)). lia.
  - intros Hrest.
    pose proof (found_find _ _ _ _ _ HF) as Hff. rewrite Hf1, Hj0 in Hff. injection Hff as <- -> <-.
    destruct (IH s2 HS2 Hnd) as (-> & I2 & I3 & I4 & I5 & I6 & I7).
    { intros j' Hj'. rewrite Hoth. 2: { intros He. apply Hjn. rewrite <- He. by apply elem_of_list_fmap_1. }
      rewrite Hf1. apply Hex. by right. }
    { done. }
    split; [done|]. split; [done|]. split; [congruence|]. split; [lia|]. split; [|split].
    + intros q Hq0. rewrite I5 by lia. rewrite Hjb2, E4. apply lookup_insert_ne. lia.
    + intros k [Hk1 Hk2]%not_elem_of_cons. rewrite I6 by done. rewrite Hoth by done. apply Hf1.
    + intros j' [->|Hj']%elem_of_cons.
      * exists it0, (idata it0), j0, it', (idata it'). split; [done|]. split; [|split; [lia|done]].
        rewrite I6 by done. by apply found_find with x.
      * destruct (I7 _ Hj') as (it1 & p1 & j1 & it2 & p2 & G1 & G2 & G3 & G4 & G5).
        rewrite Hoth in G1. 2: { intros He. apply Hjn. rewrite <- He. by apply elem_of_list_fmap_1. }
        rewrite Hf1 in G1. exists it1, p1, j1, it2, p2. rewrite Hdb2, E1 in G4, G5. split_and!; try done. lia.
  - rewrite Hf1, Hj0 in Hf. done.
Qed.

Lemma first_def_head k js ds (P : job → itemdef → Prop) :
  Forall2 P js ds → (∀ j d, P j d → d_key d = jkey j) →
  match first_def k ds with
  | Some d => ∃ j, head (filter (λ j, jkey j = k) js) = Some j ∧ P j d
  | None => head (filter (λ j, jkey j = k) js) = None
  end.
Proof.
  intros HP Hk. induction HP as [|j d js ds H1 H2 IH]; [done|]. rewrite first_def_cons, filter_cons, (Hk _ _ H1).
  destruct (decide (jkey j = k)); [by exists j|done].
Qed.

Definition calm_add (js : list job) (ignore : bool) (s : sstate) : Prop :=
  ∀ k it p j,
    k ∈ jkey <$> (prepare (init_job <$> js) ignore (sdb s)).1.2 →
    find_job k s = Some (it, p, j) → iremain it ≠ ∅ → ist it = SDep.

Lemma add_ok now js ignore s s' r l : SInv s → DInv s → calm_add js ignore s →
  s_add now js ignore s = Some (s', r, l) → ok s (AAdd now js ignore) s' r l.
Proof.
  intros HS HD Hcalm. unfold s_add. unfold calm_add in Hcalm.
  destruct (prepare (init_job <$> js) ignore (sdb s)) as [[[stored toq] upd] already] eqn:Hprep.
  cbn [fst snd] in Hcalm.
  pose proof (prepare_facts _ _ _ _ _ _ _ (dinv_keys _ HD) Hprep) as Hpf. cbv zeta in Hpf.
  set (kept := kept_of (init_job <$> js) ignore (sdb s)) in *.
  destruct Hpf as (res & Hst & Htoq & Hal & Hun & Hrn & Hupd & Hres).
  set (s1 := s <| sdb ::= db_store stored (new_dtk kept) (new_rdtk kept) |>).
  assert (HS1 : SInv s1) by (by apply sdb_inv).
  assert (Hf1 : ∀ k, find_job k s1 = find_job k s) by done.
  destruct (itemdefs (λ _, StartDefault) toq s1) as [defs s2] eqn:Hdefs.
  destruct (itemdefs_facts _ _ _ _ _ Hdefs HS1) as (HS2 & Hdb2 & Hq2 & Hn2 & Hf2 & Hj2 & HF2 & Hnd2).
  destruct (update_deps_of now upd s2) as [[s3 b]|] eqn:Hup; [|done]. cbn beta iota zeta delta [mbind option_bind].
  destruct (update_deps_facts now upd s2 s3 b HS2 Hun) as (-> & HS3 & Hdb3 & Hn3 & Hj3 & Hf3 & Hu3); [|done|].
  { intros j Hj. pose proof (proj1 (Hupd j) Hj) as [_ Hl].
    destruct (di_in HD (jkey j) (mk_is_Some _ _ Hl)) as [[[it p] j0] Hfj].
    exists it, p, j0. rewrite Hf2, Hf1. split; [done|]. intros Hre.
    eapply (Hcalm (jkey j)); [by apply elem_of_list_fmap_1|done|done]. }
  destruct (qdo (OAddMany now defs) s3) as [[s4 r4]|] eqn:Hq; [|done]. cbn beta iota zeta delta [mbind option_bind].
  assert (Hold : ∀ x it, objs (sq s2) !! x = Some it → ist it ≠ SRemoved → (idata it < snext s1)%N).
  { intros x it Hx Hr. rewrite Hq2 in Hx. destruct (si_ptr HS1 _ _ Hx Hr) as (jj & Hjj & _).
    exact (si_next HS1 _ (mk_is_Some _ _ Hjj)). }
  destruct (qdo_addmany now defs s3 s4 r4 HS3) as (HS4 & Hdb4 & _ & _ & (a & d & ->) & Hexi & Hnew); [| |  |exact Hq|].
  { intros d Hd. apply elem_of_list_lookup in Hd as [i Hi].
    destruct (Forall2_lookup_r _ _ _ _ _ HF2 Hi) as (j & _ & Hk & _ & _ & _ & _ & _ & Hj & Hb).
    exists j. split; [|done]. rewrite Hj3 by lia. done. }
  { done. }
  { intros x it Hx Hr (d & Hd & Hin)%elem_of_list_fmap.
    apply elem_of_list_lookup in Hin as [i Hi].
    destruct (Forall2_lookup_r _ _ _ _ _ HF2 Hi) as (j & _ & _ & _ & _ & _ & _ & _ & _ & Hb). rewrite <- Hd in Hb.
    destruct (obj_found _ _ _ HS3 Hx Hr) as (j3 & HF3). pose proof (found_find _ _ _ _ _ HF3) as Hff.
    destruct (decide (ikey it ∈ jkey <$> upd)) as [Hu|Hu].
    - apply elem_of_list_fmap in Hu as (ju & Hjk & Hju). destruct (Hu3 _ Hju) as (it1 & p1 & j1 & it2 & p2 & _ & G2 & G3 & _).
      rewrite <- Hjk, Hff in G2. injection G2 as <- <- _. lia.
    - rewrite Hf3 in Hff by done. destruct (find_found _ _ _ _ _ HS2 Hff) as (_ & x2 & HF22).
      pose proof (Hold _ _ (f_obj HF22) (f_live HF22)). lia. }
  intros [= <- <- <-].
  assert (Hdb : sdb s4 = db_store stored (new_dtk kept) (new_rdtk kept) (sdb s)).
  { rewrite Hdb4, Hdb3, Hdb2. done. }
  assert (Hinc : sdb s1 = sdb s4) by (by rewrite Hdb).
  assert (Hd2 : sdb s2 = sdb s4) by (by rewrite Hdb2).
  assert (Hcase : ∀ k, find_job k s3 = None ↔ find_job k s = None).
  { intros k. destruct (decide (k ∈ jkey <$> upd)) as [Hu|Hu]; [|by rewrite Hf3, Hf2, Hf1].
    apply elem_of_list_fmap in Hu as (ju & -> & Hju). destruct (Hu3 _ Hju) as (it1 & p1 & j1 & it2 & p2 & G1 & G2 & _).
    rewrite Hf2, Hf1 in G1. by rewrite G1, G2. }
  assert (Hnew' : ∀ k, find_job k s = None →
       match head (filter (λ j, jkey j = k) toq) with
       | Some j => ∃ it p, find_job k s4 = Some (it, p, j) ∧
                     iremain it = list_to_set (incomplete_keys (sdb s4) j) ∧
                     ist it = match incomplete_keys (sdb s4) j with [] => SReady | _ => SDep end
       | None => find_job k s4 = None
       end).
  { intros k Hk. apply Hcase in Hk. specialize (Hnew k Hk).
    pose proof (first_def_head k toq defs _ HF2 ltac:(intros j d0 H0; apply H0)) as Hfd.
    destruct (first_def k defs) as [df|].
    - destruct Hfd as (j & -> & Hk1 & Hg1 & Hs1 & Hp1 & Hdl & Hdp & Hjb & Hbd). destruct Hnew as (j' & Hj' & Hfj).
      rewrite Hj3 in Hj' by lia. rewrite Hjb in Hj'. injection Hj' as <-.
      exists (added_def now df), (d_data df). split; [done|].
      destruct (added_def_facts now df) as (_ & _ & _ & -> & ->). rewrite Hdp, Hs1, Hdl, Hinc. split; [done|].
      by destruct (incomplete_keys (sdb s4) j).
    - by rewrite Hfd. }
  assert (Hupd' : ∀ k it p j, find_job k s = Some (it, p, j) →
       (k ∉ jkey <$> upd ∧ find_job k s4 = find_job k s) ∨
       ∃ it' p' j', find_job k s4 = Some (it', p', j') ∧ j' ∈ upd ∧ jkey j' = k ∧
         iremain it' = list_to_set (incomplete_keys (sdb s4) j') ∧
         ist it' = upd_state (incomplete_keys (sdb s4) j') it).
  { intros k it p j Hk.
    assert (Hs3 : is_Some (find_job k s3)).
    { destruct (find_job k s3) eqn:E3; [by eexists|]. apply Hcase in E3. congruence. }
    rewrite (Hexi _ Hs3). destruct (decide (k ∈ jkey <$> upd)) as [Hu|Hu].
    - right. apply elem_of_list_fmap in Hu as (ju & -> & Hju).
      destruct (Hu3 _ Hju) as (it1 & p1 & j1 & it2 & p2 & G1 & G2 & G3 & G4 & G5).
      rewrite Hf2, Hf1, Hk in G1. injection G1 as <- <- <-. exists it2, p2, ju. rewrite Hd2 in G4, G5. by split_and!.
    - left. split; [done|]. by rewrite Hf3, Hf2, Hf1. }
  split; [|split; [done|]].
  - eapply SeAdd; try done. by eexists _, _.
  - split; rewrite Hdb; cbn.
    + apply stores_plain, (di_live HD).
    + apply (di_comp HD).
    + apply (di_pend HD).
    + intros k [Hk|Hk]%stores_some.
      * destruct (find_job k s) as [[[it p] j]|] eqn:Hfk.
        -- destruct (Hupd' _ _ _ _ Hfk) as [[_ ->]|(it' & p' & j' & -> & _)]; by eexists.
        -- specialize (Hnew' _ Hfk).
           assert (Hin : k ∈ jkey <$> toq).
           { rewrite Hst in Hk. rewrite Htoq. destruct res as [|r0 res]; [by rewrite app_nil_r in Hk|].
             rewrite fmap_app in Hk. rewrite fmap_app. apply elem_of_app in Hk as [Hk|Hk]; apply elem_of_app; [right|by left].
             apply elem_of_list_fmap in Hk as (jj & -> & Hjj). apply elem_of_list_fmap_1.
             unfold kept, kept_of in Hjj. destruct ignore; [by apply elem_of_list_filter in Hjj as [_ ?]|done]. }
           destruct (head (filter (λ j, jkey j = k) toq)) as [j|] eqn:Hh.
           ++ destruct Hnew' as (it & p & -> & _). by eexists.
           ++ exfalso. apply elem_of_list_fmap in Hin as (jj & -> & Hjj).
              assert (jj ∈ filter (λ j, jkey j = jkey jj) toq) as Hjf by (by apply elem_of_list_filter).
              destruct (filter (λ j, jkey j = jkey jj) toq); [by apply elem_of_nil in Hjf|done].
      * destruct (di_in HD _ Hk) as [[[it p] j] Hfk].
        destruct (Hupd' _ _ _ _ Hfk) as [[_ ->]|(it' & p' & j' & -> & _)]; by eexists.
Qed.
