(** Proofs about the modification of jobs *)
From Coq Require Import ZArith Lia String.
From stdpp Require Import base option strings gmap list.
From RecordUpdate Require Import RecordSet.
From Verif Require Import GoHeap QueueModel QueueSpec QueueInv QueueItem QueueInvRem QueueEff QueueDep ServerModel ServerSpec ServerCore ServerEff ServerPrep ServerEff5 ServerKey ModModel ModSpec.
Import RecordSetNotations.
Open Scope Z_scope.

(** *** Names *)
Lemma called_in mp new old : NoDup mp.*2 → (new, old) ∈ mp → called mp old = new.
Proof.
  induction mp as [|[n o] mp IH]; intros Hnd Hin; [by apply elem_of_nil in Hin|]. cbn [called]. rewrite fmap_cons in Hnd.
  apply NoDup_cons in Hnd as [Ho Hnd]. apply elem_of_cons in Hin as [[= -> ->]|Hin]; [by rewrite decide_True|].
  rewrite decide_False; [by apply IH|]. intros ->. apply Ho. apply elem_of_list_fmap. by exists (new, old).
Qed.
Lemma called_out mp k : k ∉ mp.*2 → called mp k = k.
Proof.
  induction mp as [|[n o] mp IH]; intros Hn; [done|]. cbn [called]. rewrite fmap_cons in Hn. apply not_elem_of_cons in Hn as [Hk Hn].
  rewrite decide_False by done. by apply IH.
Qed.
Lemma called_cases mp k : NoDup mp.*2 → (∃ new, (new, k) ∈ mp ∧ called mp k = new) ∨ (k ∉ mp.*2 ∧ called mp k = k).
Proof.
  intros Hnd. destruct (decide (k ∈ mp.*2)) as [H|H].
  - left. apply elem_of_list_fmap in H as ([new k'] & -> & Hin). exists new. split; [done|]. by apply called_in.
  - right. split; [done|]. by apply called_out.
Qed.
Lemma called_perm mp mp' k : NoDup mp.*2 → mp ≡ₚ mp' → called mp k = called mp' k.
Proof.
  intros Hnd Hp. assert (Hnd' : NoDup mp'.*2) by (by rewrite <- Hp).
  destruct (called_cases mp k Hnd) as [(new & Hin & ->)|[Hn ->]].
  - symmetry. apply called_in; [done|]. by rewrite <- Hp.
  - symmetry. apply called_out. by rewrite <- Hp.
Qed.

(** *** ChangeKey, many times *)
(** what the pairs must be: new keys are not taken, old ones are *)
Definition renames (q : qstate) (ch : list (key * key)) : Prop :=
  NoDup ch.*1 ∧ NoDup ch.*2 ∧ ∀ new old, (new, old) ∈ ch → is_Some (items q !! old) ∧ (new = old ∨ items q !! new = None).
Lemma called_new q ch new old : renames q ch → (new, old) ∈ ch → new ≠ old → new ∉ ch.*2.
Proof.
  intros (_ & _ & H) Hin Hne H2. apply elem_of_list_fmap in H2 as ([n' o'] & Ho & Hin'). cbn in Ho. subst o'.
  destruct (H _ _ Hin) as [_ [?|Hn]]; [done|]. destruct (H _ _ Hin') as [[x Hx] _]. congruence.
Qed.
(** an item that waits for others in the queue only *)
Definition sane (q : qstate) (it : item) : Prop := ikey it ∉ iremain it ∧ ∀ d, d ∈ iremain it → is_Some (items q !! d).
Definition moved (ch : list (key * key)) (q q' : qstate) (it it' : item) : Prop :=
  same_but_keys it it' ∧
  (ist it ≠ SRemoved → ikey it' = called ch (ikey it) ∧ (sane q it → sane q' it' ∧ iremain it' = set_map (called ch) (iremain it))).
Record Renamed (q : qstate) (ch : list (key * key)) (q' : qstate) : Prop := {
  rn_inv : Inv false q';
  rn_items k x : items q !! k = Some x → items q' !! called ch k = Some x;
  rn_items' k' x : items q' !! k' = Some x → ∃ k, k' = called ch k ∧ items q !! k = Some x;
  rn_objs x it : objs q !! x = Some it → ∃ it', objs q' !! x = Some it' ∧ moved ch q q' it it';
  rn_objs' x : is_Some (objs q' !! x) → is_Some (objs q !! x);
}.
Lemma same_but_keys_refl it : same_but_keys it it.
Proof. unfold same_but_keys. by split_and!. Qed.
Lemma same_but_keys_trans a b c : same_but_keys a b → same_but_keys b c → same_but_keys a c.
Proof. unfold same_but_keys. intros H1 H2. destruct_and!. split_and!; congruence. Qed.

Lemma rename_one q old new x : Inv false q → items q !! new = None → items q !! old = Some x →
  ∃ q', q_change_key old new q = Some (q', ROk, []) ∧ Renamed q [(new, old)] q'.
Proof.
  intros HI Hn Ho. destruct (q_change_key_ok false old new x q HI Hn Ho) as (q' & Hq' & HI' & Hob & Hit & _ & _ & _).
  exists q'. split; [done|].
  assert (Hkey : ∀ y it, objs q !! y = Some it → ist it ≠ SRemoved → items q !! ikey it = Some y) by (intros; apply (i_items HI); eauto).
  assert (Hne : old ≠ new) by congruence.
  assert (Hi1 : ∀ k y, items q !! k = Some y → items q' !! called [(new, old)] k = Some y).
  { intros k y Hk. rewrite Hit. cbn [called]. destruct (decide (old = k)) as [<-|e].
    + rewrite lookup_insert. congruence.
    + rewrite lookup_insert_ne by congruence. by rewrite lookup_delete_ne. }
  assert (Hinj : ∀ k k', is_Some (items q !! k) → is_Some (items q !! k') → called [(new, old)] k = called [(new, old)] k' → k = k').
  { intros k k' [y Hk] [y' Hk']. cbn [called]. destruct (decide (old = k)), (decide (old = k')); congruence. }
  assert (Hc : called [(new, old)] = λ k, if decide (old = k) then new else k) by done.
  assert (Hmv : ∀ y it, objs q !! y = Some it → moved [(new, old)] q q' it (rekey old new it)).
  { intros y it Hy. unfold moved, rekey. destruct (decide (ist it = SRemoved)) as [Hr|Hr]; [split; [apply same_but_keys_refl|done]|].
    assert (Hk : ikey (changed_key old new it) = called [(new, old)] (ikey it)).
    { rewrite changed_key_key. rewrite Hc. destruct (decide (ikey it = old)), (decide (old = ikey it)); congruence. }
    split; [unfold changed_key; by destruct (decide (ikey it = old))|]. intros _. split; [done|]. intros [Hs1 Hs2].
    assert (Hre : iremain (changed_key old new it) = set_map (called [(new, old)]) (iremain it)).
    { unfold changed_key. rewrite Hc. apply sets.set_eq. intros d. rewrite elem_of_map. destruct (decide (ikey it = old)) as [e|e]; cbn.
      - split; [intros Hd; exists d; split; [|done]; by rewrite decide_False by congruence|].
        intros (d' & -> & Hd'). rewrite decide_False by congruence. done.
      - assert (Hnr : new ∉ iremain it) by (intros Hd; destruct (Hs2 _ Hd); congruence).
        destruct (decide (old ∈ iremain it)) as [Hd|Hd].
        + rewrite elem_of_union, elem_of_singleton, elem_of_difference, elem_of_singleton. split.
          * intros [->|[Hd1 Hd2]]; [exists old; by rewrite decide_True|]. exists d. by rewrite decide_False by congruence.
          * intros (d' & -> & Hd'). destruct (decide (old = d')) as [<-|]; [by left|right]. split; [done|congruence].
        + split; [intros Hd'; exists d; rewrite decide_False by congruence; done|]. intros (d' & -> & Hd').
          rewrite decide_False by congruence. done. }
    split; [|done]. split.
    - rewrite Hk, Hre. intros (d & He & Hd)%elem_of_map. apply Hinj in He; [subst d; done|by eexists; apply (Hkey y)|by apply Hs2].
    - rewrite Hre. intros d (d' & -> & Hd)%elem_of_map. destruct (Hs2 _ Hd) as [z Hz]. exists z. by apply Hi1. }
  split; [done|done|..].
  - intros k' y. rewrite Hit. cbn [called]. intros [[<- <-]|[H1 [H2 H3]%lookup_delete_Some]]%lookup_insert_Some.
    + exists old. by rewrite decide_True.
    + exists k'. by rewrite decide_False.
  - intros y it Hy. exists (rekey old new it). split; [by rewrite Hob, lookup_fmap, Hy|]. by apply (Hmv y).
  - intros y [it' Hy]. rewrite Hob, lookup_fmap in Hy. destruct (objs q !! y); [by eexists|done].
Qed.
Lemma renamed_refl q : Inv false q → Renamed q [] q.
Proof.
  intros HI. split; [done|done|eauto| |done]. intros x it Hx. exists it. split; [done|]. split; [apply same_but_keys_refl|].
  intros _. split; [done|]. intros Hs. split; [done|]. apply sets.set_eq. intros d. rewrite elem_of_map. cbn [called]. naive_solver.
Qed.
Lemma called_comp new old ch k : new ∉ ch.*2 ∨ new = old → NoDup (old :: ch.*2) →
  called ch (called [(new, old)] k) = called ((new, old) :: ch) k.
Proof.
  intros Hn Hnd. apply NoDup_cons in Hnd as [Ho _]. cbn [called]. destruct (decide (old = k)) as [<-|]; [|done].
  destruct Hn as [Hn| ->]; by apply called_out.
Qed.
Lemma renamed_trans q q1 q2 new old ch : new ∉ ch.*2 ∨ new = old → NoDup (old :: ch.*2) →
  Renamed q [(new, old)] q1 → Renamed q1 ch q2 → Renamed q ((new, old) :: ch) q2.
Proof.
  intros Hn Hnd H1 H2. split.
  - apply H2.
  - intros k x Hk. rewrite <- called_comp by done. by apply (rn_items _ _ _ H2), (rn_items _ _ _ H1).
  - intros k' x Hk. apply (rn_items' _ _ _ H2) in Hk as (k1 & -> & Hk). apply (rn_items' _ _ _ H1) in Hk as (k & -> & Hk).
    exists k. by rewrite called_comp.
  - intros x it Hx. destruct (rn_objs _ _ _ H1 _ _ Hx) as (it1 & Hx1 & Hm1 & Hm1'). destruct (rn_objs _ _ _ H2 _ _ Hx1) as (it2 & Hx2 & Hm2 & Hm2').
    exists it2. split; [done|]. split; [by eapply same_but_keys_trans|]. intros Hr.
    assert (Hr1 : ist it1 ≠ SRemoved). { destruct Hm1 as (_ & _ & _ & _ & _ & _ & _ & -> & _). done. }
    destruct (Hm1' Hr) as [Hk1 Hs1]. destruct (Hm2' Hr1) as [Hk2 Hs2]. split; [by rewrite Hk2, Hk1, called_comp|].
    intros Hs. destruct (Hs1 Hs) as [Hsa1 He1]. destruct (Hs2 Hsa1) as [Hsa2 He2]. split; [done|]. rewrite He2, He1.
    apply sets.set_eq. intros d. rewrite !elem_of_map. split.
    + intros (d1 & -> & (d0 & -> & Hd)%elem_of_map). exists d0. by rewrite called_comp.
    + intros (d0 & -> & Hd). exists (called [(new, old)] d0). rewrite called_comp by done. split; [done|]. apply elem_of_map. eauto.
  - intros x Hx. by apply (rn_objs' _ _ _ H1), (rn_objs' _ _ _ H2).
Qed.
Lemma change_keys_none ch : fold_left (λ s '(new, old), s ← s; if bool_decide (old = new) then Some s
                              else '(s, _) ← qdo (OChangeKey old new) s; Some s) ch None = None.
Proof. induction ch as [|[n o] ch IH]; [done|]. cbn [fold_left]. apply IH. Qed.
Lemma change_keys_ok ch : ∀ s, Inv false (sq s) → renames (sq s) ch →
  ∃ q', change_keys ch s = Some (s <| sq := q' |>) ∧ Renamed (sq s) ch q'.
Proof.
  induction ch as [|[new old] ch IH]; intros s HI (Hn1 & Hn2 & Hr).
  - exists (sq s). split; [by destruct s|]. by apply renamed_refl.
  - rewrite fmap_cons in Hn1, Hn2. cbn [fst snd] in Hn1, Hn2. destruct (Hr new old ltac:(left)) as [[x Hx] Hnew].
    apply NoDup_cons in Hn1 as [Hn1' Hn1]. pose proof Hn2 as Hnd. apply NoDup_cons in Hn2 as [Hn2' Hn2].
    unfold change_keys. cbn [fold_left mbind option_bind].
    assert (Hout : ∀ n o, (n, o) ∈ ch → n ≠ new ∧ o ≠ old).
    { intros n o Hin. split; intros ->; [apply Hn1'|apply Hn2']; apply elem_of_list_fmap; [by exists (new, o)|by exists (n, old)]. }
    destruct (decide (old = new)) as [->|Hne].
    + rewrite bool_decide_eq_true_2 by done. destruct (IH s HI) as (q' & Hq' & HR).
      { split; [done|split; [done|]]. intros n o Hin. apply Hr. by right. }
      exists q'. split; [exact Hq'|]. eapply renamed_trans; [by right|done| |done]. 
      split; [done|..]; cbn [called]; [| | |done].
      * intros k y Hk. destruct (decide (new = k)); [congruence|done].
      * intros k' y Hk. exists k'. split; [destruct (decide (new = k')); congruence|done].
      * intros y it Hy. exists it. split; [done|]. split; [apply same_but_keys_refl|]. intros _. split; [cbn [called]; destruct (decide (new = ikey it)); congruence|].
        intros Hs. split; [done|]. apply sets.set_eq. intros d. rewrite elem_of_map. split.
        -- intros Hd. exists d. split; [cbn [called]; destruct (decide (new = d)); congruence|done].
        -- intros (d' & -> & Hd). cbn [called]; destruct (decide (new = d')); congruence.
    + rewrite bool_decide_eq_false_2 by done. destruct Hnew as [?|Hnew]; [congruence|].
      destruct (rename_one (sq s) old new x HI Hnew Hx) as (q1 & Hq1 & HR1).
      unfold qdo. cbn [step]. rewrite Hq1. cbn [mbind option_bind].
      destruct (IH (s <| sq := q1 |>)) as (q' & Hq' & HR).
      { apply HR1. }
      { split; [done|split; [done|]]. intros n o Hin. destruct (Hr n o ltac:(by right)) as [[y Hy] Hno]. destruct (Hout _ _ Hin) as [Hn' Ho'].
        cbn. split.
        - exists y. pose proof (rn_items _ _ _ HR1 _ _ Hy) as H. cbn [called] in H. by rewrite decide_False in H by congruence.
        - destruct Hno as [->|Hno]; [by left|right]. destruct (items q1 !! n) as [z|] eqn:Hz; [|done].
          apply (rn_items' _ _ _ HR1) in Hz as (k & -> & Hk). cbn [called] in *. destruct (decide (old = k)); [done|congruence]. }
      exists q'. split; [exact Hq'|]. eapply renamed_trans; [|done|done|done]. left.
      intros Hin. apply elem_of_list_fmap in Hin as ([n' o'] & Ho & Hin). cbn in Ho. subst o'.
      destruct (Hr n' new ltac:(by right)) as [[y Hy] _]. congruence.
Qed.

(** *** Modify *)
Section modify.
Context (m : modifier) (known : key → bool) (js0 : gmap N job) (all : list N).
Context (Hset : settled m).
Context (Hall : ∀ p, p ∈ all → ∃ j, js0 !! p = Some j ∧ known (jkey j) = true).
Context (Hinj : ∀ p p' j j', p ∈ all → p' ∈ all → js0 !! p = Some j → js0 !! p' = Some j' → jkey j = jkey j' → p = p').
Record Modified (pre : list N) (js : gmap N job) (done : list (key * key)) : Prop := {
  mi_new : NoDup done.*1;
  mi_old : NoDup done.*2;
  mi_in new old : (new, old) ∈ done → ∃ p j, p ∈ pre ∧ js0 !! p = Some j ∧ jkey j = old ∧ new = m_key m old ∧
    (new = old ∨ known new = false) ∧ js !! p = Some (mod_job m j);
  mi_js p j : js0 !! p = Some j → (js !! p = Some j ∧ (p ∈ pre → jkey j ∈ done.*2 → js !! p = Some (mod_job m j))) ∨
    (p ∈ pre ∧ jkey j ∈ done.*2 ∧ js !! p = Some (mod_job m j));
  mi_dom p : js0 !! p = None → js !! p = None;
  mi_not p j : p ∈ pre → js0 !! p = Some j → jkey j ∉ done.*2 →
    (m_key m (jkey j) ≠ jkey j ∧ known (m_key m (jkey j)) = true) ∨ m_key m (jkey j) ∈ done.*1;
}.
Lemma in_fst (l : list (key * key)) a b : (a, b) ∈ l → a ∈ l.*1.
Proof. intros H. apply elem_of_list_fmap. by exists (a, b). Qed.
Lemma in_snd (l : list (key * key)) a b : (a, b) ∈ l → b ∈ l.*2.
Proof. intros H. apply elem_of_list_fmap. by exists (a, b). Qed.
Lemma modify_ok ps : ∀ pre js done, (∀ p, p ∈ pre ++ ps → p ∈ all) → Modified pre js done →
  let '(js', done') := modify m known ps done js in Modified (pre ++ ps) js' done'.
Proof.
  induction ps as [|p ps IH]; intros pre js done Hsub HM; cbn [modify]; [by rewrite app_nil_r|].
  assert (Hp : p ∈ all) by (apply Hsub, elem_of_app; right; left). destruct (Hall _ Hp) as (j & Hj & Hk).
  assert (Hskip : jkey j ∈ done.*2 ∨ (m_key m (jkey j) ≠ jkey j ∧ known (m_key m (jkey j)) = true) ∨ m_key m (jkey j) ∈ done.*1 →
    Modified (pre ++ [p]) js done).
  { intros Hor. split; try apply HM.
    - intros new old Hin. destruct (mi_in _ _ _ HM _ _ Hin) as (p' & j' & ? & ?). exists p', j'. split; [apply elem_of_app; by left|done].
    - intros p' j' Hj'. destruct (mi_js _ _ _ HM _ _ Hj') as [[H1 H2]|(H1 & H2 & H3)]; [left|right; split_and!; [apply elem_of_app; by left|done|done]].
      split; [done|]. intros Hpp Hdo. apply elem_of_list_fmap in Hdo as ([new old] & Ho & Hin). cbn in Ho.
      destruct (mi_in _ _ _ HM _ _ Hin) as (p2 & j2 & Hp2 & Hj2 & Hk2 & _ & _ & Hjs).
      assert (p' ∈ all). { apply Hsub. apply elem_of_app in Hpp as [?|Hpp%elem_of_list_singleton]; apply elem_of_app; [by left|]. subst p'. right; left. }
      assert (p2 = p') as -> by (eapply Hinj; [apply Hsub, elem_of_app; by left|done|done|done|congruence]). congruence.
    - intros p' j' Hpp Hj' Hno. apply elem_of_app in Hpp as [Hpp|Hpp%elem_of_list_singleton]; [by eapply (mi_not _ _ _ HM)|]. subst p'.
      assert (j' = j) as -> by congruence. by destruct Hor. }
  assert (Hback : jkey j ∈ done.*2 → m_key m (jkey j) ∈ done.*1 ∧ js !! p = Some (mod_job m j)).
  { intros Hdo. apply elem_of_list_fmap in Hdo as ([new old] & Ho & Hin). cbn in Ho.
    destruct (mi_in _ _ _ HM _ _ Hin) as (p2 & j2 & Hp2 & Hj2 & Hk2 & Hn2 & _ & Hjs).
    assert (p2 = p) as -> by (eapply Hinj; [apply Hsub, elem_of_app; by left|done|done|done|congruence]).
    assert (j2 = j) as -> by congruence. split; [|done]. rewrite Ho, <- Hn2. by eapply in_fst. }
  assert (Hadd : (m_key m (jkey j) = jkey j ∨ known (m_key m (jkey j)) = false) → js !! p = Some j → m_key m (jkey j) ∉ done.*1 →
    Modified (pre ++ [p]) (<[p := mod_job m j]> js) (done ++ [(m_key m (jkey j), jkey j)])).
  { intros Hor Hjs Hin. assert (Hno : jkey j ∉ done.*2) by (intros Hd; by apply Hback in Hd as [? _]).
    assert (Hel : ∀ k, k ∈ (done ++ [(m_key m (jkey j), jkey j)]).*2 ↔ k ∈ done.*2 ∨ k = jkey j).
    { intros k. rewrite fmap_app, elem_of_app. cbn. by rewrite elem_of_list_singleton. }
    split.
    - rewrite fmap_app. apply NoDup_app. split; [apply HM|]. split; [|apply NoDup_singleton]. intros k Hk' Hk2.
      apply elem_of_list_singleton in Hk2. cbn in Hk2. by subst k.
    - rewrite fmap_app. apply NoDup_app. split; [apply HM|]. split; [|apply NoDup_singleton]. intros k Hk' Hk2.
      apply elem_of_list_singleton in Hk2. cbn in Hk2. by subst k.
    - intros new old Hi. apply elem_of_app in Hi as [Hi|Hi%elem_of_list_singleton].
      + destruct (mi_in _ _ _ HM _ _ Hi) as (p' & j' & H1 & H2 & H3 & H4 & H5 & H6). exists p', j'. split_and!; try done.
        * apply elem_of_app. by left.
        * rewrite lookup_insert_ne; [done|]. intros <-. apply Hno. assert (j' = j) as -> by congruence. subst old. by eapply in_snd.
      + injection Hi as -> ->. exists p, j. split_and!; try done; [apply elem_of_app; right; left|]. by rewrite lookup_insert.
    - intros p' j' Hj'. destruct (decide (p' = p)) as [->|Hne].
      + right. assert (j' = j) as -> by congruence. split_and!; [apply elem_of_app; right; left|apply Hel; by right|by rewrite lookup_insert].
      + rewrite lookup_insert_ne by done. destruct (mi_js _ _ _ HM _ _ Hj') as [[H1 H2]|(H1 & H2 & H3)].
        * left. split; [done|]. intros Hpp Hdo. apply elem_of_app in Hpp as [Hpp|Hpp%elem_of_list_singleton]; [|done].
          apply Hel in Hdo as [Hdo|Hdo]; [by apply H2|]. exfalso. apply Hne. eapply Hinj; [|done|done|done|done]. apply Hsub, elem_of_app. by left.
        * right. split_and!; [apply elem_of_app; by left|apply Hel; by left|done].
    - intros p' Hp'. rewrite lookup_insert_ne by congruence. by apply HM.
    - intros p' j' Hpp Hj' Hn. rewrite Hel in Hn. apply elem_of_app in Hpp as [Hpp|Hpp%elem_of_list_singleton].
      + destruct (mi_not _ _ _ HM _ _ Hpp Hj') as [?|?]; [tauto|by left|]. right. rewrite fmap_app. apply elem_of_app. by left.
      + subst p'. assert (j' = j) as -> by congruence. tauto. }
  rewrite cons_middle, app_assoc. destruct (mi_js _ _ _ HM _ _ Hj) as [[H1 _]|(_ & H2 & H3)].
  - rewrite H1. cbv zeta. destruct (bool_decide_reflect (m_key m (jkey j) ∈ done.*1)) as [Hin|Hin].
    { apply IH; [by rewrite <- app_assoc|]. apply Hskip. by right; right. }
    destruct (bool_decide_reflect (m_key m (jkey j) ≠ jkey j)) as [Hne|Hne]; cbn [andb].
    + destruct (known (m_key m (jkey j))) eqn:Ekn.
      { apply IH; [by rewrite <- app_assoc|]. apply Hskip. right. by left. }
      apply IH; [by rewrite <- app_assoc|]. apply Hadd; [by right|done|done].
    + apply IH; [by rewrite <- app_assoc|]. apply Hadd; [left; by apply dec_stable|done|done].
  - rewrite H3. cbv zeta. cbn [mod_job jkey]. rewrite Hset. rewrite bool_decide_eq_true_2 by (by apply Hback).
    apply IH; [by rewrite <- app_assoc|]. apply Hskip. by left.
Qed.
End modify.

(** *** The database *)
Lemma put_out l : ∀ (mm : gmap key job) k, k ∉ jkey <$> l → fold_left (λ m j, <[jkey j := encode j]> m) l mm !! k = mm !! k.
Proof.
  induction l as [|j l IH]; intros mm k Hk; [done|]. rewrite fmap_cons in Hk. apply not_elem_of_cons in Hk as [H1 H2]. cbn [fold_left].
  rewrite IH by done. by rewrite lookup_insert_ne.
Qed.
Lemma put_in l : ∀ (mm : gmap key job) j, NoDup (jkey <$> l) → j ∈ l → fold_left (λ m j, <[jkey j := encode j]> m) l mm !! jkey j = Some (encode j).
Proof.
  induction l as [|j' l IH]; intros mm j Hnd Hj; [by apply elem_of_nil in Hj|]. rewrite fmap_cons in Hnd. apply NoDup_cons in Hnd as [H1 H2]. cbn [fold_left].
  apply elem_of_cons in Hj as [->|Hj]; [|by apply IH]. rewrite put_out by done. by rewrite lookup_insert.
Qed.
Lemma foldr_delete_out (mm : gmap key job) l k : k ∉ l → foldr delete mm l !! k = mm !! k.
Proof. induction l as [|x l IH]; [done|]. intros [H1 H2]%not_elem_of_cons. cbn [foldr]. rewrite lookup_delete_ne by done. by apply IH. Qed.
Lemma foldr_delete_in (mm : gmap key job) l k : k ∈ l → foldr delete mm l !! k = None.
Proof.
  induction l as [|x l IH]; [by intros ?%elem_of_nil|]. intros H. cbn [foldr]. destruct (decide (x = k)) as [->|Hne]; [by rewrite lookup_delete|].
  rewrite lookup_delete_ne by done. apply IH. by apply elem_of_cons in H as [?|?].
Qed.
Lemma db_modify_ok olds js d : db_keys d → NoDup (jkey <$> js) →
  (∀ j, j ∈ js → live (db_modify olds js d) !! jkey j = Some (encode j)) ∧
  (∀ k, k ∉ jkey <$> js → is_Some (live d !! k) → live (db_modify olds js d) !! k = if decide (k ∈ olds) then None else live d !! k) ∧
  complete (db_modify olds js d) = complete d ∧ pend (db_modify olds js d) = pend d ∧
  (∀ g k, (g, k) ∈ dtk (db_modify olds js d) ↔ (∃ j, j ∈ js ∧ jkey j = k ∧ g ∈ jdepgroups j ∧ g ≠ ""%string) ∨ (k ∉ olds ∧ (g, k) ∈ dtk d)) ∧
  (∀ g k, (g, k) ∈ rdtk (db_modify olds js d) ↔ (∃ j, j ∈ js ∧ jkey j = k ∧ DGroup g ∈ jdeps j) ∨ (k ∉ olds ∧ (g, k) ∈ rdtk d)).
Proof.
  intros Hdb Hnd. unfold db_modify.
  assert (Hprep : ∃ toq, prepare js false d = (js ++ toq, (prepare js false d).1.1.2, (prepare js false d).1.2, (prepare js false d).2) ∧
    NoDup (jkey <$> toq) ∧ ∀ j, j ∈ toq → jkey j ∉ jkey <$> js ∧ live d !! jkey j = None).
  { unfold prepare. cbn [kept_of]. destruct js as [|j0 js0]; [exists []; split_and!; [done|constructor|by intros ? ?%elem_of_nil]|].
    set (js := j0 :: js0) in *. destruct (decide (member_groups js = ∅)) as [He|He].
    - exists []. rewrite app_nil_r. split_and!; [done|constructor|by intros ? ?%elem_of_nil].
    - destruct (dependents _ d (list_to_set (jkey <$> js)) (member_groups js) (member_groups js) (∅, [], [])) as [toq upd] eqn:Ed.
      destruct (dependents_all _ _ _ _ _ Hdb Ed) as (_ & Hn & _ & Ht). exists toq. split_and!; [done|done|].
      intros j Hj. apply Ht in Hj as (_ & Hl & Hk & _). split; [|done]. intros Hin. apply Hk. by apply elem_of_list_to_set. }
  destruct Hprep as (toq & -> & Hnt & Ht). cbn.
  assert (Hnd2 : NoDup (jkey <$> js ++ toq)).
  { rewrite fmap_app. apply NoDup_app. split; [done|]. split; [|done]. intros k Hk Hk2. apply elem_of_list_fmap in Hk2 as (j & -> & Hj).
    by apply (Ht _ Hj). }
  split_and!; [..|done|done| |].
  - intros j Hj. apply put_in; [done|]. apply elem_of_app. by left.
  - intros k Hk Hl. rewrite put_out.
    + destruct (decide (k ∈ olds)); [by apply foldr_delete_in|by apply foldr_delete_out].
    + rewrite fmap_app. intros [?|(j & -> & Hj)%elem_of_list_fmap]%elem_of_app; [done|]. destruct (Ht _ Hj) as [_ Hn]. rewrite Hn in Hl. by destruct Hl.
  - intros g k. rewrite elem_of_union, elem_of_list_to_set, elem_of_filter. unfold new_dtk. rewrite elem_of_list_bind. cbn. split.
    + intros [(j & (g' & [= -> ->] & Hg)%elem_of_list_fmap & Hj)|?]; [left|by right]. apply elem_of_list_filter in Hg as [? ?]. eauto.
    + intros [(j & Hj & <- & Hg & Hne)|?]; [left|by right]. exists j. split; [|done]. apply elem_of_list_fmap. exists g. split; [done|].
      by apply elem_of_list_filter.
  - intros g k. rewrite elem_of_union, elem_of_list_to_set, elem_of_filter. unfold new_rdtk. rewrite elem_of_list_bind. cbn. split.
    + intros [(j & (g' & [= -> ->] & Hg)%elem_of_list_fmap & Hj)|?]; [left|by right]. unfold dep_groups_of in Hg.
      apply elem_of_list_omap in Hg as ([g2|k2] & Hd & He); [injection He as ->|done]. eauto.
    + intros [(j & Hj & <- & Hg)|?]; [left|by right]. exists j. split; [|done]. apply elem_of_list_fmap. exists g. split; [done|].
      unfold dep_groups_of. apply elem_of_list_omap. eauto.
Qed.

(** *** The request *)
Definition selected (ks : list key) (s : sstate) : list N :=
  omap (λ k, '(it, p, _) ← find_job k s; if decide (ist it = SRun) then None else Some p) ks.
Lemma selected_in ks s p : SInv s → p ∈ selected ks s ↔ ∃ k x it j, k ∈ ks ∧ Found s k x it j ∧ ist it ≠ SRun ∧ p = idata it.
Proof.
  intros HS. unfold selected. rewrite elem_of_list_omap. split.
  - intros (k & Hk & He). destruct (find_job k s) as [[[it p'] j]|] eqn:Ef; [|done]. cbn in He.
    destruct (decide (ist it = SRun)) as [|Hr]; [done|]. injection He as ->. destruct (find_found _ _ _ _ _ HS Ef) as (-> & x & HF).
    exists k, x, it, j. done.
  - intros (k & x & it & j & Hk & HF & Hr & ->). exists k. split; [done|]. rewrite (found_find _ _ _ _ _ HF). cbn. by rewrite decide_False.
Qed.
Lemma chosen_ok (s : sstate) (ps : list N) (js : gmap N job) (l : list (key * key)) :
  (∀ new old, (new, old) ∈ l → ∃ it p j j', find_job old s = Some (it, p, j) ∧ p ∈ ps ∧ js !! p = Some j' ∧ jkey j' = new) →
  let ch := omap (λ '(new, old), '(_, p, _) ← find_job old s; if decide (p ∈ ps) then Some (p, old) else None) l in
  ch.*2 = l.*2 ∧ jkey <$> omap (λ '(p, _), js !! p) ch = l.*1 ∧
  (∀ p j', p ∈ ch.*1 → js !! p = Some j' → j' ∈ omap (λ '(p, _), js !! p) ch) ∧
  (∀ p, p ∈ ch.*1 ↔ ∃ new old it j, (new, old) ∈ l ∧ find_job old s = Some (it, p, j)) ∧
  (∀ j', j' ∈ omap (λ '(p, _), js !! p) ch → ∃ p, p ∈ ch.*1 ∧ js !! p = Some j').
Proof.
  induction l as [|[new old] l IH]; intros H; cbv zeta.
  - split_and!; try done.
    + by intros ? ? ?%elem_of_nil.
    + intros p. split; [by intros ?%elem_of_nil|]. intros (? & ? & ? & ? & ?%elem_of_nil & _). done.
    + by intros ? ?%elem_of_nil.
  - destruct IH as (H1 & H2 & H3 & H4 & H5); [intros; apply H; by right|].
    destruct (H new old ltac:(left)) as (it & p & j & j' & Hf & Hp & Hj' & Hk). cbn [omap list_omap]. rewrite Hf. cbn [mbind option_bind].
    rewrite decide_True by done. cbn [omap list_omap]. rewrite Hj'. rewrite !fmap_cons. cbn [fst snd]. rewrite H1, H2, Hk. split_and!; try done.
    + intros q jq Hq Hjq. apply elem_of_cons in Hq as [->|Hq]; [replace jq with j' by congruence; left|]. right. by eapply H3.
    + intros q. rewrite elem_of_cons, H4. split.
      * intros [->|(n & o & it' & jj & Hin & Hq)]; [exists new, old, it, j; split; [left|done]|]. exists n, o, it', jj. split; [by right|done].
      * intros (n & o & it' & jj & [Hin|Hin]%elem_of_cons & Hq); [left; injection Hin as -> ->; congruence|right; eauto 10].
    + intros jq [->|Hq]%elem_of_cons; [exists p; split; [left|done]|]. destruct (H5 _ Hq) as (q & ? & ?). exists q. split; [by right|done].
Qed.

Lemma mod_job_with m j : with_values m (m_key m (jkey j)) j (mod_job m j).
Proof. unfold with_values, mod_job. destruct m as [? [] [] [] [] []]; by split_and!. Qed.
Lemma encode_stored j : stored_as j (encode j).
Proof. by unfold stored_as. Qed.
Lemma modify_request now m ks ord1 ord2 s : Good s → settled m → reorders ord1 → reorders ord2 → no_requeue m →
  ∃ s' mp, s_modify now m ks ord1 ord2 s = Some (s', mp) ∧ Outcome m ks s s' mp ∧ SInv s'.
Proof.
  intros [HS HD HQ Hqd] Hset Ho1 Ho2 [Hp Hdp]. unfold s_modify. fold (selected ks s).
  set (ps := selected ks s).
  assert (Hall : ∀ p, p ∈ ps → ∃ j, sjobs s !! p = Some j ∧ known_job s (jkey j) = true).
  { intros p Hin. apply selected_in in Hin as (k & x & it & j & _ & HF & _ & ->); [|done]. exists j. split; [apply HF|].
    unfold known_job. rewrite (f_jkey HF), (f_item HF). done. }
  assert (Hinj : ∀ p p' j j', p ∈ ps → p' ∈ ps → sjobs s !! p = Some j → sjobs s !! p' = Some j' → jkey j = jkey j' → p = p').
  { intros p p' j j' Hi Hi' Hj Hj' He. apply selected_in in Hi as (k & x & it & j1 & _ & HF & _ & ->); [|done].
    apply selected_in in Hi' as (k' & x' & it' & j1' & _ & HF' & _ & ->); [|done].
    assert (j1 = j) as -> by (pose proof (f_job HF); congruence). assert (j1' = j') as -> by (pose proof (f_job HF'); congruence).
    assert (k = k') as -> by (rewrite <- (f_jkey HF), <- (f_jkey HF'); done).
    assert (x = x') as -> by (pose proof (f_item HF); pose proof (f_item HF'); congruence).
    pose proof (f_obj HF); pose proof (f_obj HF'). congruence. }
  pose proof (modify_ok m (known_job s) (sjobs s) ps Hset Hall Hinj ps [] (sjobs s) [] ltac:(done)) as HM.
  destruct (modify m (known_job s) ps [] (sjobs s)) as [js mp] eqn:Emod. cbn [app] in HM.
  assert (HM' : Modified m (known_job s) (sjobs s) ps js mp).
  { apply HM. split; try (by constructor); try done.
    - by intros ? ? ?%elem_of_nil.
    - intros p j Hj. left. split; [done|]. intros ?%elem_of_nil. done.
    - by intros ? ? ?%elem_of_nil. }
  clear HM Emod.
  (* every pair belongs to a job *)
  assert (Hpair : ∀ new old, (new, old) ∈ mp → ∃ x it j, old ∈ ks ∧ Found s old x it j ∧ ist it ≠ SRun ∧ idata it ∈ ps ∧ new = m_key m old ∧
     (new = old ∨ known_job s new = false) ∧ js !! idata it = Some (mod_job m j)).
  { intros new old Hin. destruct (mi_in _ _ _ _ _ _ HM' _ _ Hin) as (p & j & Hps & Hj & Hk & Hn & Hor & Hjs).
    pose proof Hps as Hps'. apply selected_in in Hps as (k & x & it & j1 & Hks & HF & Hr & ->); [|done].
    assert (j1 = j) as -> by (pose proof (f_job HF); congruence). assert (k = old) as -> by (rewrite <- (f_jkey HF); done).
    exists x, it, j. done. }
  assert (Hren : renames (sq s) (ord2 mp)).
  { split; [rewrite (Ho2 mp); apply HM'|]. split; [rewrite (Ho2 mp); apply HM'|]. intros new old Hin. rewrite (Ho2 mp) in Hin.
    destruct (Hpair _ _ Hin) as (x & it & j & _ & HF & _ & _ & _ & Hor & _). split; [exists x; apply HF|].
    destruct Hor as [|Hor]; [by left|right]. unfold known_job in Hor. apply orb_false_iff in Hor as [Hor _].
    apply bool_decide_eq_false in Hor. by apply eq_None_not_Some. }
  destruct (change_keys_ok (ord2 mp) (s <| sjobs := js |>)) as (q' & Hck & HR); [apply HS|done|]. cbn [sq] in HR. rewrite Hck. cbn [mbind option_bind].
  assert (Hcall : ∀ k, called (ord2 mp) k = called mp k) by (intros k; apply called_perm; [rewrite (Ho2 mp); apply HM'|apply Ho2]).
  pose proof (chosen_ok s ps js (ord1 mp)) as Hch. cbv zeta in Hch.
  set (chosen := omap _ (ord1 mp)) in *. destruct Hch as (Hc1 & Hc2 & Hc3 & Hc4 & Hc5).
  { intros new old Hin. rewrite (Ho1 mp) in Hin. destruct (Hpair _ _ Hin) as (x & it & j & _ & HF & _ & Hi & -> & _ & Hjs).
    exists it, (idata it), j, (mod_job m j). split_and!; [by apply (found_find _ _ _ _ _ HF)|done|done|]. cbn. by rewrite (f_jkey HF). }
  rewrite Hp, Hdp. cbn [mbind option_bind sjobs]. 
  match goal with |- ∃ s' mp', Some (?st, mp) = _ ∧ _ => set (s' := st); exists s', mp end. split; [done|].
  assert (Hsq : sq s' = q') by (unfold s'; by destruct chosen).
  assert (Hsj : sjobs s' = js) by (unfold s'; by destruct chosen).
  set (jl := omap (λ '(p, _), js !! p) chosen) in *.
  assert (Hnd : NoDup (jkey <$> jl)) by (rewrite Hc2, (Ho1 mp); apply HM').
  destruct (db_modify_ok chosen.*2 jl (sdb s) (dinv_keys _ HD) Hnd) as (Hl1 & Hl2 & _).
  assert (Hdb1 : ∀ j, j ∈ jl → live (sdb s') !! jkey j = Some (encode j)).
  { intros j Hj. unfold s'. destruct chosen eqn:Ec; [by apply elem_of_nil in Hj|]. by apply Hl1. }
  assert (Hdb2 : ∀ k, k ∉ mp.*1 → is_Some (live (sdb s) !! k) → live (sdb s') !! k = if decide (k ∈ mp.*2) then None else live (sdb s) !! k).
  { intros k Hk Hl. assert (Hk' : k ∉ jkey <$> jl) by (by rewrite Hc2, (Ho1 mp)). specialize (Hl2 k Hk' Hl). unfold s'.
    assert (Hdec : (if decide (k ∈ mp.*2) then None else live (sdb s) !! k) = if decide (k ∈ chosen.*2) then None else live (sdb s) !! k).
    { apply decide_ext. rewrite Hc1. by rewrite (Ho1 mp). }
    rewrite Hdec. destruct chosen; [by rewrite decide_False by (intros ?%elem_of_nil; done)|]. exact Hl2. }
  (* the items afterwards *)
  assert (Hafter : ∀ k x it j, Found s k x it j → ∃ it' j', items (sq s') !! called mp k = Some x ∧ objs (sq s') !! x = Some it' ∧
     moved (ord2 mp) (sq s) q' it it' ∧ sjobs s' !! idata it' = Some j' ∧ idata it' = idata it ∧ ist it' = ist it ∧
     ((∃ new, (new, k) ∈ mp ∧ j' = mod_job m j) ∨ (k ∉ mp.*2 ∧ j' = j))).
  { intros k x it j HF. rewrite Hsq, Hsj. destruct (rn_objs _ _ _ HR _ _ (f_obj HF)) as (it' & Hx' & Hm).
    pose proof Hm as [Hsb _]. assert (Hd : idata it' = idata it) by apply Hsb. assert (Hst : ist it' = ist it) by apply Hsb.
    pose proof (rn_items _ _ _ HR _ _ (f_item HF)) as Hit. rewrite Hcall in Hit.
    destruct (decide (k ∈ mp.*2)) as [Hk|Hk].
    - apply elem_of_list_fmap in Hk as ([new k'] & He & Hin). cbn in He. subst k'.
      destruct (Hpair _ _ Hin) as (x2 & it2 & j2 & _ & HF2 & _ & _ & _ & _ & Hjs).
      assert (x2 = x) as -> by (pose proof (f_item HF); pose proof (f_item HF2); congruence).
      assert (it2 = it) as -> by (pose proof (f_obj HF); pose proof (f_obj HF2); congruence).
      assert (j2 = j) as -> by (pose proof (f_job HF); pose proof (f_job HF2); congruence).
      exists it', (mod_job m j). rewrite Hd. split_and!; try done. left. by exists new.
    - exists it', j. rewrite Hd. split_and!; try done; [|by right].
      destruct (mi_js _ _ _ _ _ _ HM' _ _ (f_job HF)) as [[? _]|(_ & Hin & _)]; [done|]. by rewrite (f_jkey HF) in Hin. }
  assert (Hseen : ∀ k x it j, Found s k x it j → ∃ j', seen s' (called mp k) = Some (ist it, j') ∧
     ((∃ new, (new, k) ∈ mp ∧ j' = mod_job m j) ∨ (k ∉ mp.*2 ∧ j' = j))).
  { intros k x it j HF. destruct (Hafter _ _ _ _ HF) as (it' & j' & H1 & H2 & _ & H3 & _ & H4 & H5). exists j'. split; [|done].
    unfold seen. by rewrite H1, H2, H3, H4. }
  assert (Hnone : ∀ k, seen s' k = None ∨ ∃ k0 x it j, k = called mp k0 ∧ Found s k0 x it j).
  { intros k. unfold seen. destruct (items (sq s') !! k) as [x|] eqn:Ek; [right|by left]. rewrite Hsq in Ek.
    apply (rn_items' _ _ _ HR) in Ek as (k0 & -> & Hk0). cbn in Hk0. destruct (items_found _ _ _ HS Hk0) as (it & j & HF). rewrite Hcall. eauto 10. }
  assert (Hlook : ∀ k, seen s k = None ↔ items (sq s) !! k = None).
  { intros k. rewrite seen_look. by apply look_None. }
  assert (Hfound : ∀ k st j, seen s k = Some (st, j) → ∃ x it, Found s k x it j ∧ ist it = st).
  { intros k st j H. rewrite seen_look in H. by apply look_found. }
  assert (Hfs : ∀ k x it j, Found s k x it j → seen s k = Some (ist it, j)).
  { intros k x it j HF. rewrite seen_look. by apply (found_look _ _ x). }
  assert (Hren1 : ∀ new old, (new, old) ∈ mp → new ≠ old → items (sq s) !! new = None ∧ complete (sdb s) !! new = None).
  { intros new old Hin Hne. destruct (Hpair _ _ Hin) as (x & it & j & _ & _ & _ & _ & _ & [?|Hkn] & _); [done|].
    unfold known_job in Hkn. apply orb_false_iff in Hkn as [H1 H2]. apply bool_decide_eq_false in H1, H2. by split; apply eq_None_not_Some. }
  split.
  - split.
    + apply HM'.
    + apply HM'.
    + intros new old Hin. destruct (Hpair _ _ Hin) as (x & it & j & Hks & HF & Hr & Hi & Hn & Hor & Hjs).
      destruct (Hseen _ _ _ _ HF) as (j' & Hs' & Hj'). rewrite (called_in mp new old) in Hs'; [|apply HM'|done].
      assert (Hj'' : j' = mod_job m j). { destruct Hj' as [(? & _ & ?)|[Hno _]]; [done|]. exfalso. apply Hno. by eapply in_snd. } subst j'.
      exists (ist it), j, (mod_job m j). split_and!; try done.
      * by apply (Hfs _ x).
      * rewrite Hn. rewrite <- (f_jkey HF) at 1. apply mod_job_with.
      * intros Hne. destruct (Hren1 _ _ Hin Hne) as [H1 H2]. split; [by apply Hlook|]. split; [done|].
        destruct (Hnone old) as [?|(k0 & x0 & it0 & j0 & He & HF0)]; [done|]. exfalso.
        destruct (called_cases mp k0 (mi_old _ _ _ _ _ _ HM')) as [(new0 & Hin0 & Hc0)|[Hno Hc0]]; rewrite Hc0 in He.
        -- subst new0. destruct (decide (old = k0)) as [->|Hne0].
           ++ apply Hne. pose proof (called_in _ _ _ (mi_old _ _ _ _ _ _ HM') Hin). pose proof (called_in _ _ _ (mi_old _ _ _ _ _ _ HM') Hin0). congruence.
           ++ destruct (Hren1 _ _ Hin0 Hne0) as [H3 _]. rewrite (f_item HF) in H3. done.
        -- subst k0. apply Hno. by eapply in_snd.
      * exists (encode (mod_job m j)). split; [|apply encode_stored].
        assert (Hjk : jkey (mod_job m j) = new) by (cbn; by rewrite (f_jkey HF)). rewrite <- Hjk at 1. apply Hdb1.
        apply (Hc3 (idata it)); [|done]. apply Hc4. exists new, old, it, j. rewrite (Ho1 mp). split; [done|]. by apply (found_find _ _ x).
      * intros Hne Hl. rewrite Hdb2; [|intros (p0 & He & Hin0)%elem_of_list_fmap|done].
        -- rewrite decide_True; [done|]. by eapply in_snd.
        -- destruct p0 as [n0 o0]. cbn in He. subst n0. destruct (decide (old = o0)) as [<-|Hne0].
           ++ apply Hne. pose proof (called_in _ _ _ (mi_old _ _ _ _ _ _ HM') Hin). pose proof (called_in _ _ _ (mi_old _ _ _ _ _ _ HM') Hin0). congruence.
           ++ destruct (Hren1 _ _ Hin0 Hne0) as [H3 _]. rewrite (f_item HF) in H3. done.
    + intros k Hk2 Hk1. split.
      * destruct (seen s k) as [[st j]|] eqn:Es.
        -- destruct (Hfound _ _ _ Es) as (x & it & HF & <-). destruct (Hseen _ _ _ _ HF) as (j' & Hs' & Hj'). rewrite called_out in Hs' by done.
           destruct Hj' as [(new & Hin & _)|[_ ->]]; [|done]. exfalso. apply Hk2. by eapply in_snd.
        -- destruct (Hnone k) as [?|(k0 & x0 & it0 & j0 & He & HF0)]; [done|]. exfalso.
           destruct (called_cases mp k0 (mi_old _ _ _ _ _ _ HM')) as [(new0 & Hin0 & Hc0)|[Hno Hc0]]; rewrite Hc0 in He.
           ++ apply Hk1. subst k. by eapply in_fst.
           ++ subst k. rewrite (Hfs _ _ _ _ HF0) in Es. done.
      * intros Hl. rewrite Hdb2 by done. by rewrite decide_False.
    + intros k st j Hks Hs Hst Hno. destruct (Hfound _ _ _ Hs) as (x & it & HF & <-).
      assert (Hin : idata it ∈ ps) by (apply selected_in; [done|]; exists k, x, it, j; done).
      assert (Hcs : m_key m k = k → False).
      { intros He. destruct (mi_not _ _ _ _ _ _ HM' _ _ Hin (f_job HF)) as [[Hn _]|Hn]; rewrite (f_jkey HF) in *; [done|done|].
        rewrite He in Hn. apply elem_of_list_fmap in Hn as ([n0 o0] & He0 & Hin0). cbn in He0. subst n0.
        destruct (decide (k = o0)) as [<-|Hne]; [apply Hno; by eapply in_snd|]. destruct (Hren1 _ _ Hin0 Hne) as [H3 _]. by rewrite (f_item HF) in H3. }
      split; [done|]. destruct (mi_not _ _ _ _ _ _ HM' _ _ Hin (f_job HF)) as [[_ Hkn]|Hn]; rewrite (f_jkey HF) in *; [done| |by right; right].
      unfold known_job in Hkn. apply orb_true_iff in Hkn as [Hkn|Hkn]; apply bool_decide_eq_true in Hkn; [left|by right; left].
      destruct Hkn as [y Hy]. destruct (items_found _ _ _ HS Hy) as (ity & jy & HFy). rewrite (Hfs _ _ _ _ HFy). by eexists.
    + intros k [[st j] Hs] Hw. destruct (Hfound _ _ _ Hs) as (x & it & HF & Hst).
      destruct (Hafter _ _ _ _ HF) as (it' & j' & H1 & H2 & [_ Hmv] & _). unfold waits_for in *. rewrite H1, H2.
      rewrite (f_item HF), (f_obj HF) in *. destruct (Hmv (f_live HF)) as [_ Hre]. destruct Hre as [_ ->].
      * split; [by rewrite (f_key HF)|]. intros d Hd. exact (Hqd _ _ _ (f_obj HF) (f_live HF) Hd).
      * apply sets.set_eq. intros d. rewrite !elem_of_map. setoid_rewrite Hcall. done.
  - (* the invariant *)
    assert (Hob : ∀ x it', objs (sq s') !! x = Some it' → ist it' ≠ SRemoved → ∃ k it j, Found s k x it j ∧ idata it' = idata it ∧ ikey it' = called mp k).
    { intros x it' Hx Hr. rewrite Hsq in Hx. destruct (rn_objs' _ _ _ HR x) as [it Hit]; [by eexists|]. cbn in Hit.
      destruct (rn_objs _ _ _ HR _ _ Hit) as (it2 & Hx2 & Hsb & Hmv). assert (it2 = it') as -> by congruence.
      assert (Hr' : ist it ≠ SRemoved) by (destruct Hsb as (_ & _ & _ & _ & _ & _ & _ & <- & _); done).
      destruct (obj_found _ _ _ HS Hit Hr') as (j & HF). exists (ikey it), it, j. split_and!; [done|apply Hsb|].
      destruct (Hmv Hr') as [-> _]. by rewrite Hcall. }
    split.
    + rewrite Hsq. apply HR.
    + intros x it' Hx Hr. destruct (Hob _ _ Hx Hr) as (k & it & j & HF & Hd & Hk).
      destruct (Hafter _ _ _ _ HF) as (it2 & j' & _ & Hx2 & _ & Hj' & Hd2 & _ & Hor). assert (it2 = it') as -> by congruence.
      exists j'. split; [done|]. rewrite Hk. destruct Hor as [(new & Hin & ->)|[Hno ->]].
      * cbn. rewrite (f_jkey HF). rewrite (called_in mp new k); [|apply HM'|done]. by destruct (Hpair _ _ Hin) as (? & ? & ? & ? & ? & ? & ? & -> & _).
      * rewrite called_out by done. apply HF.
    + intros x y itx ity Hx Hy Hrx Hry He. destruct (Hob _ _ Hx Hrx) as (k & it & j & HF & Hd & _). destruct (Hob _ _ Hy Hry) as (k2 & it2 & j2 & HF2 & Hd2 & _).
      eapply (si_inj HS); [apply HF|apply HF2|apply HF|apply HF2|congruence].
    + intros p [j Hj]. rewrite Hsj in Hj. assert (Hsn : snext s' = snext s) by (unfold s'; by destruct chosen). rewrite Hsn.
      apply (si_next HS). destruct (sjobs s !! p) eqn:E; [by eexists|]. apply (mi_dom _ _ _ _ _ _ HM') in E. congruence.
Qed.
