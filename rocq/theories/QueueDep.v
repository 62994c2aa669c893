(** The lookup of dependants is exact for the calls that the server makes *)
From Coq Require Import ZArith Lia String.
From stdpp Require Import base option strings gmap list.
From RecordUpdate Require Import RecordSet.
From Verif Require Import GoHeap QueueModel QueueCore QueueInv QueueInvAdd QueueInvUpd QueueInvRem
  QueueInvTick QueueEff QueueItem QueueFrame QueueSpec QueueProofs QueueProofs2 QueueProofs3 QueueProofs5.
Import RecordSetNotations.
Open Scope Z_scope.

Lemma has_add_inv k x deps dp d k' y :
  has (add_dependants k x deps dp) d k' y → (k' = k ∧ y = x ∧ d ∈ deps) ∨ has dp d k' y.
Proof.
  unfold add_dependants. revert dp. induction deps as [|a deps IH]; intros dp H; [by right|].
  cbn [fold_left] in H. apply IH in H as [(-> & -> & H)|H].
  { left. split_and!; try done. by right. }
  apply has_insert in H as [[-> H]|[Hne H]]; [|by right].
  apply lookup_insert_Some in H as [[<- <-]|[Hne H]].
  - left. split_and!; try done. left.
  - right. destruct (dp !! a) as [m|] eqn:E; [by exists m|exfalso; revert H; apply (lookup_empty_Some (M:=gmap key))].
Qed.
Lemma has_drop_inv (its : gmap key nat) k l dp d k' y :
  has (drop_dependants its k l dp) d k' y → has dp d k' y ∧ (d ∈ l → k' = k → its !! d = None).
Proof.
  unfold drop_dependants. revert dp. induction l as [|a l IH]; intros dp H.
  { split; [done|]. by intros ?%elem_of_nil. }
  cbn [fold_left] in H. apply IH in H as [H H2]. destruct (its !! a) as [z|] eqn:Ea.
  2: { split; [done|]. intros [->|Hd]%elem_of_cons Hk; auto. }
  cbv zeta in H.
  assert (has dp d k' y ∧ (d = a → k' ≠ k)) as [H3 H4].
  { destruct (decide _) as [E|E].
    - apply has_delete in H as [Hne H]. split; [done|]. by intros ->.
    - apply has_insert in H as [[-> H]|[Hne H]]; [|by split].
      apply lookup_delete_Some in H as [Hk H]. split; [|by intros _ ->].
      destruct (dp !! a) as [m|] eqn:E'; [by exists m|exfalso; revert H; apply (lookup_empty_Some (M:=gmap key))]. }
  split; [done|]. intros [->|Hd]%elem_of_cons Hk; [by destruct (H4 eq_refl)|auto].
Qed.
Lemma has_forget_inv k l dp d k' y :
  has (fold_left (forget_parent k) l dp) d k' y → has dp d k' y ∧ (d ∈ l → k' ≠ k).
Proof.
  revert dp. induction l as [|a l IH]; intros dp H.
  { split; [done|]. by intros ?%elem_of_nil. }
  cbn [fold_left] in H. apply IH in H as [H H2]. unfold forget_parent in H.
  assert (has dp d k' y ∧ (d = a → k' ≠ k)) as [H3 H4].
  { destruct (dp !! a) as [m|] eqn:Ea.
    2: { split; [done|]. intros -> _. destruct H as (m & H & _). congruence. }
    cbv zeta in H. destruct (decide _) as [E|E].
    - apply has_delete in H as [Hne H]. split; [done|]. by intros ->.
    - apply has_insert in H as [[-> H]|[Hne H]]; [|by split].
      apply lookup_delete_Some in H as [Hk H]. split; [|by intros _ ->]. by exists m. }
  split; [done|]. intros [->|Hd]%elem_of_cons; [auto|auto].
Qed.

(** no key without dependants is in the lookup *)
Definition filled (dp : gmap key (gmap key nat)) : Prop := ∀ d m, dp !! d = Some m → m ≠ ∅.
Lemma filled_insert dp d m : filled dp → m ≠ ∅ → filled (<[d := m]> dp).
Proof. intros H Hm d' m' [[_ <-]|[_ ?]]%lookup_insert_Some; [done|by eapply H]. Qed.
Lemma filled_delete dp d : filled dp → filled (delete d dp).
Proof. intros H d' m' [_ ?]%lookup_delete_Some. by eapply H. Qed.
Lemma filled_add k x deps dp : filled dp → filled (add_dependants k x deps dp).
Proof.
  unfold add_dependants. revert dp. induction deps as [|a deps IH]; intros dp H; [done|].
  cbn [fold_left]. apply IH, filled_insert; [done|]. apply insert_non_empty.
Qed.
Lemma filled_drop its k l dp : filled dp → filled (drop_dependants its k l dp).
Proof.
  unfold drop_dependants. revert dp. induction l as [|a l IH]; intros dp H; [done|].
  cbn [fold_left]. apply IH. destruct (its !! a); [|done]. cbv zeta.
  destruct (decide _); [by apply filled_delete|by apply filled_insert].
Qed.
Lemma filled_forget k l dp : filled dp → filled (fold_left (forget_parent k) l dp).
Proof.
  revert dp. induction l as [|a l IH]; intros dp H; [done|].
  cbn [fold_left]. apply IH. unfold forget_parent. destruct (dp !! a); [|done]. cbv zeta.
  destruct (decide _); [by apply filled_delete|by apply filled_insert].
Qed.
Lemma filled_some dp d : filled dp → is_Some (dp !! d) ↔ ∃ k x, has dp d k x.
Proof.
  intros H. split.
  - intros [m Hm]. destruct (map_choose m (H _ _ Hm)) as (k & x & Hx). exists k, x, m. done.
  - intros (k & x & m & Hm & _). by exists m.
Qed.

(** the unresolved dependencies are among the dependencies *)
Definition listed (o : gmap nat item) : Prop :=
  ∀ x it d, o !! x = Some it → ist it ≠ SRemoved → d ∈ iremain it → d ∈ ideps it.
(** all that is recorded is so *)
Definition exact_dp (o : gmap nat item) (its : gmap key nat) (dp : gmap key (gmap key nat)) : Prop :=
  ∀ d k x, has dp d k x → its !! k = Some x ∧ ∃ it, o !! x = Some it ∧ d ∈ iremain it.
Record QX (q : qstate) : Prop := {
  qx_list : listed (objs q);
  qx_exact : exact_dp (objs q) (items q) (dependants q);
  qx_fill : filled (dependants q);
}.
(** what an item waits for is in the queue *)
Definition queued (q : qstate) : Prop :=
  ∀ x it d, objs q !! x = Some it → ist it ≠ SRemoved → d ∈ iremain it → is_Some (items q !! d).

Lemma set_dependencies_deps ds it : ideps (set_dependencies ds it) = ds.
Proof. done. Qed.
Lemma updated_deps now g d prio delay ttr deps it :
  ideps (updated now g d prio delay ttr deps it) =
  match deps with Some ds => if dep_changed ds it then ds else ideps it | None => ideps it end.
Proof.
  assert (Hp : ∀ added it, ideps (prop_change now g prio delay ttr added it) = ideps it).
  { intros added i. unfold prop_change. destruct (negb _); [by destruct (ist i)|].
    destruct (_ || _); [done|]. destruct (negb _); [|done]. by destruct (ist i). }
  unfold updated, dep_part. destruct deps as [ds|]; [|by rewrite Hp].
  change (dep_changed ds (it <| idata := d |>)) with (dep_changed ds it).
  destruct (dep_changed ds it); [|by rewrite Hp]. rewrite Hp.
  unfold dep_change. destruct ds; [done|]. by destruct (ist _).
Qed.
Lemma added_item_deps many now k g d prio size delay ttr start deps :
  ideps (added_item many now k g d prio size delay ttr start deps) = deps.
Proof. unfold added_item. destruct deps; [|done]. destruct start; [|done|by destruct many]. by destruct (_ =? _). Qed.

Lemma listed_change q x it o r it' : ichange q x it o r it' → match o with OChangeKey _ _ => False | _ => True end →
  ist it' ≠ SRemoved → (∀ d, d ∈ iremain it → d ∈ ideps it) → ∀ d, d ∈ iremain it' → d ∈ ideps it'.
Proof.
  intros Hc Ho Hl' H d. destruct Hc; try done; try (by auto).
  - rewrite updated_remain, updated_deps. destruct deps as [ds|]; [|auto].
    destruct (dep_changed ds it) eqn:E; [by intros ?%elem_of_list_to_set|].
    apply dep_changed_false in E. rewrite <- E. auto.
  - unfold set_delay. destruct (_ =? _); [auto|]. destruct (ist it); auto.
  - unfold released. destruct (_ =? _); auto.
  - destruct (item_has_deps x q); auto.
  - rewrite resolve_deps. rewrite resolve_cases. cbn. intros [? _]%elem_of_difference. auto.
  - destruct (cb j); auto.
Qed.

Lemma exact_add o its dp n k deps it :
  exact_dp o its dp → (∀ x, is_Some (o !! x) → (x < n)%nat) →
  its !! k = None → iremain it = list_to_set deps →
  exact_dp (<[n := it]> o) (<[k := n]> its) (add_dependants k n deps dp).
Proof.
  intros HE Hlt Hk Hr d k' x [(-> & -> & Hd)|H]%has_add_inv.
  - rewrite !lookup_insert. split; [done|]. exists it. split; [done|]. rewrite Hr. by apply elem_of_list_to_set.
  - destruct (HE _ _ _ H) as (Hi & it0 & Hx & Hd).
    rewrite !lookup_insert_ne; [by eauto|..].
    + intros <-. assert (n < n)%nat by (apply Hlt; by eexists). lia.
    + congruence.
Qed.
Lemma exact_adds now ds o its dp n o' its' dp' n' :
  abs_adds now ds (o, its, dp, n) = (o', its', dp', n') →
  exact_dp o its dp → filled dp → (∀ x, is_Some (o !! x) → (x < n)%nat) → exact_dp o' its' dp' ∧ filled dp'.
Proof.
  revert o its dp n. induction ds as [|d ds IH]; intros o its dp n Ha HE HF Hlt.
  { unfold abs_adds in Ha. simpl in Ha. by simplify_eq. }
  unfold abs_adds in Ha. cbn [fold_left] in Ha. unfold abs_add in Ha at 2.
  destruct (its !! d_key d) as [y|] eqn:Hk; [by eapply IH|].
  eapply IH; [exact Ha| | |].
  - apply exact_add; try done. unfold added_def. apply added_item_remain.
  - by apply filled_add.
  - intros x. rewrite lookup_insert_is_Some. intros [<-|[_ H]]; [lia|]. specialize (Hlt x H). lia.
Qed.

(** the calls under which the lookup stays exact *)
Definition waits_queued (q : qstate) (o : op) : Prop :=
  match o with
  | OUpdate _ k _ _ _ _ _ (Some _) =>
      ∀ x it d, items q !! k = Some x → objs q !! x = Some it → d ∈ iremain it → is_Some (items q !! d)
  | OChangeKey _ _ | ODestroy => False
  | _ => True
  end.

Lemma qx_step b s o s' r e :
  Inv b s → eff b s o s' r e → waits_queued s o → looked_up (objs s) (dependants s) →
  QX s → QX s'.
Proof.
  intros HI He Ho HL [HLi HE HF]. split.
  - intros x it' d Hx' Hl' Hd.
    destruct (objs s !! x) as [it|] eqn:Hx.
    + destruct (eff_item b s o s' r e x it HI He Hx) as (it1 & Hx1 & Hc). simplify_eq.
      assert (Hl : ist it ≠ SRemoved).
      { intros Hr. apply Hl'. destruct Hc; try done; try congruence. by apply resolve_live. }
      eapply listed_change; [exact Hc|by destruct o|done| |exact Hd]. intros d' Hd'. by apply (HLi x it).
    + destruct (eff_new _ _ _ _ _ _ _ _ HI He Hx Hx'); revert Hd; unfold added_def;
        rewrite added_item_remain, added_item_deps; by intros ?%elem_of_list_to_set.
  - assert (Hsame : rest_eq s s' → (∀ x it, objs s !! x = Some it → 
      ∃ it', objs s' !! x = Some it' ∧ iremain it' = iremain it) → exact_dp (objs s') (items s') (dependants s')).
    { intros (Hi & Hd & _) H d k x Hh. rewrite Hd in Hh. rewrite Hi. destruct (HE _ _ _ Hh) as (Hk & it & Hx & Hr).
      split; [done|]. destruct (H x it Hx) as (it' & Hx' & E). exists it'. by rewrite E. }
    assert (Halt : ∀ f x it, objs s !! x = Some it → objs s' = alter f x (objs s) → rest_eq s s' →
      iremain (f it) = iremain it → exact_dp (objs s') (items s') (dependants s')).
    { intros f x it Hx Hob Hre Hfr. apply Hsame; [done|]. intros y it' Hy. rewrite Hob.
      destruct (decide (y = x)) as [->|Hne].
      - rewrite lookup_alter, Hy. exists (f it'). split; [done|]. congruence.
      - rewrite lookup_alter_ne by done. by exists it'. }
    destruct He.
    + apply Hsame; [done|]. intros x it Hx. exists it. split; [congruence|done].
    + done.
    + done.
    + rewrite H1, H2, H5. apply exact_add; try done; [|by subst it; apply added_item_remain].
      intros x Hx. by apply (i_ids HI).
    + unfold abs_of in H. eapply exact_adds; [symmetry; exact H|done|done|]. intros x Hx. by apply (i_ids HI).
    + (* Update *)
      rewrite H4, H5, H8. unfold upd_dependants. destruct deps as [ds|].
      2: { intros d0 k' y Hh. destruct (HE _ _ _ Hh) as (Hk & it0 & Hy & Hr). split; [done|].
           destruct (decide (y = x)) as [->|Hne].
           - rewrite lookup_insert. eexists. split; [done|]. rewrite updated_remain. congruence.
           - rewrite lookup_insert_ne by done. by exists it0. }
      change (dep_changed ds (it <| idata := d |>)) with (dep_changed ds it).
      change (iremain (it <| idata := d |>)) with (iremain it).
      destruct (dep_changed ds it) eqn:Ed.
      2: { apply dep_changed_false in Ed. intros d0 k' y Hh. destruct (HE _ _ _ Hh) as (Hk & it0 & Hy & Hr). split; [done|].
           destruct (decide (y = x)) as [->|Hne].
           - rewrite lookup_insert. eexists. split; [done|]. rewrite updated_remain. congruence.
           - rewrite lookup_insert_ne by done. by exists it0. }
      intros d0 k' y [(-> & -> & Hd0)|Hh]%has_add_inv.
      * split; [done|]. rewrite lookup_insert. eexists. split; [done|]. rewrite updated_remain.
        by apply elem_of_list_to_set.
      * apply has_drop_inv in Hh as [Hh Hdrop]. destruct (HE _ _ _ Hh) as (Hk & it0 & Hy & Hr). split; [done|].
        destruct (decide (y = x)) as [->|Hne]; [|rewrite lookup_insert_ne by done; by exists it0].
        rewrite lookup_insert. eexists. split; [done|]. rewrite updated_remain.
        assert (it0 = it) as -> by congruence.
        destruct (decide (d0 ∈ (list_to_set ds : gset key))) as [|Hnd]; [done|]. exfalso.
        assert (k' = k) as ->.
        { destruct (items_inj _ _ _ _ _ HI Hk H0) as [? _]. congruence. }
        cbn in Ho. destruct (Ho x it d0 H H0 Hr) as [z Hz].
        rewrite Hdrop in Hz; [done| |done]. apply elem_of_elements. unfold deps_diff.
        destruct (fold_left _ ds _) as [o' n'] eqn:E. apply deps_diff_spec in E as (-> & _ & _). cbn [fst]. set_solver.
    + done.
    + eapply (Halt _ x it); try done; simpl; (destruct (_ =? _); [done|]); by destruct (ist it).
    + eapply (Halt _ x it); done.
    + eapply (Halt _ x it); try done.
    + eapply (Halt _ x it); try done.
    + eapply (Halt _ x it); try done; simpl; by destruct (_ =? _).
    + eapply (Halt _ x it); try done.
    + eapply (Halt _ x it); try done; simpl; by destruct (item_has_deps x s).
    + (* Remove *)
      rewrite H5, H6, H9. intros d k' y Hh. apply has_forget_inv in Hh as [Hh Hf].
      apply has_delete in Hh as [Hdk Hh]. destruct (HE _ _ _ Hh) as (Hk & it0 & Hy & Hr).
      assert (Hne : k' ≠ k).
      { intros ->. assert (y = x) as -> by congruence. assert (it0 = it) as -> by congruence.
        apply Hf; [|done]. by apply (HLi x it). }
      rewrite lookup_delete_ne by done. split; [done|].
      assert (y ≠ x). { intros ->. destruct (items_inj _ _ _ _ _ HI Hk H0) as [? _]. congruence. }
      rewrite lookup_alter_ne by done. rewrite resolve_all_lookup, Hy.
      destruct (decide (y ∈ vals m)); [|by eauto]. eexists. split; [done|]. rewrite resolve_cases. cbn. set_solver.
    + done.
    + apply Hsame; [done|]. intros x it Hx. rewrite H2. destruct (decide (x ∈ moved)) as [Hm|Hm]; [|by eauto].
      rewrite Hx. eexists. split; [done|]. done.
    + apply Hsame; [done|]. intros x it Hx. destruct (decide (x ∈ ord)) as [Hm|Hm].
      * apply elem_of_list_lookup in Hm as (j & Hj). rewrite (H3 j x Hj), Hx. eexists. split; [done|]. by destruct (cb j).
      * rewrite H4 by done. by eauto.
  - destruct He; try (match goal with H : rest_eq _ _ |- _ => destruct H as (_ & -> & _) end; done); try done.
    + rewrite H5. by apply filled_add.
    + unfold abs_of in H. eapply (exact_adds now ds (objs s) (items s)); [symmetry; exact H|done|done|]. intros x Hx. by apply (i_ids HI).
    + rewrite H8. unfold upd_dependants. destruct deps as [ds|]; [|done]. destruct (dep_changed _ _); [|done].
      by apply filled_add, filled_drop.
    + rewrite H9. by apply filled_forget, filled_delete.
Qed.

(** Nothing but adding and updating makes an item wait for more. *)
Lemma queued_step b s o s' r e :
  Inv b s → eff b s o s' r e → looked_up (objs s) (dependants s) →
  match o with OUpdate _ _ _ _ _ _ _ _ | OAdd _ _ _ _ _ _ _ _ _ _ | OAddMany _ _ | OChangeKey _ _ | ODestroy => False | _ => True end →
  queued s → queued s'.
Proof.
  intros HI He HL Ho HQ x it' d Hx' Hl' Hd.
  destruct (objs s !! x) as [it|] eqn:Hx.
  2: { destruct (eff_new _ _ _ _ _ _ _ _ HI He Hx Hx'); done. }
  destruct (eff_item b s o s' r e x it HI He Hx) as (it1 & Hx1 & Hc). simplify_eq.
  assert (Hl : ist it ≠ SRemoved).
  { intros Hr. apply Hl'. destruct Hc; try done; try congruence. by apply resolve_live. }
  assert (Hsub : d ∈ iremain it).
  { revert Hd. destruct Hc; try done; try (by auto).
    - unfold set_delay. destruct (_ =? _); [auto|]. destruct (ist it); auto.
    - unfold released. destruct (_ =? _); auto.
    - destruct (item_has_deps x s); auto.
    - rewrite resolve_cases. cbn. intros [? _]%elem_of_difference. auto.
    - destruct (cb j); auto. }
  pose proof (HQ x it d Hx Hl Hsub) as Hd0.
  assert (Hi : items s' = items s → is_Some (items s' !! d)) by (by intros ->).
  destruct He; try (match goal with H : rest_eq _ _ |- _ => destruct H as (? & _); by auto end); try done.
  rewrite H6. rewrite lookup_delete_ne; [done|]. intros <-.
  destruct (HL x it k Hx Hl Hsub) as (m0 & Hm0 & Hv).
  assert (Hne : x ≠ x0). { intros ->. rewrite H5, lookup_alter in Hx'. destruct (resolve_all _ _ _ !! x0); [|done].
    injection Hx' as <-. done. }
  rewrite H5, lookup_alter_ne, resolve_all_lookup, Hx in Hx' by done.
  rewrite decide_True in Hx'.
  2: { subst m. rewrite Hm0. cbn. apply elem_of_vals. eauto. }
  injection Hx' as <-. rewrite resolve_cases in Hd. cbn in Hd. set_solver.
Qed.
Lemma qx_new t : QX (q_new t) ∧ queued (q_new t).
Proof.
  split; [split|].
  - intros x it d Hx. cbn in Hx. by rewrite lookup_empty in Hx.
  - intros d k x (m & Hm & _). cbn in Hm. by rewrite lookup_empty in Hm.
  - intros d m Hm. cbn in Hm. by rewrite lookup_empty in Hm.
  - intros x it d Hx. cbn in Hx. by rewrite lookup_empty in Hx.
Qed.
