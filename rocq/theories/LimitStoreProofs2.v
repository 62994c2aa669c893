(** Proofs about the limits that the server keeps: requests and histories. *)
From Coq Require Import ZArith Lia String Ascii.
From stdpp Require Import base option strings gmap list.
From RecordUpdate Require Import RecordSet.
From Verif Require Import LimiterModel LimiterSpec LimiterProofs LimiterProofs2 LimitNameModel LimitNameSpec LimitNameProofs
  LimitStoreModel LimitStoreSpec LimitStoreProofs.
Import RecordSetNotations.
Open Scope Z_scope.

(** ** Storing *)
(** What storing limits [ds], from which [c] were changed and [r] removed, does to [g]; [lm'] is
    the limiter with the changed limits set. *)
Lemma stored local s ds m c r g lm' : colon_free g → in_force local s g →
  (∀ g' d, (g', d) ∈ map_to_list ds → is_count d = true → 0 ≤ dlimit d) →
  (∀ n, ds !! g = Some (GData MCount n 0) →
    (∃ x, groups lm' !! g = Some x ∧ gdat x = GData MCount n (count (mem s) g)) ∨ g ∉ c ∧ groups lm' !! g = groups (mem s) !! g) →
  ((∀ n, ds !! g ≠ Some (GData MCount n 0)) → groups lm' !! g = groups (mem s) !! g) →
  (∀ d, ds !! g = Some d → (∃ n, 0 ≤ n ∧ d = GData MCount n 0) ∨ d = GData MUnknown 0 0) →
  db_store (lgs s) (map_to_list ds) = Some (m, c, r) →
  let s' := LSrv m (fold_left remove_limit r lm') in
  in_force local s' g ∧
  (∀ n, ds !! g = Some (GData MCount n 0) → m !! g = Some n ∧ (is_Some (lgs s !! g) → count (mem s') g = count (mem s) g)) ∧
  ((∀ n, ds !! g ≠ Some (GData MCount n 0)) → m !! g = lgs s !! g ∧ (ds !! g = None → groups (mem s') !! g = groups (mem s) !! g)) ∧
  (count (mem s') g = count (mem s) g ∨ count (mem s') g = 0).
Proof.
  intros Hf Hin Hpos Hset Hsame Hmode Hdb s'.
  destruct (db_store_spec _ _ _ _ _ (NoDup_fst_map_to_list ds) Hpos Hdb) as (H1 & H2 & H3 & H4 & H5).
  assert (groups (mem s') !! g = if decide (g ∈ r) then None else groups lm' !! g) as Hg by apply remove_groups.
  assert (mem s' = fold_left remove_limit r lm') as Hmem by done. assert (lgs s' = m) as Hlgs by done. clearbody s'.
  apply (in_force_iff local s g Hf) in Hin.
  destruct (ds !! g) as [d|] eqn:Ed; [destruct (Hmode d eq_refl) as [(n & Hn & ->)| ->]|].
  - destruct (H3 g (GData MCount n 0)) as (E1 & E2 & E3); [by apply elem_of_map_to_list|done|]. cbn [dlimit] in E1, E3.
    rewrite decide_False in Hg by done.
    assert ((∃ x, groups (mem s') !! g = Some x ∧ gdat x = GData MCount n (count (mem s) g)) ∨ (groups (mem s') !! g = None ∧ groups (mem s) !! g = None) ∨
      (groups (mem s') !! g = groups (mem s) !! g ∧ lgs s !! g = Some n)) as Hcases.
    { destruct (Hset n eq_refl) as [Hx|[Hc Hs]].
      - left. by rewrite Hg.
      - rewrite Hg. rewrite Hs. destruct E3 as [?|[E3|E3]]; [done| |by right; right].
        right; left. rewrite E3 in Hin. done. }
    assert (0 ≤ count (mem s) g) as Hc0.
    { unfold count. destruct (groups (mem s) !! g) as [x|] eqn:Ex; [|done]. destruct (lgs s !! g); [|congruence]. destruct (proj2 Hin x eq_refl) as (k & Hk & ->). done. }
    split; [|split; [|split]].
    + apply in_force_iff; [done|]. rewrite Hlgs, E1. split; [done|]. intros x Hx. destruct Hcases as [(y & Ey & Eg)|[[Ey _]|[Ey El]]].
      * rewrite Ey in Hx. injection Hx as <-. by exists (count (mem s) g).
      * congruence.
      * rewrite Ey in Hx. rewrite El in Hin. by apply Hin.
    + intros n' [= <-]. split; [done|]. intros _. destruct Hcases as [(y & Ey & Eg)|[[Ey Ey']|[Ey El]]].
      * by apply (count_dat _ _ _ _ _ _ Ey Eg).
      * unfold count. by rewrite Ey, Ey'.
      * by apply count_ext.
    + intros Hno. by destruct (Hno n).
    + left. destruct Hcases as [(y & Ey & Eg)|[[Ey Ey']|[Ey El]]].
      * by apply (count_dat _ _ _ _ _ _ Ey Eg).
      * unfold count. by rewrite Ey, Ey'.
      * by apply count_ext.
  - destruct (H4 g (GData MUnknown 0 0)) as (E1 & E2); [by apply elem_of_map_to_list|done|]. rewrite decide_True in Hg by done.
    split; [|split; [|split]]; [|by intros n|..].
    + apply in_force_iff; [done|]. rewrite Hlgs, E1. destruct (lgs s !! g); [|done]. split; [apply Hin|]. intros x Hx. congruence.
    + intros _. split; [done|]. done.
    + right. unfold count. by rewrite Hg.
  - assert (g ∉ (map_to_list ds).*1) as Hno.
    { intros ([g' d'] & E & Hin')%elem_of_list_fmap. cbn in E. subst g'. apply elem_of_map_to_list in Hin'. congruence. }
    rewrite decide_False in Hg by (intros ?%H5; done). rewrite Hsame in Hg by (intros n; discriminate).
    split; [|split; [|split]]; [|by intros n|..].
    + apply in_force_iff; [done|]. rewrite Hlgs, (H1 _ Hno), Hg. done.
    + intros _. split; [by apply H1|done].
    + left. by apply count_ext.
Qed.

(** ** One request *)
(** the methods of the limiter that a request calls *)
Definition op_of (local : zone) (s : lsrv) (r : lreq) : option lop :=
  let cb := srv_cb local (lgs s) in
  match r with
  | QLimits => Some LGetLimits
  | QTry clk names wait => Some (LIncrement cb clk names wait)
  | QWake clk ch => Some (LWake cb clk ch)
  | QGiveUp ch => Some (LGiveUp ch)
  | QDone names => Some (LDecrement names)
  | QCapacity clk names => Some (LCapacity cb clk names)
  | _ => None
  end.
Lemma op_step local s r o : op_of local s r = Some o →
  lreq_step local s r = (s <| mem := (lstep (mem s) o).1 |>, PLim (lstep (mem s) o).2) ∧ plain_op (srv_cb local (lgs s)) o.
Proof. unfold lreq_step, on_lim. destruct r; cbn [op_of]; intros [= <-]; (split; [|done]); by destruct (lstep _ _). Qed.
Lemma op_in_force local s o g : colon_free g → plain_op (srv_cb local (lgs s)) o → in_force local s g →
  in_force local (s <| mem := (lstep (mem s) o).1 |>) g ∧
  (is_Some (lgs s !! g) → count (lstep (mem s) o).1 g = match o with LDecrement names => Z.max 0 (count (mem s) g - occ g names) | _ => count (mem s) g + more (mem s) o g end).
Proof.
  intros Hf Hp Hin. assert (stable (srv_cb local (lgs s)) (retrieve local (lgs s))) as Hs by done.
  unfold in_force in Hin |- *. cbn [lgs mem set]. replace (lgs (s <| mem := (lstep (mem s) o).1 |>)) with (lgs s) by (by destruct s).
  replace (mem (s <| mem := (lstep (mem s) o).1 |>)) with ((lstep (mem s) o).1) by (by destruct s).
  pose proof (retrieve_free local (lgs s) g Hf) as Hr.
  destruct (lgs s !! g) as [n|] eqn:E.
  - destruct Hin as (Hn & c & Hc & Hd). rewrite new_count_pos in Hr by done.
    pose proof (op_dat _ _ _ _ _ _ _ Hs Hp Hr Hc Hd) as Hd'.
    assert (∀ lm k, dat (retrieve local (lgs s)) (groups lm) g = Some (GData MCount n k) → count lm g = k) as Hcount.
    { intros lm k. unfold dat, count. destruct (groups lm !! g) as [x|]; [by intros [= ->]|]. rewrite Hr. cbn. by intros [= <-]. }
    rewrite (Hcount _ _ Hd), (Hcount _ _ Hd'). split; [|done]. split; [done|]. eexists. split; [|exact Hd'].
    destruct o; try lia; unfold more; repeat case_match; try lia; pose proof (occ_nonneg g l); lia.
  - split; [|by intros []]. by apply (op_none _ _ _ _ _ Hs Hp).
Qed.
Lemma gives_limits local r g n : gives local r g n → limits local r g.
Proof. intros (a & raw & b & E & H & _). exists raw, n. split; [|done]. rewrite E. apply elem_of_app. right. by left. Qed.
Lemma spelled_modes local raws g d : colon_free g → collect local raws !! g = Some d → (∃ n, 0 ≤ n ∧ d = GData MCount n 0) ∨ d = GData MUnknown 0 0.
Proof. intros Hf (raw & _ & H)%collect_some. by apply (spells_free local raw g). Qed.
Lemma add_step local s raws g : colon_free g → in_force local s g → let '(s', p) := lreq_step local s (QAdd raws) in
  in_force local s' g ∧ (lgs s' !! g = lgs s !! g ∨ is_Some (lgs s' !! g) ∧ limits local (QAdd raws) g ∧ accepted p) ∧ (accepted p → ∀ n, gives local (QAdd raws) g n → lgs s' !! g = Some n) ∧
  (∀ n, lgs s' !! g = Some n → lgs s !! g = Some n ∨ ∃ raw, raw ∈ raws ∧ numbers local raw g n) ∧
  (is_Some (lgs s !! g) → ¬ unlimiting local (QAdd raws) g → count (mem s') g = count (mem s) g) ∧
  (count (mem s') g = count (mem s) g ∨ count (mem s') g = 0).
Proof.
  intros Hf Hin. unfold lreq_step, srv_store. destruct (db_store (lgs s) (map_to_list (collect local raws))) as [[[m c] r]|] eqn:E.
  2:{ split; [done|]. split; [by left|]. split; [by intros [? _]|]. split; [by left|]. split; [done|by left]. }
  destruct (stored local s (collect local raws) m c r g (fold_left (set_changed (collect local raws)) c (mem s)) Hf Hin) as (H1 & H2 & H3 & H6).
  - intros g' d. apply collect_ok.
  - intros n Hd. destruct (decide (g ∈ c)); [left|right; split; [done|by apply changed_ne]]. apply changed_in; [by apply (in_force_counts local)|done|done].
  - intros H.
    destruct (db_store_spec _ _ _ _ _ (NoDup_fst_map_to_list _) (collect_ok local raws) E) as (_ & G2 & _).
    apply changed_ne. intros (d & Hd & Hc)%G2. apply elem_of_map_to_list in Hd. destruct (spelled_modes local raws g d Hf Hd) as [(n & _ & ->)| ->]; [|done]. by apply (H n).
  - intros d. by apply spelled_modes.
  - done.
  - cbn [lgs mem] in *. split; [exact H1|].
    assert (∀ n, collect local raws !! g = Some (GData MCount n 0) → ∃ raw, raw ∈ raws ∧ numbers local raw g n) as Hnum by (intros n Hd; by apply collect_some).
    destruct (collect local raws !! g) as [d|] eqn:Ed; [destruct (spelled_modes local raws g d Hf Ed) as [(n & _ & ->)| ->]|].
    + destruct (H2 n eq_refl) as [E1 E2]. destruct (Hnum n eq_refl) as (raw & Hr & Hn). split; [right; split; [by exists n|split; [by exists raw, n|by split]]|]. split.
      { intros _ n' (a & raw' & b & Ew & Hn' & Hb). cbn [written] in Ew. subst raws. rewrite (collect_last local _ _ _ _ _ Hn' Hb) in Ed. by injection Ed as ->. }
      split; [|split; [intros Hi _; by apply E2|exact H6]]. intros n' Hn'. right. exists raw. split; [done|]. rewrite E1 in Hn'. by injection Hn' as <-.
    + destruct (H3 ltac:(done)) as [E1 _]. split; [by left|]. split.
      { intros _ n' (a & raw' & b & Ew & Hn' & Hb). cbn [written] in Ew. subst raws. by rewrite (collect_last local _ _ _ _ _ Hn' Hb) in Ed. }
      split; [intros n' Hn'; left; by rewrite <- E1|]. split; [|exact H6]. intros _ Hu. exfalso. apply Hu. destruct (collect_some _ _ _ _ Ed) as (raw & ? & ?). by exists raw.
    + destruct (H3 ltac:(done)) as [E1 E2]. split; [by left|]. split.
      { intros _ n' (a & raw' & b & Ew & Hn' & Hb). cbn [written] in Ew. subst raws. by rewrite (collect_last local _ _ _ _ _ Hn' Hb) in Ed. }
      split; [intros n' Hn'; left; by rewrite <- E1|]. split; [|exact H6]. intros _ _. by apply count_ext, E2.
Qed.
Lemma gives_one local group g n : gives local (QGetSet group) g n → numbers local group g n.
Proof.
  intros (a & raw & b & E & H & _). cbn in E. destruct a as [|x a]; [by injection E as <- _|]. injection E as _ E. by destruct a.
Qed.
Lemma get_set_step local s group g : colon_free g → in_force local s g → let '(s', p) := lreq_step local s (QGetSet group) in
  in_force local s' g ∧ (lgs s' !! g = lgs s !! g ∨ is_Some (lgs s' !! g) ∧ limits local (QGetSet group) g ∧ accepted p) ∧ (accepted p → ∀ n, gives local (QGetSet group) g n → lgs s' !! g = Some n) ∧
  (∀ n, lgs s' !! g = Some n → lgs s !! g = Some n ∨ ∃ raw, raw ∈ [group] ∧ numbers local raw g n) ∧
  (is_Some (lgs s !! g) → ¬ unlimiting local (QGetSet group) g → count (mem s') g = count (mem s) g) ∧
  (count (mem s') g = count (mem s) g ∨ count (mem s') g = 0).
Proof.
  intros Hf Hin. unfold lreq_step, get_set. destruct (String.eqb group ""). { split; [done|]. split; [by left|]. split; [by intros [_ ?]|]. split; [by left|]. split; [done|by left]. }
  destruct (name_to_group local group) as [name [d|]] eqn:En.
  - apply name_iff in En. destruct (db_store (lgs s) [(name, d)]) as [[[m c] r]|] eqn:E.
    2:{ split; [done|]. split; [by left|]. split; [by intros [_ ?]|]. split; [by left|]. split; [done|by left]. }
    assert (map_to_list ({[name := d]} : gmap string gdata) = [(name, d)]) as Hl by apply map_to_list_singleton.
    assert (∀ d', ({[name := d]} : gmap string gdata) !! g = Some d' ↔ name = g ∧ d = d') as Hlk by (intros d'; apply lookup_singleton_Some).
    set (lm' := if is_valid (Some d) then (lstep (mem s) (LSetLimit name d)).1 else mem s).
    assert (∀ n, name = g → d = GData MCount n 0 → ∃ x, groups lm' !! g = Some x ∧ gdat x = GData MCount n (count (mem s) g)) as Hset.
    { intros n -> ->. unfold lm'. cbn [is_valid dmode]. apply set_in. by apply (in_force_counts local). }
    assert (name ≠ g ∨ ¬ is_valid (Some d) → groups lm' !! g = groups (mem s) !! g) as Hsame.
    { intros H. unfold lm'. destruct (is_valid (Some d)) eqn:Ev; [|done]. rewrite set_groups, decide_False; [done|]. destruct H as [?|H]; [done|]. by destruct H. }
    rewrite <- Hl in E. destruct (stored local s {[name := d]} m c r g lm' Hf Hin) as (H1 & H2 & H3 & H6); [..|exact E|].
    { intros g' d'. rewrite Hl. intros [= -> ->]%elem_of_list_singleton Hc. by apply (spells_count _ _ _ _ En). }
    { intros n [Hn Hd]%Hlk. left. by apply Hset. }
    { intros H. apply Hsame. destruct (decide (name = g)) as [->|]; [right|by left]. destruct (spells_free _ _ _ _ Hf En) as [(n & _ & ->)| ->]; [|intros Hv; by vm_compute in Hv]. destruct (H n). by apply Hlk. }
    { intros d' [-> ->]%Hlk. by apply (spells_free _ _ _ _ Hf En). }
    cbn [lgs mem] in *. split; [exact H1|].
    assert (∀ n, gives local (QGetSet group) g n → name = g ∧ d = GData MCount n 0) as Hgv.
    { intros n Hg%gives_one. unfold numbers in Hg. apply name_iff in Hg. apply name_iff in En. rewrite Hg in En. by injection En. }
    destruct (decide (name = g)) as [->|Hne].
    + destruct (spells_free _ _ _ _ Hf En) as [(n & _ & ->)| ->].
      * destruct (H2 n) as [E1 E2]; [by apply Hlk|]. split; [right; split; [by exists n|split; [exists group, n; split; [by left|done]|by split]]|]. split.
        { intros _ n' [_ [= <-]]%Hgv. done. }
        split; [|split; [intros Hi _; by apply E2|exact H6]]. intros n' Hn'. right. exists group. split; [by left|]. rewrite E1 in Hn'. by injection Hn' as <-.
      * destruct H3 as [E1 _]; [intros n [_ ?]%Hlk; done|]. split; [by left|]. split; [by intros _ n' [_ ?]%Hgv|].
        split; [intros n' Hn'; left; by rewrite <- E1|]. split; [|exact H6]. intros _ Hu. exfalso. apply Hu. exists group. split; [by left|done].
    + destruct H3 as [E1 E2]; [intros n [? ?]%Hlk; done|]. split; [by left|]. split; [by intros _ n' [? _]%Hgv|].
      split; [intros n' Hn'; left; by rewrite <- E1|]. split; [|exact H6]. intros _ _. apply count_ext, E2. by apply lookup_singleton_ne.
  - pose proof (op_in_force local s (LGetLimit (srv_cb local (lgs s)) name) g Hf ltac:(done) Hin) as [H1 H2].
    assert (∃ d, lstep (mem s) (LGetLimit (srv_cb local (lgs s)) name) = ((lstep (mem s) (LGetLimit (srv_cb local (lgs s)) name)).1, RData d)) as [d Ed].
    { cbn. destruct (vivify _ _ _) as [gs []]; eauto. }
    destruct (lstep (mem s) (LGetLimit (srv_cb local (lgs s)) name)) as [lm r] eqn:El. cbn [fst] in Ed, H1, H2. injection Ed as ->.
    split; [done|]. replace (lgs (s <| mem := lm |>)) with (lgs s) by (by destruct s). replace (mem (s <| mem := lm |>)) with lm by (by destruct s).
    split; [by left|]. split.
    { intros _ n Hg%gives_one. unfold numbers in Hg. apply name_iff in Hg. congruence. }
    split; [by left|]. split; [intros Hi _; rewrite (H2 Hi); unfold more; cbn; lia|].
    apply in_force_iff in Hin; [|done]. destruct (lgs s !! g) as [n|] eqn:Eg; [left; rewrite H2 by eauto; unfold more; cbn; lia|].
    right. apply in_force_iff in H1; [|done]. replace (lgs (s <| mem := lm |>)) with (lgs s) in H1 by (by destruct s). rewrite Eg in H1.
    replace (mem (s <| mem := lm |>)) with lm in H1 by (by destruct s). unfold count. by rewrite H1.
Qed.
