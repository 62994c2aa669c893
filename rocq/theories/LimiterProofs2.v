(** Proofs about the limiter model: properties. *)
From Coq Require Import ZArith Lia.
From stdpp Require Import base option strings gmap list.
From RecordUpdate Require Import RecordSet.
From Verif Require Import LimiterModel LimiterSpec LimiterProofs.
Import RecordSetNotations.
Open Scope Z_scope.

Lemma data_dat f s name : data_of f s name = dat f (groups s) name. Proof. done. Qed.
Lemma plus_0 d : plus 0 d = d.
Proof. unfold plus. destruct d as [[] l c]; simpl; try done. by rewrite Z.add_0_r. Qed.
Lemma plus_plus a b d : plus a (plus b d) = plus (b + a) d.
Proof. unfold plus. destruct d as [[] l c]; simpl; try done. by rewrite Z.add_assoc. Qed.
Lemma plus_0_fmap (od : option gdata) : plus 0 <$> od = od.
Proof. destruct od as [d|]; simpl; [by rewrite plus_0|done]. Qed.
Lemma increment_plus g : gdat (increment g) = plus 1 (gdat g).
Proof. unfold increment, plus, is_count. by destruct (dmode (gdat g)) eqn:E. Qed.
Lemma plus_mode n d : dmode (plus n d) = dmode d.
Proof. unfold plus. by destruct (dmode d) eqn:E. Qed.

Lemma dat_insert f gs name g : dat f (<[name := g]> gs) name = Some (gdat g).
Proof. unfold dat. by rewrite lookup_insert. Qed.
Lemma dat_insert_ne f gs name g n : name ≠ n → dat f (<[name := g]> gs) n = dat f gs n.
Proof. intros H. unfold dat. by rewrite lookup_insert_ne. Qed.

Lemma increment_dat f cb n gs names : stable cb f →
  ∀ name, dat f (increment_groups cb n gs names) name = plus (occ name names) <$> dat f gs name.
Proof.
  intros Hs. revert n gs. induction names as [|nm names IH]; intros n gs name; cbn [increment_groups].
  { rewrite occ_nil. by rewrite plus_0_fmap. }
  rewrite (Hs n). pose proof (vivify_dat f gs nm) as Hd. destruct (vivify f gs nm) as [gs' og] eqn:Hv. simpl in Hd.
  pose proof (vivify_some_dat _ _ _ _ _ Hv) as Hsd. rewrite occ_cons. destruct og as [g|].
  - rewrite IH. destruct (decide (nm = name)) as [->|Hne].
    + rewrite dat_insert, Hsd. simpl. rewrite increment_plus, plus_plus. done.
    + rewrite dat_insert_ne by done. by rewrite Hd.
  - rewrite IH, Hd. destruct (decide (nm = name)) as [->|Hne]; [|done]. by rewrite Hsd.
Qed.
Lemma register_dat f cb n ch gs names : stable cb f →
  ∀ name, dat f (register_groups cb n ch gs names) name = dat f gs name.
Proof.
  intros Hs. revert n gs. induction names as [|nm names IH]; intros n gs name; cbn [register_groups]; [done|].
  rewrite (Hs n). pose proof (vivify_dat f gs nm) as Hd. destruct (vivify f gs nm) as [gs' og] eqn:Hv. simpl in Hd.
  destruct og as [g|]; rewrite IH; [|done]. rewrite <- Hd. destruct (decide (nm = name)) as [->|Hne].
  - rewrite dat_insert. apply vivify_found in Hv. unfold dat. rewrite Hv.
    unfold notify_decrement. by destruct (is_count (gdat g)).
  - by rewrite dat_insert_ne.
Qed.
Lemma cnt_dat f gs name : fresh f →
  cnt gs name = match dat f gs name with Some d => match dmode d with MCount => dcurrent d | _ => 0 end | None => 0 end.
Proof.
  intros Hf. unfold cnt, dat. destruct (gs !! name) as [g|]; [done|]. destruct (f name) as [d|] eqn:E; [|done].
  destruct (dmode d) eqn:Em; rewrite ?Em; try done. by rewrite (Hf _ _ E Em).
Qed.
Lemma lim_dat f gs name l : lim gs name = Some l → ∃ d, dat f gs name = Some d ∧ dmode d = MCount ∧ dlimit d = l.
Proof.
  unfold lim, dat. destruct (gs !! name) as [g|]; [|done]. destruct (dmode (gdat g)) eqn:E; try done. intros [= <-]. by exists (gdat g).
Qed.

(** ** attempts *)
Lemma attempt_spec s cb clk names wait s' r f : stable cb f → attempt s cb clk names wait = (s', r) →
  (r = RBool true ↔ ∀ i name d, names !! i = Some name → dat f (groups s) name = Some d → room (clk i) d) ∧
  (r = RBool true → ∀ name, dat f (groups s') name = plus (occ name names) <$> dat f (groups s) name) ∧
  (r ≠ RBool true → ∀ name, dat f (groups s') name = dat f (groups s) name).
Proof.
  intros Hs. unfold attempt. pose proof (check_iff f cb clk 0 (groups s) names Hs) as Hi.
  pose proof (check_dat f cb clk 0 (groups s) names Hs) as Hd.
  destruct (check_groups cb clk 0 (groups s) names) as [gs ok]. simpl in *. intros Ha. destruct ok.
  - injection Ha as <- <-. split_and!; [split; [intros _; by apply Hi|done]| |done].
    intros _ name. simpl. rewrite (increment_dat f) by done. by rewrite Hd.
  - destruct wait; injection Ha as <- <-; split_and!; try done; try (split; [done|]; by intros ?%Hi).
    intros _ name. simpl. rewrite (register_dat f) by done. by rewrite Hd.
Qed.
Lemma tries_attempt s o cb clk names : tries s o = Some (cb, clk, names) →
  ∃ s0 wait, groups s0 = groups s ∧ lstep s o = attempt s0 cb clk names wait.
Proof.
  destruct o; simpl; try done.
  - intros [= -> -> ->]. by exists s, wait.
  - destruct (decide (ch ∈ sent s)); [|done]. destruct (waiting s !! ch) as [nm|]; [|done]. intros [= -> -> ->].
    eexists (s <| waiting ::= delete ch |>), true. done.
Qed.
Lemma all_or_nothing s o cb clk names f s' r : tries s o = Some (cb, clk, names) → stable cb f → lstep s o = (s', r) →
  (r = RBool true ↔ ∀ i name d, names !! i = Some name → data_of f s name = Some d → room (clk i) d) ∧
  (r = RBool true → ∀ name, data_of f s' name = plus (occ name names) <$> data_of f s name) ∧
  (r ≠ RBool true → ∀ name, data_of f s' name = data_of f s name).
Proof.
  intros Ht Hs Hl. destruct (tries_attempt _ _ _ _ _ Ht) as (s0 & wait & Hg & Ha). rewrite Ha in Hl.
  unfold data_of. rewrite <- Hg. by apply (attempt_spec s0 cb clk names wait).
Qed.

Lemma within_limit s o cb clk names f s' : tries s o = Some (cb, clk, names) → stable cb f → fresh f → NoDup names →
  lstep s o = (s', RBool true) → ∀ name l, name ∈ names → limit_of s' name = Some l → count s' name ≤ l.
Proof.
  intros Ht Hs Hf Hnd Hl name l Hin Hlim.
  destruct (all_or_nothing _ _ _ _ _ f _ _ Ht Hs Hl) as ([Hr _] & Hp & _). specialize (Hr eq_refl). specialize (Hp eq_refl name).
  apply (lim_dat f) in Hlim as (d' & Hd' & Hm' & <-). unfold data_of in *. rewrite count_cnt, (cnt_dat f) by done.
  rewrite Hd', Hm'. unfold dat in Hd'. rewrite Hd' in Hp. symmetry in Hp. apply fmap_Some in Hp as (d & Hd & ->).
  apply elem_of_list_lookup in Hin as [i Hi]. specialize (Hr i name d Hi Hd). rewrite plus_mode in Hm'.
  unfold room in Hr. rewrite Hm' in Hr. unfold plus. rewrite Hm'. simpl. pose proof (occ_nodup name names Hnd). lia.
Qed.

(** ** C18 over whole histories *)
Definition bounded (gs : gmap string grp) : Prop :=
  ∀ name, 0 ≤ cnt gs name ∧ ∀ l, lim gs name = Some l → cnt gs name ≤ l.
Lemma bounded_dat f gs gs' : fresh f → (∀ name d, f name = Some d → dmode d = MCount → 0 ≤ dlimit d) →
  bounded gs → (∀ name, dat f gs' name = dat f gs name) → bounded gs'.
Proof.
  intros Hf Ha Hb Hd name. rewrite (cnt_dat f gs'), Hd, <- (cnt_dat f gs) by done. destruct (Hb name) as [H1 H2]. split; [done|].
  intros l (d & Hl & Hm & Hll)%(lim_dat f). rewrite Hd in Hl. unfold dat in Hl.
  destruct (gs !! name) as [g|] eqn:Hg.
  - injection Hl as <-. apply H2. unfold lim. rewrite Hg. simpl. rewrite Hm. by rewrite Hll.
  - unfold cnt. rewrite Hg. destruct (f name) as [d0|] eqn:E; [|done]. 
    destruct (dmode d0) eqn:E0; simplify_eq; try congruence. by eapply Ha.
Qed.
Lemma lowest_limit_dat f cb n gs k names : stable cb f → ∀ name, dat f (lowest_limit cb n gs k names).1 name = dat f gs name.
Proof.
  intros Hs. revert n gs k. induction names as [|nm names IH]; intros n gs k name; cbn [lowest_limit]; [done|].
  rewrite (Hs n). pose proof (vivify_dat f gs nm) as Hd. destruct (vivify f gs nm) as [gs' [g|]]; simpl in Hd; by rewrite IH.
Qed.
Lemma lowest_capacity_dat f cb clk n gs k names : stable cb f → ∀ name, dat f (lowest_capacity cb clk n gs k names).1 name = dat f gs name.
Proof.
  intros Hs. revert n gs k. induction names as [|nm names IH]; intros n gs k name; cbn [lowest_capacity]; [done|].
  rewrite (Hs n). pose proof (vivify_dat f gs nm) as Hd. destruct (vivify f gs nm) as [gs' [g|]]; simpl in Hd; by rewrite IH.
Qed.
Lemma decrement_bounded gs names : bounded gs → bounded (decrement_groups gs names).1.
Proof.
  revert gs. induction names as [|nm names IH]; intros gs Hb; cbn [decrement_groups]; [done|].
  destruct (gs !! nm) as [g|] eqn:Hg; [|by apply IH]. destruct (Hb nm) as [H1 H2].
  destruct (decrement g) as [[g' chs] unused] eqn:Hd.
  assert (bounded (if unused then delete nm gs else <[nm := g']> gs)) as Hb'.
  { intros name. destruct (decide (nm = name)) as [<-|Hne].
    - destruct unused; [unfold cnt, lim; rewrite lookup_delete; split; [lia|done]|].
      unfold decrement in Hd. destruct (is_count (gdat g)) eqn:Ec.
      + apply is_count_true in Ec. unfold cnt, lim in H1, H2. rewrite Hg in H1, H2. simpl in H1, H2. rewrite Ec in H1, H2.
        destruct (Z.eqb_spec (dcurrent (gdat g)) 0); simplify_eq.
        unfold cnt, lim. rewrite lookup_insert. simpl. split; [lia|]. intros l [= <-]. specialize (H2 _ eq_refl). lia.
      + simplify_eq. rewrite insert_id by done. done.
    - pose proof (Hb name) as Hn. unfold cnt, lim in *. destruct unused; [by rewrite lookup_delete_ne|by rewrite lookup_insert_ne]. }
  pose proof (IH _ Hb') as HH. by destruct (decrement_groups _ names).
Qed.

Lemma bounded_step s o : increments_properly s o → sets_properly s o → answers_properly o →
  bounded (groups s) → bounded (groups (lstep s o).1).
Proof.
  intros [Hc Hn] Hset Ha Hb. unfold answers_properly in Ha. destruct (tries s o) as [[[cb clk] names]|] eqn:Ht.
  - destruct (lstep s o) as [s' r] eqn:Hl.
    assert (cb_of o = Some cb) as Hcb. { destruct o; simpl in *; repeat case_match; naive_solver. }
    rewrite Hcb in Hc, Ha. destruct Hc as (f & Hs & Hf).
    assert (∀ name d, f name = Some d → dmode d = MCount → 0 ≤ dlimit d) as Ha' by (rewrite <- (Hs 0%nat); apply Ha).
    destruct (all_or_nothing _ _ _ _ _ f _ _ Ht Hs Hl) as (Hr & Hp & Hq).
    assert (r = RBool true ∨ r ≠ RBool true) as [->|Hno] by (destruct r as [|[]| | | | |]; try (by right); by left).
    + specialize (Hp eq_refl). simpl. intros name. split.
      * rewrite (cnt_dat f) by done. rewrite <- data_dat, Hp, data_dat. destruct (Hb name) as [H1 _]. rewrite (cnt_dat f) in H1 by done.
        destruct (dat f (groups s) name) as [d|]; simpl; [|done]. unfold plus. pose proof (occ_nonneg name names).
        destruct (dmode d) eqn:E; simpl; rewrite ?E; lia.
      * intros l Hl'. destruct (decide (name ∈ names)) as [Hin|Hin].
        { by eapply (within_limit s o cb clk names f). }
        assert (∀ m, m = name → dat f (groups s') m = dat f (groups s) m) as Hsame.
        { intros m ->. rewrite <- !data_dat, Hp. rewrite occ_not_in by done. by rewrite plus_0_fmap. }
        rewrite (cnt_dat f), Hsame, <- (cnt_dat f (groups s)) by done.
        apply (lim_dat f) in Hl' as (d & Hd & Hm & <-). rewrite Hsame in Hd by done. destruct (Hb name) as [H1 H2].
        unfold dat in Hd. destruct (groups s !! name) as [g|] eqn:Hg.
        -- injection Hd as <-. apply H2. unfold lim. rewrite Hg. simpl. by rewrite Hm.
        -- unfold cnt. rewrite Hg. destruct (f name) as [d0|] eqn:E; [|done].
           destruct (dmode d0) eqn:E0; simplify_eq; try congruence. by eapply Ha'.
    + simpl. apply (bounded_dat f (groups s)); try done. intros name. rewrite <- !data_dat. by apply Hq.
  - destruct o; simpl in *; try done.
    + (* SetLimit *) destruct Hset as [H1 H2]. intros n. destruct (Hb n) as [H3 H4]. rewrite count_cnt in H2.
      destruct (groups s !! name) as [g|] eqn:Hg.
      * destruct (decide (name = n)) as [<-|Hne]; [|unfold cnt, lim in *; by rewrite lookup_insert_ne].
        unfold cnt, lim in *. rewrite lookup_insert. rewrite Hg in *. simpl in *. unfold set_limit, is_count.
        destruct (dmode (gdat g)) eqn:E; rewrite ?E; simpl; rewrite ?E; try done. split; [done|]. by intros l [= <-].
      * destruct (decide (name = n)) as [<-|Hne]; [|unfold cnt, lim in *; by rewrite lookup_insert_ne].
        unfold cnt, lim in *. rewrite lookup_insert. rewrite Hg in *. simpl in *.
        destruct (dmode d) eqn:E; try done. rewrite (H1 eq_refl). split; [lia|]. by intros l [= <-].
    + (* GetLimit *) destruct Hc as (f & Hs & Hf). rewrite (Hs 0%nat). pose proof (vivify_dat f (groups s) name) as Hd.
      assert (∀ name d, f name = Some d → dmode d = MCount → 0 ≤ dlimit d) as Ha' by (rewrite <- (Hs 0%nat); apply Ha).
      destruct (vivify f (groups s) name) as [gs [g|]]; simpl in *; by apply (bounded_dat f (groups s)).
    + (* RemoveLimit *) intros n. destruct (Hb n) as [H1 H2]. unfold cnt, lim in *. destruct (decide (name = n)) as [<-|].
      * rewrite lookup_delete. split; [lia|done]. * by rewrite lookup_delete_ne.
    + (* Wake *) destruct (waiting s !! ch) as [nm|]; [|done]. by destruct (decide (ch ∈ sent s)).
    + (* GiveUp *) by destruct (waiting s !! ch).
    + (* Decrement *) pose proof (decrement_bounded (groups s) names Hb). by destruct (decrement_groups (groups s) names).
    + (* Lowest *) destruct Hc as (f & Hs & Hf). pose proof (lowest_limit_dat f cb 0 (groups s) (-1) names Hs) as Hd.
      assert (∀ name d, f name = Some d → dmode d = MCount → 0 ≤ dlimit d) as Ha' by (rewrite <- (Hs 0%nat); apply Ha).
      destruct (lowest_limit _ _ _ _ _) as [gs k]. simpl in *. by apply (bounded_dat f (groups s)).
    + (* Capacity *) destruct Hc as (f & Hs & Hf). pose proof (lowest_capacity_dat f cb clk 0 (groups s) (-1) names Hs) as Hd.
      assert (∀ name d, f name = Some d → dmode d = MCount → 0 ≤ dlimit d) as Ha' by (rewrite <- (Hs 0%nat); apply Ha).
      destruct (lowest_capacity _ _ _ _ _ _) as [gs k]. simpl in *. by apply (bounded_dat f (groups s)).
Qed.
Lemma lrun_cons s o ops : (lrun s (o :: ops)).1 = (lrun (lstep s o).1 ops).1.
Proof. simpl. destruct (lstep s o) as [s' r]. simpl. by destruct (lrun s' ops). Qed.
Lemma never_exceeded ops s rs : lrun l_new ops = (s, rs) →
  lalways (λ s o, increments_properly s o ∧ sets_properly s o ∧ answers_properly o) l_new ops →
  ∀ name l, limit_of s name = Some l → count s name ≤ l.
Proof.
  assert (bounded (groups l_new)) as Hb. { intros name. unfold cnt, lim. simpl. rewrite lookup_empty. split; [lia|done]. }
  intros Hr Ha. enough (bounded (groups (lrun l_new ops).1)) as H. { rewrite Hr in H. intros name l. apply H. }
  clear Hr rs s. revert Hb Ha. generalize l_new. induction ops as [|o ops IH]; intros s Hb Ha; [done|].
  rewrite lrun_cons. destruct Ha as [(H1 & H2 & H3) Ha]. apply IH; [|done]. by apply bounded_step.
Qed.

(** ** C20 *)
Lemma outstanding_inv L ops s h :
  agree L (groups s) → (∀ name, L name = true → h name = cnt (groups s) name) →
  Forall (constant_groups L) ops → paired_from h s ops →
  ∀ name, L name = true → cnt (groups (lrun s ops).1) name = outstanding_from h s ops name.
Proof.
  revert s h. induction ops as [|o ops IH]; intros s h HA Hh Hc Hp name HL; [symmetry; by apply Hh|].
  rewrite lrun_cons. cbn [outstanding_from]. apply Forall_cons in Hc as [[Hcb Ho] Hc]. destruct Hp as [Hpo Hp].
  enough (agree L (groups (lstep s o).1) ∧
    ∀ name, L name = true → outstanding_step s o h name = cnt (groups (lstep s o).1) name) as [HA' Hh'] by (by apply IH).
  clear IH Hp Hc name HL. unfold outstanding_step.
  assert (∀ cb, cb_of o = Some cb → answers L cb (groups s)) as Hans.
  { intros cb E. rewrite E in Hcb. intros n name _. apply Hcb. }
  destruct (tries s o) as [[[cb clk] names]|] eqn:Ht.
  - assert (cb_of o = Some cb) as E. { destruct o; simpl in *; repeat case_match; naive_solver. }
    destruct (tries_attempt _ _ _ _ _ Ht) as (s0 & wait & Hg & Ha). rewrite Ha. specialize (Hans cb E). rewrite <- Hg in *.
    destruct (check_L L cb clk 0 (groups s0) names HA Hans) as (HA1 & Hk1 & Hc1).
    pose proof (answers_kept _ _ _ _ Hk1 Hans) as Hans1. unfold attempt.
    destruct (check_groups cb clk 0 (groups s0) names) as [gs ok] eqn:Eg. simpl in *.
    assert (∀ o', match o with LDecrement names => h o' - occ o' names | _ => h o' end = h o') as Hnd.
    { intros o'. by destruct o. }
    destruct ok; simpl.
    + destruct (increment_L L cb (length names) gs names HA1 Hans1) as (H1 & _ & H2). split; [done|].
      intros name HL. rewrite H2, HL, Hc1. f_equal. by apply Hh.
    + destruct wait; simpl.
      * destruct (register_L L cb (length names) (nchan s0) gs names HA1 Hans1) as (H1 & _ & H2). split; [done|].
        intros name HL. rewrite H2, Hc1. rewrite Hnd. by apply Hh.
      * split; [done|]. intros name HL. rewrite Hc1, Hnd. by apply Hh.
  - destruct o; simpl in *; try done.
    + (* SetLimit *) destruct Ho as [H1 H2]. destruct (groups s !! name) as [g|] eqn:Hg.
      * assert (dmode (gdat (set_limit g (dlimit d))) = dmode (gdat g)) as Hm.
        { unfold set_limit. by destruct (is_count (gdat g)). }
        split; [by eapply agree_kept_insert|]. intros n HL. rewrite Hh by done. unfold cnt.
        destruct (decide (name = n)) as [<-|]; [|by rewrite lookup_insert_ne].
        rewrite lookup_insert, Hg, Hm. unfold set_limit. by destruct (is_count (gdat g)).
      * split.
        -- intros n g. destruct (decide (name = n)) as [<-|]; [|rewrite lookup_insert_ne by done; apply HA].
           rewrite lookup_insert. intros [= <-]. simpl. destruct (L name); [naive_solver|]. split; [done|]. intros E. by apply H2 in E.
        -- intros n HL. rewrite Hh by done. unfold cnt. destruct (decide (name = n)) as [<-|]; [|by rewrite lookup_insert_ne].
           rewrite lookup_insert, Hg. simpl. destruct (H1 HL) as [-> ->]. done.
    + (* GetLimit *) destruct (vivify (cb 0%nat) (groups s) name) as [gs og] eqn:Hv.
      destruct (vivify_L L cb 0 (groups s) name gs og HA (Hans cb eq_refl) Hv) as (H1 & _ & H2 & _).
      destruct og; simpl; (split; [done|]); intros n HL; rewrite H2; by apply Hh.
    + (* RemoveLimit *) split; [by apply agree_delete|]. intros n HL. rewrite Hh by done. unfold cnt.
      rewrite lookup_delete_ne; [done|]. congruence.
    + (* Wake *) destruct (waiting s !! ch) as [nm|]; [|done]. by destruct (decide (ch ∈ sent s)).
    + (* GiveUp *) by destruct (waiting s !! ch).
    + (* Decrement *) destruct (decrement_L L (groups s) names HA) as [H1 H2].
      { intros m HL. rewrite <- Hh by done. apply Hpo. }
      destruct (decrement_groups (groups s) names) as [gs chs]. simpl in *. split; [done|].
      intros name HL. rewrite H2 by done. rewrite Hh by done. done.
    + (* Lowest *) assert (∀ n gs k, agree L gs → answers L cb gs →
        agree L (lowest_limit cb n gs k names).1 ∧ ∀ m, cnt (lowest_limit cb n gs k names).1 m = cnt gs m) as HH.
      { clear. induction names as [|nm names IH]; intros n gs k HA Hans; cbn [lowest_limit]; [done|].
        destruct (vivify (cb n) gs nm) as [gs' og] eqn:Hv. 
        destruct (vivify_L L cb n gs nm gs' og HA Hans Hv) as (H1 & Hk & H2 & _).
        destruct og.
        - match goal with |- context [lowest_limit cb (S n) gs' ?k' names] => destruct (IH (S n) gs' k' H1 (answers_kept _ _ _ _ Hk Hans)) as [H5 H6] end.
          split; [done|]. intros m. by rewrite H6.
        - match goal with |- context [lowest_limit cb (S n) gs' ?k' names] => destruct (IH (S n) gs' k' H1 (answers_kept _ _ _ _ Hk Hans)) as [H5 H6] end.
          split; [done|]. intros m. by rewrite H6. }
      destruct (HH 0%nat (groups s) (-1) HA (Hans cb eq_refl)) as [H1 H2]. destruct (lowest_limit _ _ _ _ _) as [gs k]. simpl in *.
      split; [done|]. intros name HL. rewrite H2. by apply Hh.
    + (* Capacity *) assert (∀ n gs k, agree L gs → answers L cb gs →
        agree L (lowest_capacity cb clk n gs k names).1 ∧ ∀ m, cnt (lowest_capacity cb clk n gs k names).1 m = cnt gs m) as HH.
      { clear. induction names as [|nm names IH]; intros n gs k HA Hans; cbn [lowest_capacity]; [done|].
        destruct (vivify (cb n) gs nm) as [gs' og] eqn:Hv. 
        destruct (vivify_L L cb n gs nm gs' og HA Hans Hv) as (H1 & Hk & H2 & _).
        destruct og.
        - match goal with |- context [lowest_capacity cb clk (S n) gs' ?k' names] => destruct (IH (S n) gs' k' H1 (answers_kept _ _ _ _ Hk Hans)) as [H5 H6] end.
          split; [done|]. intros m. by rewrite H6.
        - match goal with |- context [lowest_capacity cb clk (S n) gs' ?k' names] => destruct (IH (S n) gs' k' H1 (answers_kept _ _ _ _ Hk Hans)) as [H5 H6] end.
          split; [done|]. intros m. by rewrite H6. }
      destruct (HH 0%nat (groups s) (-1) HA (Hans cb eq_refl)) as [H1 H2]. destruct (lowest_capacity _ _ _ _ _ _) as [gs k]. simpl in *.
      split; [done|]. intros name HL. rewrite H2. by apply Hh.
Qed.
Lemma counts_outstanding L ops s rs : lrun l_new ops = (s, rs) → Forall (constant_groups L) ops → paired ops →
  ∀ name, L name = true → count s name = outstanding ops name.
Proof.
  intros Hr Hc Hp name HL. rewrite count_cnt. change s with (s, rs).1. rewrite <- Hr.
  apply (outstanding_inv L); try done.
Qed.

(** ** C21 *)
Lemma capacity_room c d : dmode d = MCount ∨ ¬ room c d → 0 ≤ capacity c d ∧ (capacity c d = 0 ↔ ¬ room c d).
Proof.
  unfold capacity. intros Hd. destruct (can_increment c d) eqn:E.
  - apply room_can in E. destruct Hd as [Hd|Hd]; [|done]. unfold is_count. rewrite Hd.
    unfold room in E. rewrite Hd in E. split; [lia|]. unfold room. rewrite Hd. lia.
  - split; [done|]. split; [|done]. intros _ H. apply room_can in H. congruence.
Qed.
Lemma lowest_capacity_spec f c cb clk : stable cb f → steady clk c → ∀ names k gs low n,
  (∀ name d, name ∈ names → dat f gs name = Some d → dmode d = MCount ∨ ¬ room c d) → -1 ≤ low →
  (lowest_capacity cb clk k gs low names).2 = n →
  -1 ≤ n ∧ (n = -1 → low = -1 ∧ ∀ name, name ∈ names → dat f gs name = None) ∧
  (low ≠ -1 → 0 ≤ n ≤ low) ∧
  (∀ name d, name ∈ names → dat f gs name = Some d → 0 ≤ n ≤ capacity c d) ∧
  (n = low ∨ ∃ name d, name ∈ names ∧ dat f gs name = Some d ∧ n = capacity c d).
Proof.
  intros Hs Hc. induction names as [|nm names IH]; intros k gs low n Hd Hlow Hn; cbn [lowest_capacity] in Hn.
  { simpl in Hn. subst n. split; [done|]. split; [intros ->; split; [done|]; by intros ? ?%elem_of_nil|].
    split; [lia|]. split; [by intros ? ? ?%elem_of_nil|by left]. }
  rewrite (Hs k), (Hc k) in Hn. pose proof (vivify_dat f gs nm) as Hdat. destruct (vivify f gs nm) as [gs' og] eqn:Hv. simpl in Hdat.
  pose proof (vivify_some_dat _ _ _ _ _ Hv) as Hsd.
  assert (∀ name d, name ∈ names → dat f gs' name = Some d → dmode d = MCount ∨ ¬ room c d) as Hd'.
  { intros name d Hin. rewrite Hdat. apply Hd. by right. }
  destruct og as [g|]; simpl in Hsd.
  - destruct (capacity_room c (gdat g)) as [Hc0 _]. { eapply Hd; [by left|done]. }
    set (low' := if (low =? -1) || (capacity c (gdat g) <? low) then capacity c (gdat g) else low) in Hn.
    assert (0 ≤ low' ∧ low' ≤ capacity c (gdat g) ∧ (low ≠ -1 → low' ≤ low) ∧ (low' = low ∨ low' = capacity c (gdat g))) as (L1 & L2 & L3 & L4).
    { unfold low'. destruct (Z.eqb_spec low (-1)); simpl; [split_and!; try lia; by right|].
      destruct (Z.ltb_spec (capacity c (gdat g)) low); split_and!; try lia; by (left + right). }
    destruct (IH (S k) gs' low' n Hd' ltac:(lia) Hn) as (H1 & H2 & H3 & H4 & H5). specialize (H3 ltac:(lia)). split_and!.
    + lia. + lia. + intros Hl. specialize (L3 Hl). lia.
    + intros name d Hin Hnd. apply elem_of_cons in Hin as [->|Hin]; [simplify_eq; lia|]. apply (H4 name); [done|]. by rewrite Hdat.
    + destruct H5 as [->|(name & d & Hin & Hnd & ->)].
      * destruct L4 as [->| ->]; [by left|right]. exists nm, (gdat g). split_and!; [by left|done|done].
      * right. exists name, d. split_and!; [by right| |done]. by rewrite <- Hdat.
  - destruct (IH (S k) gs' low n Hd' Hlow Hn) as (H1 & H2 & H3 & H4 & H5). split_and!; try done.
    + intros E. destruct (H2 E) as [H6 H7]. split; [done|]. intros name Hin. apply elem_of_cons in Hin as [->|Hin]; [done|].
      rewrite <- Hdat. by apply H7.
    + intros name d Hin Hnd. apply elem_of_cons in Hin as [->|Hin]; [simplify_eq|]. apply (H4 name); [done|]. by rewrite Hdat.
    + destruct H5 as [->|(name & d & Hin & Hnd & ->)]; [by left|right]. exists name, d. split_and!; [by right| |done]. by rewrite <- Hdat.
Qed.
Lemma lowest_capacity_open f c cb clk : stable cb f → steady clk c → ∀ names k gs,
  (∀ name d, name ∈ names → dat f gs name = Some d → dmode d ≠ MCount ∧ room c d) →
  (lowest_capacity cb clk k gs (-1) names).2 = -1.
Proof.
  intros Hs Hc. induction names as [|nm names IH]; intros k gs Hd; cbn [lowest_capacity]; [done|].
  rewrite (Hs k), (Hc k). pose proof (vivify_dat f gs nm) as Hdat. destruct (vivify f gs nm) as [gs' og] eqn:Hv. simpl in Hdat.
  pose proof (vivify_some_dat _ _ _ _ _ Hv) as Hsd.
  assert (∀ name d, name ∈ names → dat f gs' name = Some d → dmode d ≠ MCount ∧ room c d) as Hd'.
  { intros name d Hin. rewrite Hdat. apply Hd. by right. }
  destruct og as [g|]; simpl in Hsd; [|by apply IH].
  destruct (Hd nm (gdat g)) as [H1 H2]; [by left|done|]. apply room_can in H2.
  assert (capacity c (gdat g) = -1) as ->.
  { unfold capacity. rewrite H2. unfold is_count. by destruct (dmode (gdat g)). }
  simpl. by apply IH.
Qed.

Lemma further_S s cb clk names m :
  further s cb clk names (S m) = (attempt s cb clk names false).2 :: further (attempt s cb clk names false).1 cb clk names m.
Proof.
  unfold further. cbn [replicate lrun lstep]. destruct (attempt s cb clk names false) as [s' r]. cbn [fst snd].
  by destruct (lrun s' _) as [s2 rs].
Qed.
Lemma attempt_result s cb clk names : (attempt s cb clk names false).2 = RBool true ∨ (attempt s cb clk names false).2 = RBool false.
Proof. unfold attempt. destruct (check_groups _ _ _ _ _) as [gs []]; simpl; [by left|by right]. Qed.
Lemma further_free f s c cb clk names m : stable cb f → steady clk c →
  (∀ name d, name ∈ names → dat f (groups s) name = Some d → dmode d ≠ MCount ∧ room c d) →
  further s cb clk names m = replicate m (RBool true).
Proof.
  intros Hs Hc. revert s. induction m as [|m IH]; intros s Hd; [done|]. rewrite further_S. simpl.
  destruct (attempt s cb clk names false) as [s' r] eqn:Ha. destruct (attempt_spec _ _ _ _ _ _ _ f Hs Ha) as (H1 & H2 & _).
  assert (r = RBool true) as ->.
  { apply H1. intros i name d Hi Hn. rewrite Hc. eapply Hd; [by eapply elem_of_list_lookup_2|done]. }
  simpl. f_equal. apply IH. intros name d Hin. rewrite H2 by done.
  intros (d0 & Hd0 & ->)%fmap_Some. destruct (Hd name d0 Hin Hd0) as [H3 H4]. rewrite plus_mode. split; [done|].
  replace (plus _ d0) with d0; [done|]. unfold plus. by destruct (dmode d0).
Qed.
Lemma further_exact f s c cb clk names n : stable cb f → steady clk c → NoDup names →
  (∀ name d, name ∈ names → dat f (groups s) name = Some d → dmode d = MCount ∨ ¬ room c d) →
  (∀ name d, name ∈ names → dat f (groups s) name = Some d → Z.of_nat n ≤ capacity c d) →
  (∃ name d, name ∈ names ∧ dat f (groups s) name = Some d ∧ Z.of_nat n = capacity c d) →
  further s cb clk names (S n) = replicate n (RBool true) ++ [RBool false].
Proof.
  intros Hs Hc Hnd. revert s. induction n as [|n IH]; intros s Hd Hle (nm & d0 & Hin0 & Hd0 & Hcap); rewrite further_S;
    destruct (attempt s cb clk names false) as [s' r] eqn:Ha; destruct (attempt_spec _ _ _ _ _ _ _ f Hs Ha) as (H1 & H2 & _); simpl.
  - pose proof (attempt_result s cb clk names) as Hr. rewrite Ha in Hr. simpl in Hr. destruct Hr as [->| ->]; [|done].
    exfalso. destruct H1 as [H1 _]. apply elem_of_list_lookup in Hin0 as Hi. destruct Hi as [i Hi].
    specialize (H1 eq_refl i nm d0 Hi Hd0). rewrite Hc in H1.
    destruct (capacity_room c d0) as [_ Hr]; [by eapply Hd|]. by apply Hr.
  - assert (∀ name d, name ∈ names → dat f (groups s) name = Some d → dmode d = MCount ∧ room c d) as Hroom.
    { intros name d Hin Hn. destruct (capacity_room c d) as [H3 H4]; [by eapply Hd|]. specialize (Hle name d Hin Hn).
      destruct (can_increment c d) eqn:E.
      - apply room_can in E. destruct (Hd name d Hin Hn); [done|done].
      - assert (¬ room c d) as Hno by (intros ?%room_can; congruence). apply H4 in Hno. lia. }
    assert (r = RBool true) as ->.
    { apply H1. intros i name d Hi Hn. rewrite Hc. eapply Hroom; [by eapply elem_of_list_lookup_2|done]. }
    simpl. f_equal. apply IH.
    + intros name d Hin. rewrite H2 by done. intros (d1 & Hd1 & ->)%fmap_Some. rewrite plus_mode. left. by eapply Hroom.
    + intros name d Hin. rewrite H2 by done. intros (d1 & Hd1 & ->)%fmap_Some. specialize (Hle name d1 Hin Hd1).
      destruct (Hroom name d1 Hin Hd1) as [Hm Hr]. assert (occ name names = 1) as -> by (pose proof (occ_nodup name names Hnd); pose proof (occ_in name names Hin); lia).
      unfold capacity in *. apply room_can in Hr. rewrite Hr in Hle. unfold is_count, can_increment, plus in *. rewrite Hm in *. simpl in *.
      destruct (Z.ltb_spec (dcurrent d1 + 1) (dlimit d1)); lia.
    + exists nm, (plus (occ nm names) d0). split_and!; [done|rewrite H2 by done; by rewrite Hd0|].
      destruct (Hroom nm d0 Hin0 Hd0) as [Hm Hr]. assert (occ nm names = 1) as -> by (pose proof (occ_nodup nm names Hnd); pose proof (occ_in nm names Hin0); lia).
      unfold capacity in *. apply room_can in Hr. rewrite Hr in Hcap. unfold is_count, can_increment, plus in *. rewrite Hm in *. simpl in *.
      destruct (Z.ltb_spec (dcurrent d0 + 1) (dlimit d0)); lia.
Qed.
Lemma capacity_exact f c cb clk s names s' n : stable cb f → steady clk c → NoDup names →
  no_open_window f s c names ∨ all_open_windows f s c names →
  lstep s (LCapacity cb clk names) = (s', RInt n) →
  -1 ≤ n ∧ (n = -1 → ∀ m, further s' cb clk names m = replicate m (RBool true)) ∧
  (0 ≤ n → further s' cb clk names (S (Z.to_nat n)) = replicate (Z.to_nat n) (RBool true) ++ [RBool false]).
Proof.
  intros Hs Hc Hnd Hd Hl. simpl in Hl. pose proof (lowest_capacity_dat f cb clk 0 (groups s) (-1) names Hs) as Hdat.
  destruct Hd as [Hd|Hd]; unfold no_open_window, all_open_windows in Hd; setoid_rewrite data_dat in Hd.
  - pose proof (lowest_capacity_spec f c cb clk Hs Hc names 0 (groups s) (-1) _ Hd ltac:(lia) eq_refl) as (H1 & H2 & H3 & H4 & H5).
    destruct (lowest_capacity cb clk 0 (groups s) (-1) names) as [gs n']. simpl in *. injection Hl as <- <-.
    split; [done|]. split.
    + intros E m. destruct (H2 E) as [_ H6]. apply (further_free f _ c); try done. intros name d Hin. simpl. rewrite Hdat, H6; done.
    + intros E. apply (further_exact f _ c); try done; simpl.
      * intros name d Hin. rewrite Hdat. by apply Hd.
      * intros name d Hin. rewrite Hdat. intros Hn. specialize (H4 name d Hin Hn). lia.
      * destruct H5 as [->|(name & d & Hin & Hn & ->)]; [lia|]. exists name, d. split_and!; [done|by rewrite Hdat|lia].
  - pose proof (lowest_capacity_open f c cb clk Hs Hc names 0 (groups s) Hd) as H1.
    destruct (lowest_capacity cb clk 0 (groups s) (-1) names) as [gs n']. simpl in *. injection Hl as <- <-. subst n'.
    split; [lia|]. split; [|lia]. intros _ m. apply (further_free f _ c); try done. intros name d Hin. simpl. rewrite Hdat. by apply Hd.
Qed.

(** ** C47: no lost wake-up *)
Definition watched (gs : gmap string grp) (ch : nat) (names : list string) : Prop :=
  ∃ name g, name ∈ names ∧ gs !! name = Some g ∧ dmode (gdat g) = MCount ∧ ch ∈ gnotify g ∧ dlimit (gdat g) ≤ dcurrent (gdat g).
Record WInv (s : lstate) : Prop := {
  wi_mode : ∀ name g, groups s !! name = Some g → dmode (gdat g) = MCount;
  wi_wait : ∀ ch names, waiting s !! ch = Some names → ch ∈ sent s ∨ watched (groups s) ch names }.
Lemma watched_mono gs gs' ch names :
  (∀ name g, gs !! name = Some g → ∃ g', gs' !! name = Some g' ∧ dmode (gdat g') = dmode (gdat g) ∧
     (∀ c, c ∈ gnotify g → c ∈ gnotify g') ∧
     (dlimit (gdat g) ≤ dcurrent (gdat g) → dlimit (gdat g') ≤ dcurrent (gdat g'))) →
  watched gs ch names → watched gs' ch names.
Proof.
  intros H (name & g & Hin & Hg & Hm & Hch & Hle). destruct (H name g Hg) as (g' & Hg' & Hm' & Hn & Hl).
  exists name, g'. split_and!; try done; [congruence|by apply Hn|by apply Hl].
Qed.
Definition onward (gs gs' : gmap string grp) : Prop :=
  ∀ name g, gs !! name = Some g → ∃ g', gs' !! name = Some g' ∧ dmode (gdat g') = dmode (gdat g) ∧
     (∀ c, c ∈ gnotify g → c ∈ gnotify g') ∧
     (dlimit (gdat g) ≤ dcurrent (gdat g) → dlimit (gdat g') ≤ dcurrent (gdat g')).
Lemma onward_refl gs : onward gs gs. Proof. intros n g Hg. by exists g. Qed.
Lemma onward_trans a b c : onward a b → onward b c → onward a c.
Proof.
  intros H1 H2 n g Hg. destruct (H1 n g Hg) as (g1 & Hg1 & E1 & N1 & L1). destruct (H2 n g1 Hg1) as (g2 & Hg2 & E2 & N2 & L2).
  exists g2. split_and!; try done; [congruence|auto|auto].
Qed.
Lemma grown_onward gs gs' : grown gs gs' → onward gs gs'.
Proof. intros H n g Hg. exists g. split_and!; auto. Qed.
Lemma onward_insert gs name g g' : gs !! name = Some g → dmode (gdat g') = dmode (gdat g) →
  (∀ c, c ∈ gnotify g → c ∈ gnotify g') → (dlimit (gdat g) ≤ dcurrent (gdat g) → dlimit (gdat g') ≤ dcurrent (gdat g')) →
  onward gs (<[name := g']> gs).
Proof.
  intros Hg Hm Hn Hl n g0 Hg0. destruct (decide (name = n)) as [<-|]; [|rewrite lookup_insert_ne by done; by exists g0].
  rewrite lookup_insert. exists g'. simplify_eq. by split_and!.
Qed.
Definition counting (gs : gmap string grp) : Prop := ∀ name g, gs !! name = Some g → dmode (gdat g) = MCount.
Definition counts_cb (cb : callback) : Prop := ∀ n name d, cb n name = Some d → dmode d = MCount ∨ dmode d = MUnknown.
Lemma vivify_counting cb n gs name : counts_cb cb → counting gs → counting (vivify (cb n) gs name).1.
Proof.
  intros Hc Hg. destruct (vivify_cases (cb n) gs name) as [(g0 & _ & ->)|[(d & H0 & Hf & Hd & ->)|(_ & _ & ->)]]; try done.
  simpl. intros m g. destruct (decide (name = m)) as [<-|]; [|rewrite lookup_insert_ne by done; apply Hg].
  rewrite lookup_insert. intros [= <-]. simpl. by destruct (Hc _ _ _ Hf).
Qed.
Lemma insert_counting gs name g : dmode (gdat g) = MCount → counting gs → counting (<[name := g]> gs).
Proof.
  intros Hm Hg n g0. destruct (decide (name = n)) as [<-|]; [|rewrite lookup_insert_ne by done; apply Hg].
  rewrite lookup_insert. by intros [= <-].
Qed.
Lemma check_counting cb clk n gs names : counts_cb cb → counting gs → counting (check_groups cb clk n gs names).1.
Proof.
  intros Hc. revert n gs. induction names as [|nm names IH]; intros n gs Hg; cbn [check_groups]; [done|].
  pose proof (vivify_counting cb n gs nm Hc Hg) as H. destruct (vivify (cb n) gs nm) as [gs' [g|]]; simpl in *; [|by apply IH].
  destruct (can_increment _ _); [by apply IH|done].
Qed.
Lemma check_false cb clk n gs names : (check_groups cb clk n gs names).2 = false →
  ∃ name g i, name ∈ names ∧ (check_groups cb clk n gs names).1 !! name = Some g ∧ can_increment (clk i) (gdat g) = false.
Proof.
  revert n gs. induction names as [|nm names IH]; intros n gs; cbn [check_groups]; [done|].
  destruct (vivify (cb n) gs nm) as [gs' [g|]] eqn:Hv.
  - destruct (can_increment (clk n) (gdat g)) eqn:E.
    + intros H. destruct (IH (S n) gs' H) as (name & g' & i & Hin & Hg & Hi). exists name, g', i. split_and!; try done. by right.
    + intros _. exists nm, g, n. split_and!; [by left| |done]. by eapply vivify_found.
  - intros H. destruct (IH (S n) gs' H) as (name & g' & i & Hin & Hg & Hi). exists name, g', i. split_and!; try done. by right.
Qed.
Lemma increment_onward cb n gs names : counts_cb cb → counting gs →
  onward gs (increment_groups cb n gs names) ∧ counting (increment_groups cb n gs names).
Proof.
  intros Hc. revert n gs. induction names as [|nm names IH]; intros n gs Hg; cbn [increment_groups]; [split; [apply onward_refl|done]|].
  pose proof (vivify_counting cb n gs nm Hc Hg) as H. pose proof (vivify_grown (cb n) gs nm) as Hgr.
  destruct (vivify (cb n) gs nm) as [gs' [g|]] eqn:Hv; simpl in *.
  - apply vivify_found in Hv. pose proof (H _ _ Hv) as Hm. unfold increment. unfold is_count. rewrite Hm.
    destruct (IH (S n) (<[nm := Grp (GData MCount (dlimit (gdat g)) (dcurrent (gdat g) + 1)) (gnotify g)]> gs')) as [H1 H2]; [by apply insert_counting|].
    split; [|done]. eapply onward_trans; [by apply grown_onward|]. eapply onward_trans; [|done].
    eapply onward_insert; [done|by rewrite Hm|done|simpl; lia].
  - destruct (IH (S n) gs' H) as [H1 H2]. split; [|done]. eapply onward_trans; [by apply grown_onward|done].
Qed.
Lemma register_onward cb n ch gs names : counts_cb cb → counting gs →
  onward gs (register_groups cb n ch gs names) ∧ counting (register_groups cb n ch gs names) ∧
  ∀ name g, name ∈ names → gs !! name = Some g → dlimit (gdat g) ≤ dcurrent (gdat g) →
    watched (register_groups cb n ch gs names) ch names.
Proof.
  intros Hc. revert n gs. induction names as [|nm names IH]; intros n gs Hg; cbn [register_groups].
  { split_and!; [apply onward_refl|done|]. by intros ? ? ?%elem_of_nil. }
  pose proof (vivify_counting cb n gs nm Hc Hg) as H. pose proof (vivify_grown (cb n) gs nm) as Hgr.
  assert (∀ gs ch, watched gs ch names → watched gs ch (nm :: names)) as Hw.
  { intros gs0 ch0 (name & g & Hin & Hrest). exists name, g. split; [by right|done]. }
  destruct (vivify (cb n) gs nm) as [gs' [g|]] eqn:Hv; simpl in *.
  - apply vivify_found in Hv. pose proof (H _ _ Hv) as Hm. unfold notify_decrement. unfold is_count. rewrite Hm.
    set (g' := Grp (gdat g) (gnotify g ++ [ch])).
    assert (onward gs' (<[nm := g']> gs')) as Ho. { eapply onward_insert; [done|done|set_solver|done]. }
    destruct (IH (S n) (<[nm := g']> gs')) as (H1 & H2 & H3); [by apply insert_counting|].
    assert (onward gs (register_groups cb (S n) ch (<[nm:=g']> gs') names)) as Ho2.
    { eapply onward_trans; [by apply grown_onward|]. by eapply onward_trans. }
    split_and!; [done|done|]. intros name g0 Hin Hg0 Hle. apply elem_of_cons in Hin as [->|Hin].
    + apply (watched_mono (<[nm:=g']> gs')); [apply H1|]. exists nm, g'. rewrite lookup_insert.
      apply Hgr in Hg0. simplify_eq. split_and!; try done; [by left|simpl; set_solver].
    + apply Hw. destruct (Ho name g0 (Hgr _ _ Hg0)) as (g1 & Hg1 & _ & _ & Hl). apply (H3 name g1); [done|done|by apply Hl].
  - destruct (IH (S n) gs' H) as (H1 & H2 & H3). split_and!; [|done|].
    + eapply onward_trans; [by apply grown_onward|done].
    + intros name g0 Hin Hg0 Hle. apply elem_of_cons in Hin as [->|Hin].
      * apply vivify_none in Hv as (-> & Hno & _). congruence.
      * apply Hw. apply (H3 name g0); [done|by apply Hgr|done].
Qed.
Lemma decrement_watched gs names ch wnames : counting gs →
  (∀ name, is_Some (gs !! name) → occ name names ≤ cnt gs name) → watched gs ch wnames →
  ch ∈ (decrement_groups gs names).2 ∨ watched (decrement_groups gs names).1 ch wnames.
Proof.
  intros Hc Ho (name & g & Hin & Hg & Hm & Hch & Hle). revert gs Hc Ho Hg.
  induction names as [|nm names IH]; intros gs Hc Ho Hg; cbn [decrement_groups]; [right; by exists name, g|].
  assert (∀ m, 0 ≤ occ m names) as Hpos by (intros; apply occ_nonneg).
  destruct (decide (nm = name)) as [->|Hne].
  - rewrite Hg. unfold decrement. assert (is_count (gdat g) = true) as -> by (by apply is_count_true).
    assert (dcurrent (gdat g) ≠ 0) as Hz.
    { specialize (Ho name ltac:(by eexists)). rewrite occ_cons in Ho. unfold cnt in Ho. rewrite Hg in Ho. simpl in Ho. rewrite Hm in Ho.
      specialize (Hpos name). destruct (decide (name = name)); [lia|done]. }
    apply Z.eqb_neq in Hz. rewrite Hz. destruct (decrement_groups _ names) as [gs2 chs2]. simpl. left. set_solver.
  - destruct (gs !! nm) as [g0|] eqn:Hg0.
    + destruct (decrement g0) as [[g0' chs] unused] eqn:Hd. pose proof (Hc _ _ Hg0) as Hm0.
      assert (cnt gs nm = dcurrent (gdat g0)) as Hcn by (unfold cnt; rewrite Hg0; simpl; by rewrite Hm0).
      pose proof (Ho nm ltac:(by eexists)) as Hon. rewrite occ_cons in Hon. destruct (decide (nm = nm)) as [_|]; [|done]. specialize (Hpos nm) as Hp.
      unfold decrement in Hd. assert (is_count (gdat g0) = true) as E by (by apply is_count_true). rewrite E in Hd.
      destruct (Z.eqb_spec (dcurrent (gdat g0)) 0); [lia|]. injection Hd as <- <- <-.
      set (gs1 := if dcurrent (gdat g0) - 1 <? 1 then _ else _).
      destruct (IH gs1) as [H|H].
      * unfold gs1. destruct (dcurrent (gdat g0) - 1 <? 1); [|by apply insert_counting].
        intros m g1 [_ Hg1]%lookup_delete_Some. by apply (Hc m).
      * intros m [g1 Hg1]. unfold gs1 in *. destruct (Z.ltb_spec (dcurrent (gdat g0) - 1) 1).
        -- apply lookup_delete_Some in Hg1 as [Hmne Hg1]. specialize (Ho m ltac:(by eexists)). rewrite occ_cons in Ho.
           unfold cnt in *. rewrite lookup_delete_ne by done. destruct (decide (nm = m)); [done|lia].
        -- destruct (decide (nm = m)) as [<-|Hmne].
           ++ unfold cnt. rewrite lookup_insert. simpl. lia.
           ++ rewrite lookup_insert_ne in Hg1 by done. specialize (Ho m ltac:(by eexists)). rewrite occ_cons in Ho.
              unfold cnt in *. rewrite lookup_insert_ne by done. destruct (decide (nm = m)); [done|lia].
      * unfold gs1. destruct (dcurrent (gdat g0) - 1 <? 1); [by rewrite lookup_delete_ne|by rewrite lookup_insert_ne].
      * destruct (decrement_groups gs1 names) as [gs2 chs2]. simpl in *. left. set_solver.
      * destruct (decrement_groups gs1 names) as [gs2 chs2]. simpl in *. by right.
    + apply IH; try done. intros m Hs. specialize (Ho m Hs). rewrite occ_cons in Ho. destruct (decide (nm = m)) as [->|]; [|lia].
      rewrite Hg0 in Hs. by destruct Hs.
Qed.
Lemma decrement_counting gs names : counting gs → counting (decrement_groups gs names).1.
Proof.
  revert gs. induction names as [|nm names IH]; intros gs Hc; cbn [decrement_groups]; [done|].
  destruct (gs !! nm) as [g|] eqn:Hg; [|by apply IH]. destruct (decrement g) as [[g' chs] unused] eqn:Hd.
  assert (counting (if unused then delete nm gs else <[nm:=g']> gs)) as H.
  { destruct unused; [intros m g1 [_ Hg1]%lookup_delete_Some; by apply (Hc m)|]. apply insert_counting; [|done].
    unfold decrement in Hd. pose proof (Hc _ _ Hg). repeat case_match; by simplify_eq. }
  pose proof (IH _ H). by destruct (decrement_groups _ names).
Qed.

Lemma attempt_winv s cb clk names wait : counts_cb cb → WInv s → WInv (attempt s cb clk names wait).1.
Proof.
  intros Hc [H1 H2]. unfold attempt. pose proof (check_grown cb clk 0 (groups s) names) as Hgr.
  pose proof (check_counting cb clk 0 (groups s) names Hc H1) as Hco.
  pose proof (check_false cb clk 0 (groups s) names) as Hcf.
  destruct (check_groups cb clk 0 (groups s) names) as [gs ok]. simpl in *. destruct ok; [|destruct wait]; simpl.
  - destruct (increment_onward cb (length names) gs names Hc Hco) as [Ho Hc2]. split; simpl; [done|].
    intros ch nms Hw. destruct (H2 ch nms Hw) as [H|H]; [by left|right]. eapply watched_mono; [|done].
    apply (onward_trans _ gs); [by apply grown_onward|done].
  - destruct (register_onward cb (length names) (nchan s) gs names Hc Hco) as (Ho & Hc2 & Hreg). split; simpl; [done|].
    intros ch nms. destruct (decide (nchan s = ch)) as [<-|Hne].
    + rewrite lookup_insert. intros [= <-]. right. destruct (Hcf eq_refl) as (name & g & i & Hin & Hg & Hf).
      apply (Hreg name g); try done. pose proof (Hco _ _ Hg) as Hm. unfold can_increment in Hf. rewrite Hm in Hf. apply Z.ltb_ge in Hf. lia.
    + rewrite lookup_insert_ne by done. intros Hw. destruct (H2 ch nms Hw) as [H|H]; [by left|right]. eapply watched_mono; [|done].
      apply (onward_trans _ gs); [by apply grown_onward|done].
  - split; simpl; [done|]. intros ch nms Hw. destruct (H2 ch nms Hw) as [H|H]; [by left|right]. eapply watched_mono; [|done].
    by apply grown_onward.
Qed.
Lemma winv_forget s ch : WInv s → WInv (s <| waiting ::= delete ch |>).
Proof. intros [H1 H2]. split; simpl; [done|]. intros c nms [_ Hw]%lookup_delete_Some. by apply H2. Qed.
Lemma winv_groups s gs : WInv s → onward (groups s) gs → counting gs → WInv (s <| groups := gs |>).
Proof.
  intros [H1 H2] Ho Hc. split; simpl; [done|]. intros c nms Hw. destruct (H2 c nms Hw) as [H|H]; [by left|right].
  by eapply watched_mono.
Qed.
Lemma winv_step s o : only_decrement_frees s o → WInv s → WInv (lstep s o).1.
Proof.
  intros Ho HI. pose proof HI as [H1 H2]. destruct o; simpl in Ho |- *.
  - (* SetLimit *) destruct Ho as [Hm Hl]. destruct (groups s !! name) as [g|] eqn:Hg.
    + pose proof (H1 _ _ Hg) as Hmg. unfold limit_of in Hl. rewrite Hg in Hl. simpl in Hl.
      rewrite Hmg in Hl. specialize (Hl _ eq_refl).
      match goal with |- WInv ?x => replace x with (s <| groups := <[name := Grp (GData MCount (dlimit d) (dcurrent (gdat g))) (gnotify g)]> (groups s) |>) end.
      2:{ destruct s; simpl in *. unfold set, set_limit, is_count; simpl. by rewrite Hg, Hmg. }
      apply winv_groups; [done| |by apply insert_counting]. eapply onward_insert; [done|by rewrite Hmg|done|simpl; lia].
    + match goal with |- WInv ?x => replace x with (s <| groups := <[name := new_group d]> (groups s) |>) end.
      2:{ destruct s; simpl in *. unfold set; simpl. by rewrite Hg. }
      apply winv_groups; [done| |by apply insert_counting]. apply grown_onward. intros n g Hn. rewrite lookup_insert_ne; [done|congruence].
  - (* GetLimit *) pose proof (vivify_grown (cb 0%nat) (groups s) name) as Hg. pose proof (vivify_counting cb 0 (groups s) name Ho H1) as Hc.
    destruct (vivify (cb 0%nat) (groups s) name) as [gs [g|]]; simpl in *; (apply winv_groups; [done|by apply grown_onward|done]).
  - done.
  - done.
  - by apply attempt_winv.
  - destruct (waiting s !! ch) as [nms|]; [|done]. destruct (decide (ch ∈ sent s)); [|done]. apply attempt_winv; [done|by apply winv_forget].
  - destruct (waiting s !! ch) as [nms|]; [|done]. by apply winv_forget.
  - (* Decrement *) assert (∀ name, is_Some (groups s !! name) → occ name names ≤ cnt (groups s) name) as Ho'.
    { intros name [g Hg]. apply (Ho name (dlimit (gdat g))). unfold limit_of. rewrite Hg. simpl. by rewrite (H1 _ _ Hg). }
    pose proof (decrement_counting (groups s) names H1) as Hc. 
    pose proof (λ ch wn, decrement_watched (groups s) names ch wn H1 Ho') as Hw.
    destruct (decrement_groups (groups s) names) as [gs chs]. simpl in *. split; simpl; [done|].
    intros ch nms Hch. destruct (H2 ch nms Hch) as [H|H]; [left; set_solver|]. destruct (Hw ch nms H) as [H'|H']; [left; set_solver|by right].
  - (* Lowest *) assert (∀ n gs k, counting gs → grown gs (lowest_limit cb n gs k names).1 ∧ counting (lowest_limit cb n gs k names).1) as HH.
    { clear -Ho. induction names as [|nm names IH]; intros n gs k Hc; cbn [lowest_limit]; [split; [by intros ? ?|done]|].
      pose proof (vivify_grown (cb n) gs nm) as Hg. pose proof (vivify_counting cb n gs nm Ho Hc) as Hc2.
      destruct (vivify (cb n) gs nm) as [gs' [g|]]; simpl in *.
      - match goal with |- context [lowest_limit cb (S n) gs' ?k' names] => destruct (IH (S n) gs' k' Hc2) as [H5 H6] end.
        split; [by eapply grown_trans|done].
      - match goal with |- context [lowest_limit cb (S n) gs' ?k' names] => destruct (IH (S n) gs' k' Hc2) as [H5 H6] end.
        split; [by eapply grown_trans|done]. }
    destruct (HH 0%nat (groups s) (-1) H1) as [H3 H4]. destruct (lowest_limit _ _ _ _ _) as [gs k]. simpl in *.
    apply winv_groups; [done|by apply grown_onward|done].
  - (* Capacity *) assert (∀ n gs k, counting gs → grown gs (lowest_capacity cb clk n gs k names).1 ∧ counting (lowest_capacity cb clk n gs k names).1) as HH.
    { clear -Ho. induction names as [|nm names IH]; intros n gs k Hc; cbn [lowest_capacity]; [split; [by intros ? ?|done]|].
      pose proof (vivify_grown (cb n) gs nm) as Hg. pose proof (vivify_counting cb n gs nm Ho Hc) as Hc2.
      destruct (vivify (cb n) gs nm) as [gs' [g|]]; simpl in *.
      - match goal with |- context [lowest_capacity cb clk (S n) gs' ?k' names] => destruct (IH (S n) gs' k' Hc2) as [H5 H6] end.
        split; [by eapply grown_trans|done].
      - match goal with |- context [lowest_capacity cb clk (S n) gs' ?k' names] => destruct (IH (S n) gs' k' Hc2) as [H5 H6] end.
        split; [by eapply grown_trans|done]. }
    destruct (HH 0%nat (groups s) (-1) H1) as [H3 H4]. destruct (lowest_capacity _ _ _ _ _ _) as [gs k]. simpl in *.
    apply winv_groups; [done|by apply grown_onward|done].
Qed.
Lemma never_overlooked ops s rs ch names : lrun l_new ops = (s, rs) → lalways only_decrement_frees l_new ops →
  waiting s !! ch = Some names → ch ∉ sent s →
  ∃ name l, name ∈ names ∧ limit_of s name = Some l ∧ l ≤ count s name.
Proof.
  intros Hr Ha Hw Hs. assert (WInv s) as [H1 H2].
  { change s with (s, rs).1. rewrite <- Hr. assert (WInv l_new) as HI by (split; [by intros ? ? ?|by intros ? ? ?]).
    revert HI Ha. clear. generalize l_new. induction ops as [|o ops IH]; intros s HI Ha; [done|]. rewrite lrun_cons.
    destruct Ha as [Ho Ha]. apply IH; [|done]. by apply winv_step. }
  destruct (H2 ch names Hw) as [H|(name & g & Hin & Hg & Hm & Hch & Hle)]; [done|].
  exists name, (dlimit (gdat g)). unfold limit_of, count. rewrite Hg. simpl. rewrite Hm. by split_and!.
Qed.
