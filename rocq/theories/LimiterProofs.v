(** Proofs about the limiter model. *)
From Coq Require Import ZArith Lia.
From stdpp Require Import base option strings gmap list.
From RecordUpdate Require Import RecordSet.
From Verif Require Import LimiterModel LimiterSpec.
Import RecordSetNotations.
Open Scope Z_scope.

Definition cnt (gs : gmap string grp) (name : string) : Z :=
  match gs !! name with
  | Some g => match dmode (gdat g) with MCount => dcurrent (gdat g) | _ => 0 end
  | None => 0
  end.
Definition lim (gs : gmap string grp) (name : string) : option Z :=
  match gs !! name with
  | Some g => match dmode (gdat g) with MCount => Some (dlimit (gdat g)) | _ => None end
  | None => None
  end.
Definition dat (f : string → option gdata) (gs : gmap string grp) (name : string) : option gdata :=
  match gs !! name with
  | Some g => Some (gdat g)
  | None => match f name with
            | Some d => match dmode d with MUnknown => None | _ => Some d end
            | None => None
            end
  end.
Lemma count_cnt s name : count s name = cnt (groups s) name. Proof. done. Qed.

Lemma occ_nil name : occ name [] = 0. Proof. done. Qed.
Lemma occ_cons name n names : occ name (n :: names) = (if decide (n = name) then 1 else 0) + occ name names.
Proof. unfold occ. rewrite filter_cons. destruct (decide (n = name)); simpl; lia. Qed.
Lemma occ_nonneg name names : 0 ≤ occ name names. Proof. unfold occ. lia. Qed.
Lemma occ_not_in name names : name ∉ names → occ name names = 0.
Proof.
  induction names as [|n names IH]; [done|]. intros [H1 H2]%not_elem_of_cons. rewrite occ_cons, (IH H2).
  by destruct (decide (n = name)).
Qed.
Lemma occ_nodup name names : NoDup names → occ name names ≤ 1.
Proof.
  induction names as [|n names IH]; [done|]. intros [H1 H2]%NoDup_cons. rewrite occ_cons. specialize (IH H2).
  destruct (decide (n = name)) as [->|]; [|lia]. rewrite (occ_not_in name names); [lia|done].
Qed.
Lemma occ_in name names : name ∈ names → 1 ≤ occ name names.
Proof.
  induction names as [|n names IH]; [by intros ?%elem_of_nil|]. rewrite occ_cons. pose proof (occ_nonneg name names).
  intros [->|H1]%elem_of_cons; [destruct (decide (n = n)); [lia|done]|]. specialize (IH H1). destruct (decide _); lia.
Qed.

(** ** vivify *)
Lemma vivify_cases f gs name :
  (∃ g, gs !! name = Some g ∧ vivify f gs name = (gs, Some g)) ∨
  (∃ d, gs !! name = None ∧ f name = Some d ∧ dmode d ≠ MUnknown ∧
        vivify f gs name = (<[name := new_group d]> gs, Some (new_group d))) ∨
  (gs !! name = None ∧ (∀ d, f name = Some d → dmode d = MUnknown) ∧ vivify f gs name = (gs, None)).
Proof.
  unfold vivify. destruct (gs !! name) as [g|] eqn:Hg; [by left; exists g|right].
  destruct (f name) as [d|]; [|right; split_and!; done].
  simpl. destruct (dmode d) eqn:Hd; try (left; exists d; split_and!; congruence).
  right. split_and!; try done. by intros d' [= <-].
Qed.

(** growing by vivification keeps what is there *)
Definition grown (gs gs' : gmap string grp) : Prop := ∀ n g, gs !! n = Some g → gs' !! n = Some g.
Lemma vivify_grown f gs name : grown gs (vivify f gs name).1.
Proof.
  intros n g Hn. destruct (vivify_cases f gs name) as [(g0 & _ & ->)|[(d & H0 & _ & _ & ->)|(_ & _ & ->)]]; try done.
  simpl. rewrite lookup_insert_ne; [done|congruence].
Qed.
Lemma vivify_found f gs name gs' g : vivify f gs name = (gs', Some g) → gs' !! name = Some g.
Proof.
  destruct (vivify_cases f gs name) as [(g0 & Hg & ->)|[(d & H0 & _ & _ & ->)|(_ & _ & ->)]]; intros [= <- <-]; [done|].
  apply lookup_insert.
Qed.
Lemma vivify_none f gs name gs' : vivify f gs name = (gs', None) → gs' = gs ∧ gs !! name = None ∧ ∀ d, f name = Some d → dmode d = MUnknown.
Proof. by destruct (vivify_cases f gs name) as [(g0 & Hg & ->)|[(d & H0 & _ & _ & ->)|(? & ? & ->)]]; intros [= <-]. Qed.
Lemma vivify_dat f gs name : ∀ n, dat f (vivify f gs name).1 n = dat f gs n.
Proof.
  intros n. destruct (vivify_cases f gs name) as [(g0 & _ & ->)|[(d & H0 & Hf & Hd & ->)|(_ & _ & ->)]]; try done.
  simpl. unfold dat. destruct (decide (name = n)) as [<-|Hne]; [|by rewrite lookup_insert_ne].
  rewrite lookup_insert, H0, Hf. simpl. by destruct (dmode d).
Qed.
Lemma vivify_some_dat f gs name gs' og : vivify f gs name = (gs', og) → dat f gs name = gdat <$> og.
Proof.
  destruct (vivify_cases f gs name) as [(g0 & Hg & ->)|[(d & H0 & Hf & Hd & ->)|(H0 & Hf & ->)]]; intros [= <- <-]; unfold dat.
  - by rewrite Hg.
  - rewrite H0, Hf. by destruct (dmode d).
  - rewrite H0. destruct (f name) as [d|]; [|done]. by rewrite (Hf d).
Qed.
Lemma vivify_cnt f gs name : fresh f → ∀ n, cnt (vivify f gs name).1 n = cnt gs n.
Proof.
  intros Hf n. destruct (vivify_cases f gs name) as [(g0 & _ & ->)|[(d & H0 & Hd & _ & ->)|(_ & _ & ->)]]; try done.
  simpl. unfold cnt. destruct (decide (name = n)) as [<-|Hne]; [|by rewrite lookup_insert_ne].
  rewrite lookup_insert, H0. simpl. destruct (dmode d) eqn:E; try done. by eapply Hf.
Qed.

Lemma room_can c d : can_increment c d = true ↔ room c d.
Proof.
  unfold can_increment, room. destruct (dmode d); rewrite ?Z.ltb_lt, ?andb_true_iff, ?Z.ltb_lt; try done; try lia.
  destruct (Z.ltb_spec (dlimit d) (dcurrent d)); rewrite andb_true_iff, !Z.ltb_lt; lia.
Qed.

(** ** checkGroups *)
Lemma grown_trans a b c : grown a b → grown b c → grown a c.
Proof. intros H1 H2 n g Hn. by apply H2, H1. Qed.
Lemma check_grown cb clk n gs names : grown gs (check_groups cb clk n gs names).1.
Proof.
  revert n gs. induction names as [|name names IH]; intros n gs; simpl; [by intros ? ?|].
  pose proof (vivify_grown (cb n) gs name) as Hg. destruct (vivify (cb n) gs name) as [gs' [g|]]; simpl in *.
  - destruct (can_increment _ _); [|done]. eapply grown_trans; [done|apply IH].
  - eapply grown_trans; [done|apply IH].
Qed.
Lemma check_cnt cb clk n gs names : (∀ i, fresh (cb i)) → ∀ m, cnt (check_groups cb clk n gs names).1 m = cnt gs m.
Proof.
  intros Hf. revert n gs. induction names as [|name names IH]; intros n gs m; simpl; [done|].
  pose proof (vivify_cnt (cb n) gs name (Hf n) m) as Hg. destruct (vivify (cb n) gs name) as [gs' [g|]]; simpl in *.
  - destruct (can_increment _ _); [|done]. by rewrite IH.
  - by rewrite IH.
Qed.
Lemma check_dat f cb clk n gs names : stable cb f → ∀ m, dat f (check_groups cb clk n gs names).1 m = dat f gs m.
Proof.
  intros Hf. revert n gs. induction names as [|name names IH]; intros n gs m; simpl; [done|]. rewrite (Hf n).
  pose proof (vivify_dat f gs name m) as Hg. destruct (vivify f gs name) as [gs' [g|]]; simpl in *.
  - destruct (can_increment _ _); [|done]. by rewrite IH.
  - by rewrite IH.
Qed.
Lemma check_iff f cb clk n gs names : stable cb f →
  (check_groups cb clk n gs names).2 = true ↔
  ∀ i name d, names !! i = Some name → dat f gs name = Some d → room (clk (n + i)%nat) d.
Proof.
  intros Hf. revert n gs. induction names as [|name names IH]; intros n gs; simpl; [by split; [intros _ []|]|]. rewrite (Hf n).
  pose proof (vivify_dat f gs name) as Hdat. destruct (vivify f gs name) as [gs' og] eqn:Hv. simpl in Hdat.
  pose proof (vivify_some_dat _ _ _ _ _ Hv) as Hd. 
  assert ((check_groups cb clk (S n) gs' names).2 = true ↔
    ∀ i name d, names !! i = Some name → dat f gs name = Some d → room (clk (n + S i)%nat) d) as IH'.
  { rewrite IH. split; intros H i n' d Hi; [rewrite <- Hdat|rewrite Hdat]; intros Hn; specialize (H i n' d Hi Hn).
    - by rewrite <- plus_n_Sm. - by rewrite <- plus_n_Sm in H. }
  destruct og as [g|]; simpl in Hd.
  - destruct (can_increment (clk n) (gdat g)) eqn:Hc.
    + apply room_can in Hc. rewrite IH'. split.
      * intros H [|i] n' d Hi Hn; [|by apply (H i n')]. injection Hi as ->. rewrite Nat.add_0_r. by simplify_eq.
      * intros H i n' d Hi Hn. by apply (H (S i) n').
    + split; [done|]. intros H. specialize (H 0%nat name (gdat g) eq_refl Hd). rewrite Nat.add_0_r in H.
      apply room_can in H. congruence.
  - rewrite IH'. split.
    + intros H [|i] n' d Hi Hn; [|by apply (H i n')]. simpl in *. simplify_eq.
    + intros H i n' d Hi Hn. by apply (H (S i) n').
Qed.
(** passing the check vivifies every limited group *)
Lemma check_present f cb clk n gs names : stable cb f → (check_groups cb clk n gs names).2 = true →
  ∀ name, name ∈ names → (check_groups cb clk n gs names).1 !! name = None → dat f gs name = None.
Proof.
  intros Hf. revert n gs. induction names as [|name names IH]; intros n gs; simpl; [by intros _ ? ?%elem_of_nil|]. rewrite (Hf n).
  pose proof (vivify_dat f gs name) as Hdat. destruct (vivify f gs name) as [gs' og] eqn:Hv. simpl in Hdat.
  pose proof (vivify_some_dat _ _ _ _ _ Hv) as Hd. intros Hok name' Hin Hno.
  destruct og as [g|].
  - destruct (can_increment (clk n) (gdat g)) eqn:Hc; [|done]. apply elem_of_cons in Hin as [->|Hin].
    + apply vivify_found in Hv. apply (check_grown cb clk (S n) gs' names) in Hv. congruence.
    + rewrite <- Hdat. by apply (IH (S n)).
  - apply elem_of_cons in Hin as [->|Hin]; [done|]. rewrite <- Hdat. by apply (IH (S n)).
Qed.

(** ** Count groups known by a predicate *)
Definition agree (L : string → bool) (gs : gmap string grp) : Prop :=
  ∀ name g, gs !! name = Some g → (L name = true ↔ dmode (gdat g) = MCount).
Definition answers (L : string → bool) (cb : callback) (gs : gmap string grp) : Prop :=
  ∀ n name, gs !! name = None →
    (L name = true → ∃ l, cb n name = Some (GData MCount l 0)) ∧
    (L name = false → ∀ d, cb n name = Some d → dmode d ≠ MCount).
(** presence and modes kept *)
Definition kept (gs gs' : gmap string grp) : Prop :=
  ∀ n g, gs !! n = Some g → ∃ g', gs' !! n = Some g' ∧ dmode (gdat g') = dmode (gdat g).
Lemma answers_kept L cb gs gs' : kept gs gs' → answers L cb gs → answers L cb gs'.
Proof.
  intros Hk Ha n name Hn. apply Ha. destruct (gs !! name) as [g|] eqn:Hg; [|done].
  apply Hk in Hg as (g' & Hg & _). congruence.
Qed.
Lemma grown_kept gs gs' : grown gs gs' → kept gs gs'.
Proof. intros H n g Hg. exists g. split; [by apply H|done]. Qed.
Lemma kept_refl gs : kept gs gs. Proof. intros n g Hg. by exists g. Qed.
Lemma kept_trans a b c : kept a b → kept b c → kept a c.
Proof. intros H1 H2 n g Hg. apply H1 in Hg as (g1 & Hg1 & E1). apply H2 in Hg1 as (g2 & Hg2 & E2). exists g2. split; [done|congruence]. Qed.
Lemma kept_insert gs name g g' : gs !! name = Some g → dmode (gdat g') = dmode (gdat g) → kept gs (<[name := g']> gs).
Proof.
  intros Hg Hd n g0 Hn. destruct (decide (name = n)) as [<-|]; [|rewrite lookup_insert_ne by done; eauto].
  rewrite lookup_insert. exists g'. split; [done|congruence].
Qed.

Lemma vivify_agree L cb n gs name : agree L gs → answers L cb gs → agree L (vivify (cb n) gs name).1.
Proof.
  intros HA Hc. destruct (vivify_cases (cb n) gs name) as [(g0 & _ & ->)|[(d & H0 & Hf & Hd & ->)|(_ & _ & ->)]]; try done.
  simpl. intros m g. destruct (decide (name = m)) as [<-|]; [|rewrite lookup_insert_ne by done; apply HA].
  rewrite lookup_insert. intros [= <-]. simpl. destruct (Hc n name H0) as [H1 H2]. split.
  - intros HL. destruct (H1 HL) as [l Hl]. rewrite Hf in Hl. by injection Hl as ->.
  - intros Hm. destruct (L name) eqn:HL; [done|]. by apply (H2 eq_refl) in Hf.
Qed.
Lemma agree_kept_insert L gs name g g' : agree L gs → gs !! name = Some g → dmode (gdat g') = dmode (gdat g) →
  agree L (<[name := g']> gs).
Proof.
  intros HA Hg Hd n g0. destruct (decide (name = n)) as [<-|]; [|rewrite lookup_insert_ne by done; apply HA].
  rewrite lookup_insert. intros [= <-]. rewrite Hd. by apply HA.
Qed.
Lemma agree_delete L gs name : agree L gs → agree L (delete name gs).
Proof. intros HA n g [_ Hg]%lookup_delete_Some. by apply HA. Qed.
Lemma is_count_true d : is_count d = true ↔ dmode d = MCount.
Proof. unfold is_count. by destruct (dmode d). Qed.
Lemma increment_mode g : dmode (gdat (increment g)) = dmode (gdat g).
Proof. unfold increment. destruct (is_count (gdat g)) eqn:E; [|done]. by apply is_count_true in E. Qed.

(** the vivified group of a name in [L] *)
Lemma vivify_L L cb n gs name gs' og : agree L gs → answers L cb gs → vivify (cb n) gs name = (gs', og) →
  agree L gs' ∧ kept gs gs' ∧ (∀ m, cnt gs' m = cnt gs m) ∧
  (L name = true → ∃ g, og = Some g ∧ dmode (gdat g) = MCount) ∧
  (∀ g, og = Some g → gs' !! name = Some g).
Proof.
  intros HA Hc Hv. split_and!.
  - pose proof (vivify_agree L cb n gs name HA Hc) as H. by rewrite Hv in H.
  - pose proof (vivify_grown (cb n) gs name) as H. rewrite Hv in H. by apply grown_kept.
  - intros m. destruct (vivify_cases (cb n) gs name) as [(g0 & H0 & E)|[(d & H0 & Hf & Hd & E)|(_ & _ & E)]];
      rewrite E in Hv; injection Hv as <- <-; try done.
    unfold cnt. destruct (decide (name = m)) as [<-|Hne]; [|by rewrite lookup_insert_ne].
    rewrite lookup_insert, H0. simpl. destruct (dmode d) eqn:Em; try done.
    destruct (Hc n name H0) as [H1 H2]. destruct (L name); [|by apply (H2 eq_refl) in Hf].
    destruct (H1 eq_refl) as [l Hl]. rewrite Hf in Hl. by injection Hl as ->.
  - intros HL. destruct (vivify_cases (cb n) gs name) as [(g0 & H0 & E)|[(d & H0 & Hf & Hd & E)|(H0 & Hf & E)]];
      rewrite E in Hv; injection Hv as <- <-.
    + exists g0. split; [done|]. by apply (HA _ _ H0).
    + exists (new_group d). split; [done|]. destruct (Hc n name H0) as [H1 _]. destruct (H1 HL) as [l Hl].
      rewrite Hf in Hl. by injection Hl as ->.
    + destruct (Hc n name H0) as [H1 _]. destruct (H1 HL) as [l Hl]. apply Hf in Hl. done.
  - intros g ->. by eapply vivify_found.
Qed.

Lemma check_L L cb clk n gs names : agree L gs → answers L cb gs →
  agree L (check_groups cb clk n gs names).1 ∧ kept gs (check_groups cb clk n gs names).1 ∧
  ∀ m, cnt (check_groups cb clk n gs names).1 m = cnt gs m.
Proof.
  revert n gs. induction names as [|name names IH]; intros n gs HA Hc; simpl; [split_and!; [done|apply kept_refl|done]|].
  destruct (vivify (cb n) gs name) as [gs' og] eqn:Hv.
  destruct (vivify_L L cb n gs name gs' og HA Hc Hv) as (HA' & Hk & Hcnt & _ & _).
  destruct (IH (S n) gs' HA' (answers_kept _ _ _ _ Hk Hc)) as (H1 & H2 & H3).
  assert (kept gs (check_groups cb clk (S n) gs' names).1) by (by eapply kept_trans).
  assert (∀ m, cnt (check_groups cb clk (S n) gs' names).1 m = cnt gs m) by (intros m; by rewrite H3).
  destruct og as [g|]; [destruct (can_increment _ _)|]; done.
Qed.
Lemma register_L L cb n ch gs names : agree L gs → answers L cb gs →
  agree L (register_groups cb n ch gs names) ∧ kept gs (register_groups cb n ch gs names) ∧
  ∀ m, cnt (register_groups cb n ch gs names) m = cnt gs m.
Proof.
  revert n gs. induction names as [|name names IH]; intros n gs HA Hc; simpl; [split_and!; [done|apply kept_refl|done]|].
  destruct (vivify (cb n) gs name) as [gs' og] eqn:Hv.
  destruct (vivify_L L cb n gs name gs' og HA Hc Hv) as (HA' & Hk & Hcnt & _ & Hg).
  destruct og as [g|].
  - specialize (Hg g eq_refl). assert (dmode (gdat (notify_decrement ch g)) = dmode (gdat g)) as Hm.
    { unfold notify_decrement. by destruct (is_count (gdat g)). }
    pose proof (agree_kept_insert L gs' name g _ HA' Hg Hm) as HA2.
    pose proof (kept_insert gs' name g _ Hg Hm) as Hk2.
    destruct (IH (S n) _ HA2 (answers_kept _ _ _ _ (kept_trans _ _ _ Hk Hk2) Hc)) as (H1 & H2 & H3). split_and!; try done.
    + eapply kept_trans; [|done]. by eapply kept_trans.
    + intros m. rewrite H3, <- Hcnt. unfold cnt. destruct (decide (name = m)) as [<-|]; [|by rewrite lookup_insert_ne].
      rewrite lookup_insert, Hg, Hm. unfold notify_decrement. by destruct (is_count (gdat g)).
  - destruct (IH (S n) gs' HA' (answers_kept _ _ _ _ Hk Hc)) as (H1 & H2 & H3). split_and!; try done.
    + by eapply kept_trans. + intros m. by rewrite H3.
Qed.
Lemma increment_L L cb n gs names : agree L gs → answers L cb gs →
  agree L (increment_groups cb n gs names) ∧ kept gs (increment_groups cb n gs names) ∧
  ∀ m, cnt (increment_groups cb n gs names) m = cnt gs m + (if L m then occ m names else 0).
Proof.
  revert n gs. induction names as [|name names IH]; intros n gs HA Hc; cbn [increment_groups].
  { split_and!; [done|apply kept_refl|]. intros m. rewrite occ_nil. destruct (L m); lia. }
  destruct (vivify (cb n) gs name) as [gs' og] eqn:Hv.
  destruct (vivify_L L cb n gs name gs' og HA Hc Hv) as (HA' & Hk & Hcnt & HL & Hg).
  destruct og as [g|].
  - specialize (Hg g eq_refl). pose proof (increment_mode g) as Hm.
    pose proof (agree_kept_insert L gs' name g _ HA' Hg Hm) as HA2.
    pose proof (kept_insert gs' name g _ Hg Hm) as Hk2.
    destruct (IH (S n) _ HA2 (answers_kept _ _ _ _ (kept_trans _ _ _ Hk Hk2) Hc)) as (H1 & H2 & H3). split_and!; try done.
    + eapply kept_trans; [|done]. by eapply kept_trans.
    + intros m. rewrite H3, <- (Hcnt m), occ_cons. unfold cnt. destruct (decide (name = m)) as [<-|].
      * rewrite lookup_insert, Hg, Hm. pose proof (HA' _ _ Hg) as Ha. unfold increment.
        destruct (is_count (gdat g)) eqn:Ec.
        -- apply is_count_true in Ec. rewrite Ec. simpl. assert (L name = true) as -> by naive_solver. lia.
        -- assert (dmode (gdat g) ≠ MCount) as Ec2 by (intros ?%is_count_true; congruence).
           destruct (L name) eqn:E; [naive_solver|]. destruct (dmode (gdat g)); lia.
      * rewrite lookup_insert_ne by done. destruct (L m); lia.
  - destruct (IH (S n) gs' HA' (answers_kept _ _ _ _ Hk Hc)) as (H1 & H2 & H3). split_and!; try done.
    + by eapply kept_trans.
    + intros m. rewrite H3, Hcnt, occ_cons. destruct (L m) eqn:E; [|lia]. destruct (decide (name = m)) as [->|]; [|lia].
      destruct (HL E) as (g & ? & _). done.
Qed.
Lemma decrement_L L gs names : agree L gs → (∀ m, L m = true → occ m names ≤ cnt gs m) →
  agree L (decrement_groups gs names).1 ∧
  ∀ m, L m = true → cnt (decrement_groups gs names).1 m = cnt gs m - occ m names.
Proof.
  revert gs. induction names as [|name names IH]; intros gs HA Ho; cbn [decrement_groups].
  { split; [done|]. intros m _. rewrite occ_nil. simpl. lia. }
  destruct (gs !! name) as [g|] eqn:Hg.
  - pose proof (HA _ _ Hg) as Ha. unfold decrement. destruct (is_count (gdat g)) eqn:Ec.
    + apply is_count_true in Ec. assert (L name = true) as HL by naive_solver.
      assert (cnt gs name = dcurrent (gdat g)) as Hcn by (unfold cnt; by rewrite Hg, Ec).
      pose proof (Ho name HL) as Hn. rewrite occ_cons in Hn. destruct (decide (name = name)) as [_|]; [|done].
      pose proof (occ_nonneg name names). destruct (Z.eqb_spec (dcurrent (gdat g)) 0) as [E|E]; [lia|].
      set (g' := Grp _ _). 
      assert (∀ gs1, gs1 = (if dcurrent (gdat g) - 1 <? 1 then delete name gs else <[name:=g']> gs) →
        agree L gs1 ∧ ∀ m, cnt gs1 m = cnt gs m - if decide (name = m) then 1 else 0) as Hgs1.
      { intros gs1 ->. destruct (Z.ltb_spec (dcurrent (gdat g) - 1) 1) as [Hlt|Hlt].
        - split; [by apply agree_delete|]. intros m. destruct (decide (name = m)) as [<-|Hne].
          + unfold cnt at 1. rewrite lookup_delete. lia.
          + unfold cnt. rewrite lookup_delete_ne by done. lia.
        - split; [eapply agree_kept_insert; [done|done|by simpl]|]. intros m. destruct (decide (name = m)) as [<-|Hne].
          + unfold cnt at 1. rewrite lookup_insert. simpl. lia.
          + unfold cnt. rewrite lookup_insert_ne by done. lia. }
      destruct (Hgs1 _ eq_refl) as [HA1 Hc1]. 
      destruct (IH _ HA1) as [H1 H2].
      { intros m Hm. rewrite Hc1. specialize (Ho m Hm). rewrite occ_cons in Ho. destruct (decide (name = m)); lia. }
      destruct (decrement_groups _ names) as [gs2 chs2]. simpl in *. split; [done|].
      intros m Hm. rewrite H2, Hc1, occ_cons by done. lia.
    + assert (L name = false) as HL.
      { destruct (L name) eqn:E; [|done]. destruct Ha as [Ha _]. apply is_count_true in Ha; [congruence|done]. }
      rewrite insert_id by done. destruct (IH gs HA) as [H1 H2].
      { intros m Hm. specialize (Ho m Hm). rewrite occ_cons in Ho. destruct (decide (name = m)); [|lia]. congruence. }
      destruct (decrement_groups gs names) as [gs2 chs2]. simpl in *. split; [done|].
      intros m Hm. rewrite H2, occ_cons by done. destruct (decide (name = m)); [congruence|lia].
  - destruct (IH gs HA) as [H1 H2].
    { intros m Hm. specialize (Ho m Hm). rewrite occ_cons in Ho. destruct (decide (name = m)); lia. }
    split; [done|]. intros m Hm. rewrite H2, occ_cons by done. destruct (decide (name = m)) as [->|]; [|lia].
    specialize (Ho m Hm). rewrite occ_cons in Ho. unfold cnt in Ho. rewrite Hg in Ho. pose proof (occ_nonneg m names).
    destruct (decide (m = m)); [lia|done].
Qed.
