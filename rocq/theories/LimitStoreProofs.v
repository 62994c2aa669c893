(** Proofs about the limits that the server keeps: what is in force. *)
From Coq Require Import ZArith Lia String Ascii.
From stdpp Require Import base option strings gmap list.
From RecordUpdate Require Import RecordSet.
From Verif Require Import LimiterModel LimiterSpec LimiterProofs LimiterProofs2 LimitNameModel LimitNameSpec LimitNameProofs
  LimitStoreModel LimitStoreSpec.
Import RecordSetNotations.
Open Scope Z_scope.

(** ** Names *)
Lemma free_app_inv p q : colon_free (p +:+ q) → colon_free p ∧ colon_free q.
Proof. induction p as [|a p IH]; cbn [String.append colon_free]; [done|]. intros [? [? ?]%IH]. done. Qed.
Lemma free_colon q : ¬ colon_free (":" +:+ q).
Proof. cbn. by intros [? _]. Qed.
Lemma tod_not_free t : ¬ colon_free (tod_str t).
Proof. unfold tod_str. intros [_ H]%free_app_inv. by apply free_colon in H. Qed.
Lemma date_not_free x t : ¬ colon_free (date_str x t).
Proof. unfold date_str. intros H. do 7 (apply free_app_inv in H as [_ H]). by apply tod_not_free in H. Qed.
Lemma free_spells local g n d : colon_free g → ¬ spells local g n d.
Proof.
  intros Hf Hs. destruct Hs as [n q v _ _ _|n q v _ _ _|a b t _|a b t _|a b c e t u _ _|a b x t _ _|a b x t _ _|a b c e x t x' t' _ _ _ _].
  - apply free_app_inv in Hf as [_ Hf]. by apply free_colon in Hf.
  - apply free_app_inv in Hf as [_ Hf]. by apply free_colon in Hf.
  - do 2 (apply free_app_inv in Hf as [_ Hf]). by apply tod_not_free in Hf.
  - apply free_app_inv in Hf as [Hf _]. by apply tod_not_free in Hf.
  - apply free_app_inv in Hf as [Hf _]. by apply tod_not_free in Hf.
  - do 2 (apply free_app_inv in Hf as [_ Hf]). by apply date_not_free in Hf.
  - apply free_app_inv in Hf as [Hf _]. by apply date_not_free in Hf.
  - apply free_app_inv in Hf as [Hf _]. by apply date_not_free in Hf.
Qed.
Lemma free_name local g : colon_free g → name_to_group local g = (g, None).
Proof. intros H. apply (proj2 (names_spell local g)). intros n d. by apply free_spells. Qed.
(** what is parsed is spelled *)
Lemma name_spells local s n d : name_to_group local s = (n, Some d) → spells local s n d.
Proof.
  unfold name_to_group.
  destruct (before_time_parse s) eqn:E1; [intros [= <- <-]; apply before_time_iff in E1 as (a & b & t & Ht & -> & ->); apply (sp_before local a b t); assumption|].
  destruct (after_time_parse s) eqn:E2; [intros [= <- <-]; apply after_time_iff in E2 as (a & b & t & Ht & -> & ->); apply (sp_after local a b t); assumption|].
  destruct (between_times_parse s) eqn:E3; [intros [= <- <-]; apply between_times_iff in E3 as (a & b & c & e & t & u & Ht & Hu & -> & ->); apply (sp_between local a b c e t u); assumption|].
  destruct (before_datetime_parse local s) eqn:E4; [intros [= <- <-]; apply before_datetime_iff in E4 as (a & b & x & t & Hx & Ht & -> & ->); apply (sp_dbefore local a b x t); assumption|].
  destruct (after_datetime_parse local s) eqn:E5; [intros [= <- <-]; apply after_datetime_iff in E5 as (a & b & x & t & Hx & Ht & -> & ->); apply (sp_dafter local a b x t); assumption|].
  destruct (between_datetimes_parse local s) eqn:E6; [intros [= <- <-]; apply between_datetimes_iff in E6 as (a & b & c & e & x & t & x' & t' & Hx & Ht & Hx' & Ht' & -> & ->); apply (sp_dbetween local a b c e x t x' t'); assumption|].
  destruct (count_parse s) as [[n' d']|] eqn:E7; [intros [= <- <-]|done].
  apply count_iff in E7 as (q & v & Hp & -> & Hi & Hr & ->). unfold new_count. destruct (Z.ltb_spec v 0).
  - apply (sp_none local n' q v); [done|done|lia].
  - apply sp_count; [done|done|lia].
Qed.
Lemma name_iff local s n d : name_to_group local s = (n, Some d) ↔ spells local s n d.
Proof. split; [apply name_spells|apply (proj1 (names_spell local s))]. Qed.
(** what is spelled of a plain name *)
Lemma spells_free local s n d : colon_free n → spells local s n d → (∃ v, 0 ≤ v ∧ d = GData MCount v 0) ∨ d = GData MUnknown 0 0.
Proof.
  intros Hf Hs. pose proof Hs as Hs'.
  destruct Hs as [n q v Hn Hq Hv|n q v Hn Hq Hv|a b t ?|a b t ?|a b c e t u ? ?|a b x t ? ?|a b x t ? ?|a b c e x t x' t' ? ? ? ?].
  1: { left. exists v. split; [lia|reflexivity]. }
  1: { right. reflexivity. }
  all: exfalso; exact (free_spells local _ _ _ Hf Hs').
Qed.
Lemma spells_count local s n d : spells local s n d → is_count d = true → colon_free n ∧ 0 ≤ dlimit d ∧ d = GData MCount (dlimit d) 0.
Proof. intros Hs. destruct Hs; cbn; try done. intros _. split; [done|]. split; [lia|done]. Qed.

(** ** The database *)
Definition ds_ok (ds : gmap string gdata) : Prop := ∀ g d, ds !! g = Some d → is_count d = true → 0 ≤ dlimit d ∧ d = GData MCount (dlimit d) 0.
Lemma db_store_spec m l m' c r : NoDup l.*1 → (∀ g d, (g, d) ∈ l → is_count d = true → 0 ≤ dlimit d) → db_store m l = Some (m', c, r) →
  (∀ g, g ∉ l.*1 → m' !! g = m !! g) ∧ (∀ g, g ∈ c → ∃ d, (g, d) ∈ l ∧ is_count d = true) ∧
  (∀ g d, (g, d) ∈ l → is_count d = true → m' !! g = Some (dlimit d) ∧ g ∉ r ∧ (g ∈ c ∨ m !! g = None ∨ m !! g = Some (dlimit d))) ∧
  (∀ g d, (g, d) ∈ l → is_count d = false → m' !! g = m !! g ∧ g ∈ r) ∧ (∀ g, g ∈ r → g ∈ l.*1).
Proof.
  revert m m' c r. induction l as [|[g0 d0] l IH]; intros m m' c r Hnd Hp H; cbn [db_store] in H.
  { injection H as <- <- <-. split_and!; [done|..].
    - intros g Hx. by apply elem_of_nil in Hx.
    - intros g d Hx. by apply elem_of_nil in Hx.
    - intros g d Hx. by apply elem_of_nil in Hx.
    - intros g Hx. by apply elem_of_nil in Hx. }
  apply NoDup_cons in Hnd as [Hn0 Hnd]. cbn [fst] in Hn0.
  assert (∀ g d, (g, d) ∈ l → is_count d = true → 0 ≤ dlimit d) as Hp' by (intros g d Hin; apply (Hp g d); by right).
  assert (∀ d, (g0, d) ∉ l) as Hnot. { intros d Hin. apply Hn0. apply elem_of_list_fmap. by exists (g0, d). }
  assert (∀ (A : Type) (x : option A) (f : A → option (gmap string Z * list string * list string)), (x ≫= f) = Some (m', c, r) → ∃ y, x = Some y ∧ f y = Some (m', c, r)) as Hb.
  { intros A x f E. by apply bind_Some in E. }
  assert (∀ g d, (g, d) ∈ (g0, d0) :: l → (g = g0 ∧ d = d0) ∨ (g ≠ g0 ∧ (g, d) ∈ l)) as Hcons.
  { intros g d [E|Hin]%elem_of_cons; [injection E as -> ->; by left|]. right. split; [|done]. intros ->. by apply (Hnot d). }
  destruct (is_count d0) eqn:Hc0; cbn [negb] in H.
  - assert (limit_num d0 = dlimit d0) as Hl by (unfold limit_num; by rewrite Hc0). rewrite Hl in H.
    assert (0 ≤ dlimit d0) as H0 by (apply (Hp g0); [by left|done]).
    assert ((dlimit d0 <? 0) = false) as Hlt by (by apply Z.ltb_ge). rewrite Hlt in H.
    destruct (m !! g0) as [v|] eqn:Hv.
    + destruct (Z.eqb_spec v (dlimit d0)) as [->|Hne].
      * destruct (IH _ _ _ _ Hnd Hp' H) as (H1 & H2 & H3 & H4 & H5). split_and!.
        -- intros g [_ Hg]%not_elem_of_cons. by apply H1.
        -- intros g (d & Hin & Hd)%H2. exists d. split; [by right|done].
        -- intros g d [[-> ->]|[_ Hin]]%Hcons Hd; [|exact (H3 g d Hin Hd)]. rewrite (H1 _ Hn0). split; [done|]. split; [|by right; right]. intros Hr. by apply Hn0, H5.
        -- intros g d [[-> ->]|[_ Hin]]%Hcons Hd; [congruence|exact (H4 g d Hin Hd)].
        -- intros g Hg%H5. by right.
      * destruct (lg_storable g0); [|done]. apply Hb in H as ([[m1 c1] r1] & H & E). injection E as <- <- <-.
        destruct (IH _ _ _ _ Hnd Hp' H) as (H1 & H2 & H3 & H4 & H5). split_and!.
        -- intros g [? Hg]%not_elem_of_cons. rewrite (H1 _ Hg). by rewrite lookup_insert_ne.
        -- intros g [->|(d & Hin & Hd)%H2]%elem_of_cons; [exists d0; split; [by left|done]|]. exists d. split; [by right|done].
        -- intros g d [[-> ->]|[Hne' Hin]]%Hcons Hd.
           ++ rewrite (H1 _ Hn0), lookup_insert. split; [done|]. split; [|left; by left]. intros Hr. by apply Hn0, H5.
           ++ destruct (H3 _ _ Hin Hd) as (E1 & E2 & E3). split; [done|]. split; [done|]. rewrite lookup_insert_ne in E3 by done. destruct E3 as [E3|E3]; [left; by right|by right].
        -- intros g d [[-> ->]|[Hne' Hin]]%Hcons Hd; [congruence|]. destruct (H4 _ _ Hin Hd) as [E1 E2]. by rewrite lookup_insert_ne in E1.
        -- intros g Hg%H5. by right.
    + destruct (lg_storable g0); [|done]. destruct (IH _ _ _ _ Hnd Hp' H) as (H1 & H2 & H3 & H4 & H5). split_and!.
      * intros g [? Hg]%not_elem_of_cons. rewrite (H1 _ Hg). by rewrite lookup_insert_ne.
      * intros g (d & Hin & Hd)%H2. exists d. split; [by right|done].
      * intros g d [[-> ->]|[Hne' Hin]]%Hcons Hd.
        -- rewrite (H1 _ Hn0), lookup_insert. split; [done|]. split; [|by right; left]. intros Hr. by apply Hn0, H5.
        -- destruct (H3 _ _ Hin Hd) as (E1 & E2 & E3). by rewrite lookup_insert_ne in E3.
      * intros g d [[-> ->]|[Hne' Hin]]%Hcons Hd; [congruence|]. destruct (H4 _ _ Hin Hd) as [E1 E2]. by rewrite lookup_insert_ne in E1.
      * intros g Hg%H5. by right.
  - apply Hb in H as ([[m1 c1] r1] & H & E). injection E as <- <- <-.
    destruct (IH _ _ _ _ Hnd Hp' H) as (H1 & H2 & H3 & H4 & H5). split_and!.
    + intros g [? Hg]%not_elem_of_cons. by apply H1.
    + intros g (d & Hin & Hd)%H2. exists d. split; [by right|done].
    + intros g d [[-> ->]|[Hne' Hin]]%Hcons Hd; [congruence|]. destruct (H3 _ _ Hin Hd) as (E1 & E2 & E3). split; [done|]. split; [|done].
      by intros [->|?]%elem_of_cons.
    + intros g d [[-> ->]|[Hne' Hin]]%Hcons Hd; [split; [by apply H1|by left]|]. destruct (H4 _ _ Hin Hd) as [E1 E2]. split; [done|by right].
    + intros g [->|Hg%H5]%elem_of_cons; [by left|by right].
Qed.

(** ** The limits of a request *)
Lemma collect_snoc local raws raw : collect local (raws ++ [raw]) =
  match name_to_group local raw with (n, Some d) => <[n := d]> (collect local raws) | _ => collect local raws end.
Proof. unfold collect. by rewrite fold_left_app. Qed.
Lemma collect_some local raws g d : collect local raws !! g = Some d → ∃ raw, raw ∈ raws ∧ spells local raw g d.
Proof.
  induction raws as [|raw raws IH] using rev_ind; [intros H; unfold collect in H; cbn [fold_left] in H; by rewrite lookup_empty in H|]. rewrite collect_snoc.
  assert (collect local raws !! g = Some d → ∃ raw', raw' ∈ (raws ++ [raw])%list ∧ spells local raw' g d) as IH'.
  { intros (raw' & ? & ?)%IH. exists raw'. split; [|done]. apply elem_of_app. by left. }
  destruct (name_to_group local raw) as [n [d'|]] eqn:E; [|done].
  destruct (decide (n = g)) as [->|Hne]; [|by rewrite lookup_insert_ne]. rewrite lookup_insert. intros [= ->].
  exists raw. split; [apply elem_of_app; right; by apply elem_of_list_singleton|]. by apply name_spells.
Qed.
Lemma collect_last local raw g d b a : spells local raw g d → (∀ raw' d', raw' ∈ b → ¬ spells local raw' g d') →
  collect local (a ++ raw :: b) !! g = Some d.
Proof.
  intros Hs Hb. assert ((a ++ raw :: b)%list = (a ++ [raw]) ++ b)%list as -> by (by rewrite <- app_assoc).
  induction b as [|raw' b IH] using rev_ind.
  - rewrite app_nil_r, collect_snoc. apply name_iff in Hs as ->. by rewrite lookup_insert.
  - rewrite app_assoc, collect_snoc. assert (collect local ((a ++ [raw]) ++ b) !! g = Some d) as IH'.
    { apply IH. intros r d' Hr. apply Hb, elem_of_app. by left. }
    destruct (name_to_group local raw') as [n [d'|]] eqn:E; [|done]. rewrite lookup_insert_ne; [done|]. intros ->.
    apply (Hb raw' d'); [apply elem_of_app; right; by apply elem_of_list_singleton|by apply name_spells].
Qed.
Lemma collect_ok local raws g d : (g, d) ∈ map_to_list (collect local raws) → is_count d = true → 0 ≤ dlimit d.
Proof. intros (raw & _ & H)%elem_of_map_to_list%collect_some Hc. by apply (spells_count _ _ _ _ H). Qed.

(** ** The limiter's memory *)
Lemma set_groups lm g d g' : groups (lstep lm (LSetLimit g d)).1 !! g' =
  if decide (g = g') then Some (match groups lm !! g with Some x => set_limit x (dlimit d) | None => new_group d end) else groups lm !! g'.
Proof.
  destruct lm as [gs w t k]. cbn. destruct (gs !! g) eqn:E; destruct (decide (g = g')) as [<-|]; by rewrite ?lookup_insert, ?lookup_insert_ne.
Qed.
Lemma remove_groups lm r g : groups (fold_left remove_limit r lm) !! g = if decide (g ∈ r) then None else groups lm !! g.
Proof.
  revert lm. induction r as [|a r IH]; intros lm; cbn [fold_left]; [done|]. rewrite IH.
  assert (groups (remove_limit lm a) !! g = if decide (a = g) then None else groups lm !! g) as ->.
  { destruct lm. cbn. destruct (decide (a = g)) as [->|]; by rewrite ?lookup_delete, ?lookup_delete_ne. }
  repeat destruct (decide _); try done; set_solver.
Qed.
Lemma changed_ne ds c lm g : g ∉ c → groups (fold_left (set_changed ds) c lm) !! g = groups lm !! g.
Proof.
  revert lm. induction c as [|a c IH]; intros lm; [done|]. intros [H1 H2]%not_elem_of_cons. cbn [fold_left]. rewrite IH by done.
  unfold set_changed. destruct (ds !! a) as [d|]; [|done]. rewrite set_groups. by rewrite decide_False.
Qed.
Definition counts_in (lm : lstate) (g : string) : Prop := ∀ x, groups lm !! g = Some x → dmode (gdat x) = MCount.
Lemma set_limit_dat x n : dmode (gdat x) = MCount → gdat (set_limit x n) = GData MCount n (dcurrent (gdat x)).
Proof. intros H. unfold set_limit, is_count. rewrite H. cbn. by rewrite ?H. Qed.
Lemma set_in lm g n : counts_in lm g → ∃ x, groups (lstep lm (LSetLimit g (GData MCount n 0))).1 !! g = Some x ∧ gdat x = GData MCount n (count lm g).
Proof.
  intros Hc. rewrite set_groups, decide_True by done. eexists. split; [reflexivity|]. unfold count. cbn [dlimit].
  destruct (groups lm !! g) as [x|] eqn:E; [|done]. rewrite (Hc _ E). apply set_limit_dat. by apply Hc.
Qed.
Lemma count_dat lm g x m n c : groups lm !! g = Some x → gdat x = GData m n c → m = MCount → count lm g = c.
Proof. intros H1 H2 ->. unfold count. by rewrite H1, H2. Qed.
Lemma count_ext lm lm' g : groups lm !! g = groups lm' !! g → count lm g = count lm' g.
Proof. unfold count. by intros ->. Qed.
Lemma changed_in ds c lm g n : counts_in lm g → ds !! g = Some (GData MCount n 0) → g ∈ c →
  ∃ x, groups (fold_left (set_changed ds) c lm) !! g = Some x ∧ gdat x = GData MCount n (count lm g).
Proof.
  intros Hc Hd. revert lm Hc. induction c as [|a c IH]; intros lm Hc Hin; [by apply elem_of_nil in Hin|]. cbn [fold_left].
  destruct (decide (a = g)) as [->|Hne].
  - assert (set_changed ds lm g = (lstep lm (LSetLimit g (GData MCount n 0))).1) as -> by (unfold set_changed; by rewrite Hd).
    destruct (set_in lm g n Hc) as (x & E1 & E2). destruct (decide (g ∈ c)) as [Hg|Hg].
    + rewrite <- (count_dat _ _ _ _ _ _ E1 E2 eq_refl). apply IH; [|done]. intros y Hy. rewrite E1 in Hy. injection Hy as <-. by rewrite E2.
    + exists x. by rewrite changed_ne.
  - apply elem_of_cons in Hin as [?|Hin]; [congruence|].
    assert (groups (set_changed ds lm a) !! g = groups lm !! g) as E.
    { unfold set_changed. destruct (ds !! a); [|done]. rewrite set_groups. by rewrite decide_False. }
    rewrite <- (count_ext _ _ _ E). apply IH; [|done]. intros y Hy. rewrite E in Hy. by apply Hc.
Qed.

(** ** The invariant *)
(** what is kept of a plain name [g] *)
Definition in_force (local : zone) (s : lsrv) (g : string) : Prop :=
  match lgs s !! g with
  | Some n => 0 ≤ n ∧ ∃ c, 0 ≤ c ∧ dat (retrieve local (lgs s)) (groups (mem s)) g = Some (GData MCount n c)
  | None => groups (mem s) !! g = None
  end.
Lemma retrieve_free local m g : colon_free g → retrieve local m g = Some (match m !! g with None => GData MUnknown 0 0 | Some n => new_count n end).
Proof. intros H. unfold retrieve. rewrite free_name by done. cbn. by destruct (m !! g). Qed.
Lemma new_count_pos n : 0 ≤ n → new_count n = GData MCount n 0.
Proof. intros H. unfold new_count. by rewrite (proj2 (Z.ltb_ge n 0) H). Qed.
Lemma in_force_counts local s g : in_force local s g → counts_in (mem s) g.
Proof.
  unfold in_force, counts_in. intros H x Hx. destruct (lgs s !! g) as [n|]; [|congruence].
  destruct H as (_ & c & _ & H). unfold dat in H. rewrite Hx in H. injection H as H. by rewrite H.
Qed.
(** it is a matter of what the limiter has, and of the database *)
Lemma in_force_iff local s g : colon_free g → in_force local s g ↔
  match lgs s !! g with
  | Some n => 0 ≤ n ∧ ∀ x, groups (mem s) !! g = Some x → ∃ c, 0 ≤ c ∧ gdat x = GData MCount n c
  | None => groups (mem s) !! g = None
  end.
Proof.
  intros Hf. unfold in_force. destruct (lgs s !! g) as [n|] eqn:E; [|done]. unfold dat. rewrite retrieve_free, E by done. split.
  - intros (H0 & c & Hc & H). split; [done|]. intros x Hx. rewrite Hx in H. injection H as H. by exists c.
  - intros (H0 & H). split; [done|]. destruct (groups (mem s) !! g) as [x|] eqn:Ex.
    + destruct (H x eq_refl) as (c & Hc & ->). by exists c.
    + rewrite new_count_pos by done. by exists 0.
Qed.

(** ** The limiter's methods *)
Lemma decrement_dat f gs names g n c : f g = Some (GData MCount n 0) → 0 ≤ c → dat f gs g = Some (GData MCount n c) →
  dat f (decrement_groups gs names).1 g = Some (GData MCount n (Z.max 0 (c - occ g names))).
Proof.
  intros Hf. revert gs c. induction names as [|a names IH]; intros gs c Hc Hd; cbn [decrement_groups].
  { rewrite occ_nil. cbn [fst]. rewrite Hd. do 2 f_equal. lia. }
  rewrite occ_cons. pose proof (occ_nonneg g names).
  destruct (decide (a = g)) as [->|Hne].
  - destruct (gs !! g) as [x|] eqn:Ex.
    + assert (gdat x = GData MCount n c) as Hx. { unfold dat in Hd. rewrite Ex in Hd. by injection Hd. }
      destruct (decrement x) as [[x' chs] unused] eqn:Edec.
      assert (dat f (if unused then delete g gs else <[g := x']> gs) g = Some (GData MCount n (Z.max 0 (c - 1)))) as Hd'.
      { unfold decrement, is_count in Edec. rewrite Hx in Edec. cbn [dmode dcurrent dlimit] in Edec. destruct (Z.eqb_spec c 0) as [->|Hc0].
        - injection Edec as <- <- <-. unfold dat. rewrite lookup_delete, Hf. cbn. done.
        - injection Edec as <- <- <-. destruct (Z.ltb_spec (c - 1) 1).
          + unfold dat. rewrite lookup_delete, Hf. cbn [dmode]. do 2 f_equal. lia.
          + unfold dat. rewrite lookup_insert. cbn [gdat]. do 2 f_equal. lia. }
      specialize (IH _ _ (Z.le_max_l 0 (c - 1)) Hd'). destruct (decrement_groups _ names) as [gs' chs'] eqn:E. cbn [fst] in IH |- *. rewrite IH. do 2 f_equal. lia.
    + rewrite (IH _ c Hc Hd). do 2 f_equal. assert (c = 0) as ->; [|lia]. unfold dat in Hd. rewrite Ex, Hf in Hd. cbn in Hd. by injection Hd.
  - destruct (gs !! a) as [x|] eqn:Ex; [|rewrite (IH _ c Hc Hd); do 2 f_equal; lia].
    destruct (decrement x) as [[x' chs] unused].
    assert (dat f (if unused then delete a gs else <[a := x']> gs) g = Some (GData MCount n c)) as Hd'.
    { unfold dat in Hd |- *. destruct unused; by rewrite ?lookup_delete_ne, ?lookup_insert_ne. }
    specialize (IH _ _ Hc Hd'). destruct (decrement_groups _ names) as [gs' chs'] eqn:E. cbn [fst] in IH |- *. rewrite IH. done.
Qed.
Lemma decrement_none gs names g : gs !! g = None → (decrement_groups gs names).1 !! g = None.
Proof.
  revert gs. induction names as [|a names IH]; intros gs H; cbn [decrement_groups]; [done|].
  destruct (gs !! a) as [x|] eqn:Ex; [|by apply IH]. destruct (decrement x) as [[x' chs] unused].
  assert ((if unused then delete a gs else <[a := x']> gs) !! g = None) as H'.
  { destruct unused; [by apply lookup_delete_None; right|]. rewrite lookup_insert_ne; [done|congruence]. }
  specialize (IH _ H'). destruct (decrement_groups _ names). done.
Qed.
(** how many more of [g] the method counts *)
Definition more (lm : lstate) (o : lop) (g : string) : Z :=
  match tries lm o, (lstep lm o).2 with Some (_, _, names), RBool true => occ g names | _, _ => 0 end.
Definition plain_op (cb : callback) (o : lop) : Prop :=
  match o with
  | LSetLimit _ _ | LRemoveLimit _ | LLowest _ _ => False
  | _ => match cb_of o with Some cb' => cb' = cb | None => True end
  end.
Lemma op_dat f cb lm o g n c : stable cb f → plain_op cb o → f g = Some (GData MCount n 0) → 0 ≤ c → dat f (groups lm) g = Some (GData MCount n c) →
  dat f (groups (lstep lm o).1) g = Some (GData MCount n (match o with LDecrement names => Z.max 0 (c - occ g names) | _ => c + more lm o g end)).
Proof.
  intros Hs Hp Hf Hc Hd.
  assert (∀ s' cb' clk names, tries lm o = Some (cb', clk, names) → cb' = cb → lstep lm o = (s', (lstep lm o).2) →
    dat f (groups s') g = Some (GData MCount n (c + more lm o g))) as Htry.
  { intros s' cb' clk names Ht -> E. destruct (all_or_nothing _ _ _ _ _ _ _ _ Ht Hs E) as (_ & H1 & H2). unfold more. rewrite Ht.
    destruct ((lstep lm o).2) as [|[]| | | | |] eqn:Er; try (rewrite <- data_dat, H2 by done; rewrite data_dat, Hd; do 2 f_equal; lia).
    rewrite <- data_dat, H1 by done. rewrite data_dat, Hd. done. }
  destruct o as [g' d'|cb' nm| |g'|cb' clk names wait|cb' clk ch|ch|names|cb' names|cb' clk names]; cbn in Hp; try done; subst.
  - unfold more. cbn. rewrite Z.add_0_r, <- Hd, (Hs 0%nat). pose proof (vivify_dat f (groups lm) nm g) as Hv.
    destruct (vivify f (groups lm) nm) as [gs []]; destruct lm; cbn in *; done.
  - unfold more. cbn. by rewrite Z.add_0_r, <- Hd.
  - apply (Htry _ cb clk names); [done|done|]. by destruct (lstep lm (LIncrement cb clk names wait)).
  - destruct (tries lm (LWake cb clk ch)) as [[[cb' clk'] names]|] eqn:Et.
    + apply (Htry _ cb' clk' names); [done| |by destruct (lstep lm (LWake cb clk ch))].
      cbn in Et. destruct (decide _); [|done]. destruct (waiting lm !! ch); [|done]. by injection Et.
    + unfold more. rewrite Et, Z.add_0_r, <- Hd. cbn in Et |- *. destruct (waiting lm !! ch); [|done]. by destruct (decide _).
  - unfold more. cbn. rewrite Z.add_0_r, <- Hd. destruct lm. cbn. by destruct (_ !! ch).
  - cbn. pose proof (decrement_dat f (groups lm) names g n c Hf Hc Hd) as H. destruct (decrement_groups (groups lm) names). destruct lm. done.
  - unfold more. cbn. rewrite Z.add_0_r, <- Hd. pose proof (lowest_capacity_dat f cb clk 0 (groups lm) (-1) names Hs g) as H.
    destruct (lowest_capacity cb clk 0 (groups lm) (-1) names). destruct lm. done.
Qed.
Lemma op_none f cb lm o g : stable cb f → plain_op cb o → f g = Some (GData MUnknown 0 0) → groups lm !! g = None → groups (lstep lm o).1 !! g = None.
Proof.
  intros Hs Hp Hf Hn.
  assert (∀ gs, gs !! g = None ↔ dat f gs g = None) as Hiff. { intros gs. unfold dat. rewrite Hf. cbn. by destruct (gs !! g). }
  assert (∀ s' cb' clk names, tries lm o = Some (cb', clk, names) → cb' = cb → lstep lm o = (s', (lstep lm o).2) → groups s' !! g = None) as Htry.
  { intros s' cb' clk names Ht -> E. destruct (all_or_nothing _ _ _ _ _ _ _ _ Ht Hs E) as (_ & H1 & H2). apply Hiff. apply Hiff in Hn.
    assert ((lstep lm o).2 = RBool true ∨ (lstep lm o).2 ≠ RBool true) as [Er|Er] by (destruct ((lstep lm o).2) as [|[]| | | | |]; (by left) || by right).
    - rewrite <- data_dat, H1 by done. by rewrite data_dat, Hn.
    - rewrite <- data_dat, H2 by done. by rewrite data_dat. }
  destruct o as [g' d'|cb' nm| |g'|cb' clk names wait|cb' clk ch|ch|names|cb' names|cb' clk names]; cbn in Hp; try done; subst.
  - apply Hiff. apply Hiff in Hn. cbn. rewrite <- Hn, (Hs 0%nat). pose proof (vivify_dat f (groups lm) nm g) as Hv.
    destruct (vivify f (groups lm) nm) as [gs []]; destruct lm; cbn in *; done.
  - apply (Htry _ cb clk names); [done|done|]. by destruct (lstep lm (LIncrement cb clk names wait)).
  - destruct (tries lm (LWake cb clk ch)) as [[[cb' clk'] names]|] eqn:Et.
    + apply (Htry _ cb' clk' names); [done| |by destruct (lstep lm (LWake cb clk ch))].
      cbn in Et. destruct (decide _); [|done]. destruct (waiting lm !! ch); [|done]. by injection Et.
    + cbn in Et |- *. destruct (waiting lm !! ch); [|done]. by destruct (decide _).
  - destruct lm. cbn. by destruct (_ !! ch).
  - cbn. pose proof (decrement_none (groups lm) names g Hn) as H. destruct (decrement_groups (groups lm) names). destruct lm. done.
  - apply Hiff. apply Hiff in Hn. cbn. rewrite <- Hn. pose proof (lowest_capacity_dat f cb clk 0 (groups lm) (-1) names Hs g) as H.
    destruct (lowest_capacity cb clk 0 (groups lm) (-1) names). destruct lm. done.
Qed.
