From Coq Require Import String Lia.
From stdpp Require Import base option strings gmap list.
From Verif Require Import CleanModel CleanSpec.

(** * Paths *)
Lemma dirname_app p x : dirname (p ++ [x]) = p. Proof. apply removelast_last. Qed.
Lemma path_cases (p : path) : p = [] ∨ ∃ q x, p = q ++ [x].
Proof. destruct (decide (p = [])) as [->|H]; [by left|]. right. destruct (exists_last H) as (q & x & ->). eauto. Qed.
Lemma inside_app p r : r ≠ [] → inside p (p ++ r).
Proof. intros H. split; [by apply prefix_app_r|]. intros E. apply H. apply (app_inv_head p). by rewrite app_nil_r. Qed.
Lemma inside_inv p q : inside p q → ∃ r, r ≠ [] ∧ q = p ++ r.
Proof. intros [[r ->] H]. exists r. split; [|done]. intros ->. apply H. by rewrite app_nil_r. Qed.
Lemma inside_length p q : inside p q → (length p < length q)%nat.
Proof. intros (r & Hr & ->)%inside_inv. rewrite app_length. destruct r; cbn; [done|lia]. Qed.
Lemma inside_trans p q r : inside p q → q `prefix_of` r → inside p r.
Proof. intros (a & Ha & ->)%inside_inv [b ->]. rewrite <- app_assoc. apply inside_app. by destruct a. Qed.
Lemma inside_trans2 p q r : p `prefix_of` q → inside q r → inside p r.
Proof. intros [a ->] (b & Hb & ->)%inside_inv. rewrite <- app_assoc. apply inside_app. destruct a; [done|]. done. Qed.
Lemma not_inside_self p : ¬ inside p p. Proof. by intros [_ H]. Qed.
Lemma prefix_inside p q : p `prefix_of` q → p = q ∨ inside p q.
Proof. intros H. destruct (decide (p = q)) as [->|Hn]; [by left|]. by right. Qed.
(** inside something is inside or at one of its entries *)
Lemma inside_entry p q : inside p q → ∃ x, p ++ [x] `prefix_of` q.
Proof. intros (r & Hr & ->)%inside_inv. destruct r as [|x r]; [done|]. exists x, r. by rewrite <- app_assoc. Qed.
Lemma entry_unique (p : path) x y (q : path) : p ++ [x] `prefix_of` q → p ++ [y] `prefix_of` q → x = y.
Proof. intros [a ->] [b H]. rewrite <- !app_assoc in H. apply app_inv_head in H. cbn in H. congruence. Qed.
Lemma entry_inside p x q : p ++ [x] `prefix_of` q → inside p q.
Proof. intros H. eapply inside_trans; [|done]. by apply inside_app. Qed.
Lemma inside_prefix_entry (p : path) x (a : path) : a `prefix_of` p ++ [x] → a = p ++ [x] ∨ a `prefix_of` p.
Proof.
  intros [r H]. destruct (path_cases r) as [->|(r' & y & ->)]; [left; by rewrite app_nil_r in H|].
  right. rewrite app_assoc in H. apply app_inj_tail in H as [H _]. by exists r'.
Qed.
Lemma inside_dirname p q : inside p q → p `prefix_of` dirname q.
Proof. intros H. destruct (path_cases q) as [->|(q' & x & ->)]; [apply inside_length in H; cbn in H; lia|]. rewrite dirname_app. destruct H as [H Hn]. by apply inside_prefix_entry in H as [?|?]. Qed.
Lemma prefix_comparable (a b q : path) : a `prefix_of` q → b `prefix_of` q → a `prefix_of` b ∨ b `prefix_of` a.
Proof. apply prefix_weak_total. Qed.

Lemma join_plain e : ∀ p, Forall (λ x, x ∉ ["" ; "."; ".."]) e → join p e = p ++ e.
Proof.
  induction e as [|x e IH]; intros p H; [by rewrite app_nil_r|]. apply Forall_cons in H as [Hx H]. cbn.
  rewrite !not_elem_of_cons in Hx. destruct Hx as (H1 & H2 & H3 & _).
  rewrite bool_decide_false by naive_solver. rewrite bool_decide_false by done. rewrite IH by done. by rewrite <- app_assoc.
Qed.
(** * The directories to keep and to look into *)
Lemma climb_ok r : ∀ n top, (length r ≤ n)%nat → ∃ s, climb n top (top ++ r) = Some s ∧ ∀ a, a ∈ s ↔ inside top a ∧ a `prefix_of` top ++ r.
Proof.
  induction r as [|x r IH] using rev_ind; intros n top Hn.
  - exists ∅. rewrite app_nil_r. split; [destruct n; cbn; by rewrite bool_decide_true by done|]. intros a. split; [set_solver|]. intros [H1 H2]. exfalso.
    apply inside_length in H1. apply prefix_length in H2. lia.
  - rewrite app_length in Hn. cbn in Hn. destruct n as [|n]; [lia|]. destruct (IH n top ltac:(lia)) as (s & Hs & Hin).
    exists ({[top ++ r ++ [x]]} ∪ s). split.
    + cbn [climb]. rewrite bool_decide_false. { rewrite app_assoc, dirname_app, Hs. done. }
      intros H. apply (f_equal length) in H. rewrite !app_length in H. cbn in H. lia.
    + intros a. rewrite elem_of_union, elem_of_singleton, Hin. split.
      * intros [->|[H1 H2]]; [split; [|done]; apply inside_app; by destruct r|]. split; [done|]. rewrite app_assoc. by apply prefix_app_r.
      * intros [H1 H2]. rewrite app_assoc in H2. apply inside_prefix_entry in H2 as [->|H2]; [left; by rewrite app_assoc|by right].
Qed.
Lemma climb_never n : ∀ top a, top ≠ [] → ¬ top `prefix_of` a → climb n top a = None.
Proof.
  induction n as [|n IH]; intros top a Ht Ha; cbn; (rewrite bool_decide_false; [|by intros ->]); [done|].
  rewrite IH; [done|done|]. intros H. apply Ha. destruct (path_cases a) as [->|(q & x & ->)]; [done|]. rewrite dirname_app in H. by apply prefix_app_r.
Qed.
Lemma except_dirs_ok n top es : Forall plain es → Forall (λ e, (length e ≤ n)%nat) es →
  ∃ keep check, except_dirs n top es = Some (keep, check) ∧ (∀ a, a ∈ keep ↔ ∃ e, e ∈ es ∧ a = top ++ e) ∧ (∀ a, a ∈ check ↔ ∃ e, e ∈ es ∧ inside top a ∧ inside a (top ++ e)).
Proof.
  induction es as [|e es IH]; intros Hp Hl; [exists ∅, ∅; split_and!; [done|set_solver..]|].
  apply Forall_cons in Hp as [[He Hf] Hp]. apply Forall_cons in Hl as [Hle Hl]. destruct (IH Hp Hl) as (keep & check & H1 & H2 & H3).
  cbn [except_dirs]. rewrite join_plain by done. destruct (path_cases e) as [->|(r & x & ->)]; [done|]. rewrite app_assoc, dirname_app.
  rewrite app_length in Hle. cbn in Hle. destruct (climb_ok r n top ltac:(lia)) as (s & -> & Hs). rewrite H1. cbn. eexists _, _. split; [done|]. split.
  - intros a. rewrite elem_of_union, elem_of_singleton, H2. setoid_rewrite elem_of_cons. rewrite <- app_assoc. naive_solver.
  - intros a. rewrite elem_of_union, Hs, H3. setoid_rewrite elem_of_cons. split.
    + intros [[Ha Hb]|(e & ? & ?)]; [|naive_solver]. exists (r ++ [x]). split; [by left|]. split; [done|]. rewrite app_assoc. destruct Hb as [b Hb]. rewrite Hb, <- app_assoc. apply inside_app. by destruct b.
    + intros (e & [->|He'] & Ha & Hb); [|naive_solver]. left. split; [done|]. apply inside_dirname in Hb. by rewrite app_assoc, dirname_app in Hb.
Qed.
Lemma except_dirs_never n top es e : top ≠ [] → e ∈ es → ¬ inside top (join top e) → except_dirs n top es = None.
Proof.
  intros Ht He Hi. induction es as [|e' es IH]; [by apply elem_of_nil in He|]. cbn. apply elem_of_cons in He as [->|He].
  - rewrite climb_never; [done|done|]. intros H. apply Hi. destruct (path_cases (join top e')) as [Hj|(q & x & Hj)]; rewrite Hj in *.
    + cbn in H. apply prefix_nil_inv in H. done.
    + rewrite dirname_app in H. destruct H as [r ->]. rewrite <- app_assoc. apply inside_app. by destruct r.
  - rewrite IH by done. by destruct (climb n top _).
Qed.
(** * Removing with exceptions *)
Lemma os_remove_all_lookup fs p q : os_remove_all fs p !! q = if bool_decide (p `prefix_of` q) then None else fs !! q.
Proof.
  unfold os_remove_all. case_bool_decide as H.
  - apply map_filter_lookup_None. right. intros k _ Hk. by apply Hk.
  - destruct (fs !! q) as [k|] eqn:E; [apply map_filter_lookup_Some; by split|]. apply map_filter_lookup_None. by left.
Qed.
Lemma os_remove_file fs p : p ≠ [] → fs !! p = Some KFile → os_remove fs p = (delete p fs, OOk).
Proof. unfold os_remove. destruct p; [done|]. by intros _ ->. Qed.
Definition survives (fs : files) (top : path) (es : list path) (a q : path) : Prop :=
  ∃ e, e ∈ es ∧ ((inside a (top ++ e) ∧ top ++ e `prefix_of` q ∧ fs !! (top ++ e) = Some KDir) ∨ (fs !! q = Some KDir ∧ inside q (top ++ e))).
Section removing.
  Context (rd : readdir) (Hrd : reads rd) (top : path) (es : list path) (keep check : gset path).
  Context (Hkeep : ∀ a, a ∈ keep ↔ ∃ e, e ∈ es ∧ a = top ++ e) (Hcheck : ∀ a, a ∈ check ↔ ∃ e, e ∈ es ∧ inside top a ∧ inside a (top ++ e)).
  (** what is left of [fs] when the inside of [a] was cleared *)
  Definition cleared (a : path) (fs fs' : files) : Prop :=
    ∀ q, (¬ inside a q → fs' !! q = fs !! q) ∧ (inside a q → survives fs top es a q → fs' !! q = fs !! q) ∧ (inside a q → ¬ survives fs top es a q → fs' !! q = None).
  (** the loop so far: entries not in [l] have been dealt with *)
  Definition going (a : path) (l : list (string * kind)) (fs cur : files) : Prop :=
    ∀ q, (¬ inside a q → cur !! q = fs !! q) ∧
      (∀ x k, (x, k) ∈ l → a ++ [x] `prefix_of` q → cur !! q = fs !! q) ∧
      (inside a q → (∀ x k, (x, k) ∈ l → ¬ a ++ [x] `prefix_of` q) → (survives fs top es a q → cur !! q = fs !! q) ∧ (¬ survives fs top es a q → cur !! q = None)).
  (** below [a]: things are in directories *)
  Definition local_ok (fs : files) (a : path) : Prop := ∀ p q, a `prefix_of` p → inside p q → is_Some (fs !! q) → fs !! p = Some KDir.
  Lemma going_step a x k l fs cur cur' : NoDup ((x, k) :: l).*1 → going a ((x, k) :: l) fs cur →
    (∀ q, ¬ a ++ [x] `prefix_of` q → cur' !! q = cur !! q) →
    (∀ q, a ++ [x] `prefix_of` q → cur !! q = fs !! q → (survives fs top es a q → cur' !! q = fs !! q) ∧ (¬ survives fs top es a q → cur' !! q = None)) →
    going a l fs cur'.
  Proof.
    intros Hnd Hg H1 H2 q. destruct (Hg q) as (G1 & G2 & G3). split_and!.
    - intros Hq. rewrite H1; [auto|]. intros H. apply Hq. by eapply entry_inside.
    - intros y k' Hy Hp. rewrite H1; [eapply G2; [by right|done]|]. intros Hx. rewrite (entry_unique _ _ _ _ Hx Hp) in Hnd. apply NoDup_cons in Hnd as [Hnd _].
      apply Hnd. apply elem_of_list_fmap. by exists (y, k').
    - intros Hi Hno. destruct (decide (a ++ [x] `prefix_of` q)) as [Hx|Hx].
      + apply H2; [done|]. eapply G2; [by left|done].
      + rewrite H1 by done. apply G3; [done|]. intros y k' [[= -> ->]|Hy]%elem_of_cons; [done|]. by eapply Hno.
  Qed.
  Lemma removing n : ∀ a fs, top `prefix_of` a → fs !! a = Some KDir → local_ok fs a → (∀ e, e ∈ es → ¬ top ++ e `prefix_of` a) →
    (0 < n)%nat → (∀ e, e ∈ es → (length (top ++ e) < length a + n)%nat) → ∃ fs', remove_with n rd keep check fs a = (fs', ODone) ∧ cleared a fs fs'.
  Proof.
    induction n as [|n IH]; intros a fs Hta Hdir Hok Hnk Hn Hlen; [lia|]. cbn [remove_with]. rewrite Hdir.
    destruct (Hrd fs a Hdir) as [Hnd Hent].
    assert (Hnd1 : NoDup (rd fs a).*1).
    { apply NoDup_fmap_2_strong; [|done]. intros [x k] [y k'] Hx Hy [= ->]. apply Hent in Hx, Hy. congruence. }
    assert (Hloop : ∀ l cur, (∀ x k, (x, k) ∈ l → fs !! (a ++ [x]) = Some k) → NoDup l.*1 → going a l fs cur →
      ∃ fs', each_entry (remove_with n rd keep check) keep check a l cur = (fs', ODone) ∧ going a [] fs fs').
    { induction l as [|[x k] l IHl]; intros cur Hl Hndl Hg; [exists cur; done|].
      assert (Hcx : ∀ q, a ++ [x] `prefix_of` q → cur !! q = fs !! q) by (intros q Hq; destruct (Hg q) as (_ & G & _); eapply G; [by left|done]).
      pose proof (Hl x k ltac:(by left)) as Hx. cbn [each_entry].
      assert (Hnext : ∀ cur', (∀ q, ¬ a ++ [x] `prefix_of` q → cur' !! q = cur !! q) →
         (∀ q, a ++ [x] `prefix_of` q → cur !! q = fs !! q → (survives fs top es a q → cur' !! q = fs !! q) ∧ (¬ survives fs top es a q → cur' !! q = None)) →
         ∃ fs', each_entry (remove_with n rd keep check) keep check a l cur' = (fs', ODone) ∧ going a [] fs fs').
      { intros cur' H1 H2. apply IHl; [intros y k' Hy; apply Hl; by right|by apply NoDup_cons in Hndl as [_ ?]|]. eapply going_step; eauto. }
      (* an exception at or above the entry is the entry *)
      assert (Hat : ∀ e, e ∈ es → top ++ e `prefix_of` a ++ [x] → top ++ e = a ++ [x]).
      { intros e He H. apply inside_prefix_entry in H as [?|H]; [done|]. by apply Hnk in H. }
      assert (Hchk : ∀ e, e ∈ es → inside (a ++ [x]) (top ++ e) → a ++ [x] ∈ check).
      { intros e He H. apply Hcheck. exists e. split_and!; [done| |done]. eapply inside_trans2; [done|]. by apply inside_app. }
      destruct k.
      - (* a file *)
        assert (Hrm : os_remove cur (a ++ [x]) = (delete (a ++ [x]) cur, OOk)).
        { apply os_remove_file; [by destruct a|]. by rewrite Hcx. }
        rewrite Hrm. apply Hnext; [intros q Hq; apply lookup_delete_ne; by intros <-|].
        intros q Hq _. apply prefix_inside in Hq as [<-|Hq].
        + split; [|intros _; apply lookup_delete]. intros (e & He & [(_ & H1 & H2)|[H1 _]]); [|congruence].
          rewrite (Hat e He H1) in H2. congruence.
        + assert (Hnone : fs !! q = None).
          { destruct (fs !! q) eqn:E; [|done]. rewrite (Hok (a ++ [x]) q) in Hx; [done|by apply prefix_app_r|done|by rewrite E]. }
          assert (Hcq : delete (a ++ [x]) cur !! q = None) by (apply lookup_delete_None; right; rewrite Hcx; [done|by destruct Hq]).
          rewrite Hcq, Hnone. done.
      - case_bool_decide as Hk; [|case_bool_decide as Hc].
        + (* kept *)
          apply Hkeep in Hk as (e & He & Hk). apply Hnext; [done|]. intros q Hq Hcq. split; [done|]. intros Hns. destruct Hns. exists e. split; [done|]. left.
          rewrite <- Hk. split_and!; [by apply inside_app|done|done].
        + (* looked into *)
          apply Hcheck in Hc as (e & He & Hi1 & Hi2).
          destruct (IH (a ++ [x]) cur) as (fs2 & Hr2 & Hc2).
          * destruct Hi1. done.
          * rewrite Hcx by done. done.
          * intros p q Hp Hpq Hs. rewrite Hcx in Hs by (destruct Hpq; by transitivity p). rewrite Hcx by done. eapply Hok; [|done|done]. etransitivity; [|done]. by apply prefix_app_r.
          * intros e' He' H. apply Hk. apply Hkeep. exists e'. split; [done|]. by rewrite (Hat e' He' H).
          * apply inside_length in Hi2. specialize (Hlen e He). rewrite app_length in Hi2. cbn in Hi2. lia.
          * intros e' He'. specialize (Hlen e' He'). rewrite (app_length a). cbn. lia.
          * rewrite Hr2. apply Hnext.
            { intros q Hq. destruct (Hc2 q) as (C1 & _ & _). apply C1. intros [H _]. done. }
            intros q Hq Hcq. destruct (Hc2 q) as (C1 & C2 & C3). apply prefix_inside in Hq as [<-|Hq].
            { rewrite C1 by apply not_inside_self. split; [done|]. intros Hns. destruct Hns. exists e. split; [done|]. right. split; [done|done]. }
            assert (Hsame : survives fs top es a q ↔ survives cur top es (a ++ [x]) q).
            { unfold survives. rewrite Hcq. split; intros (e' & He' & [(S1 & S2 & S3)|S]); exists e'; (split; [done|]); try (by right); left.
              - assert (S1' : inside (a ++ [x]) (top ++ e')).
                { destruct (prefix_comparable (a ++ [x]) (top ++ e') q) as [H|H]; [by destruct Hq|done|..].
                  - apply prefix_inside in H as [H|H]; [|done]. exfalso. apply Hk, Hkeep. eauto.
                  - exfalso. apply Hk, Hkeep. exists e'. split; [done|]. by rewrite (Hat e' He' H). }
                split_and!; [done|done|]. rewrite Hcx; [done|]. by destruct S1'.
              - split_and!; [|done|]. + eapply inside_trans2; [|done]. by apply prefix_app_r. + rewrite <- Hcx; [done|]. by destruct S1. }
            rewrite Hsame, <- Hcq. split; [by apply C2|by apply C3].
        + (* removed *)
          apply Hnext; [intros q Hq; rewrite os_remove_all_lookup; by rewrite bool_decide_false|].
          intros q Hq _. rewrite os_remove_all_lookup, bool_decide_true by done. split; [|done]. intros (e & He & Hs). exfalso.
          destruct Hs as [(S1 & S2 & _)|[_ S]].
          * destruct (prefix_comparable (a ++ [x]) (top ++ e) q Hq S2) as [H|H].
            { apply prefix_inside in H as [H|H]; [|by apply Hc; eapply Hchk]. apply Hk, Hkeep. eauto. }
            apply Hk, Hkeep. exists e. split; [done|]. by rewrite (Hat e He H).
          * apply Hc. eapply Hchk; [done|]. eapply inside_trans2; done. }
    destruct (Hloop (rd fs a) fs) as (fs' & H1 & H2); [intros x k; apply Hent|done| |].
    { intros q. split_and!; [done|done|]. intros Hi Hno. split; [done|]. intros _. destruct (fs !! q) as [k0|] eqn:E; [|done]. exfalso.
      apply inside_entry in Hi as [x Hx]. assert (Hex : is_Some (fs !! (a ++ [x]))).
      { apply prefix_inside in Hx as [->|Hx]; [by rewrite E|]. rewrite (Hok (a ++ [x]) q); [done|by apply prefix_app_r|done|by rewrite E]. }
      destruct Hex as [k Hex]. apply Hent in Hex. by eapply Hno. }
    exists fs'. split; [done|]. intros q. destruct (H2 q) as (G1 & _ & G3). split; [done|]. split; intros Hi; apply G3; try done; intros x k Hx; by apply elem_of_nil in Hx.
  Qed.
End removing.
Lemma remove_all_except_ok rd fs top es n : reads rd → disk_ok fs → fs !! top = Some KDir → Forall plain es → Forall (λ e, (length e < n)%nat) es → (0 < n)%nat →
  ∃ fs', remove_all_except n rd fs top es = (fs', ODone) ∧ ∀ q, (¬ inside top q → fs' !! q = fs !! q) ∧ (inside top q → kept fs top es q → fs' !! q = fs !! q) ∧ (inside top q → ¬ kept fs top es q → fs' !! q = None).
Proof.
  intros Hrd Hok Hd Hp Hl Hn. destruct (except_dirs_ok n top es Hp) as (keep & check & He & Hk & Hc); [eapply Forall_impl; [done|]; cbn; lia|].
  unfold remove_all_except. rewrite He.
  destruct (removing rd Hrd top es keep check Hk Hc n top fs) as (fs' & H1 & H2); [done|done| | |done| |].
  - intros p q _. apply Hok.
  - intros e He' H. apply prefix_length in H. rewrite app_length in H. eapply Forall_forall in Hp as [Hp _]; [|done]. destruct e; [done|]. cbn in H. lia.
  - intros e He'. rewrite app_length. eapply Forall_forall in Hl; [|done]. cbn in Hl. lia.
  - exists fs'. split; [done|]. intros q. destruct (H2 q) as (G1 & G2 & G3). split; [done|].
    assert (Hiff : survives fs top es top q ↔ kept fs top es q).
    { unfold survives, kept. split; intros (e & He' & Hs); exists e; (split; [done|]); [naive_solver|]. destruct Hs as [[S1 S2]|S]; [|by right].
      left. split_and!; [|done|done]. apply inside_app. eapply Forall_forall in Hp as [Hp _]; done. }
    rewrite <- Hiff. done.
Qed.
(** * Removing empty directories *)
Lemma os_remove_cases fs p fs' e : os_remove fs p = (fs', e) →
  (e = OOk ∧ p ≠ [] ∧ fs' = delete p fs ∧ is_Some (fs !! p) ∧ (fs !! p = Some KDir → ∀ q, inside p q → fs !! q = None)) ∨
  (e ≠ OOk ∧ fs' = fs ∧ (e = ONotExist → fs !! p = None) ∧ (e = ONotEmpty → fs !! p = Some KDir ∧ ∃ q, inside p q ∧ is_Some (fs !! q)) ∧ (e = OOther → p = [] ∨ ∃ q, inside q p ∧ fs !! q = Some KFile)).
Proof.
  unfold os_remove. destruct p as [|x p]; [intros [= <- <-]; right; split_and!; [done..|by left]|]. destruct (fs !! (x :: p)) as [[]|] eqn:E.
  - intros [= <- <-]. left. split_and!; [done..|eauto|done].
  - case_bool_decide as Hb; intros [= <- <-].
    + left. split_and!; [done..|eauto|]. intros _ q Hq. destruct (fs !! q) eqn:Eq; [|done]. by apply Hb in Eq.
    + right. split_and!; [done..| |done]. intros _. split; [done|].
      assert (Hd : ¬ ∀ q, is_Some (fs !! q) → ¬ inside (x :: p) q). { intros H. apply Hb. intros q k Hq. apply H. by rewrite Hq. }
      destruct (decide (map_Forall (λ q _, ¬ inside (x :: p) q) fs)) as [Hf|Hf]; [done|].
      apply map_not_Forall in Hf as (q & k & Hq & Hi); [|apply _]. exists q. rewrite Hq. split; [|done]. by destruct (decide (inside (x :: p) q)).
  - case_bool_decide as Hb; intros [= <- <-]; right; split_and!; try done. intros _. right.
    apply map_not_Forall in Hb as (q & k & Hq & Hi); [|apply _]. exists q. destruct (decide (inside q (x :: p))) as [Hin|Hin]; [|by destruct Hi].
    split; [done|]. destruct k; [done|]. by destruct Hi.
Qed.
Lemma prefix_dirname (p q : path) : p `prefix_of` dirname q → p `prefix_of` q.
Proof. destruct (path_cases q) as [->|(a & x & ->)]; [done|]. rewrite dirname_app. apply prefix_app_r. Qed.

Lemma delete_ok fs p : disk_ok fs → (∀ q, inside p q → fs !! q = None) → disk_ok (delete p fs).
Proof.
  intros Hok He a q Hi [k Hq]. apply lookup_delete_Some in Hq as [Hne Hq]. rewrite lookup_delete_ne; [by eapply Hok|]. intros ->. by rewrite He in Hq.
Qed.
(** what climbing up has removed: parents up to some place, all empty but for what was removed *)
Lemma climb_remove_ok n : ∀ fs parent b, b `prefix_of` parent → disk_ok fs → fs !! parent ≠ Some KFile → (length parent < n)%nat →
  let fs' := climb_remove n fs parent (Some b) in
  disk_ok fs' ∧
  (∀ q, fs' !! q = fs !! q ∨ fs' !! q = None) ∧
  (∀ q, is_Some (fs !! q) → fs' !! q = None → fs !! q = Some KDir ∧ inside b q ∧ q `prefix_of` parent) ∧
  (∀ q, inside b q → q `prefix_of` parent → fs !! parent = Some KDir → is_Some (fs' !! q) → ∃ r, inside q r ∧ is_Some (fs' !! r)).
Proof.
  induction n as [|n IH]; intros fs parent b Hb Hok Hnf Hn; [lia|]. cbn [climb_remove].
  destruct (bool_decide_reflect (Some parent = Some b)) as [[= ->]|Hne].
  { cbv zeta. split_and!; [done|by left| |]. - intros q [k Hq] Hq'. congruence. - intros q Hq Hp. apply inside_length in Hq. apply prefix_length in Hp. lia. }
  assert (Hin : inside b parent) by (split; [done|]; by intros ->).
  destruct (os_remove fs parent) as [fs1 e] eqn:E. apply os_remove_cases in E as [(-> & Hne2 & -> & [k Hk] & Hemp)|(He & -> & E1 & E2 & E3)].
  - assert (Hd : fs !! parent = Some KDir) by (destruct k; [by destruct Hnf|done]). specialize (Hemp Hd).
    assert (Hpd : fs !! dirname parent = Some KDir).
    { destruct (path_cases parent) as [->|(q & x & ->)]; [done|]. rewrite dirname_app. apply (Hok q (q ++ [x])); [by apply inside_app|]. by rewrite Hd. }
    assert (Hpne : dirname parent ≠ parent).
    { destruct (path_cases parent) as [->|(q & x & ->)]; [done|]. rewrite dirname_app. intros H. apply (f_equal length) in H. rewrite app_length in H. cbn in H. lia. }
    assert (Hpd1 : delete parent fs !! dirname parent = Some KDir) by (by rewrite lookup_delete_ne).
    destruct (IH (delete parent fs) (dirname parent) b) as (I1 & I2 & I3 & I4).
    + by apply inside_dirname. + by apply delete_ok. + by rewrite Hpd1.
    + destruct (path_cases parent) as [->|(q & x & ->)]; [done|]. rewrite dirname_app. rewrite app_length in Hn. cbn in Hn. lia.
    + cbv zeta. split_and!; [done|..].
      * intros q. destruct (I2 q) as [H|H]; [|by right]. rewrite H. destruct (decide (q = parent)) as [->|]; [right; apply lookup_delete|left; by apply lookup_delete_ne].
      * intros q Hq Hq'. destruct (decide (q = parent)) as [->|Hqp]; [done|]. rewrite <- (lookup_delete_ne fs parent q) in Hq |- * by done.
        destruct (I3 q Hq Hq') as (J1 & J2 & J3). split_and!; [done|done|]. by apply prefix_dirname.
      * intros q Hq Hp _ Hs. apply prefix_inside in Hp as [->|Hp].
        { exfalso. destruct (I2 parent) as [H|H]; rewrite H in Hs; [rewrite lookup_delete in Hs|]; by destruct Hs. }
        apply I4; [done|by apply inside_dirname|done|done].
  - assert (Hfs : (match e with OOk => climb_remove n fs (dirname parent) (Some b) | _ => fs end) = fs) by (by destruct e). rewrite Hfs. cbv zeta.
    split_and!; [done|by left|intros q [k Hq] Hq'; congruence|]. intros q Hq Hp Hd Hs. destruct e; [done| | |].
    + rewrite E1 in Hd by done. done.
    + destruct E2 as (_ & r & Hr & Hr'); [done|]. exists r. split; [|done]. by eapply inside_trans2.
    + destruct (E3 eq_refl) as [->|(r & Hr & Hf)]; [apply inside_length in Hin; cbn in Hin; lia|]. rewrite (Hok r parent) in Hf; [done|done|by rewrite Hd].
Qed.
Lemma rm_empty_ok fs leaf b fs' o : inside b leaf → disk_ok fs → (∀ q, q `prefix_of` leaf → fs !! q ≠ Some KFile) → rm_empty_dirs fs leaf (Some b) = (fs', o) →
  o = ODone ∧ disk_ok fs' ∧
  (∀ q, fs' !! q = fs !! q ∨ fs' !! q = None) ∧
  (∀ q, is_Some (fs !! q) → fs' !! q = None → fs !! q = Some KDir ∧ inside b q ∧ q `prefix_of` leaf) ∧
  (∀ q, inside b q → q `prefix_of` leaf → fs !! dirname leaf = Some KDir → is_Some (fs' !! q) → ∃ r, inside q r ∧ is_Some (fs' !! r)).
Proof.
  intros Hb Hok Hnf. unfold rm_empty_dirs. destruct (os_remove fs leaf) as [fs1 e] eqn:E.
  assert (Hbd : b `prefix_of` dirname leaf) by (by apply inside_dirname).
  assert (Hlen : (length (dirname leaf) < S (length leaf))%nat).
  { destruct (path_cases leaf) as [->|(q & x & ->)]; [cbn; lia|]. rewrite dirname_app, app_length. cbn. lia. }
  apply os_remove_cases in E as [(-> & Hne2 & -> & [k Hk] & Hemp)|(He & -> & E1 & E2 & E3)].
  - intros Hr. apply pair_equal_spec in Hr as [<- <-]. assert (Hd : fs !! leaf = Some KDir) by (destruct k; [by destruct (Hnf leaf)|done]). specialize (Hemp Hd).
    assert (Hpd : fs !! dirname leaf = Some KDir).
    { destruct (path_cases leaf) as [->|(q & x & ->)]; [done|]. rewrite dirname_app. apply (Hok q (q ++ [x])); [by apply inside_app|]. by rewrite Hd. }
    assert (Hpne : dirname leaf ≠ leaf).
    { destruct (path_cases leaf) as [->|(q & x & ->)]; [done|]. rewrite dirname_app. intros H. apply (f_equal length) in H. rewrite app_length in H. cbn in H. lia. }
    assert (Hpd1 : delete leaf fs !! dirname leaf = Some KDir) by (by rewrite lookup_delete_ne).
    destruct (climb_remove_ok (S (length leaf)) (delete leaf fs) (dirname leaf) b Hbd) as (I1 & I2 & I3 & I4); [by apply delete_ok|by rewrite Hpd1|done|].
    split_and!; [done|done|..].
    + intros q. destruct (I2 q) as [H|H]; [|by right]. rewrite H. destruct (decide (q = leaf)) as [->|]; [right; apply lookup_delete|left; by apply lookup_delete_ne].
    + intros q Hq Hq'. destruct (decide (q = leaf)) as [->|Hqp]; [done|]. rewrite <- (lookup_delete_ne fs leaf q) in Hq |- * by done.
      destruct (I3 q Hq Hq') as (J1 & J2 & J3). split_and!; [done|done|]. by apply prefix_dirname.
    + intros q Hq Hp _ Hs. apply prefix_inside in Hp as [->|Hp].
      { exfalso. destruct (I2 leaf) as [H|H]; rewrite H in Hs; [rewrite lookup_delete in Hs|]; by destruct Hs. }
      apply I4; [done|by apply inside_dirname|done|done].
  - destruct e; [done| | |].
    + intros Hr. apply pair_equal_spec in Hr as [<- <-]. specialize (E1 eq_refl).
      assert (Hnf2 : fs !! dirname leaf ≠ Some KFile) by (by apply Hnf, prefix_dirname).
      destruct (climb_remove_ok (S (length leaf)) fs (dirname leaf) b Hbd Hok Hnf2 Hlen) as (I1 & I2 & I3 & I4). split_and!; [done|done|done|..].
      * intros q Hq Hq'. destruct (I3 q Hq Hq') as (J1 & J2 & J3). split_and!; [done|done|]. by apply prefix_dirname.
      * intros q Hq Hp Hd Hs. apply prefix_inside in Hp as [->|Hp]; [exfalso; destruct (I2 leaf) as [H|H]; rewrite H in Hs; [rewrite E1 in Hs|]; by destruct Hs|].
        apply I4; [done|by apply inside_dirname|done|done].
    + intros [= <- <-]. destruct (E2 eq_refl) as (_ & r & Hr & Hr'). split_and!; [done|done|by left|intros q [k Hq] Hq'; congruence|].
      intros q Hq Hp _ _. exists r. split; [|done]. by eapply inside_trans2.
    + destruct (E3 eq_refl) as [->|(r & Hr & Hf)]; [apply inside_length in Hb; cbn in Hb; lia|]. exfalso. destruct Hr as [Hr _]. by eapply Hnf.
Qed.
(** * Cleaning up *)
Lemma remove_all_ok fs p : disk_ok fs → disk_ok (os_remove_all fs p).
Proof.
  intros Hok a q Hi Hs. rewrite os_remove_all_lookup in Hs |- *. case_bool_decide as Hq; [by destruct Hs|].
  rewrite bool_decide_false; [by eapply Hok|]. intros H. apply Hq. destruct Hi. by transitivity a.
Qed.
Lemma clear_space_none space : ∀ entries fs q, fs !! q = None → clear_space space entries fs !! q = None.
Proof. induction entries as [|[x k] l IH]; intros fs q H; [done|]. cbn [clear_space]. destruct (_ || _); [auto|]. apply IH. rewrite os_remove_all_lookup. by case_bool_decide. Qed.
Lemma clear_space_lookup space entries : ∀ fs q,
  ((∃ x k, (x, k) ∈ entries ∧ space ++ [x] `prefix_of` q ∧ x ≠ "cwd" ∧ String.prefix ".muxfys" x = false) → clear_space space entries fs !! q = None) ∧
  ((¬ ∃ x k, (x, k) ∈ entries ∧ space ++ [x] `prefix_of` q ∧ x ≠ "cwd" ∧ String.prefix ".muxfys" x = false) → clear_space space entries fs !! q = fs !! q).
Proof.
  pose proof (clear_space_none space) as Hmono.
  induction entries as [|[x k] l IH]; intros fs q; cbn [clear_space].
  { split; [intros (x & k & Hx & _); by apply elem_of_nil in Hx|done]. }
  destruct (bool_decide (x = "cwd") || String.prefix ".muxfys" x) eqn:E.
  - destruct (IH fs q) as [I1 I2]. split.
    + intros (y & k' & [[= -> ->]|Hy]%elem_of_cons & H1 & H2 & H3); [|apply I1; naive_solver]. exfalso.
      apply orb_true_iff in E as [E|E]; [by apply bool_decide_eq_true in E|congruence].
    + intros H. apply I2. intros (y & k' & Hy & Hr). apply H. exists y, k'. split; [by right|done].
  - apply orb_false_iff in E as [E1 E2]. apply bool_decide_eq_false in E1. destruct (IH (os_remove_all fs (space ++ [x])) q) as [I1 I2]. split.
    + intros (y & k' & [[= -> ->]|Hy]%elem_of_cons & H1 & H2 & H3); [|apply I1; naive_solver].
      apply Hmono. rewrite os_remove_all_lookup. by rewrite bool_decide_true.
    + intros H. rewrite I2. { rewrite os_remove_all_lookup, bool_decide_false; [done|]. intros Hp. apply H. exists x, k. split; [by left|done]. }
      intros (y & k' & Hy & Hr). apply H. exists y, k'. split; [by right|done].
Qed.
Lemma clear_space_ok space entries : ∀ fs, disk_ok fs → disk_ok (clear_space space entries fs).
Proof. induction entries as [|[x k] l IH]; intros fs H; [done|]. cbn [clear_space]. destruct (_ || _); [auto|]. by apply IH, remove_all_ok. Qed.
Lemma keep_dirs_relative ms : (MNone ∈ ms ∧ keep_dirs ms = None) ∨ (MNone ∉ ms ∧ keep_dirs ms = Some (relative ms)).
Proof.
  induction ms as [|m ms IH]; [right; split; [apply not_elem_of_nil|done]|]. destruct m; cbn [keep_dirs].
  - left. split; [by left|done].
  - destruct IH as [[H ->]|[H ->]]; [left|right]; cbn; (split; [|done]); [by right|]. apply not_elem_of_cons. done.
  - destruct IH as [[H ->]|[H ->]]; [left|right]; cbn; (split; [|done]); [by right|]. apply not_elem_of_cons. done.
Qed.
Lemma kept_closed fs top es p q : disk_ok fs → inside top p → inside p q → is_Some (fs !! q) → kept fs top es q → kept fs top es p.
Proof.
  intros Hok Hp Hpq Hs (e & He & [[H1 H2]|[H1 H2]]); exists e; (split; [done|]).
  - destruct (prefix_comparable p (top ++ e) q) as [H|H]; [by destruct Hpq|done|..].
    + apply prefix_inside in H as [->|H]; [left; done|]. right. split; [by apply (Hok p q)|done].
    + by left.
  - right. split; [by apply (Hok p q)|]. eapply inside_trans2; [|done]. by destruct Hpq.
Qed.
Definition mounts_ok (ms : list mount) (n : nat) : Prop := MNone ∈ ms ∨ (Forall plain (relative ms) ∧ Forall (λ e, (length e < n)%nat) (relative ms)).
Lemma rm_empty_final fs leaf b fs' o : inside b leaf → disk_ok fs → (∀ q, q `prefix_of` leaf → fs !! q ≠ Some KFile) → rm_empty_dirs fs leaf (Some b) = (fs', o) →
  o = ODone ∧ ∀ q, fs' !! q = fs !! q ∨ (fs !! q = Some KDir ∧ fs' !! q = None ∧ inside b q ∧ q `prefix_of` leaf ∧ ∀ r, inside q r → fs' !! r = None).
Proof.
  intros Hb Hok Hnf H. destruct (rm_empty_ok _ _ _ _ _ Hb Hok Hnf H) as (-> & Hok' & H1 & H2 & _). split; [done|]. intros q.
  destruct (H1 q) as [Hq|Hq]; [by left|]. destruct (fs !! q) as [k|] eqn:E; [|by left]. right.
  destruct (H2 q ltac:(by rewrite E) Hq) as (J1 & J2 & J3). rewrite <- E. split_and!; [done..|]. intros r Hr. destruct (fs' !! r) eqn:Er; [|done].
  rewrite (Hok' q r) in Hq; [done|done|by rewrite Er].
Qed.
Lemma cleanup_ok rd fs space b ms n : reads rd → disk_ok fs → inside b space → fs !! (space ++ ["cwd"]) = Some KDir → (0 < n)%nat → mounts_ok ms n →
  ∃ fs', cleanup n rd fs (space ++ ["cwd"]) (Some b) ms = (fs', ODone) ∧
    (∀ q, inside space q → stays fs space ms q → fs' !! q = fs !! q) ∧
    (∀ q, inside space q → ¬ stays fs space ms q → fs' !! q = None) ∧
    (∀ q, ¬ inside space q → fs' !! q = fs !! q ∨ (fs !! q = Some KDir ∧ fs' !! q = None ∧ inside b q ∧ q `prefix_of` space ∧ ∀ r, inside q r → fs' !! r = None)).
Proof.
  intros Hrd Hok Hb Hcwd Hn Hm. unfold cleanup. rewrite dirname_app.
  assert (Hspace : ∀ q, q `prefix_of` space → fs !! q = Some KDir).
  { intros q Hq. apply (Hok q (space ++ ["cwd"])); [|by rewrite Hcwd]. eapply inside_trans2; [done|]. by apply inside_app. }
  assert (Hpi : ∀ q, q `prefix_of` space → ¬ inside space q).
  { intros q Hq Hi. apply inside_length in Hi. apply prefix_length in Hq. lia. }
  (* the end is always the same *)
  assert (Hend : ∀ fs2, disk_ok fs2 → (∀ q, inside space q → stays fs space ms q → fs2 !! q = fs !! q) → (∀ q, inside space q → ¬ stays fs space ms q → fs2 !! q = None) →
     (∀ q, ¬ inside space q → fs2 !! q = fs !! q ∨ (q = space ∧ fs2 !! q = None)) →
     (fs2 !! space = None → (∀ r, inside space r → fs2 !! r = None)) →
    ∃ fs', rm_empty_dirs fs2 space (Some b) = (fs', ODone) ∧
    (∀ q, inside space q → stays fs space ms q → fs' !! q = fs !! q) ∧
    (∀ q, inside space q → ¬ stays fs space ms q → fs' !! q = None) ∧
    (∀ q, ¬ inside space q → fs' !! q = fs !! q ∨ (fs !! q = Some KDir ∧ fs' !! q = None ∧ inside b q ∧ q `prefix_of` space ∧ ∀ r, inside q r → fs' !! r = None))).
  { intros fs2 Hok2 H1 H2 H3 H4. destruct (rm_empty_dirs fs2 space (Some b)) as [fs' o] eqn:E.
    apply rm_empty_final in E as [-> Hf]; [|done|done|].
    2: { intros q Hq. destruct (H3 q (Hpi q Hq)) as [-> | [-> ->]]; [by rewrite Hspace|done]. }
    exists fs'. split; [done|]. split_and!.
    - intros q Hi Hs. rewrite <- (H1 q Hi Hs). destruct (Hf q) as [H|(_ & _ & _ & H & _)]; [done|]. by apply Hpi in H.
    - intros q Hi Hs. destruct (Hf q) as [H|(_ & _ & _ & H & _)]; [rewrite H; by apply H2|]. by apply Hpi in H.
    - intros q Hi. destruct (H3 q Hi) as [Hq|[-> Hq]].
      + destruct (Hf q) as [H|(J1 & J2 & J3 & J4 & J5)]; [left; by rewrite H|]. right. rewrite <- Hq. done.
      + right. split_and!; [by apply Hspace| |done|done|].
        * destruct (Hf space) as [H|(_ & H & _)]; [by rewrite H|done].
        * intros r Hr. destruct (Hf r) as [H|(_ & H & _)]; [|done]. rewrite H. by apply H4. }
  destruct ms as [|m ms'].
  { apply Hend.
    - by apply remove_all_ok.
    - intros q _ [[] _]; done.
    - intros q Hi _. rewrite os_remove_all_lookup, bool_decide_true; [done|]. by destruct Hi.
    - intros q Hi. rewrite os_remove_all_lookup. case_bool_decide as H; [|by left]. right. split; [|done]. apply prefix_inside in H as [->|H]; done.
    - intros _ r Hr. rewrite os_remove_all_lookup, bool_decide_true; [done|]. by destruct Hr. }
  set (ms := m :: ms') in *. set (cwd := space ++ ["cwd"]) in *.
  assert (Hci : inside space cwd) by (by apply inside_app).
  (* the first step: inside cwd *)
  assert (Hfirst : ∃ fs1, match keep_dirs ms with None => (fs, ODone) | Some [] => (os_remove_all fs cwd, ODone) | Some es => remove_all_except n rd fs cwd es end = (fs1, ODone) ∧
    disk_ok fs1 ∧ (∀ q, ¬ cwd `prefix_of` q → fs1 !! q = fs !! q) ∧ (∀ q, cwd `prefix_of` q → stays fs space ms q → fs1 !! q = fs !! q) ∧
    (∀ q, cwd `prefix_of` q → ¬ stays fs space ms q → fs1 !! q = None)).
  { assert (Hmux : ∀ q, cwd `prefix_of` q → ¬ ∃ x, String.prefix ".muxfys" x = true ∧ space ++ [x] `prefix_of` q).
    { intros q Hq (x & Hx & Hxq). rewrite (entry_unique space x "cwd" q Hxq Hq) in Hx. discriminate Hx. }
    destruct (keep_dirs_relative ms) as [[Hmn ->]|[Hmn ->]].
    - exists fs. split_and!; [done|done|done|done|]. intros q Hq Hns. destruct Hns. split; [done|]. right. split; [done|]. by left.
    - destruct Hm as [Hm|[Hp Hl]]; [by destruct Hmn|]. destruct (relative ms) as [|e es] eqn:Er.
      + exists (os_remove_all fs cwd). split_and!; [done|by apply remove_all_ok|..].
        * intros q Hq. rewrite os_remove_all_lookup. by rewrite bool_decide_false.
        * intros q Hq (_ & [Hx|(_ & [Hx|[Hx _]])]); [by apply Hmux in Hx|done|]. by rewrite Er in Hx.
        * intros q Hq _. rewrite os_remove_all_lookup. by rewrite bool_decide_true.
      + rewrite <- Er in *. destruct (remove_all_except_ok rd fs cwd (relative ms) n Hrd Hok Hcwd Hp Hl Hn) as (fs1 & He & H1).
        exists fs1. split; [rewrite Er in *; exact He|]. split_and!.
        * intros p q Hpq Hs. destruct (H1 p) as (P1 & P2 & P3), (H1 q) as (Q1 & Q2 & Q3).
          destruct (decide (inside cwd q)) as [Hq|Hq].
          -- assert (Hkq : ¬ ¬ kept fs cwd (relative ms) q) by (intros Hk; rewrite Q3 in Hs by done; by destruct Hs).
             assert (Hsq : is_Some (fs !! q)).
             { destruct (fs !! q) eqn:E; [done|]. exfalso. apply Hkq. intros Hk. rewrite Q2 in Hs by done. by destruct Hs. }
             assert (Hpd : fs !! p = Some KDir) by (by apply (Hok p q)).
             destruct (decide (inside cwd p)) as [Hp'|Hp']; [|rewrite P1; done].
             assert (Hkp : ¬ ¬ kept fs cwd (relative ms) p) by (intros H; apply Hkq; intros Hk; apply H; by eapply kept_closed).
             destruct (fs1 !! p) as [k|] eqn:Ep.
             { destruct (decide (k = KDir)) as [->|Hk]; [done|]. exfalso. apply Hkp. intros Hkk. pose proof (P2 Hp' Hkk). congruence. }
             exfalso. apply Hkp. intros Hkk. pose proof (P2 Hp' Hkk). congruence.
          -- rewrite Q1 in Hs by done. rewrite P1; [by apply (Hok p q)|]. intros Hp'. apply Hq. eapply inside_trans; [done|]. by destruct Hpq.
        * intros q Hq. destruct (H1 q) as (Q1 & _). apply Q1. intros [H _]. done.
        * intros q Hq (_ & [Hx|(_ & [Hx|[_ Hx]])]); [by apply Hmux in Hx|done|]. destruct (H1 q) as (Q1 & Q2 & Q3).
          apply prefix_inside in Hq as [<-|Hq]; [apply Q1; apply not_inside_self|]. apply Q2; [done|]. destruct Hx as [->|Hx]; [|done]. by apply not_inside_self in Hq.
        * intros q Hq Hns. destruct (H1 q) as (Q1 & Q2 & Q3). apply prefix_inside in Hq as [<-|Hq].
          -- destruct Hns. split; [done|]. right. split; [done|]. right. split; [by rewrite Er|]. by left.
          -- apply Q3; [done|]. intros Hk. destruct Hns. split; [done|]. right. split; [by destruct Hq|]. right. split; [by rewrite Er|]. by right. }
  destruct Hfirst as (fs1 & -> & Hok1 & F1 & F2 & F3). cbn match.
  assert (Hsp1 : fs1 !! space = Some KDir).
  { rewrite F1; [by apply Hspace|]. intros H. apply inside_length in Hci. apply prefix_length in H. lia. }
  rewrite Hsp1. destruct (Hrd fs1 space Hsp1) as [_ Hent].
  assert (Hcs : ∀ q, ¬ inside space q → clear_space space (rd fs1 space) fs1 !! q = fs1 !! q).
  { intros q Hq. apply clear_space_lookup. intros (x & k & _ & H & _). apply Hq. by eapply entry_inside. }
  apply Hend.
  - by apply clear_space_ok.
  - intros q Hi Hs. pose proof Hs as Hs0. destruct Hs as (_ & Hs). destruct (clear_space_lookup space (rd fs1 space) fs1 q) as [_ ->].
    + destruct (decide (cwd `prefix_of` q)) as [Hc|Hc]; [by apply F2|by apply F1].
    + intros (x & k & _ & H1 & H2 & H3). destruct Hs as [(y & Hy & Hyq)|[Hc _]].
      * rewrite (entry_unique space x y q H1 Hyq) in H3. congruence.
      * apply H2. by eapply entry_unique.
  - intros q Hi Hns. destruct (decide (cwd `prefix_of` q)) as [Hc|Hc].
    + destruct (clear_space_lookup space (rd fs1 space) fs1 q) as [C1 C2].
      rewrite C2; [by apply F3|]. intros (x & k & _ & H1 & H2 & H3). apply H2. by eapply entry_unique.
    + destruct (fs1 !! q) as [k|] eqn:Eq.
      * apply clear_space_lookup. apply inside_entry in Hi as [x Hx].
        assert (Hex : is_Some (fs1 !! (space ++ [x]))).
        { apply prefix_inside in Hx as [->|Hx]; [by rewrite Eq|]. rewrite (Hok1 (space ++ [x]) q); [done|done|by rewrite Eq]. }
        destruct Hex as [k' Hex]. exists x, k'. split_and!; [by apply Hent|done|by intros ->|]. destruct (String.prefix ".muxfys" x) eqn:Ep; [|done].
        destruct Hns. split; [done|]. left. eauto.
      * by apply clear_space_none.
  - intros q Hi. left. rewrite Hcs by done. apply F1. intros H. apply Hi. by eapply inside_trans.
  - intros H. rewrite Hcs in H by apply not_inside_self. congruence.
Qed.
Lemma list_dir_reads : reads list_dir.
Proof.
  intros fs p _. unfold list_dir. split.
  - pose proof (NoDup_map_to_list fs) as Hnd. induction Hnd as [|[q k] l Hn Hnd IH]; cbn; [constructor|].
    destruct (last q) as [x|]; [|done]. case_bool_decide as Hq; [|done]. apply NoDup_cons. split; [|done].
    rewrite elem_of_list_omap. intros ([q' k'] & Hin & H). cbn in H. destruct (last q') as [x'|]; [|done]. case_bool_decide as Hq'; [|done].
    injection H as -> ->. subst. done.
  - intros x k. rewrite elem_of_list_omap. split.
    + intros ([q k'] & Hin & H). cbn in H. destruct (last q) as [x'|]; [|done]. case_bool_decide as Hq; [|done]. injection H as -> ->. subst q. by apply elem_of_map_to_list.
    + intros H. exists (p ++ [x], k). split; [by apply elem_of_map_to_list|]. cbn. rewrite last_snoc. by rewrite bool_decide_true.
Qed.
