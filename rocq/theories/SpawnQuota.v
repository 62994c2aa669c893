(** More invariants of SpawnModel: the quota, the configured maximum, what stays reserved *)
From Coq Require Import ZArith Lia String.
From stdpp Require Import base option strings list gmap.
From RecordUpdate Require Import RecordSet.
From Verif Require Import CloudModel FlavorModel FlavorSpec FlavorProofs SpawnModel SpawnSpec SpawnProofs SpawnInv.
Import RecordSetNotations.
Open Scope Z_scope.

Lemma exists_known l srv :
  (∀ i g, l !! i = Some g → g_exists g = true → i ∈ srv) → amount Instances g_exists l ≤ Z.of_nat (length srv).
Proof.
  revert srv. induction l as [|g l IH] using rev_ind; intros srv H; [cbn; lia|].
  rewrite amount_app. cbn [amount at_dim share k_inst].
  assert (H' : ∀ i h, l !! i = Some h → g_exists h = true → i ∈ filter (λ j, j ≠ length l) srv).
  { intros i h Hi He. apply elem_of_list_filter. split.
    - apply lookup_lt_Some in Hi. lia.
    - eapply H; [|done]. rewrite lookup_app_l; [done|]. by eapply lookup_lt_Some. }
  specialize (IH _ H'). destruct (g_exists g) eqn:He.
  - assert (length l ∈ srv).
    { eapply H; [|done]. rewrite lookup_app_r by lia. by rewrite Nat.sub_diag. }
    assert (length (filter (λ j, j ≠ length l) srv) < length srv)%nat by (eapply filter_length_lt; [done|]; intros Hn; by destruct Hn).
    lia.
  - pose proof (filter_length (λ j, j ≠ length l) srv). lia.
Qed.

Section inv.
Context (comp : string → option (string → bool)) (o : ocfg) (k others : quota) (fl : list vflavor).
Context (Hv : valid comp (o_regex o)) (Hp : proper comp (o_sets o)) (Hfl : flavors_ok fl).
Notation Inv := (Inv o fl).

(** apart from passes, nothing makes the servers counted more *)
Lemma counted_step s l s' d :
  Inv s → ystep comp o k others s l = Some s' → (∀ c n q f r, l ≠ YSpawn c n q f r) →
  amount d counted (y_spawns s') ≤ amount d counted (y_spawns s).
Proof.
  intros HI H Hl. pose proof (i_whole _ _ _ HI) as Iw.
  assert (Hgen : ∀ i p f s0, y_spawns s0 = y_spawns s → at_spawn i p f s0 = Some s' →
            (∀ g, whole fl g → p g = true → g_flav (f g) = g_flav g ∧ g_disk (f g) = g_disk g ∧ (counted (f g) = true → counted g = true)) →
            amount d counted (y_spawns s') ≤ amount d counted (y_spawns s)).
  { intros i p f s0 Hs0 Ha Hf. apply at_spawn_some in Ha as (g & Hg & Hpg & ->). cbn. rewrite Hs0 in *.
    pose proof (Iw g (elem_of_list_lookup_2 _ _ _ Hg)) as Hw. destruct (Hf g Hw Hpg) as (H1 & H2 & H3).
    rewrite (amount_insert _ _ _ _ _ _ Hg). unfold weight. rewrite H1, H2. pose proof (share_nonneg _ Hfl _ Hw d).
    destruct (counted (f g)); [rewrite H3 by done; lia|]. destruct (counted g); lia. }
  destruct l as [cmd desired q failed order|i|i|i ok|i|i ok|i| |i]; cbn [ystep] in H.
  - by destruct (Hl cmd desired q failed order).
  - destruct (y_spawns s !! i) as [g0|]; [|done]. eapply Hgen; [|exact H|]; [done|].
    intros g _ Hg%bool_decide_eq_true. cbn. split_and!; [done..|]. intros _. unfold counted, unreserved. by rewrite Hg.
  - eapply Hgen; [|exact H|]; [done|]. intros g [_ Hw] Hg%bool_decide_eq_true. rewrite Hg in Hw. cbn. split_and!; [done..|].
    intros _. unfold counted. destruct Hw as (-> & _). by rewrite orb_true_r.
  - eapply Hgen; [|exact H|]; [done|]. intros g [_ Hw] Hg%bool_decide_eq_true. rewrite Hg in Hw. cbn. split_and!; [done..|].
    intros _. unfold counted. destruct Hw as (-> & _). by rewrite orb_true_r.
  - destruct (y_spawns s !! i) as [g0|]; [|done]. eapply Hgen; [|exact H|]; [done|].
    intros g [_ Hw] Hg. assert (Hh : g_held g = true) by (destruct (g_phase g); naive_solver congruence).
    cbn. split_and!; [done..|]. intros _. unfold counted. rewrite Hh. by rewrite orb_true_r.
  - destruct (y_spawns s !! i) as [g0|]; [|done]. eapply Hgen; [|exact H|]; [by destruct (ok && _)|].
    intros g _ Hg%bool_decide_eq_true. cbn. split_and!; [done..|]. unfold counted, unreserved. cbn.
    rewrite Hg. cbn. destruct (g_held g), (g_exists g), ok; done.
  - destruct (y_spawns s !! i) as [g0|]; [|done]. eapply Hgen; [|exact H|]; [done|].
    intros g _ Hg%bool_decide_eq_true. cbn. split_and!; [done..|]. unfold counted, unreserved. cbn. by rewrite Hg.
  - injection H as <-. cbn. lia.
  - eapply Hgen; [|exact H|]; [done|]. intros g _ Hg. cbn. split_and!; [done..|]. unfold counted, unreserved. cbn.
    rewrite orb_false_r. intros ->. done.
Qed.
Lemma counted_split s d : Inv s → reserved_first s →
  amount d counted (y_spawns s) ≤ amount d g_exists (y_spawns s) + at_dim d (y_res s).
Proof.
  intros HI Hr. rewrite (i_res _ _ _ HI). apply amount_or.
  - intros g Hg. unfold counted. rewrite (Hr g Hg). cbn. destruct (g_held g), (g_exists g); auto.
  - intros g Hg. apply (share_nonneg _ Hfl). by apply HI.
Qed.

(** ** The quota *)
Definition QInv (s : osys) : Prop := ∀ d, 0 < at_dim d k → at_dim d others + amount d counted (y_spawns s) ≤ at_dim d k.
Lemma quota_step s l s' :
  Inv s → QInv s → sane fl l → (match l with YSpawn _ _ _ _ _ => reserved_first s | _ => True end) →
  ystep comp o k others s l = Some s' → QInv s'.
Proof.
  intros HI HQ Hs Hr H. destruct (match l with YSpawn _ _ _ _ _ => true | _ => false end) eqn:Hl.
  2:{ intros d Hd. specialize (HQ d Hd). enough (amount d counted (y_spawns s') ≤ amount d counted (y_spawns s)) by lia.
      eapply counted_step; [done..|]. intros ? ? ? ? ? ->. done. }
  destruct l as [cmd desired q failed order| | | | | | | |]; [|done..].
  destruct (spawn_step _ _ _ _ _ Hv Hp Hfl _ _ _ _ _ _ _ Hs H) as [->|(n & f & Hn & Hin & Hle & _ & _ & _ & ->)]; [done|].
  clear H. set (disk := q_disk (reqForSpawn o q)) in *. clearbody disk. intros d Hd. cbn. rewrite amount_app, amount_replicate. rewrite Z2Nat.id by lia. unfold weight. cbn [counted unreserved g_phase orb].
  change (counted _) with true. cbn [g_flav g_disk].
  destruct (proj2 Hfl _ Hin) as (Hc & Hra & Hdk).
  destruct (spawnable_ok o f disk k (used others (y_spawns s)) (y_res s) (1 + Z.of_nat (length (y_servers s))) _ Hc Hra Hdk eq_refl) as [H0 H1].
  destruct (H1 ltac:(lia)) as [H2 _]. specialize (H2 d Hd). rewrite used_amount in H2.
  pose proof (counted_split s d HI Hr) as Hcs. specialize (HQ d Hd).
  assert (0 ≤ at_dim d (share f disk)) as Hsh.
  { destruct d; cbn [at_dim share k_inst k_cores k_ram k_vol]; try lia. destruct (Z.ltb_spec (v_disk f) disk); lia. }
  destruct H2 as [H2|H2]; [|rewrite H2; lia]. nia.
Qed.
Lemma quota_run ls s s' :
  Inv s → QInv s → Forall (sane fl) ls → when_spawning comp o k others reserved_first s ls →
  yrun comp o k others s ls = Some s' → QInv s'.
Proof.
  revert s. induction ls as [|l ls IH]; intros s HI HQ Hs Hw; cbn [yrun]; [by intros [= ->]|].
  apply Forall_cons in Hs as [Hl Hs]. destruct Hw as [Hw1 Hw2]. destruct (ystep comp o k others s l) as [s1|] eqn:H1; [|done].
  apply IH; [by eapply inv_step|by eapply quota_step|done|done].
Qed.
Lemma exists_counted s d : Inv s → amount d g_exists (y_spawns s) ≤ amount d counted (y_spawns s).
Proof.
  intros HI. apply amount_le.
  - intros g _ He. unfold counted. by rewrite He, orb_true_r.
  - intros g Hg. apply (share_nonneg _ Hfl). by apply HI.
Qed.

(** ** The configured maximum *)
Definition MInv (s : osys) : Prop := 1 + amount Instances counted (y_spawns s) ≤ m_inst o.
Lemma max_step s l s' :
  -1 < m_inst o → m_inst o < k_inst k →
  Inv s → MInv s → sane fl l → (match l with YSpawn _ _ _ _ _ => settled s | _ => True end) →
  ystep comp o k others s l = Some s' → MInv s'.
Proof.
  intros Hm1 Hm2 HI HM Hs Hr H. destruct (match l with YSpawn _ _ _ _ _ => true | _ => false end) eqn:Hl.
  2:{ enough (amount Instances counted (y_spawns s') ≤ amount Instances counted (y_spawns s)) by (unfold MInv in *; lia).
      eapply counted_step; [done..|]. intros ? ? ? ? ? ->. done. }
  destruct l as [cmd desired q failed order| | | | | | | |]; [|done..].
  destruct (spawn_step _ _ _ _ _ Hv Hp Hfl _ _ _ _ _ _ _ Hs H) as [->|(n & f & Hn & Hin & Hle & _ & _ & _ & ->)]; [done|].
  clear H. set (disk := q_disk (reqForSpawn o q)) in *. clearbody disk. unfold MInv. cbn. rewrite amount_app, amount_replicate. rewrite Z2Nat.id by lia. unfold weight.
  change (counted (Spawning _ _ _ _ _ _ _)) with true. cbn [at_dim share k_inst].
  destruct (proj2 Hfl _ Hin) as (Hc & Hra & Hdk).
  destruct (spawnable_ok o f disk k (used others (y_spawns s)) (y_res s) (1 + Z.of_nat (length (y_servers s))) _ Hc Hra Hdk eq_refl) as [H0 H1].
  destruct (H1 ltac:(lia)) as [_ H2]. specialize (H2 Hm1 Hm2).
  pose proof (counted_split s Instances HI (proj1 Hr)) as Hcs. cbn [at_dim] in Hcs.
  assert (amount Instances g_exists (y_spawns s) ≤ Z.of_nat (length (y_servers s))).
  { apply exists_known. intros i g Hi He. destruct (decide (i ∈ y_servers s)); [done|]. exfalso. apply (proj2 Hr). by exists i, g. }
  lia.
Qed.
Lemma max_run ls s s' :
  -1 < m_inst o → m_inst o < k_inst k →
  Inv s → MInv s → Forall (sane fl) ls → when_spawning comp o k others settled s ls →
  yrun comp o k others s ls = Some s' → MInv s'.
Proof.
  intros Hm1 Hm2. revert s. induction ls as [|l ls IH]; intros s HI HQ Hs Hw; cbn [yrun]; [by intros [= ->]|].
  apply Forall_cons in Hs as [Hl Hs]. destruct Hw as [Hw1 Hw2]. destruct (ystep comp o k others s l) as [s1|] eqn:H1; [|done].
  apply IH; [by eapply inv_step|by eapply max_step|done|done].
Qed.

(** ** What stays reserved *)
Definition on_time (g : spawning) : Prop := g_held g = true → g_phase g = PReserved ∨ g_cb g = true.
Lemma on_time_step s l s' :
  Inv s → sane fl l → (∀ g, g ∈ y_spawns s → on_time g) → (∀ i, l ≠ YEarly i) →
  ystep comp o k others s l = Some s' → ∀ g, g ∈ y_spawns s' → on_time g.
Proof.
  intros HI Hs Hot Hl H. pose proof (i_whole _ _ _ HI) as Iw.
  assert (Hgen : ∀ i p f s0, y_spawns s0 = y_spawns s → at_spawn i p f s0 = Some s' →
            (∀ g, whole fl g → p g = true → on_time g → on_time (f g)) → ∀ g, g ∈ y_spawns s' → on_time g).
  { intros i p f s0 Hs0 Ha Hf. apply at_spawn_some in Ha as (g & Hg & Hpg & ->). cbn. rewrite Hs0 in *.
    assert (Hin := elem_of_list_lookup_2 _ _ _ Hg). intros h Hh. apply elem_of_list_lookup in Hh as [j Hj].
    destruct (decide (j = i)) as [->|Hne].
    - rewrite list_lookup_insert in Hj by (by eapply lookup_lt_Some). injection Hj as <-. auto.
    - rewrite list_lookup_insert_ne in Hj by done. apply Hot. by eapply elem_of_list_lookup_2. }
  destruct l as [cmd desired q failed order|i|i|i ok|i|i ok|i| |i].
  - destruct (spawn_step _ _ _ _ _ Hv Hp Hfl _ _ _ _ _ _ _ Hs H) as [->|(n & f & Hn & Hin & Hle & _ & _ & _ & ->)]; [done|].
    cbn. intros g [Hg|Hg]%elem_of_app; [by apply Hot|]. apply elem_of_replicate in Hg as [-> _]. intros Hh. done.
  - cbn [ystep] in H. destruct (y_spawns s !! i) as [g0|]; [|done]. eapply Hgen; [|exact H|]; [done|].
    intros g _ _ _ _. by left.
  - by destruct (Hl i).
  - cbn [ystep] in H. eapply Hgen; [|exact H|]; [done|]. intros g _ _ _ _. by right.
  - cbn [ystep] in H. destruct (y_spawns s !! i) as [g0|]; [|done]. eapply Hgen; [|exact H|]; [done|]. intros g _ _ _ Hh. done.
  - cbn [ystep] in H. destruct (y_spawns s !! i) as [g0|]; [|done]. eapply Hgen; [|exact H|]; [by destruct (ok && _)|].
    intros g _ Hg%bool_decide_eq_true Hon Hh. right. cbn. destruct (Hon Hh); [congruence|done].
  - cbn [ystep] in H. destruct (y_spawns s !! i) as [g0|]; [|done]. eapply Hgen; [|exact H|]; [done|].
    intros g _ Hg%bool_decide_eq_true Hon Hh. right. cbn. destruct (Hon Hh); [congruence|done].
  - injection H as <-. done.
  - cbn [ystep] in H. eapply Hgen; [|exact H|]; [done|]. intros g _ _ Hon Hh. exact (Hon Hh).
Qed.
Lemma on_time_run ls s s' :
  Inv s → Forall (sane fl) ls → (∀ g, g ∈ y_spawns s → on_time g) → (∀ i, YEarly i ∉ ls) →
  yrun comp o k others s ls = Some s' → ∀ g, g ∈ y_spawns s' → on_time g.
Proof.
  revert s. induction ls as [|l ls IH]; intros s HI Hs Hot He; cbn [yrun]; [by intros [= ->]|].
  apply Forall_cons in Hs as [Hl Hs]. destruct (ystep comp o k others s l) as [s1|] eqn:H1; [|done].
  apply IH; [by eapply inv_step|done| |].
  - eapply on_time_step; [done..| |done]. intros i ->. apply (He i). by left.
  - intros i Hi. apply (He i). by right.
Qed.
End inv.
