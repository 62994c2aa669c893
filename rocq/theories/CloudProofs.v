(** Proofs for C59 and C60. *)
From Coq Require Import ZArith Lia.
From stdpp Require Import base option list.
From RecordUpdate Require Import RecordSet.
From Verif Require Import CloudModel CloudSpec.
Import RecordSetNotations.
Open Scope Z_scope.

(** ** Sums *)
Lemma total_app f A B : total f (A ++ B) = total f A + total f B.
Proof. induction A as [|n A IH]; cbn [total app]; lia. Qed.
Lemma total_without f n A : n ∈ A → total f A = f n + total f (without n A).
Proof.
  induction A as [|m A IH]; [by intros ?%elem_of_nil|]. intros H. cbn [without total]. destruct (decide (m = n)) as [->|Hne]; [done|].
  apply elem_of_cons in H as [->|H]; [done|]. cbn [total]. rewrite (IH H). lia.
Qed.
Lemma total_replicate f n m : total f (replicate m n) = Z.of_nat m * f n.
Proof. induction m as [|m IH]; cbn [replicate total]; [lia|]. rewrite IH. lia. Qed.
Lemma without_sub n m A : m ∈ without n A → m ∈ A.
Proof.
  induction A as [|a A IH]; [done|]. cbn [without]. destruct (decide (a = n)); [by right|]. intros [->|?]%elem_of_cons; [left|right; auto].
Qed.
Lemma total_nonneg f A : (∀ n, n ∈ A → 0 ≤ f n) → 0 ≤ total f A.
Proof.
  induction A as [|n A IH]; cbn [total]; [lia|]. intros H. pose proof (H n ltac:(left)). specialize (IH ltac:(intros m Hm; apply H; by right)). lia.
Qed.

(** ** What is used *)
Record Used (f : flavor) (disk : Z) (A : list need) (s : cserver) : Prop := {
  u_flav : flav s = f; u_disk : cdisk s = disk;
  u_nn : Forall not_negative A;
  u_cores : usedCores s = total n_cores A;
  u_zero : usedZeroCores s = total coreless A;
  u_ram : usedRAM s = total n_ram A;
  u_dsk : usedDisk s = total n_disk A;
  u_fits : fits f disk A;
}.
Lemma at_most_spec can ram disk n : 1 ≤ can → not_negative n → n_ram n ≤ ram → n_disk n ≤ disk → 
  let m := at_most can ram disk n in 1 ≤ m ∧ m ≤ can ∧ m * n_ram n ≤ ram ∧ m * n_disk n ≤ disk ∧
  (m < can → ram < (m + 1) * n_ram n ∨ disk < (m + 1) * n_disk n).
Proof.
  intros Hc (_ & Hr0 & Hd0) Hr Hd. unfold at_most. destruct (Z.ltb_spec 1 can) as [H1|H1].
  2: { assert (can = 1) as -> by lia. cbn. split_and!; try lia. }
  destruct (Z.ltb_spec 0 (n_ram n)) as [H2|H2].
  - assert (E1 : Z.quot ram (n_ram n) = ram / n_ram n) by (apply Z.quot_div_nonneg; lia).
    pose proof (Z.div_mod ram (n_ram n) ltac:(lia)) as D1. pose proof (Z.mod_pos_bound ram (n_ram n) ltac:(lia)) as M1. rewrite E1.
    set (q := ram / n_ram n) in *. assert (1 ≤ q) by (apply Z.div_le_lower_bound; lia).
    destruct (Z.ltb_spec q can) as [H3|H3].
    + destruct (Z.ltb_spec 0 (n_disk n)) as [H4|H4].
      * assert (E2 : Z.quot disk (n_disk n) = disk / n_disk n) by (apply Z.quot_div_nonneg; lia).
        pose proof (Z.div_mod disk (n_disk n) ltac:(lia)) as D2. pose proof (Z.mod_pos_bound disk (n_disk n) ltac:(lia)) as M2. rewrite E2.
        set (q2 := disk / n_disk n) in *. assert (1 ≤ q2) by (apply Z.div_le_lower_bound; lia).
        destruct (Z.ltb_spec q2 q); cbn; split_and!; nia.
      * assert (n_disk n = 0) as -> by lia. cbn. split_and!; nia.
    + destruct (Z.ltb_spec 0 (n_disk n)) as [H4|H4].
      * assert (E2 : Z.quot disk (n_disk n) = disk / n_disk n) by (apply Z.quot_div_nonneg; lia).
        pose proof (Z.div_mod disk (n_disk n) ltac:(lia)) as D2. pose proof (Z.mod_pos_bound disk (n_disk n) ltac:(lia)) as M2. rewrite E2.
        set (q2 := disk / n_disk n) in *. assert (1 ≤ q2) by (apply Z.div_le_lower_bound; lia).
        destruct (Z.ltb_spec q2 can); cbn; split_and!; nia.
      * assert (n_disk n = 0) as -> by lia. cbn. split_and!; nia.
  - assert (n_ram n = 0) as -> by lia. destruct (Z.ltb_spec 0 (n_disk n)) as [H4|H4].
    + assert (E2 : Z.quot disk (n_disk n) = disk / n_disk n) by (apply Z.quot_div_nonneg; lia).
      pose proof (Z.div_mod disk (n_disk n) ltac:(lia)) as D2. pose proof (Z.mod_pos_bound disk (n_disk n) ltac:(lia)) as M2. rewrite E2.
      set (q2 := disk / n_disk n) in *. assert (1 ≤ q2) by (apply Z.div_le_lower_bound; lia).
      destruct (Z.ltb_spec q2 can); cbn; split_and!; nia.
    + assert (n_disk n = 0) as -> by lia. cbn. split_and!; nia.
Qed.

(** how many fit *)
Lemma space_spec f disk A s n : possible f disk → Used f disk A s → not_negative n → destroyed s = false →
  let m := check_space n s in 0 ≤ m ∧ fits f disk (replicate (Z.to_nat m) n ++ A) ∧ ¬ fits f disk (replicate (S (Z.to_nat m)) n ++ A).
Proof.
  intros Hp HU Hn Hd. destruct HU as [Hf Hdk Hnn HC HZ HR HD (F1 & F2 & F3 & F4)]. destruct Hp as (P1 & P2 & P3). destruct Hn as (N1 & N2 & N3).
  unfold check_space. rewrite Hd, Hf, Hdk, HC, HZ, HR, HD.
  assert (Hfit : ∀ k, fits f disk (replicate k n ++ A) ↔
    Z.of_nat k * n_cores n ≤ 1000 * f_cores f - total n_cores A ∧ Z.of_nat k * n_ram n ≤ f_ram f - total n_ram A ∧
    Z.of_nat k * n_disk n ≤ disk - total n_disk A ∧ Z.of_nat k * coreless n ≤ coreless_limit f - total coreless A).
  { intros k. unfold fits. rewrite !total_app, !total_replicate. lia. }
  set (C := 1000 * f_cores f - total n_cores A) in *. set (R := f_ram f - total n_ram A) in *. set (D := disk - total n_disk A) in *.
  assert (0 ≤ C ∧ 0 ≤ R ∧ 0 ≤ D ∧ 0 ≤ coreless_limit f - total coreless A) as (HC0 & HR0 & HD0 & HZ0) by lia.
  destruct ((C <? n_cores n) || (R <? n_ram n) || (D <? n_disk n)) eqn:E.
  - cbv zeta. split; [lia|]. rewrite !Hfit. change (Z.to_nat 0) with 0%nat. change (Z.of_nat 0) with 0. change (Z.of_nat 1) with 1.
    split; [lia|]. apply orb_true_iff in E as [[E|E]%orb_true_iff|E]; apply Z.ltb_lt in E; lia.
  - apply orb_false_iff in E as [[E1 E2]%orb_false_iff E3]. apply Z.ltb_ge in E1, E2, E3.
    assert (Hlim : (if f_cores f =? 0 then ZeroCoreMultiplier * ZeroCoreMultiplier - total coreless A
                    else f_cores f * ZeroCoreMultiplier - total coreless A) = coreless_limit f - total coreless A).
    { unfold coreless_limit, ZeroCoreMultiplier. destruct (Z.eqb_spec (f_cores f) 0); [by rewrite decide_True|rewrite decide_False by done; lia]. }
    rewrite Hlim. set (L := coreless_limit f - total coreless A) in *. unfold coreless in Hfit.
    destruct (Z.eqb_spec (n_cores n) 0) as [Hz|Hz].
    + cbv zeta. rewrite (decide_True (P := n_cores n = 0)) in Hfit by done. destruct (decide (L = 0)) as [EL|HL].
      * rewrite EL. unfold at_most. cbn [Z.ltb Z.compare Z.to_nat]. split; [lia|]. rewrite !Hfit, EL. change (Z.of_nat 0) with 0. change (Z.of_nat 1) with 1. lia.
      * destruct (at_most_spec L R D n) as (A1 & A2 & A3 & A4 & A5); [lia|done|lia|lia|].
        set (m := at_most L R D n) in *. split; [lia|]. rewrite !Hfit, Nat2Z.inj_succ, Z2Nat.id by lia. rewrite Hz.
        split; [lia|]. intros (B1 & B2 & B3 & B4). lia.
    + cbv zeta. rewrite (decide_False (P := n_cores n = 0)) in Hfit by done.
      pose proof (Z.div_mod C (n_cores n) Hz) as D1. pose proof (Z.mod_pos_bound C (n_cores n) ltac:(lia)) as M1.
      set (q := C / n_cores n) in *. assert (1 ≤ q) by (apply Z.div_le_lower_bound; lia).
      destruct (at_most_spec q R D n) as (A1 & A2 & A3 & A4 & A5); [lia|done|lia|lia|].
      set (m := at_most q R D n) in *. split; [lia|]. rewrite !Hfit, Nat2Z.inj_succ, Z2Nat.id by lia. 
      split; [split_and!; try lia; nia|]. intros (B1 & B2 & B3 & B4). assert (m < q ∨ m = q) as [|] by lia; [lia|nia].
Qed.
Lemma allocate_iff f disk A s n : possible f disk → Used f disk A s → not_negative n → destroyed s = false →
  (allocate n s).2 = true ↔ fits f disk (n :: A).
Proof.
  intros Hp HU Hn Hd. destruct (space_spec f disk A s n Hp HU Hn Hd) as (H0 & H1 & H2). unfold allocate.
  destruct (Z.eqb_spec (check_space n s) 0) as [E|E]; cbn [snd].
  - rewrite E in H2. cbn [replicate app] in H2. split; [done|]. intros H. by destruct H2.
  - split; [intros _|done]. destruct Hn as (N1 & N2 & N3). assert (0 ≤ coreless n) as Hcl by (unfold coreless; case_decide; lia).
    unfold fits in *. rewrite !total_app, !total_replicate in H1. cbn [total]. rewrite Z2Nat.id in H1 by lia.
    set (m := check_space n s) in *. assert (1 ≤ m) by lia.
    assert (∀ x, 0 ≤ x → x ≤ m * x) as Hm by (intros x Hx; nia). pose proof (Hm _ N1). pose proof (Hm _ N2). pose proof (Hm _ N3). pose proof (Hm _ Hcl). lia.
Qed.
Lemma allocate_destroyed n s : destroyed s = true → allocate n s = (s, false).
Proof. intros H. unfold allocate, check_space. by rewrite H. Qed.

(** what a step that is neither leaves alone *)
Definition same_use (s s' : cserver) : Prop :=
  flav s' = flav s ∧ cdisk s' = cdisk s ∧ ttd s' = ttd s ∧ usedCores s' = usedCores s ∧ usedZeroCores s' = usedZeroCores s ∧
  usedRAM s' = usedRAM s ∧ usedDisk s' = usedDisk s.
Lemma same_use_refl s : same_use s s.
Proof. by unfold same_use. Qed.
Ltac opt H := cbn [mbind option_bind] in H.
Lemma other_use s l s' : cstep s l = Some s' → (∀ n, l ≠ LAllocate n) → (∀ n, l ≠ LRelease n) → same_use s s'.
Proof.
  intros H Ha Hr. destruct l; cbn [cstep] in H; [by destruct (Ha n)|by destruct (Hr n)|..].
  - by injection H as <-.
  - destruct (gor s !! i) as [p|]; [|done]. opt H. destruct p; try done; try (destruct (locked s); [done|]).
    + destruct (onDeathrow s); [by injection H as <-|]. destruct (_ || _); by injection H as <-.
    + destruct (cancels s) as [|[|]]; by injection H as <-.
    + by injection H as <-.
    + destruct (destroyed s); [by injection H as <-|]. destruct (onDeathrow s); by injection H as <-.
    + by injection H as <-.
  - destruct (gor s !! i) as [[]|]; try done. by injection H as <-.
  - destruct (gor s !! i) as [p|]; [|done]. opt H. destruct (gor s !! j) as [q|]; [|done]. opt H.
    destruct q; try done; opt H; destruct p as [|c'| |[|[|k]]| | | | | |]; try done; case_decide; try done; by injection H as <-.
Qed.
Lemma alloc_true_use n s : (allocate n s).2 = true → let s' := (allocate n s).1 in
  flav s' = flav s ∧ cdisk s' = cdisk s ∧ usedCores s' = usedCores s + n_cores n ∧ usedZeroCores s' = usedZeroCores s + coreless n ∧
  usedRAM s' = usedRAM s + n_ram n ∧ usedDisk s' = usedDisk s + n_disk n ∧ destroyed s' = destroyed s ∧ ttd s' = ttd s ∧
  onDeathrow s' = onDeathrow s ∧ locked s' = locked s ∧ chan s' = chan s ∧
  (if onDeathrow s then cancels s' = S (cancels s) ∧ gor s' = gor s ++ [SNew] else cancels s' = cancels s ∧ gor s' = gor s).
Proof.
  unfold allocate, coreless. destruct (Z.eqb_spec (check_space n s) 0); [done|]. intros _. destruct s as [? ? ? ? ? ? ? [] ? ? ? ? ? ?]; cbn;
  destruct (Z.eqb_spec (n_cores n) 0) as [->|Hz]; cbn; rewrite ?decide_True, ?decide_False by done; split_and!; try done; lia.
Qed.
Lemma alloc_false n s : (allocate n s).2 = false → (allocate n s).1 = s.
Proof. unfold allocate. by destruct (check_space n s =? 0). Qed.
Lemma release_use n s : let s' := release n s in
  flav s' = flav s ∧ cdisk s' = cdisk s ∧ usedCores s' = usedCores s - n_cores n ∧ usedZeroCores s' = usedZeroCores s - coreless n ∧
  usedRAM s' = usedRAM s - n_ram n ∧ usedDisk s' = usedDisk s - n_disk n ∧ destroyed s' = destroyed s ∧ ttd s' = ttd s ∧
  onDeathrow s' = onDeathrow s ∧ locked s' = locked s ∧ chan s' = chan s ∧ cancels s' = cancels s ∧
  (gor s' = gor s ∨ gor s' = gor s ++ [GNew] ∧ usedCores s' ≤ 0 ∧ usedZeroCores s' ≤ 0 ∧ usedRAM s' ≤ 0) ∧
  (ttd s = true → usedCores s' ≤ 0 → usedZeroCores s' ≤ 0 → usedRAM s' ≤ 0 → gor s' = gor s ++ [GNew]).
Proof.
  unfold release, coreless. destruct s as [? ? t ? ? ? ? ? ? ? ? ? ? ?].
  destruct (Z.eqb_spec (n_cores n) 0) as [Hz|Hz]; cbn; rewrite ?decide_True, ?decide_False by done; rewrite ?Hz;
    (destruct (_ && _) eqn:E; cbn; split_and!; try done; try lia; try (by left); try (right; rewrite !andb_true_iff, !Z.leb_le in E; cbn in E; split_and!; done || lia));
    intros -> ? ? ?; exfalso; rewrite !andb_false_iff, !Z.leb_gt in E; cbn in E; intuition (try lia; try done).
Qed.
Lemma without_nn n A : Forall not_negative A → Forall not_negative (without n A).
Proof. rewrite !Forall_forall. intros H m Hm%without_sub. by apply H. Qed.
Lemma used_step f disk A s l s' : possible f disk → Used f disk A s → proper A s l → cstep s l = Some s' → Used f disk (held_after A s l) s'.
Proof.
  intros Hp HU Hok H.
  assert ((internal l ∨ l = LDestroy) ∨ ¬ (internal l ∨ l = LDestroy)) as [Hl|Hl].
  { destruct l; cbn; try (left; tauto); right; intros [?|?]; done. }
  { destruct (other_use s l s' H) as (E1 & E2 & _ & E3 & E4 & E5 & E6); [by intros n ->; destruct Hl|by intros n ->; destruct Hl|].
    assert (held_after A s l = A) as -> by (by destruct l, Hl). destruct HU. split; congruence. }
  destruct l; try (exfalso; apply Hl; cbn; tauto); cbn [cstep held_after] in *; destruct (locked s); try done; injection H as <-.
  - destruct (destroyed s) eqn:Ed; [by rewrite allocate_destroyed|].
    destruct ((allocate n s).2) eqn:E; [|by rewrite alloc_false].
    pose proof (proj1 (allocate_iff f disk A s n Hp HU Hok Ed) E) as Hfit. destruct (alloc_true_use n s E) as (E1 & E2 & E3 & E4 & E5 & E6 & _).
    destruct HU. split; try congruence; cbn [total]; try lia; try done. by constructor.
  - destruct (release_use n s) as (E1 & E2 & E3 & E4 & E5 & E6 & _). destruct HU as [? ? Hnn ? ? ? ? (F1 & F2 & F3 & F4)]. cbn in Hok.
    pose proof (total_without n_cores n A Hok). pose proof (total_without n_ram n A Hok). pose proof (total_without n_disk n A Hok).
    pose proof (total_without coreless n A Hok). rewrite Forall_forall in Hnn. pose proof (Hnn n Hok) as (N1 & N2 & N3).
    assert (0 ≤ coreless n) by (unfold coreless; case_decide; lia).
    split; try congruence; try lia; [apply without_nn; by apply Forall_forall|]. unfold fits. lia.
Qed.
Lemma used_new f disk t : possible f disk → Used f disk [] (c_new f disk t).
Proof. intros (P1 & P2 & P3). split; try done. unfold fits, coreless_limit. cbn. case_decide; lia. Qed.
Lemma used_reached (ok : list need → cserver → clabel → Prop) f disk t A s : (∀ A s l, ok A s l → proper A s l) → possible f disk →
  reached ok (c_new f disk t) A s → Used f disk A s.
Proof.
  intros Hok Hp H. induction H; [by apply used_new|]. eapply used_step; try done. by apply Hok.
Qed.
Lemma never_more f disk t A s : possible f disk → reached proper (c_new f disk t) A s →
  fits f disk A ∧ usedCores s = total n_cores A ∧ usedZeroCores s = total coreless A ∧ usedRAM s = total n_ram A ∧ usedDisk s = total n_disk A.
Proof. intros Hp H. destruct (used_reached proper f disk t A s (λ _ _ _ H, H) Hp H). done. Qed.
Lemma flavor_same f t n : 0 < f_cores f → flavor_space f n = check_space n (c_new f (f_disk f) t).
Proof.
  intros H. unfold flavor_space, check_space. cbn [flav cdisk usedCores usedRAM usedDisk usedZeroCores destroyed c_new]. rewrite !Z.sub_0_r.
  by rewrite (proj2 (Z.eqb_neq (f_cores f) 0)) by lia.
Qed.

(** ** The countdown *)
Open Scope nat_scope.
Fixpoint cnt (f : phase → nat) (g : list phase) : nat := match g with [] => 0 | p :: g => f p + cnt f g end.
Lemma cnt_app f g h : cnt f (g ++ h) = cnt f g + cnt f h.
Proof. induction g as [|p g IH]; cbn [cnt app]; lia. Qed.
Lemma cnt_insert f g i p q : g !! i = Some p → cnt f (<[i := q]> g) + f p = cnt f g + f q.
Proof.
  revert i. induction g as [|x g IH]; intros [|i]; try done.
  - intros [= ->]. change (<[0 := q]> (p :: g)) with (q :: g). cbn [cnt]. lia.
  - intros H%IH. change (<[S i := q]> (x :: g)) with (x :: <[i := q]> g). cbn [cnt]. lia.
Qed.
Lemma cnt_in f g p : p ∈ g → f p ≤ cnt f g.
Proof.
  induction g as [|x g IH]; [by intros ?%elem_of_nil|]. intros [->|H]%elem_of_cons; cbn [cnt]; [lia|]. specialize (IH H). lia.
Qed.
Lemma cnt_pos f g : 0 < cnt f g → ∃ p i, g !! i = Some p ∧ 0 < f p.
Proof.
  induction g as [|x g IH]; cbn [cnt]; [lia|]. intros H. destruct (decide (0 < f x)); [by exists x, 0|].
  destruct IH as (p & i & Hi & Hp); [lia|]. by exists p, (S i).
Qed.
Definition k_new (p : phase) := match p with GNew => 1 | _ => 0 end.
Definition k_wait (p : phase) := match p with GWait _ => 1 | _ => 0 end.
Definition k_can (p : phase) := match p with GCancel => 1 | _ => 0 end.
Definition k_drain (p : phase) := match p with GDrain _ => 1 | _ => 0 end.
Definition k_left (p : phase) := match p with GDrain n => n | _ => 0 end.
Definition k_time (p : phase) := match p with GTime => 1 | _ => 0 end.
Definition k_dnew (p : phase) := match p with DNew => 1 | _ => 0 end.
Definition k_dsend (p : phase) := match p with DSend _ => 1 | _ => 0 end.
Definition k_send (p : phase) := match p with SNew | SSend _ => 1 | _ => 0 end.
Lemma no_drain g : cnt k_drain g = 0 → cnt k_left g = 0.
Proof. induction g as [|p g IH]; [done|]. cbn [cnt]. destruct p; cbn [k_drain k_left]; try lia; auto. Qed.
Definition b2n (b : bool) : nat := if b then 1 else 0.
Definition on_chan (c : nat) (p : phase) : Prop := match p with GWait c' | SSend c' => c' = c | _ => True end.
Definition weighs (n : need) : Prop := (0 < n_cores n ∨ 0 < n_ram n)%Z.

Record Q (A : list need) (s : cserver) : Prop := {
  q_one : cnt k_wait (gor s) + cnt k_can (gor s) + cnt k_drain (gor s) + cnt k_time (gor s) = b2n (onDeathrow s);
  q_can : cnt k_drain (gor s) = 0 ∧ cancels s = cnt k_send (gor s) + cnt k_can (gor s) ∨ cnt k_drain (gor s) = 1 ∧ cnt k_send (gor s) < cancels s;
  q_none : cancels s = 0 ∨ b2n (onDeathrow s) = 1;
  q_lock : b2n (locked s) = cnt k_drain (gor s);
  q_ds : cnt k_dsend (gor s) = 0;
  q_left : cnt k_drain (gor s) = 0 ∧ cnt k_left (gor s) = 0 ∨ cnt k_drain (gor s) = 1 ∧ cnt k_left (gor s) = cnt k_send (gor s) ∧ 1 ≤ cnt k_send (gor s);
  q_doom : 0 < cnt k_time (gor s) + cnt k_dnew (gor s) + b2n (destroyed s) → length A = 0 ∧ cnt k_new (gor s) = 0;
  q_doom2 : 0 < cnt k_dnew (gor s) + b2n (destroyed s) → b2n (onDeathrow s) = 0;
  q_empty : length A = 0 → cancels s = 0;
  q_idle : b2n (onDeathrow s) = 1 → cancels s = 0 → length A = 0;
  q_chan : Forall (on_chan (chan s)) (gor s);
  q_pos : 0 < cnt k_new (gor s) → Forall weighs A;
}.
Lemma q_new f disk t : Q [] (c_new f disk t).
Proof. split; cbn; try done; try lia; auto. Qed.
Lemma without_length n A : n ∈ A → length A = S (length (without n A)).
Proof.
  induction A as [|m A IH]; [by intros ?%elem_of_nil|]. intros H. cbn [without]. destruct (decide (m = n)) as [->|Hne]; [done|].
  apply elem_of_cons in H as [->|H]; [done|]. cbn [length]. by rewrite (IH H).
Qed.
Lemma without_P (P : need → Prop) n A : Forall P A → Forall P (without n A).
Proof. rewrite !Forall_forall. intros H m Hm%without_sub. by apply H. Qed.
Lemma no_use f disk A s : Used f disk A s → Forall weighs A → (usedCores s <= 0)%Z → (usedRAM s <= 0)%Z → length A = 0.
Proof.
  intros HU HA Hc Hr. destruct A as [|n A]; [done|]. exfalso. destruct HU as [? ? Hnn E1 ? E2 ? ?]. rewrite E1 in Hc. rewrite E2 in Hr. cbn [total] in *.
  apply Forall_cons in Hnn as [(N1 & N2 & N3) Hnn]. apply Forall_cons in HA as [HA _]. rewrite Forall_forall in Hnn.
  assert (0 <= total n_cores A)%Z by (apply total_nonneg; intros m Hm; by apply (Hnn m Hm)).
  assert (0 <= total n_ram A)%Z by (apply total_nonneg; intros m Hm; by apply (Hnn m Hm)). destruct HA; lia.
Qed.
Lemma all_zero f disk A s : Used f disk A s → (usedCores s <= 0)%Z → (usedZeroCores s <= 0)%Z → A = [].
Proof.
  intros HU Hc Hz. destruct A as [|n A]; [done|]. exfalso. destruct HU as [? ? Hnn E1 E2 ? ? ?]. rewrite E1 in Hc. rewrite E2 in Hz. cbn [total] in *.
  apply Forall_cons in Hnn as [(N1 & N2 & N3) Hnn]. rewrite Forall_forall in Hnn.
  assert (0 <= total n_cores A)%Z by (apply total_nonneg; intros m Hm; by apply (Hnn m Hm)).
  assert (0 <= total coreless A)%Z by (apply total_nonneg; intros m Hm; unfold coreless; case_decide; lia).
  unfold coreless at 1 in Hz. case_decide; lia.
Qed.
Lemma empty_use f disk A s : Used f disk A s → length A = 0 → usedCores s = 0%Z ∧ usedRAM s = 0%Z ∧ usedZeroCores s = 0%Z.
Proof. intros [] HA. apply nil_length_inv in HA as ->. done. Qed.

Ltac counts Hi q := 
  pose proof (cnt_insert k_new _ _ _ q Hi); pose proof (cnt_insert k_wait _ _ _ q Hi); pose proof (cnt_insert k_can _ _ _ q Hi);
  pose proof (cnt_insert k_drain _ _ _ q Hi); pose proof (cnt_insert k_left _ _ _ q Hi); pose proof (cnt_insert k_time _ _ _ q Hi);
  pose proof (cnt_insert k_dnew _ _ _ q Hi); pose proof (cnt_insert k_dsend _ _ _ q Hi); pose proof (cnt_insert k_send _ _ _ q Hi);
  cbn [k_new k_wait k_can k_drain k_left k_time k_dnew k_dsend k_send] in *.
Ltac appc g := rewrite ?(cnt_app k_new g), ?(cnt_app k_wait g), ?(cnt_app k_can g), ?(cnt_app k_drain g), ?(cnt_app k_left g), ?(cnt_app k_time g), ?(cnt_app k_dnew g), ?(cnt_app k_dsend g), ?(cnt_app k_send g).
Lemma on_chan_insert c g i p : Forall (on_chan c) g → on_chan c p → Forall (on_chan c) (<[i := p]> g).
Proof. intros. by apply Forall_insert. Qed.
Lemma q_step f disk A s l s' : possible f disk → Used f disk A s → Q A s → quiet A s l → cstep s l = Some s' → Q (held_after A s l) s'.
Proof.
  intros Hposs HU HQ [Hpr Hq] H. assert (Hb1 : b2n (onDeathrow s) ≤ 1) by (by destruct (onDeathrow s); cbn; lia). destruct l as [n|n| |i|i|i j]; cbn [cstep held_after] in *; [..|done| | |].
  - (* Allocate *) destruct (locked s) eqn:El; [done|]. injection H as <-. destruct Hq as [Hw Hno].
    destruct ((allocate n s).2) eqn:E; [|by rewrite alloc_false].
    assert (Hd : destroyed s = false). { destruct (destroyed s) eqn:Ed; [|done]. by rewrite allocate_destroyed in E. }
    destruct (alloc_true_use n s E) as (_ & _ & _ & _ & _ & _ & Ed & _ & Eo & Elk & Ec & Eg). set (s' := (allocate n s).1) in *. clearbody s'.
    assert (H1 : cnt k_time (gor s) = 0 ∧ cnt k_dnew (gor s) = 0).
    { rewrite Forall_forall in Hno. split.
      - destruct (decide (0 < cnt k_time (gor s))) as [(p & i & Hi & Hp)%cnt_pos|]; [|lia]. destruct p; cbn in Hp; try lia. by destruct (Hno GTime); [eapply elem_of_list_lookup_2|].
      - destruct (decide (0 < cnt k_dnew (gor s))) as [(p & i & Hi & Hp)%cnt_pos|]; [|lia]. destruct p; cbn in Hp; try lia. by destruct (Hno DNew); [eapply elem_of_list_lookup_2|]. }
    destruct HQ as [Q1 Q2 Q3 Q4 Q5 Q6 Q7 Q8 Q9 Q10 Q11 Q12]. rewrite El in Q4. cbn [b2n] in Q4.
    destruct (onDeathrow s) eqn:Eod; destruct Eg as [Eca Eg]; cbn [b2n] in *; split; rewrite ?Eg, ?Ed, ?Eo, ?Elk, ?Ec, ?Eca, ?El, ?Hd; appc (gor s); cbn [cnt k_new k_wait k_can k_drain k_left k_time k_dnew k_dsend k_send b2n length]; try lia; try done;
      try (by intros Hn; constructor; [|by auto with lia]; destruct Hw as [|[|Hw]]; [by left|by right|]; destruct Hw;
        (destruct (cnt_pos k_new (gor s)) as (p & i & Hi & Hpp); [lia|]); destruct p; cbn in Hpp; try lia; by eapply elem_of_list_lookup_2).
    apply Forall_app. split; [done|]. by constructor.
  - (* Release *) destruct (locked s) eqn:El; [done|].
    pose proof (used_step f disk A s (LRelease n) s' Hposs HU Hpr ltac:(cbn; by rewrite El)) as HU'. injection H as <-. cbn [held_after] in HU'.
    destruct (release_use n s) as (_ & _ & _ & _ & _ & _ & Ed & _ & Eo & Elk & Ec & Eca & Eg & _). set (s' := release n s) in *. clearbody s'.
    pose proof (without_length n A Hpr) as Hlen. assert (Hq' : length (without n A) = 0 → cancels s = 0) by (by intros ?%nil_length_inv; apply Hq).
    destruct HQ as [Q1 Q2 Q3 Q4 Q5 Q6 Q7 Q8 Q9 Q10 Q11 Q12].
    destruct Eg as [Eg|(Eg & Ez1 & Ez2 & _)]; [|pose proof (all_zero _ _ _ _ HU' Ez1 Ez2) as Hemp]; split; rewrite ?Eg, ?Ed, ?Eo, ?Elk, ?Ec, ?Eca, ?El; appc (gor s); cbn [cnt k_new k_wait k_can k_drain k_left k_time k_dnew k_dsend k_send b2n length]; rewrite ?El in *; cbn [b2n] in *; try lia; try done;
      try (by intros; apply without_P, Q12; lia). { apply Forall_app. split; [done|]. by constructor. } by rewrite Hemp.
  - (* Go *) destruct (gor s !! i) as [p|] eqn:Hi; [|done]. opt H. destruct HQ as [Q1 Q2 Q3 Q4 Q5 Q6 Q7 Q8 Q9 Q10 Q11 Q12].
    assert (Hno : 0 < cnt k_new (gor s) → (usedCores s <= 0)%Z → (usedRAM s <= 0)%Z → length A = 0) by (intros Hk; apply (no_use f disk A s HU (Q12 Hk))).
    destruct p; try done; try (destruct (locked s) eqn:El; [done|]); cbn [b2n] in *.
    + counts Hi GEnd. counts Hi (GWait (S (chan s))). destruct (onDeathrow s) eqn:Eo; cbn [b2n] in *.
      { injection H as <-. destruct s. cbn in *. subst. split; cbn; rewrite ?Eo, ?El; cbn [b2n]; try lia; try done; try (by intros; apply Q12; lia). by apply on_chan_insert. }
      destruct (_ || _) eqn:Eu.
      { injection H as <-. destruct s. cbn in *. subst. split; cbn; rewrite ?Eo, ?El; cbn [b2n]; try lia; try done; try (by intros; apply Q12; lia). by apply on_chan_insert. }
      apply orb_false_iff in Eu as [Eu1%Z.ltb_ge Eu2%Z.ltb_ge]. pose proof (cnt_in k_new _ _ (elem_of_list_lookup_2 _ _ _ Hi)) as Hkn. cbn [k_new] in Hkn. specialize (Hno Hkn Eu1 Eu2).
      injection H as <-. destruct s. cbn in *. subst. split; cbn; rewrite ?El; cbn [b2n]; try lia; try done; try (by intros; apply Q12; lia).
      apply Forall_lookup. intros k p Hk. destruct (decide (k = i)) as [->|Hne].
      { rewrite list_lookup_insert in Hk by (by apply lookup_lt_is_Some_1). by injection Hk as <-. }
      rewrite list_lookup_insert_ne in Hk by done. pose proof (elem_of_list_lookup_2 _ _ _ Hk) as Hin.
      pose proof (cnt_in k_send _ _ Hin). pose proof (cnt_in k_wait _ _ Hin). destruct p; cbn in *; try done; lia.
    + counts Hi GEnd. destruct (cancels s) as [|[|m]] eqn:Ec; [lia|..].
      { injection H as <-. destruct s. cbn in *. subst. split; cbn; try lia; try done; try (by intros; apply Q12; lia). by apply on_chan_insert. }
      counts Hi (GDrain (S m)). injection H as <-. destruct s. cbn in *. subst. split; cbn; try lia; try done; try (by intros; apply Q12; lia). by apply on_chan_insert.
    + counts Hi DNew. injection H as <-. destruct s. cbn in *. subst. split; cbn; try lia; try done; try (by intros; apply Q12; lia). by apply on_chan_insert.
    + counts Hi GEnd. pose proof (cnt_in k_dnew _ _ (elem_of_list_lookup_2 _ _ _ Hi)) as Hd. cbn in Hd.
      destruct (destroyed s) eqn:Ed; cbn [b2n] in *.
      { injection H as <-. destruct s. cbn in *. subst. split; cbn; try lia; try done; try (by intros; apply Q12; lia). by apply on_chan_insert. }
      destruct (onDeathrow s) eqn:Eo; cbn [b2n] in *; [lia|].
      injection H as <-. destruct s. cbn in *. subst. split; cbn; try lia; try done; try (by intros; apply Q12; lia). by apply on_chan_insert.
    + counts Hi (SSend (chan s)). injection H as <-. destruct s. cbn in *. split; cbn; try lia; try done; try (by intros; apply Q12; lia). by apply on_chan_insert.
  - (* the timer *) destruct (gor s !! i) as [p|] eqn:Hi; [|done]. destruct p; try done. destruct Hq as [Hc0 Hn]. counts Hi GTime.
    assert (Hn0 : cnt k_new (gor s) = 0).
    { destruct (decide (0 < cnt k_new (gor s))) as [(p & k & Hk & Hp)%cnt_pos|]; [|lia]. destruct p; cbn in Hp; try lia. by destruct Hn; eapply elem_of_list_lookup_2. }
    destruct HQ as [Q1 Q2 Q3 Q4 Q5 Q6 Q7 Q8 Q9 Q10 Q11 Q12]. 
    injection H as <-. destruct s. cbn in *. split; cbn; try lia; try done; try (by intros; apply Q12; lia). by apply on_chan_insert.
  - (* a cancel is received *) destruct (gor s !! i) as [p|] eqn:Hi; [|done]. opt H. destruct (gor s !! j) as [q|] eqn:Hj; [|done]. opt H.
    assert (Hij : i ≠ j ∨ (p = q)). { destruct (decide (i = j)) as [->|]; [|by left]. right. congruence. }
    destruct HQ as [Q1 Q2 Q3 Q4 Q5 Q6 Q7 Q8 Q9 Q10 Q11 Q12].
    destruct q as [| | | | | |c| |c|]; try done; opt H.
    { pose proof (cnt_in k_dsend _ _ (elem_of_list_lookup_2 _ _ _ Hj)) as Hd. cbn in Hd. lia. }
    destruct p as [|c'| |n| | | | | |]; try done.
    + destruct Hij as [Hij|]; [|done]. case_decide; [|done]. counts Hi GCancel.
      assert (Hj' : (<[i := GCancel]> (gor s)) !! j = Some (SSend c)) by (by rewrite list_lookup_insert_ne). counts Hj' GEnd.
      injection H as <-. destruct s. cbn in *. split; cbn; try lia; try done; try (by intros; apply Q12; lia). by do 2 (apply on_chan_insert; [|done]).
    + destruct Hij as [Hij|]; [|done]. case_decide; [|done]. destruct n as [|[|n]].
      * pose proof (cnt_in k_drain _ _ (elem_of_list_lookup_2 _ _ _ Hi)) as Hd. cbn in Hd. counts Hi GEnd.
        pose proof (no_drain (<[i := GEnd]> (gor s)) ltac:(lia)). exfalso. lia.
      * pose proof (cnt_in k_drain _ _ (elem_of_list_lookup_2 _ _ _ Hi)) as Hd. cbn in Hd. counts Hi GEnd.
        pose proof (no_drain (<[i := GEnd]> (gor s)) ltac:(lia)).
        assert (Hj' : (<[i := GEnd]> (gor s)) !! j = Some (SSend c)) by (by rewrite list_lookup_insert_ne). counts Hj' GEnd.
        injection H as <-. destruct s. cbn in *. split; cbn; try lia; try done; try (by intros; apply Q12; lia). by do 2 (apply on_chan_insert; [|done]).
      * pose proof (cnt_in k_drain _ _ (elem_of_list_lookup_2 _ _ _ Hi)) as Hd. cbn in Hd. pose proof (cnt_in k_left _ _ (elem_of_list_lookup_2 _ _ _ Hi)) as Hd2. cbn in Hd2. counts Hi (GDrain (S n)).
        assert (Hj' : (<[i := GDrain (S n)]> (gor s)) !! j = Some (SSend c)) by (by rewrite list_lookup_insert_ne). counts Hj' GEnd.
        injection H as <-. destruct s. cbn in *. split; cbn; try lia; try done; try (by intros; apply Q12; lia). by do 2 (apply on_chan_insert; [|done]).
Qed.

(** ** Who holds the mutex, in all schedules *)
Definition Lk (s : cserver) : Prop := b2n (locked s) = cnt k_drain (gor s) + cnt k_dsend (gor s).
Lemma lk_step s l s' : Lk s → cstep s l = Some s' → Lk s'.
Proof.
  unfold Lk. intros HL H. assert (Hb : b2n (locked s) ≤ 1) by (destruct (locked s); cbn; lia). destruct l as [n|n| |i|i|i j]; cbn [cstep] in H.
  - destruct (locked s) eqn:El; [done|]. injection H as <-. destruct ((allocate n s).2) eqn:E; [|by rewrite alloc_false, El].
    destruct (alloc_true_use n s E) as (_ & _ & _ & _ & _ & _ & _ & _ & _ & Elk & _ & Eg). rewrite Elk, El.
    destruct (onDeathrow s); destruct Eg as [_ ->]; [|done]. rewrite !cnt_app. cbn [cnt k_drain k_dsend]. lia.
  - destruct (locked s) eqn:El; [done|]. injection H as <-. 
    destruct (release_use n s) as (_ & _ & _ & _ & _ & _ & _ & _ & _ & Elk & _ & _ & Eg & _). rewrite Elk, El.
    destruct Eg as [->|[-> _]]; [done|]. rewrite !cnt_app. cbn [cnt k_drain k_dsend]. lia.
  - injection H as <-. destruct s; cbn in *. rewrite !cnt_app. cbn [cnt k_drain k_dsend]. lia.
  - destruct (gor s !! i) as [p|] eqn:Hi; [|done]. opt H.
    pose proof (cnt_insert k_drain _ _ _ GEnd Hi). pose proof (cnt_insert k_dsend _ _ _ GEnd Hi).
    destruct p; try done; try (destruct (locked s) eqn:El; [done|]); cbn [b2n k_drain k_dsend] in *.
    + pose proof (cnt_insert k_drain _ _ _ (GWait (S (chan s))) Hi). pose proof (cnt_insert k_dsend _ _ _ (GWait (S (chan s))) Hi). cbn [k_drain k_dsend] in *.
      destruct (onDeathrow s); [|destruct (_ || _)]; injection H as <-; destruct s; cbn in *; subst; cbn [b2n]; lia.
    + destruct (cancels s) as [|[|m]]; [injection H as <-; destruct s; cbn in *; lia..|].
      pose proof (cnt_insert k_drain _ _ _ (GDrain (S m)) Hi). pose proof (cnt_insert k_dsend _ _ _ (GDrain (S m)) Hi). cbn [k_drain k_dsend] in *.
      injection H as <-; destruct s; cbn in *; lia.
    + pose proof (cnt_insert k_drain _ _ _ DNew Hi). pose proof (cnt_insert k_dsend _ _ _ DNew Hi). cbn [k_drain k_dsend] in *.
      injection H as <-; destruct s; cbn in *; subst; cbn [b2n]; lia.
    + pose proof (cnt_insert k_drain _ _ _ (DSend (chan s)) Hi). pose proof (cnt_insert k_dsend _ _ _ (DSend (chan s)) Hi). cbn [k_drain k_dsend] in *.
      destruct (destroyed s); [|destruct (onDeathrow s)]; injection H as <-; destruct s; cbn in *; subst; cbn [b2n]; lia.
    + pose proof (cnt_insert k_drain _ _ _ (SSend (chan s)) Hi). pose proof (cnt_insert k_dsend _ _ _ (SSend (chan s)) Hi). cbn [k_drain k_dsend] in *.
      injection H as <-; destruct s; cbn in *; lia.
  - destruct (gor s !! i) as [p|] eqn:Hi; [|done]. destruct p; try done.
    pose proof (cnt_insert k_drain _ _ _ GTime Hi). pose proof (cnt_insert k_dsend _ _ _ GTime Hi). cbn [k_drain k_dsend] in *.
    injection H as <-; destruct s; cbn in *; lia.
  - destruct (gor s !! i) as [p|] eqn:Hi; [|done]. opt H. destruct (gor s !! j) as [q|] eqn:Hj; [|done]. opt H.
    assert (Hij : i ≠ j ∨ (p = q)). { destruct (decide (i = j)) as [->|]; [|by left]. right. congruence. }
    pose proof (cnt_in k_drain _ _ (elem_of_list_lookup_2 _ _ _ Hi)) as Hd1. pose proof (cnt_in k_dsend _ _ (elem_of_list_lookup_2 _ _ _ Hj)) as Hd2.
    assert (Hgen : ∀ p', (<[i := p']> (gor s)) !! j = Some q → cnt k_drain (<[j := GEnd]> (<[i := p']> (gor s))) + k_drain p + k_drain q = cnt k_drain (gor s) + k_drain p' ∧
                                                     cnt k_dsend (<[j := GEnd]> (<[i := p']> (gor s))) + k_dsend p + k_dsend q = cnt k_dsend (gor s) + k_dsend p').
    { intros p' Hj'. pose proof (cnt_insert k_drain _ _ _ p' Hi). pose proof (cnt_insert k_dsend _ _ _ p' Hi).
      pose proof (cnt_insert k_drain _ _ _ GEnd Hj'). pose proof (cnt_insert k_dsend _ _ _ GEnd Hj'). cbn [k_drain k_dsend] in *. lia. }
    assert (Hne : i ≠ j). { destruct Hij as [|<-]; [done|]. by destruct p. }
    clear Hij. destruct q as [| | | | | |c| |c|]; try done; opt H; destruct p as [|c'| |n| | | | | |]; try done; (case_decide; [|done]).
    + pose proof (Hgen GCancel ltac:(by rewrite list_lookup_insert_ne)) as [G1 G2]. injection H as <-. destruct s; cbn in *. lia.
    + pose proof (Hgen (GDrain (pred n)) ltac:(by rewrite list_lookup_insert_ne)) as [G1 G2]. cbn in Hd1, Hd2. lia.
    + pose proof (Hgen GCancel ltac:(by rewrite list_lookup_insert_ne)) as [G1 G2]. injection H as <-. destruct s; cbn in *. lia.
    + destruct n as [|[|n]].
      1,2: pose proof (Hgen GEnd ltac:(by rewrite list_lookup_insert_ne)) as [G1 G2]; injection H as <-; destruct s; cbn in *; lia.
      pose proof (Hgen (GDrain (S n)) ltac:(by rewrite list_lookup_insert_ne)) as [G1 G2]. injection H as <-. destruct s; cbn in *. lia.
Qed.
Lemma lk_reached ok f disk t A s : reached ok (c_new f disk t) A s → Lk s.
Proof. induction 1 as [|A s l s' _ IH _ Hs]; [done|]. by eapply lk_step. Qed.
Lemma lk_held ok f disk t A s : reached ok (c_new f disk t) A s →
  (locked s = true ↔ ∃ p, p ∈ gor s ∧ ((∃ n, p = GDrain n) ∨ ∃ c, p = DSend c)).
Proof.
  intros H. pose proof (lk_reached _ _ _ _ _ _ H) as HL. unfold Lk in HL. split.
  - intros Hl. rewrite Hl in HL. cbn [b2n] in HL. assert (0 < cnt k_drain (gor s) ∨ 0 < cnt k_dsend (gor s)) as [Hc|Hc] by lia;
    apply cnt_pos in Hc as (p & i & Hi & Hp); exists p; (split; [by eapply elem_of_list_lookup_2|]); destruct p; cbn in Hp; try lia; eauto.
  - intros (p & Hp & Hc). pose proof (cnt_in k_drain _ _ Hp). pose proof (cnt_in k_dsend _ _ Hp).
    destruct (locked s); [done|]. cbn [b2n] in HL. destruct Hc as [[n ->]|[c ->]]; cbn in *; lia.
Qed.

(** ** What follows *)
Lemma q_reached f disk t A s : possible f disk → reached quiet (c_new f disk t) A s → Q A s ∧ Used f disk A s ∧ ttd s = t.
Proof.
  intros Hp H. induction H as [|A s l s' Hr IH Hok Hs]; [split; [apply q_new|split; [by apply used_new|done]]|].
  destruct IH as (HQ & HU & Ht). split; [by eapply q_step|]. split; [eapply used_step; try done; by apply Hok|].
  destruct l as [n|n| |i|i|i j].
  - cbn in Hs. destruct (locked s); [done|]. injection Hs as <-. destruct ((allocate n s).2) eqn:E; [|by rewrite alloc_false].
    destruct (alloc_true_use n s E) as (_ & _ & _ & _ & _ & _ & _ & -> & _). done.
  - cbn in Hs. destruct (locked s); [done|]. injection Hs as <-. destruct (release_use n s) as (_ & _ & _ & _ & _ & _ & _ & -> & _). done.
  - by destruct Hok.
  - destruct (other_use _ _ _ Hs) as (_ & _ & -> & _); done.
  - destruct (other_use _ _ _ Hs) as (_ & _ & -> & _); done.
  - destruct (other_use _ _ _ Hs) as (_ & _ & -> & _); done.
Qed.
Lemma not_in_use f disk t A s : possible f disk → reached quiet (c_new f disk t) A s → destroyed s = true → A = [].
Proof.
  intros Hp H Hd. destruct (q_reached f disk t A s Hp H) as (HQ & _). apply nil_length_inv. apply HQ. rewrite Hd. cbn. lia.
Qed.
Lemma released_reached ok s0 A s : released ok s0 A s → reached ok s0 A s.
Proof.
  induction 1 as [A s n s' H Hok Hs|A s l s' H IH Hok Hs].
  - exact (r_step ok s0 A s (LRelease n) s' H Hok Hs).
  - exact (r_step ok s0 A s l s' IH Hok Hs).
Qed.
Definition going (s : cserver) : Prop :=
  destroyed s = true ∨ 0 < cnt k_new (gor s) + cnt k_dnew (gor s) + b2n (onDeathrow s).
Lemma released_going f disk A s : possible f disk → released quiet (c_new f disk true) A s → length A = 0 → going s.
Proof.
  intros Hp H. induction H as [A s n s' H Hok Hs|A s l s' H IH Hok Hs].
  - intros HA. destruct (q_reached f disk true A s Hp H) as (HQ & HU & Ht).
    pose proof (used_step f disk A s _ s' Hp HU (proj1 Hok) Hs) as HU'. cbn [held_after] in HU'. destruct (empty_use _ _ _ _ HU' HA) as (E1 & E2 & E3).
    cbn in Hs. destruct (locked s); [done|]. injection Hs as <-.
    destruct (release_use n s) as (_ & _ & _ & _ & _ & _ & _ & _ & _ & _ & _ & _ & _ & Hg). right.
    rewrite Hg by (done || lia). rewrite cnt_app. cbn [cnt k_new]. lia.
  - intros HA. pose proof (released_reached _ _ _ _ H) as Hr. destruct (q_reached f disk true A s Hp Hr) as (HQ & HU & Ht).
    destruct l as [n|n| |i|i|i j]; cbn [held_after] in HA.
    + cbn in Hs. destruct (locked s); [done|]. injection Hs as <-. destruct ((allocate n s).2) eqn:E; [done|]. rewrite alloc_false by done. by apply IH.
    + pose proof (used_step f disk A s _ s' Hp HU (proj1 Hok) Hs) as HU'. cbn [held_after] in HU'. destruct (empty_use _ _ _ _ HU' HA) as (E1 & E2 & E3).
      cbn in Hs. destruct (locked s); [done|]. injection Hs as <-.
      destruct (release_use n s) as (_ & _ & _ & _ & _ & _ & _ & _ & _ & _ & _ & _ & _ & Hg). right.
      rewrite Hg by (done || lia). rewrite cnt_app. cbn [cnt k_new]. lia.
    + by destruct Hok.
    + specialize (IH HA). unfold going in *. destruct (empty_use _ _ _ _ HU HA) as (E1 & E2 & E3).
      destruct HQ as [Q1 Q2 Q3 Q4 Q5 Q6 Q7 Q8 Q9 Q10 Q11 Q12].
      cbn [cstep] in Hs. destruct (gor s !! i) as [p|] eqn:Hi; [|done]. opt Hs.
      destruct p; try done; try (destruct (locked s) eqn:El; [done|]).
      * rewrite E1, E2 in Hs. cbn in Hs. destruct (onDeathrow s) eqn:Eo.
        { injection Hs as <-. right. destruct s. cbn in *. rewrite Eo. cbn [b2n]. lia. }
        injection Hs as <-. right. destruct s. cbn. lia.
      * pose proof (cnt_in k_can _ _ (elem_of_list_lookup_2 _ _ _ Hi)) as Hd. cbn [k_can] in Hd. specialize (Q9 HA). lia.
      * injection Hs as <-. right. counts Hi DNew. destruct s. cbn in *. lia.
      * pose proof (cnt_in k_dnew _ _ (elem_of_list_lookup_2 _ _ _ Hi)) as Hd. cbn [k_dnew] in Hd. 
        destruct (destroyed s) eqn:Ed; [injection Hs as <-; left; by destruct s|]. destruct (onDeathrow s); [cbn in Q8; lia|]. injection Hs as <-. by left.
      * injection Hs as <-. counts Hi (SSend (chan s)). destruct s; cbn in *. destruct IH; [by left|]. right. lia.
    + specialize (IH HA). unfold going in *. cbn [cstep] in Hs. destruct (gor s !! i) as [p|] eqn:Hi; [|done]. destruct p; try done. injection Hs as <-.
      counts Hi GTime. destruct s; cbn in *. destruct IH; [by left|]. right. lia.
    + exfalso. destruct HQ as [Q1 Q2 Q3 Q4 Q5 Q6 Q7 Q8 Q9 Q10 Q11 Q12]. specialize (Q9 HA). cbn [cstep] in Hs.
      destruct (gor s !! i) as [p|] eqn:Hi; [|done]. opt Hs. destruct (gor s !! j) as [q|] eqn:Hj; [|done]. opt Hs.
      pose proof (cnt_in k_send _ _ (elem_of_list_lookup_2 _ _ _ Hj)) as Hd. pose proof (cnt_in k_dsend _ _ (elem_of_list_lookup_2 _ _ _ Hj)) as Hd2.
      destruct q; try done; cbn in Hd, Hd2; lia.
Qed.
Lemma rest_cnt f s : at_rest s → f GEnd = 0 → cnt f (gor s) = 0.
Proof. unfold at_rest. intros H Hf. induction H as [|p g -> H IH]; [done|]. cbn [cnt]. lia. Qed.
Lemma idle_destroyed f disk A s : possible f disk → released quiet (c_new f disk true) A s → A = [] → at_rest s → destroyed s = true.
Proof.
  intros Hp H -> Hrest. destruct (released_going f disk [] s Hp H eq_refl) as [|Hg]; [done|]. exfalso.
  destruct (q_reached f disk true [] s Hp (released_reached _ _ _ _ H)) as ([Q1 _ _ _ _ _ _ _ _ _ _ _] & _).
  rewrite !(rest_cnt _ s Hrest) in Q1 by done. rewrite !(rest_cnt _ s Hrest) in Hg by done. lia.
Qed.

(** ** It comes to rest *)
Definition k_weight (p : phase) : nat :=
  match p with GNew => 6 | GWait _ => 5 | GCancel => 2 | GDrain _ => 1 | GTime => 4 | DNew => 3 | DSend _ => 1 | SNew => 2 | SSend _ => 1 | GEnd => 0 end.
Lemma weight_less s l s' : internal l → cstep s l = Some s' → cnt k_weight (gor s') < cnt k_weight (gor s).
Proof.
  intros Hl H. destruct l as [n|n| |i|i|i j]; cbn [internal cstep] in *; try done.
  - destruct (gor s !! i) as [p|] eqn:Hi; [|done]. opt H.
    assert (Hw : ∀ q, k_weight q < k_weight p → cnt k_weight (<[i := q]> (gor s)) < cnt k_weight (gor s)).
    { intros q Hq. pose proof (cnt_insert k_weight _ _ _ q Hi). lia. }
    destruct p; try done; try (destruct (locked s); [done|]).
    + destruct (onDeathrow s); [|destruct (_ || _)]; injection H as <-; destruct s; apply Hw; cbn; lia.
    + destruct (cancels s) as [|[|m]]; injection H as <-; destruct s; apply Hw; cbn; lia.
    + injection H as <-; destruct s; apply Hw; cbn; lia.
    + destruct (destroyed s); [|destruct (onDeathrow s)]; injection H as <-; destruct s; apply Hw; cbn; lia.
    + injection H as <-; destruct s; apply Hw; cbn; lia.
  - destruct (gor s !! i) as [p|] eqn:Hi; [|done]. destruct p; try done. injection H as <-. 
    pose proof (cnt_insert k_weight _ _ _ GTime Hi). destruct s. cbn in *. lia.
  - destruct (gor s !! i) as [p|] eqn:Hi; [|done]. opt H. destruct (gor s !! j) as [q|] eqn:Hj; [|done]. opt H.
    assert (Hw : ∀ p', i ≠ j → k_weight p' ≤ k_weight p → 0 < k_weight q → cnt k_weight (<[j := GEnd]> (<[i := p']> (gor s))) < cnt k_weight (gor s)).
    { intros p' Hne Hp Hq. pose proof (cnt_insert k_weight _ _ _ p' Hi).
      assert (Hj' : (<[i := p']> (gor s)) !! j = Some q) by (by rewrite list_lookup_insert_ne). pose proof (cnt_insert k_weight _ _ _ GEnd Hj'). cbn in *. lia. }
    assert (Hij : i ≠ j ∨ (p = q)). { destruct (decide (i = j)) as [->|]; [|by left]. right. congruence. }
    destruct q as [| | | | | |c| |c|]; try done; opt H; (destruct p as [|c'| |[|[|n]]| | | | | |]; try done); (destruct Hij as [Hij|]; [|done]);
      (case_decide; [|done]); injection H as <-; destruct s; apply Hw; cbn; try done; lia.
Qed.
Lemma stops A s n s' : by_itself A s n s' → n + cnt k_weight (gor s') ≤ cnt k_weight (gor s).
Proof.
  induction 1 as [s|s l s' n s'' Hl Hq Hs Hb IH]; [lia|]. pose proof (weight_less s l s' Hl Hs). lia.
Qed.
Lemma goes_on f disk t A s : possible f disk → reached quiet (c_new f disk t) A s →
  at_rest s ∨ ∃ l s', internal l ∧ quiet A s l ∧ cstep s l = Some s'.
Proof.
  intros Hp H. destruct (q_reached f disk t A s Hp H) as (HQ & HU & Ht). destruct HQ as [Q1 Q2 Q3 Q4 Q5 Q6 Q7 Q8 Q9 Q10 Q11 Q12].
  assert (Hgo : ∀ i, is_Some (cstep s (LGo i)) → ∃ l s', internal l ∧ quiet A s l ∧ cstep s l = Some s').
  { intros i [s' Hs]. by exists (LGo i), s'. }
  assert (Hsend : 0 < cnt k_send (gor s) → ∀ i p, gor s !! i = Some p → (∃ n, p = GDrain n) ∨ p = GWait (chan s) → ∃ l s', internal l ∧ quiet A s l ∧ cstep s l = Some s').
  { intros (q & j & Hj & Hq)%cnt_pos i p Hi Hpp. destruct q; cbn in Hq; try lia.
    - apply (Hgo j). cbn [cstep]. rewrite Hj. by eexists.
    - rewrite Forall_forall in Q11. pose proof (Q11 _ (elem_of_list_lookup_2 _ _ _ Hj)) as Hc. cbn in Hc. subst c.
      exists (LRecv i j). cbn [cstep]. rewrite Hi, Hj. opt Hi. destruct Hpp as [[n ->]| ->]; cbn [mbind option_bind]; rewrite decide_True by done; [destruct n as [|[|n]]|]; by eexists. }
  destruct (locked s) eqn:El; cbn [b2n] in Q4.
  - (* the one that has the mutex *) right. assert (Hd : 0 < cnt k_drain (gor s)) by lia. apply cnt_pos in Hd as (p & i & Hi & Hd). destruct p; cbn in Hd; try lia.
    eapply (Hsend ltac:(lia) i); [done|]. left. by eexists.
  - assert (Hany : at_rest s ∨ ∃ i p, gor s !! i = Some p ∧ p ≠ GEnd).
    { unfold at_rest. clear. induction (gor s) as [|p g IH]; [by left; constructor|]. destruct (decide (p = GEnd)) as [->|Hne].
      - destruct IH as [IH|(i & q & Hi & Hq)]; [left; by constructor|right; by exists (S i), q].
      - right. by exists 0, p. }
    destruct Hany as [|(i & p & Hi & Hne)]; [by left|]. right. pose proof (elem_of_list_lookup_2 _ _ _ Hi) as Hin.
    destruct p; try done.
    + apply (Hgo i). cbn [cstep]. rewrite Hi. cbn [mbind option_bind]. rewrite El. destruct (onDeathrow s); [by eexists|]. destruct (_ || _); by eexists.
    + destruct (decide (0 < cnt k_send (gor s))) as [Hs|Hs].
      { eapply (Hsend Hs i); [done|]. right. rewrite Forall_forall in Q11. specialize (Q11 _ Hin). cbn in Q11. by subst. }
      pose proof (cnt_in k_wait _ _ Hin) as Hw. cbn in Hw. assert (b2n (onDeathrow s) ≤ 1) by (by destruct (onDeathrow s); cbn; lia).
      assert (Hc0 : cancels s = 0) by lia.
      destruct (decide (0 < cnt k_new (gor s))) as [(p & k & Hk & Hpk)%cnt_pos|Hn].
      { destruct p; cbn in Hpk; try lia. apply (Hgo k). cbn [cstep]. rewrite Hk. cbn [mbind option_bind]. rewrite El. destruct (onDeathrow s); [by eexists|]. destruct (_ || _); by eexists. }
      exists (LTimer i). cbn [cstep]. rewrite Hi. eexists. split; [done|]. split; [|done]. split; [done|]. split; [done|].
      intros Hnew. apply Hn. pose proof (cnt_in k_new _ _ Hnew). cbn in *. lia.
    + apply (Hgo i). cbn [cstep]. rewrite Hi. cbn [mbind option_bind]. rewrite El. destruct (cancels s) as [|[|]]; by eexists.
    + pose proof (cnt_in k_drain _ _ Hin) as Hw. cbn in Hw. lia.
    + apply (Hgo i). cbn [cstep]. rewrite Hi. cbn [mbind option_bind]. rewrite El. by eexists.
    + apply (Hgo i). cbn [cstep]. rewrite Hi. cbn [mbind option_bind]. rewrite El. destruct (destroyed s); [by eexists|]. destruct (onDeathrow s); by eexists.
    + pose proof (cnt_in k_dsend _ _ Hin) as Hw. cbn in Hw. lia.
    + apply (Hgo i). cbn [cstep]. rewrite Hi. by eexists.
    + (* a cancel waits to be received *)
      pose proof (cnt_in k_send _ _ Hin) as Hw. cbn in Hw. assert (b2n (onDeathrow s) ≤ 1) by (by destruct (onDeathrow s); cbn; lia).
      assert (b2n (onDeathrow s) = 1) by lia.
      assert (Hch : 0 < cnt k_wait (gor s) + cnt k_can (gor s)).
      { assert (cnt k_time (gor s) = 0); [|lia]. destruct (decide (0 < cnt k_time (gor s))); [|lia]. destruct Q7 as [HA _]; [lia|]. specialize (Q9 HA). lia. }
      destruct (decide (0 < cnt k_wait (gor s))) as [(p & k & Hk & Hpk)%cnt_pos|Hn].
      { destruct p; cbn in Hpk; try lia. eapply (Hsend ltac:(lia) k); [done|]. right. rewrite Forall_forall in Q11. specialize (Q11 _ (elem_of_list_lookup_2 _ _ _ Hk)). cbn in Q11. by subst. }
      assert (Hcan : 0 < cnt k_can (gor s)) by lia. apply cnt_pos in Hcan as (p & k & Hk & Hpk). destruct p; cbn in Hpk; try lia.
      apply (Hgo k). cbn [cstep]. rewrite Hk. cbn [mbind option_bind]. rewrite El. destruct (cancels s) as [|[|]]; by eexists.
Qed.

(** ** Schedules, for the cases *)
Global Instance proper_dec A s l : Decision (proper A s l).
Proof. unfold proper, not_negative. destruct l; apply _. Defined.
Global Instance quiet_dec A s l : Decision (quiet A s l).
Proof. unfold quiet. destruct l; apply _. Defined.
Fixpoint play (ok : list need → cserver → clabel → Prop) `{∀ A s l, Decision (ok A s l)} (A : list need) (s : cserver) (ls : list clabel) : option (list need * cserver) :=
  match ls with
  | [] => Some (A, s)
  | l :: ls => if decide (ok A s l) then match cstep s l with Some s' => play ok (held_after A s l) s' ls | None => None end else None
  end.
Lemma play_reached ok `{∀ A s l, Decision (ok A s l)} s0 A s ls A' s' : reached ok s0 A s → play ok A s ls = Some (A', s') → reached ok s0 A' s'.
Proof.
  revert A s. induction ls as [|l ls IH]; intros A s Hr; cbn [play]; [by intros [= <- <-]|].
  destruct (decide (ok A s l)); [|done]. destruct (cstep s l) as [s1|] eqn:E; [|done]. apply IH. by eapply r_step.
Qed.
Lemma play_released ok `{∀ A s l, Decision (ok A s l)} s0 A s n ls A' s' :
  reached ok s0 A s → play ok A s (LRelease n :: ls) = Some (A', s') → released ok s0 A' s'.
Proof.
  intros Hr Hp. cbn [play] in Hp. destruct (decide (ok A s (LRelease n))); [|done]. destruct (cstep s (LRelease n)) as [s1|] eqn:E; [|done].
  assert (H1 : released ok s0 (held_after A s (LRelease n)) s1) by (by eapply rel_first). clear Hr E. revert H1 Hp.
  generalize (held_after A s (LRelease n)). clear A s o. intros A H1 Hp. revert A s1 H1 Hp. induction ls as [|l ls IH]; intros A s Hr; cbn [play]; [by intros [= <- <-]|].
  destruct (decide (ok A s l)); [|done]. destruct (cstep s l) as [s1|] eqn:E; [|done]. apply IH. by eapply rel_step.
Qed.
