(** Proofs about the DELETE requests of the REST interface. *)
From Coq Require Import ZArith Lia String Ascii.
From stdpp Require Import base option strings gmap list.
From RecordUpdate Require Import RecordSet.
From Verif Require Import GoHeap QueueModel QueueInv ServerModel ServerSpec ServerCore ServerEff ServerEff2 ServerEff4 ServerKey ServerDep
  ListModel ListSpec ListProofs RestModel RestSpec.
Import RecordSetNotations.
Open Scope Z_scope.

(** ** Listings *)
Lemma limit_jobs_sub order o jobs : any_order order → ostate o ≠ ""%string → ooffset o = 0 →
  Forall (λ j, similar j = 0%nat ∧ lstate j ∈ job_states) jobs →
  ∃ r, limit_jobs order o jobs = Some r ∧
    (∀ j, j ∈ r → listed o j ∧ ∃ j0, j0 ∈ jobs ∧ lid j0 = lid j ∧ plain j = j0) ∧
    (olimit o ≤ 0 → ∀ j, j ∈ jobs → listed o j → j ∈ r).
Proof.
  intros Hord Hst Hoff Hjobs. destruct (Z.le_gt_cases (olimit o) 0) as [Hl|Hl].
  - assert (Hj2 : Forall (λ j, lstate j ∈ job_states) jobs) by (eapply Forall_impl; [done|by intros j [_ ?]]).
    exists (filter (listed o) jobs). split; [apply unlimited; [done|by left|done]|]. split.
    + intros j [Hlj Hj]%elem_of_list_filter. split; [done|]. exists j. split; [done|]. split; [done|].
      rewrite Forall_forall in Hjobs. destruct (Hjobs j Hj) as [E _]. destruct j. cbn in *. by rewrite E.
    + intros _ j Hj Hlj. by apply elem_of_list_filter.
  - destruct (limited order o jobs Hord ltac:(lia) Hjobs) as (r & E & Hr & Hk). exists r. split; [done|]. split; [|lia].
    intros j Hj. rewrite Forall_forall in Hr. split; [by apply Hr|].
    destruct (Hk (kind j)) as [Hp _].
    assert (Hin : plain j ∈ plain <$> filter (λ j', kind j' = kind j) r).
    { apply elem_of_list_fmap. exists j. split; [done|]. by apply elem_of_list_filter. }
    rewrite Hp in Hin. apply elem_of_take in Hin as (n & Hn & _). apply elem_of_list_lookup_2 in Hn.
    rewrite Hoff in Hn. change (Z.to_nat 0) with 0%nat in Hn. rewrite drop_0 in Hn.
    apply elem_of_list_filter in Hn as [_ Hn]. exists (plain j). split; [done|]. split; [by destruct j|done].
Qed.

Lemma as_listed_in la s ks j : j ∈ omap (as_listed la s) (imap pair ks) ↔
  ∃ n k it p q, ks !! n = Some k ∧ find_job k s = Some (it, p, q) ∧ j = LJob n (item_state it q) (jexit q) (l_reason la k) false 0.
Proof.
  rewrite elem_of_list_omap. split.
  - intros ([n k] & Hin & Hj). apply elem_of_lookup_imap in Hin as (n' & k' & [= -> ->] & Hk).
    unfold as_listed in Hj. cbn [snd fst] in Hj. destruct (find_job k' s) as [[[it p] q]|] eqn:E; [|done].
    cbn in Hj. injection Hj as <-. by exists n', k', it, p, q.
  - intros (n & k & it & p & q & Hk & Hf & ->). exists (n, k). split.
    + apply elem_of_lookup_imap. by exists n, k.
    + unfold as_listed. cbn [snd fst]. by rewrite Hf.
Qed.
Lemma item_state_ok it q : item_state it q ∈ job_states.
Proof. unfold item_state. repeat case_match; apply (bool_decide_unpack _); by vm_compute. Qed.

Definition three : list string := ["running"; "lost"; "deletable"]%string.
Lemma listed_state o n it q r k s : ostate o ∈ three → oreason o = ""%string → ist it ≠ SRemoved → seen s k = Some (ist it, q) →
  listed o (LJob n (item_state it q) (jexit q) r false 0) ↔ in_state (ostate o) s k.
Proof.
  intros Ho Hr Hrem Hs. unfold listed, in_state, shown_state, item_state. cbn [lstate llost lreason lexit]. rewrite Hs, Hr.
  unfold three in Ho. split.
  - intros [H _]. exists (ist it), q. split; [done|].
    apply elem_of_cons in Ho as [E|[E|[E|?%elem_of_nil]%elem_of_cons]%elem_of_cons]; [..|done]; rewrite E in *;
      destruct H as [H|[[H _]|[H|[H0 H]]]]; try done; split; intros E'; try done;
      destruct (ist it); try done; try (destruct (jlost q); try done; destruct (jstart q =? 0)%Z; done).
  - intros (i & j & [= <- <-] & H1 & H2). split; [|by left].
    apply elem_of_cons in Ho as [E|[E|[E|?%elem_of_nil]%elem_of_cons]%elem_of_cons]; [..|done]; rewrite E in *.
    + destruct (H1 eq_refl) as [-> ->]. right. right. right. split; [done|]. by destruct (jstart q =? 0)%Z.
    + destruct (H2 eq_refl) as [-> ->]. by right; right; left.
    + right. left. split; [done|]. destruct (ist it); try done. destruct (jlost q), (jstart q =? 0)%Z; done.
Qed.
Lemma limit_keys_spec od la o s ks : SInv s → any_orders od → ostate o ∈ three → ooffset o = 0 → oreason o = ""%string →
  ∃ ks', limit_keys od la o s ks = Some ks' ∧
    (∀ k, k ∈ ks' → k ∈ ks ∧ in_state (ostate o) s k) ∧
    (olimit o ≤ 0 → ∀ k, k ∈ ks → in_state (ostate o) s k → k ∈ ks').
Proof.
  intros HS [Hord _] Ho Hoff Hre. unfold limit_keys.
  assert (Hst : ostate o ≠ ""%string) by (intros E; rewrite E in Ho; unfold three in Ho; repeat (apply elem_of_cons in Ho as [?|Ho]; [done|]); by apply elem_of_nil in Ho).
  destruct (limit_jobs_sub (o_groups od) o (omap (as_listed la s) (imap pair ks)) Hord Hst Hoff) as (r & E & Hr & Hall).
  { apply Forall_forall. intros j (n & k & it & p & q & _ & _ & ->)%as_listed_in. split; [done|]. apply item_state_ok. }
  rewrite E. exists (omap (λ j, ks !! lid j) r). split; [done|].
  assert (Hfs : ∀ k it p q, find_job k s = Some (it, p, q) → ist it ≠ SRemoved ∧ seen s k = Some (ist it, q)).
  { intros k it p q Hf. destruct (find_found _ _ _ _ _ HS Hf) as [-> [x HF]]. split; [by apply (f_live HF)|].
    rewrite seen_look. by apply find_look in Hf. }
  split.
  - intros k (j & Hj & Hk)%elem_of_list_omap. destruct (Hr j Hj) as (Hl & j0 & Hin & Hid & Hp).
    apply as_listed_in in Hin as (n & k' & it & p & q & Hn & Hf & ->). cbn [lid] in Hid. rewrite <- Hid, Hn in Hk. injection Hk as <-.
    split; [by eapply elem_of_list_lookup_2|]. destruct (Hfs _ _ _ _ Hf) as [H1 H2].
    apply (listed_state o n it q (l_reason la k') k' s Ho Hre H1 H2). rewrite <- Hp. by apply listed_plain.
  - intros Hlim k Hk Hin. apply elem_of_list_lookup in Hk as [n Hn].
    assert (Hfj : ∃ it p q, find_job k s = Some (it, p, q)).
    { destruct Hin as (i & j & Hs & _). rewrite seen_look in Hs. unfold look in Hs. destruct (find_job k s) as [[[it p] q]|]; [|done]. by eauto. }
    destruct Hfj as (it & p & q & Hf). destruct (Hfs _ _ _ _ Hf) as [H1 H2]. apply elem_of_list_omap.
    exists (LJob n (item_state it q) (jexit q) (l_reason la k) false 0). split; [|done].
    apply Hall; [done| |].
    + apply as_listed_in. by exists n, k, it, p, q.
    + by apply (listed_state o n it q (l_reason la k) k s Ho Hre H1 H2).
Qed.
Lemma current_in od s k : SInv s → any_orders od → k ∈ current_keys od s ↔ is_Some (seen s k).
Proof.
  intros HS [_ Hp]. unfold current_keys. rewrite Hp, seen_some by done. rewrite elem_of_list_fmap. split.
  - intros ([k' x] & -> & Hx%elem_of_map_to_list). cbn [fst]. destruct (items_found _ _ _ HS Hx) as (it & j & HF). by eapply found_is_some.
  - intros [[[it p] j] Hf]. unfold find_job in Hf. destruct (items (sq s) !! k) as [x|] eqn:E; [|done].
    exists (k, x). split; [done|]. by apply elem_of_map_to_list.
Qed.

(** ** Killing *)
Lemma release_run now k x it j s : SInv s → DInv s → Found s k x it j → ist it = SRun →
  ∃ s' l, release_job now (idata it) (Some lost_end) false s = Some (s', SOk, l) ∧ rel_eff s k (Some lost_end) false s' l.
Proof.
  intros HS HD HF Hst.
  assert (Htot : ∃ s' l i, release_job now (idata it) (Some lost_end) false s = Some (s', SOk, l) ∧ i ≠ SRun ∧
    ∃ it', objs (sq s') !! x = Some it' ∧ ist it' = i ∧ items (sq s') !! k = Some x).
  { unfold release_job. rewrite (f_job HF). cbn beta iota zeta delta [mbind option_bind].
    rewrite (f_jkey HF), (f_item HF), (f_obj HF). cbn beta iota zeta delta [mbind option_bind].
    rewrite Hst. cbn [decide]. unfold qdo, step. destruct (false || negb (jstart j =? 0) && (juntil j =? 1)%N) eqn:Hb.
    - rewrite decide_False by done.
      destruct (q_bury_ok false k x it (sq s) (si_q HS) (f_item HF) (f_obj HF) Hst) as (q & Hq & _ & Ho & Hi).
      rewrite Hq. cbn beta iota zeta delta [mbind option_bind]. unfold after_release. cbn [sjobs set sq].
      change (sjobs (s <| sq := q |>)) with (sjobs s). rewrite (f_job HF). cbn beta iota zeta delta [mbind option_bind].
      destruct (update_after_exit (Some lost_end) j) as [j1 l1]. eexists _, _, SBury. split; [done|]. split; [done|].
      eexists. split; [|split].
      + cbn. rewrite Ho, lookup_alter, (f_obj HF). done.
      + done.
      + cbn. destruct Hi as (Hi & _). rewrite Hi. apply (f_item HF).
    - rewrite decide_False by done.
      destruct (q_release_ok false now k x it (sq s) (si_q HS) (f_item HF) (f_obj HF) Hst) as (q & Hq & _ & Ho & Hi).
      rewrite Hq. cbn beta iota zeta delta [mbind option_bind]. unfold after_release.
      change (sjobs (s <| sq := q |>)) with (sjobs s). rewrite (f_job HF). cbn beta iota zeta delta [mbind option_bind].
      destruct (update_after_exit (Some lost_end) j) as [j1 l1]. eexists _, _, (if idelay it =? 0 then SReady else SDelay).
      split; [done|]. split; [by destruct (idelay it =? 0)|]. eexists. split; [|split].
      + cbn. rewrite Ho, lookup_alter, (f_obj HF). done.
      + by destruct (idelay it =? 0).
      + cbn. destruct Hi as (Hi & _). rewrite Hi. apply (f_item HF). }
  destruct Htot as (s' & l & i & Hr & Hi & it' & Ho & Hit & Hk). exists s', l. split; [done|].
  destruct (release_job_facts _ _ _ _ _ _ _ _ _ _ _ HS HD HF Hr) as (_ & _ & [[_ He]|(Hf & _)]); [done|].
  exfalso. specialize (Hf k). unfold find_job in Hf at 2. rewrite (f_item HF) in Hf. cbn in Hf. rewrite (f_obj HF) in Hf. cbn in Hf.
  rewrite (f_job HF) in Hf. cbn in Hf. unfold find_job in Hf. rewrite Hk in Hf. cbn in Hf. rewrite Ho in Hf. cbn in Hf.
  destruct (sjobs s' !! idata it'); [|done]. cbn in Hf. injection Hf as -> _ _. congruence.
Qed.
(** what is seen of a running job after killing it *)
Definition killed_seen (j : job) (o : option (istate * job)) : Prop :=
  if jlost j then ∃ i j', o = Some (i, j') ∧ i ≠ SRun else o = Some (SRun, j <| jkilled := true |>).
Lemma kill_one now k s : Good s → is_Some (seen s k) →
  ∃ s' n l, s_kill now k s = Some (s', SCount n, l) ∧ Good s' ∧ (∀ k', k' ≠ k → seen s' k' = seen s k') ∧
    live (sdb s') = live (sdb s) ∧ complete (sdb s') = complete (sdb s) ∧
    (∀ j, seen s k = Some (SRun, j) → (n = 1)%nat ∧ killed_seen j (seen s' k)) ∧
    ((∀ j, seen s k ≠ Some (SRun, j)) → n = 0%nat ∧ seen s' k = seen s k).
Proof.
  intros HG [[i j0] Hs]. pose proof HG as [HS HD _ _].
  destruct (find_job k s) as [[[it p] j]|] eqn:Hf.
  2: { rewrite (proj2 (seen_none s k HS) Hf) in Hs. done. }
  assert (i = ist it ∧ j0 = j) as [-> ->].
  { rewrite seen_look in Hs. rewrite (find_look _ _ _ _ _ Hf) in Hs. by injection Hs as <- <-. }
  destruct (find_found _ _ _ _ _ HS Hf) as [-> [x HF]].
  assert (Hgood : ∀ s' r l, s_kill now k s = Some (s', r, l) → Good s').
  { intros s' r l Hk. by destruct (good_step s (AKill now k) s' r l HG I Hk) as [_ ?]. }
  revert Hgood. unfold s_kill. rewrite Hf. destruct (decide (ist it = SRun)) as [Hst|Hst].
  2: { intros Hgood. exists s, 0%nat, []. split; [done|]. split; [done|]. split_and!; try done. intros j' Hx. congruence. }
  set (f := λ j : job, j <| jkilled := true |>). set (s1 := set_job (idata it) f s).
  assert (Htw : tweaks f) by done.
  assert (HS1 : SInv s1) by (by apply set_job_inv).
  assert (HF1 : Found s1 k x it (f j)) by (by apply set_job_found).
  assert (Ho1 : others s s1 k) by (intros k' Hne; by eapply set_job_other).
  assert (HD1 : DInv s1) by (eapply others_dinv; try done; by eapply found_is_some).
  assert (Hl1 : seen s1 k = Some (SRun, f j)) by (by rewrite seen_look, (found_look _ _ _ _ _ HF1), Hst).
  assert (Ho1' : ∀ k', k' ≠ k → seen s1 k' = seen s k') by (intros k' Hne; rewrite !seen_look; by apply find_look_eq, Ho1).
  rewrite Hs, Hst. destruct (jlost j) eqn:Hlost.
  - destruct (release_run now k x it (f j) s1 HS1 HD1 HF1 Hst) as (s2 & l2 & Hr & He).
    rewrite Hr. cbn beta iota zeta delta [mbind option_bind]. intros Hgood.
    destruct He as (st & j1 & st' & Hl & He). destruct (after_rel (Some lost_end) false j1) as [j2 l3].
    destruct He as (Hl2 & -> & Hoth & Hdb & Hcase). rewrite <- seen_look, Hl1 in Hl. injection Hl as <- <-.
    exists s2, 1%nat, l3. split; [done|]. split; [by eapply Hgood|]. split.
    { intros k' Hne. rewrite <- Ho1' by done. rewrite !seen_look. by apply find_look_eq, Hoth. }
    rewrite Hdb. split; [done|]. split; [done|]. split; [|intros H; by destruct (H j)].
    intros j' [= <-]. split; [done|]. unfold killed_seen. rewrite Hlost. exists st', j2. rewrite seen_look. split; [done|].
    destruct Hcase as [[_ Hc]|[-> Hc]]; destruct (will_bury false (f j)).
    + by rewrite Hc.
    + by destruct Hc as [-> | ->].
    + by destruct Hc.
    + by destruct Hc.
  - intros Hgood. exists s1, 1%nat, []. split; [done|]. split; [by eapply Hgood|]. split_and!; try done.
    + intros j' [= <-]. split; [done|]. unfold killed_seen. by rewrite Hlost.
    + intros H. by destruct (H j).
Qed.
Lemma kill_loop now ks : ∀ s, Good s → (∀ k, k ∈ ks → is_Some (seen s k)) →
  ∃ s' h l, rest_kill now ks s = Some (s', RHandled h, l) ∧ Good s' ∧
    live (sdb s') = live (sdb s) ∧ complete (sdb s') = complete (sdb s) ∧
    ∀ k, (k ∈ h ↔ k ∈ ks ∧ ∃ j, seen s k = Some (SRun, j)) ∧ (k ∉ h → seen s' k = seen s k) ∧
      (∀ j, k ∈ h → seen s k = Some (SRun, j) → killed_seen j (seen s' k)).
Proof.
  induction ks as [|k0 ks IH]; intros s HG Hks; cbn [rest_kill].
  { exists s, [], []. split; [done|]. split; [done|]. split; [done|]. split; [done|]. intros k. split; [|split]; [|done|by intros ? ?%elem_of_nil].
    split; [by intros ?%elem_of_nil|by intros [?%elem_of_nil _]]. }
  assert (H0 : is_Some (seen s k0)) by (apply Hks; left).
  rewrite bool_decide_eq_false_2.
  2: { intros Hn. apply (proj2 (seen_none s k0 (g_s _ HG))) in Hn. rewrite Hn in H0. by destruct H0. }
  destruct (kill_one now k0 s HG H0) as (s1 & n & l1 & Hk & HG1 & Hoth & Hlv & Hcp & Hrun & Hnot). rewrite Hk.
  cbn beta iota zeta delta [mbind option_bind].
  assert (Hsome : ∀ k, is_Some (seen s k) → is_Some (seen s1 k)).
  { intros k Hk'. destruct (decide (k = k0)) as [->|Hne]; [|by rewrite Hoth].
    destruct (seen s k0) as [[i j]|] eqn:E; [|by destruct H0].
    destruct (decide (i = SRun)) as [->|Hi].
    - destruct (Hrun j eq_refl) as [_ Hks']. unfold killed_seen in Hks'. destruct (jlost j); [|by rewrite Hks'].
      destruct Hks' as (? & ? & -> & _). done.
    - destruct Hnot as [_ ->]; [|done]. intros j' Hx. congruence. }
  destruct (IH s1 HG1) as (s' & h & l & Hr & HG' & Hlv' & Hcp' & Hall).
  { intros k Hin. apply Hsome, Hks. by right. }
  rewrite Hr. cbn beta iota zeta delta [mbind option_bind].
  destruct (seen s k0) as [[i j]|] eqn:E0; [|by destruct H0].
  destruct (decide (i = SRun)) as [->|Hi].
  - destruct (Hrun j eq_refl) as [-> Hks']. exists s', (k0 :: h), (l1 ++ l). split; [done|]. split; [done|].
    split; [congruence|]. split; [congruence|]. intros k. destruct (Hall k) as (A1 & A2 & A3).
    destruct (decide (k = k0)) as [->|Hne].
    + rewrite E0. split; [split; [intros _; split; [left|by eexists]|intros _; left]|]. split; [intros H; exfalso; apply H; left|].
      intros j' _ [= <-]. unfold killed_seen in *. destruct (jlost j) eqn:Hl.
      * destruct Hks' as (i' & j' & Hs1 & Hi'). exists i', j'. split; [|done]. rewrite <- Hs1. apply A2.
        rewrite A1. intros [_ [j2 Hj2]]. congruence.
      * destruct (decide (k0 ∈ h)) as [Hin|Hin]; [|by rewrite A2].
        specialize (A3 _ Hin Hks'). unfold killed_seen in A3. cbn in A3. rewrite Hl in A3. exact A3.
    + rewrite !elem_of_cons, A1, Hoth by done. split; [naive_solver|]. split; [intros H; rewrite <- Hoth by done; apply A2; rewrite A1, Hoth by done; naive_solver|].
      intros j' [->|Hin]%elem_of_cons Hs; [done|]. apply A3; [done|by rewrite Hoth].
  - destruct Hnot as [-> Hsame]; [intros j' Hx; congruence|]. exists s', h, (l1 ++ l). split; [done|]. split; [done|].
    split; [congruence|]. split; [congruence|]. intros k. destruct (Hall k) as (A1 & A2 & A3).
    assert (Hsk : seen s1 k = seen s k) by (destruct (decide (k = k0)) as [->|Hne]; [by rewrite Hsame, E0|by apply Hoth]).
    rewrite Hsk in *. split; [|done]. rewrite A1, elem_of_cons. split; [naive_solver|]. intros [[->|Hin] [j' Hj]]; [congruence|by eauto].
Qed.

(** ** Finding *)
Definition known (s : sstate) (id : string) : Prop :=
  String.length id = 32%nat ∧ (is_Some (seen s id) ∨ is_Some (complete (sdb s) !! id)).
Lemma known_dec s id : SInv s →
  (bool_decide (String.length id = 32%nat) && (bool_decide (is_Some (find_job id s)) || bool_decide (is_Some (complete (sdb s) !! id)))) = true ↔ known s id.
Proof.
  intros HS. unfold known. rewrite seen_some by done. rewrite andb_true_iff, orb_true_iff, !bool_decide_eq_true. done.
Qed.
Lemma find_id_spec od la o search s id : SInv s → any_orders od → ostate o ∈ three → ooffset o = 0 → oreason o = ""%string →
  ∃ ks, find_id od la o search s id = Some ks ∧ (known s id → ks = [id]) ∧
    (¬ known s id → (∀ k, k ∈ ks → in_state (ostate o) s k ∧ if search then l_group la k ∈ o_search od id else l_group la k = id) ∧
       (olimit o ≤ 0 → ∀ k, (if search then l_group la k ∈ o_search od id else l_group la k = id) → in_state (ostate o) s k → k ∈ ks)).
Proof.
  intros HS Hod Ho Hoff Hre. unfold find_id. destruct (_ && _) eqn:E.
  { apply known_dec in E; [|done]. exists [id]. split; [done|]. split; [done|]. by intros ?. }
  assert (Hnk : ¬ known s id) by (intros H; apply known_dec in H; [congruence|done]). clear E.
  destruct (limit_keys_spec od la o s (concat (group_keys od la s <$> (if search then o_search od id else [id]))) HS Hod Ho Hoff Hre) as (ks & E & H1 & H2).
  rewrite E. exists ks. split; [done|]. split; [done|]. intros _.
  assert (Hg : ∀ k, k ∈ concat (group_keys od la s <$> (if search then o_search od id else [id])) ↔
    is_Some (seen s k) ∧ if search then l_group la k ∈ o_search od id else l_group la k = id).
  { intros k. rewrite elem_of_list_In, in_concat. split.
    - intros (l & Hl & Hk). apply elem_of_list_In in Hl. apply elem_of_list_In in Hk.
      apply elem_of_list_fmap in Hl as (g & -> & Hg). unfold group_keys in Hk. apply elem_of_list_filter in Hk as [Hkg Hk].
      split; [by apply (current_in od)|]. destruct search; [by rewrite Hkg|]. rewrite Hkg. by apply elem_of_list_singleton in Hg.
    - intros [Hs Hk]. exists (group_keys od la s (l_group la k)). split.
      + apply elem_of_list_In, elem_of_list_fmap. exists (l_group la k). split; [done|]. destruct search; [done|]. rewrite Hk. left.
      + apply elem_of_list_In. unfold group_keys. apply elem_of_list_filter. split; [done|]. by apply (current_in od). }
  split.
  - intros k Hk. destruct (H1 k Hk) as [Ha Hb]. apply Hg in Ha as [_ Ha]. by split.
  - intros Hl k Hk Hin. apply H2; [done| |done]. apply Hg. split; [|done]. destruct Hin as (i & j & -> & _). done.
Qed.
Lemma find_ids_spec od la o search s ids : SInv s → any_orders od → ostate o ∈ three → ooffset o = 0 → oreason o = ""%string →
  ∃ ks, find_ids od la o search s ids = Some ks ∧
    (∀ k, k ∈ ks → ∃ id, id ∈ ids ∧ (known s id ∧ k = id ∨
       ¬ known s id ∧ in_state (ostate o) s k ∧ if search then l_group la k ∈ o_search od id else l_group la k = id)) ∧
    (∀ id, id ∈ ids → known s id → id ∈ ks) ∧
    (olimit o ≤ 0 → ∀ id k, id ∈ ids → ¬ known s id → (if search then l_group la k ∈ o_search od id else l_group la k = id) → in_state (ostate o) s k → k ∈ ks).
Proof.
  intros HS Hod Ho Hoff Hre. induction ids as [|id ids (ks2 & E2 & A2 & B2 & C2)]; cbn [find_ids].
  { exists []. split; [done|]. split_and!; by intros ? ?%elem_of_nil || (intros ? ? ? ?%elem_of_nil). }
  destruct (find_id_spec od la o search s id HS Hod Ho Hoff Hre) as (ks1 & -> & H1 & H2). rewrite E2.
  exists (ks1 ++ ks2). split; [done|].
  assert (Hk : known s id ∨ ¬ known s id).
  { destruct (decide (String.length id = 32%nat)); [|right; by intros [? _]].
    destruct (decide (is_Some (seen s id))); [left; split; [done|by left]|].
    destruct (decide (is_Some (complete (sdb s) !! id))); [left; split; [done|by right]|right; intros [_ [?|?]]; done]. }
  split_and!.
  - intros k [Hin|Hin]%elem_of_app.
    + exists id. split; [left|]. destruct Hk as [Hk|Hk].
      * left. split; [done|]. rewrite (H1 Hk) in Hin. by apply elem_of_list_singleton in Hin.
      * right. split; [done|]. by apply (proj1 (H2 Hk)).
    + destruct (A2 k Hin) as (id' & ? & ?). exists id'. split; [by right|done].
  - intros id' [->|Hin]%elem_of_cons Hkn; apply elem_of_app; [left; rewrite (H1 Hkn); left|right; by apply B2].
  - intros Hl id' k [->|Hin]%elem_of_cons Hkn Hg Hst; apply elem_of_app; [left; by apply (proj2 (H2 Hkn))|right; by apply (C2 Hl id')].
Qed.
Lemma find_spec od la r limit s : SInv s → any_orders od → r_state r ∈ three →
  ∃ ks, rest_find od la r limit s = Some ks ∧
    (∀ k, k ∈ ks → names od la r k) ∧
    (no_keys r s → ∀ k, k ∈ ks → in_state (r_state r) s k) ∧
    (no_keys r s → limit ≤ 0 → ∀ k, names od la r k → in_state (r_state r) s k → k ∈ ks) ∧
    (∀ ids id, r_ids r = Some ids → id ∈ split_on "," ids → String.length id = 32%nat → is_Some (seen s id) → id ∈ ks).
Proof.
  intros HS Hod Ho. unfold rest_find, names, no_keys. destruct (r_ids r) as [ids|] eqn:Eids.
  - set (o := LOpts limit 0 "" 0 (r_state r) (r_extra r)).
    destruct (find_ids_spec od la o (r_search r) s (split_on "," ids) HS Hod Ho eq_refl eq_refl) as (ks & -> & A & B & C).
    exists ks. split; [done|]. split_and!.
    + intros k Hk. destruct (A k Hk) as (id & Hid & [[[Hlen _] ->]|(_ & _ & Hg)]); exists id; split; try done; [by left|by right].
    + intros Hnk k Hk. destruct (A k Hk) as (id & Hid & [[[Hlen Hkn] ->]|(_ & ? & _)]); [|done].
      destruct (Hnk ids id eq_refl Hid Hlen) as [H1 H2]. rewrite H1, H2 in Hkn. by destruct Hkn as [[? ?]|[? ?]].
    + intros Hnk Hl k (id & Hid & Hc) Hin.
      assert (Hno : ¬ known s id).
      { intros [Hlen Hkn]. destruct (Hnk ids id eq_refl Hid Hlen) as [H1 H2]. rewrite H1, H2 in Hkn. by destruct Hkn as [[? ?]|[? ?]]. }
      destruct Hc as [[-> Hlen]|Hg]; [|by apply (C Hl id)].
      exfalso. apply Hno. split; [done|]. left. destruct Hin as (i & j & -> & _). done.
    + intros ids' id [= <-] Hid Hlen Hs. apply B; [done|]. split; [done|by left].
  - destruct (limit_keys_spec od la (LOpts limit 0 "" 0 (r_state r) (r_extra r)) s (current_keys od s) HS Hod Ho eq_refl eq_refl) as (ks & -> & A & B).
    exists ks. split; [done|]. split_and!; try done.
    + intros _ k Hk. by apply A.
    + intros _ Hl k _ Hin. apply B; [done| |done]. apply current_in; [done|done|]. destruct Hin as (i & j & -> & _). done.
Qed.
