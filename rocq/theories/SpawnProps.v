(** C68: how many servers the OpenStack scheduler creates, and what it takes of the quota. *)
From Coq Require Import ZArith Lia String Ascii.
From stdpp Require Import base option strings list gmap.
From Verif Require Import CloudModel FlavorModel FlavorSpec FlavorProofs SpawnModel SpawnSpec SpawnProofs SpawnInv SpawnQuota SpawnKnown FlavorProps.
Open Scope Z_scope.

(** ** For the cases *)
Definition job (ram : Z) := Reqs 1000 ram 0 None None.
Definition pass (cmd : string) (n : Z) (q : reqs) : slabel := YSpawn cmd n q none_failed in_order.
Definition config (spawns maxinst : Z) (k : quota) : ocfg := initialize "" None 2000 10 spawns maxinst false k.
Lemma pass_sane cmd n q : 0 ≤ n → 0 ≤ q_cores q → 0 ≤ q_ram q → 0 ≤ q_disk q → sane kinds (pass cmd n q).
Proof. intros. by split_and!. Qed.
Lemma no_sets sp mi k : valid starts (o_regex (config sp mi k)) ∧ proper starts (o_sets (config sp mi k)).
Proof. split; [by left|]. intros set Hs. by apply elem_of_nil in Hs. Qed.
Ltac sane_all := repeat (apply Forall_cons; split; [first [done|by apply pass_sane]|]); done.

Section claims.
Context (comp : string → option (string → bool)) (o : ocfg) (k others : quota) (fl : list vflavor).
Context (Hv : valid comp (o_regex o)) (Hp : proper comp (o_sets o)) (Hfl : flavors_ok fl).

(** No more creations at once than configured. *)
Theorem C68_simultaneous ls s : Forall (sane fl) ls → yrun comp o k others y_init ls = Some s →
  0 < o_spawns o → amount Instances active (y_spawns s) ≤ o_spawns o.
Proof. intros Hs H. exact (i_max _ _ _ (inv_run comp o k others fl Hv Hp Hfl ls _ _ (inv_init o fl) Hs H)). Qed.

(** What is counted as being created for a command is what is being created for it, and
    what is counted as reserved is what those creations take together that have reserved
    and of which the cloud has not yet been seen to count it. *)
Theorem C68_counts ls s : Forall (sane fl) ls → yrun comp o k others y_init ls = Some s →
  (∀ c, default 0 (y_now s !! c) = amount Instances (active_for c) (y_spawns s)) ∧
  (∀ d, at_dim d (y_res s) = amount d g_held (y_spawns s)).
Proof.
  intros Hs H. destruct (inv_run comp o k others fl Hv Hp Hfl ls _ _ (inv_init o fl) Hs H) as [_ In _ Ir _]. by split.
Qed.

(** If the goroutines of a pass have reserved their shares before the next one, no more
    servers are asked for than there is quota for. Missing: passes that come before
    (C68_race_refuted). *)
Theorem C68_quota_partial ls s : Forall (sane fl) ls → yrun comp o k others y_init ls = Some s →
  (∀ d, 0 < at_dim d k → at_dim d others ≤ at_dim d k) →
  when_spawning comp o k others reserved_first y_init ls →
  ∀ d, 0 < at_dim d k → at_dim d others + amount d wanted (y_spawns s) ≤ at_dim d k.
Proof.
  intros Hs H H0 Hw d Hd. pose proof (inv_init o fl) as HI.
  pose proof (inv_run comp o k others fl Hv Hp Hfl ls _ _ HI Hs H) as HI'.
  pose proof (quota_run comp o k others fl Hv Hp Hfl ls y_init s HI) as HQ.
  assert (Hq0 : QInv k others y_init) by (intros d' Hd'; cbn; specialize (H0 d' Hd'); lia).
  specialize (HQ Hq0 Hs Hw H d Hd).
  enough (amount d wanted (y_spawns s) ≤ amount d counted (y_spawns s)) by lia. apply amount_le.
  - intros g Hg. destruct (i_whole _ _ _ HI' g Hg) as [_ Hwh]. unfold wanted, counted, unreserved.
    destruct (g_exists g); [by rewrite orb_true_r|]. destruct (g_phase g); [done| |done..]. by destruct Hwh as [-> _].
  - intros g Hg. apply (share_nonneg _ Hfl). by apply HI'.
Qed.

(** If besides all servers are known to the scheduler at every pass, there are never more
    of them, the machine of the manager counted, than configured. Missing: passes while
    servers boot (C68_booting_refuted), clouds without a quota of instances
    (C68_no_quota_refuted). *)
Theorem C68_max_partial ls s : Forall (sane fl) ls → yrun comp o k others y_init ls = Some s →
  0 < m_inst o → m_inst o < k_inst k → when_spawning comp o k others settled y_init ls →
  1 + amount Instances wanted (y_spawns s) ≤ m_inst o.
Proof.
  intros Hs H H0 H1 Hw. pose proof (inv_init o fl) as HI.
  pose proof (inv_run comp o k others fl Hv Hp Hfl ls _ _ HI Hs H) as HI'.
  pose proof (max_run comp o k others fl Hv Hp Hfl ls y_init s ltac:(lia) H1 HI) as HQ.
  assert (Hq0 : MInv o y_init) by (unfold MInv; cbn; lia).
  specialize (HQ Hq0 Hs Hw H). unfold MInv in HQ.
  enough (amount Instances wanted (y_spawns s) ≤ amount Instances counted (y_spawns s)) by lia. apply amount_le.
  - intros g Hg. destruct (i_whole _ _ _ HI' g Hg) as [_ Hwh]. unfold wanted, counted, unreserved.
    destruct (g_exists g); [by rewrite orb_true_r|]. destruct (g_phase g); [done| |done..]. by destruct Hwh as [-> _].
  - intros g Hg. apply (share_nonneg _ Hfl). by apply HI'.
Qed.

(** When all is done nothing is reserved any more. Missing: creations that fail before the
    server is asked for (C68_leak_refuted). *)
Theorem C68_released_partial ls s : Forall (sane fl) ls → yrun comp o k others y_init ls = Some s →
  (∀ i, YEarly i ∉ ls) → (∀ g, g ∈ y_spawns s → g_phase g = PGone ∧ g_cb g = false) →
  y_res s = Quota 0 0 0 0.
Proof.
  intros Hs H He Hd. pose proof (inv_init o fl) as HI.
  pose proof (inv_run comp o k others fl Hv Hp Hfl ls _ _ HI Hs H) as HI'.
  assert (Hot : ∀ g, g ∈ y_spawns s → on_time g).
  { eapply (on_time_run comp o k others fl Hv Hp Hfl); [exact HI|exact Hs| |exact He|exact H]. cbn. intros g Hg. by apply elem_of_nil in Hg. }
  assert (Hz : ∀ d, at_dim d (y_res s) = 0).
  { intros d. rewrite (i_res _ _ _ HI'). apply amount_zero. intros g Hg. destruct (g_held g) eqn:E; [|done].
    destruct (Hot g Hg E) as [X|X]; destruct (Hd g Hg) as [Y Z]; congruence. }
  pose proof (Hz Instances) as Z1. pose proof (Hz Cores) as Z2. pose proof (Hz Memory) as Z3. pose proof (Hz Volume) as Z4.
  destruct (y_res s); cbn in *. congruence.
Qed.

(** No more servers are created for a command than its jobs need: with one fewer than are
    being created then, some job would have no place. Missing: jobs that need less memory
    than the operating system (C68_too_many_refuted), or no cores. *)
Theorem C68_needed_partial ls s cmd desired q failed order s' : Forall (sane fl) ls → yrun comp o k others y_init ls = Some s →
  sane fl (YSpawn cmd desired q failed order) → ystep comp o k others s (YSpawn cmd desired q failed order) = Some s' →
  0 < q_cores q → match q_os_ram q with Some (Some i) => i | _ => o_osram o end ≤ q_ram q →
  s' = s ∨ ∃ f m, f ∈ fl ∧ most f q m ∧ 0 < m ∧ (amount Instances (active_for cmd) (y_spawns s') - 1) * m < desired ∧
                  ∀ g, g ∈ y_spawns s' → g ∈ y_spawns s ∨ g_cmd g = cmd ∧ g_flav g = f.
Proof.
  intros Hs H Hsl Hst Hq Hos. pose proof (inv_init o fl) as HI.
  pose proof (inv_run comp o k others fl Hv Hp Hfl ls _ _ HI Hs H) as HI'.
  pose proof (inv_step comp o k others fl Hv Hp Hfl _ _ _ HI' Hsl Hst) as HI''.
  destruct (spawn_step comp o k others fl Hv Hp Hfl _ _ _ _ _ _ _ Hsl Hst) as [->|(n & f & Hn & Hin & _ & Hneed & _ & _ & E)]; [by left|].
  right. rewrite <-(i_now _ _ _ HI''). rewrite E in *. cbn. rewrite lookup_insert. cbn.
  destruct (spawn_req o q) as (R1 & R2 & _ & _). destruct Hsl as (Hd & _ & Hqr & _). destruct (proj2 Hfl _ Hin) as (Hc & _ & Hdk).
  assert (Hne : holds f (reqForSpawn o q) ≠ 0).
  { intros Z0. rewrite Z0 in Hneed. rewrite Zdiv_0_r in Hneed. rewrite (i_now _ _ _ HI') in Hneed.
    assert (0 ≤ amount Instances (active_for cmd) (y_spawns s)); [|lia].
    rewrite <-(amount_zero Instances (λ _, false) (y_spawns s)) by done. apply amount_le; [done|]. intros; cbn; lia. }
  destruct (holds_most f (reqForSpawn o q) q) as [Hm Hpos]; [done|lia|lia|done|done|lia|lia|].
  exists f, (holds f (reqForSpawn o q)). split_and!; [done|exact Hm|done| |].
  - set (h := holds _ _) in *. clearbody h. rewrite Z.add_comm in Hneed.
    assert (h * ((desired + h - 1) / h) ≤ desired + h - 1) by (apply Z.mul_div_le; lia). nia.
  - intros g [Hg|Hg]%elem_of_app; [by left|]. apply elem_of_replicate in Hg as [-> _]. by right.
Qed.
End claims.
Print Assumptions C68_simultaneous.
Print Assumptions C68_counts.
Print Assumptions C68_quota_partial.
Print Assumptions C68_max_partial.
Print Assumptions C68_released_partial.
Print Assumptions C68_needed_partial.

(** Once the state is updated the scheduler knows exactly the servers that got ready and
    are still there, each once. *)
Theorem C68_known comp o k others ls s s' : yrun comp o k others y_init ls = Some s →
  ystep comp o k others s YUpdate = Some s' →
  NoDup (y_servers s') ∧ ∀ i, i ∈ y_servers s' ↔ ∃ g, y_spawns s' !! i = Some g ∧ g_exists g = true ∧ (g_phase g = PEnded ∨ g_phase g = PGone).
Proof. exact (known_update comp o k others ls s s'). Qed.
Print Assumptions C68_known.

(** A run: three servers wanted of which two may be created at once, then another job. *)
Definition busy : list slabel :=
  [pass "a" 3 (job 3000); YReserve 0; YReserve 1; YCreate 0 true; YCallback 0; YReady 0 true; YEnd 0; YUpdate;
   YCreate 1 false; YCallback 1; YReady 1 true; YEnd 1; pass "b" 2 (job 2500); YReserve 2; YReserve 3].
Definition busy_k := Quota 9 20 100000 0.
Definition busy_o := config 2 6 busy_k.
Definition busy_s := default y_init (yrun starts busy_o busy_k (Quota 2 4 1000 0) y_init busy).
Lemma busy_sane : Forall (sane kinds) busy.
Proof. unfold busy. sane_all. Qed.
Lemma busy_runs : yrun starts busy_o busy_k (Quota 2 4 1000 0) y_init busy = Some busy_s.
Proof. by vm_compute. Qed.
(** Three servers got ready and one of them was destroyed before the last of three updates. *)
Definition three : list slabel :=
  [pass "a" 3 (job 3000); YReserve 0; YReserve 1; YCreate 0 true; YReady 0 true; YEnd 0; YUpdate; YCreate 1 true; YReady 1 true; YEnd 1;
   pass "b" 2 (job 2500); YReserve 2; YCreate 2 true; YReady 2 true; YUpdate; YDestroy 1].
Example C68_known_case : ∃ s s', yrun starts busy_o busy_k (Quota 2 4 1000 0) y_init three = Some s ∧
  ystep starts busy_o busy_k (Quota 2 4 1000 0) s YUpdate = Some s' ∧ y_servers s = [0%nat; 1%nat; 2%nat] ∧ y_servers s' = [0%nat; 2%nat].
Proof. eexists _, _. split; [by vm_compute|]. split; [reflexivity|]. by vm_compute. Qed.
Lemma busy_settled : when_spawning starts busy_o busy_k (Quota 2 4 1000 0) settled y_init busy.
Proof.
  unfold busy. cbn [when_spawning pass]. split.
  { split; [intros g Hg; by apply elem_of_nil in Hg|]. intros (i & g & Hg & _). by destruct i. }
  repeat match goal with |- context [ystep ?a ?b ?c ?d ?e ?f] => let r := eval vm_compute in (ystep a b c d e f) in change (ystep a b c d e f) with r; cbv beta iota; cbn [when_spawning pass] end.
  split_and!; try done. split.
  - intros g Hg. cbn in Hg. repeat (apply elem_of_cons in Hg as [->|Hg]; [done|]). by apply elem_of_nil in Hg.
  - intros ([|[|i]] & g & Hg & He & Hn); cbn in Hg; [|injection Hg as <-; done|done]. apply Hn. cbn. left.
Qed.
Lemma settled_first ls : ∀ s, when_spawning starts busy_o busy_k (Quota 2 4 1000 0) settled s ls →
  when_spawning starts busy_o busy_k (Quota 2 4 1000 0) reserved_first s ls.
Proof.
  induction ls as [|l ls IH]; intros s; [done|]. cbn [when_spawning]. intros [H1 H2]. split; [destruct l; try done; by destruct H1|].
  destruct (ystep _ _ _ _ _ _); [by apply IH|done].
Qed.
Example C68_case :
  amount Instances active (y_spawns busy_s) = 2 ∧ amount Instances wanted (y_spawns busy_s) = 3 ∧
  y_res busy_s = Quota 2 4 8000 0 ∧ y_now busy_s !! "b"%string = Some 2 ∧
  (∀ d, 0 < at_dim d busy_k → at_dim d (Quota 2 4 1000 0) + amount d wanted (y_spawns busy_s) ≤ at_dim d busy_k) ∧
  1 + amount Instances wanted (y_spawns busy_s) ≤ m_inst busy_o.
Proof.
  destruct (no_sets 2 6 busy_k) as [Hv Hp]. split_and!; [by vm_compute..| |].
  - apply (C68_quota_partial starts busy_o busy_k _ kinds Hv Hp kinds_ok busy); [exact busy_sane|exact busy_runs| |apply settled_first; exact busy_settled].
    intros []; by vm_compute.
  - apply (C68_max_partial starts busy_o busy_k (Quota 2 4 1000 0) kinds Hv Hp kinds_ok busy); [exact busy_sane|exact busy_runs|done|done|exact busy_settled].
Qed.
Example C68_released_case :
  let ls := [pass "a" 2 (job 3000); YReserve 0; YCreate 0 true; YReserve 1; YReady 0 true; YEnd 0; YCallback 0;
             YCreate 1 false; YReady 1 false; YCallback 1; YEnd 1] in
  ∃ s, Forall (sane kinds) ls ∧ yrun starts busy_o busy_k unlimited y_init ls = Some s ∧ (∀ i, YEarly i ∉ ls) ∧
    (∀ g, g ∈ y_spawns s → g_phase g = PGone ∧ g_cb g = false) ∧ length (y_spawns s) = 2%nat ∧ y_res s = Quota 0 0 0 0.
Proof.
  cbn zeta. eexists. split; [sane_all|]. split; [by vm_compute|]. split.
  { intros i Hi. repeat (apply elem_of_cons in Hi as [Hi|Hi]; [done|]). by apply elem_of_nil in Hi. }
  split; [|by vm_compute]. intros g Hg. cbn in Hg. repeat (apply elem_of_cons in Hg as [->|Hg]; [done|]). by apply elem_of_nil in Hg.
Qed.
Example C68_needed_case :
  ∃ s', ystep starts busy_o busy_k unlimited y_init (pass "a" 5 (Reqs 500 2000 0 None None)) = Some s' ∧
    amount Instances (active_for "a") (y_spawns s') = 2 ∧ o_osram busy_o ≤ 2000 ∧ most small (Reqs 500 2000 0 None None) 2.
Proof. eexists. split; [by vm_compute|]. unfold most; split_and!; [by vm_compute..|by right]. Qed.

(** Two passes, the second before the goroutine of the first has reserved its share: more
    servers are asked for than the quota allows and, what the cloud does not prevent, more
    are created than configured. *)
Definition race := [pass "a" 1 (job 3000); pass "b" 1 (job 3000); YReserve 0; YReserve 1; YCreate 0 true; YCreate 1 true].
Theorem C68_race_refuted : ∃ ls s k,
  Forall (sane kinds) ls ∧ yrun starts (config 0 2 k) k unlimited y_init ls = Some s ∧
  0 < m_inst (config 0 2 k) < k_inst k ∧ 0 < k_cores k ∧
  k_cores k < amount Cores wanted (y_spawns s) ∧ m_inst (config 0 2 k) < 1 + amount Instances g_exists (y_spawns s).
Proof. eexists race, _, (Quota 9 3 100000 0). split; [unfold race; sane_all|]. split; [by vm_compute|]. by vm_compute. Qed.
Print Assumptions C68_race_refuted.
(** While a server boots it is neither reserved nor one of the known servers: more are
    created than configured, though every goroutine reserves at once. *)
Definition while_booting :=
  [pass "a" 1 (job 3000); YReserve 0; YCreate 0 true; YCallback 0; pass "b" 1 (job 3000); YReserve 1; YCreate 1 true; YCallback 1;
   YReady 0 true; YReady 1 true; YEnd 0; YEnd 1; YUpdate].
Theorem C68_booting_refuted : ∃ ls s k,
  Forall (sane kinds) ls ∧ yrun starts (config 0 2 k) k unlimited y_init ls = Some s ∧
  when_spawning starts (config 0 2 k) k unlimited reserved_first y_init ls ∧
  0 < m_inst (config 0 2 k) < k_inst k ∧ m_inst (config 0 2 k) < 1 + Z.of_nat (length (y_servers s)).
Proof.
  eexists while_booting, _, (Quota 9 30 100000 0). split; [unfold while_booting; sane_all|]. split; [by vm_compute|].
  split; [|by vm_compute]. unfold while_booting. cbn [when_spawning pass]. split; [intros g Hg; by apply elem_of_nil in Hg|].
  repeat match goal with |- context [ystep ?a ?b ?c ?d ?e ?f] => let r := eval vm_compute in (ystep a b c d e f) in change (ystep a b c d e f) with r; cbv beta iota; cbn [when_spawning pass] end.
  split_and!; try done. intros g Hg. cbn in Hg. repeat (apply elem_of_cons in Hg as [->|Hg]; [done|]). by apply elem_of_nil in Hg.
Qed.
Print Assumptions C68_booting_refuted.
(** In a cloud without a quota of instances the configured maximum is not looked at. *)
Theorem C68_no_quota_refuted : ∃ ls s k,
  Forall (sane kinds) ls ∧ yrun starts (config 0 2 k) k unlimited y_init ls = Some s ∧
  k_inst k = 0 ∧ m_inst (config 0 2 k) = 2 ∧ amount Instances wanted (y_spawns s) = 7.
Proof. eexists [pass "a" 7 (job 3000)], _, (Quota 0 30 100000 0). split; [sane_all|]. split; [by vm_compute|]. by vm_compute. Qed.
Print Assumptions C68_no_quota_refuted.
(** A creation that fails before the server is asked for, as when the image is not found,
    leaves its share reserved for good: with a quota of one server none is created any
    more, though none exists. *)
Theorem C68_leak_refuted : ∃ ls s k,
  Forall (sane kinds) ls ∧ yrun starts (config 0 (-1) k) k unlimited y_init ls = Some s ∧
  (∀ g, g ∈ y_spawns s → g_phase g = PGone ∧ g_cb g = false ∧ g_exists g = false) ∧
  y_res s = Quota 1 2 4000 0 ∧
  ∀ cmd desired q failed order, 0 ≤ desired → ystep starts (config 0 (-1) k) k unlimited s (YSpawn cmd desired q failed order) = Some s.
Proof.
  exists [pass "a" 1 (job 3000); YReserve 0; YEarly 0; YEnd 0]. set (k := Quota 1 30 100000 0).
  destruct (yrun starts (config 0 (-1) k) k unlimited y_init [pass "a" 1 (job 3000); YReserve 0; YEarly 0; YEnd 0]) as [s|] eqn:E; [|by vm_compute in E].
  exists s, k. vm_compute in E. injection E as <-. split; [sane_all|]. split; [by vm_compute|]. split.
  { intros g Hg. cbn in Hg. repeat (apply elem_of_cons in Hg as [->|Hg]; [done|]). by apply elem_of_nil in Hg. }
  split; [done|]. intros cmd desired q failed order _. cbn [ystep]. unfold to_spawn. destruct (_ && _); [done|].
  destruct (spawn_flavor _ _ _ _ _) as [f|e|]; [|done|done].
  set (z := spawnable _ _ _ _ _ _ _). assert (Hz : z = 0).
  { unfold z, spawnable. cbn -[Z.quot Z.ltb]. destruct (_ || _ || _ || _) eqn:E; [done|]. by rewrite !orb_false_iff in E; destruct E as [[[E _] _] _]. }
  by rewrite Hz.
Qed.
Print Assumptions C68_leak_refuted.
(** How many jobs fit on a server is reckoned with the memory of the operating system for
    each of them: more servers are created than needed. *)
Theorem C68_too_many_refuted : ∃ s' q m, ystep starts (config 0 (-1) unlimited) unlimited unlimited y_init (pass "a" 4 q) = Some s' ∧
  (∀ g, g ∈ y_spawns s' → g_flav g = small) ∧ most small q m ∧ 4 ≤ 1 * m ∧ amount Instances (active_for "a") (y_spawns s') = 2.
Proof.
  eexists _, (Reqs 500 500 0 None None), 4. split; [by vm_compute|]. split.
  { intros g Hg. cbn in Hg. repeat (apply elem_of_cons in Hg as [->|Hg]; [done|]). by apply elem_of_nil in Hg. }
  unfold most. split_and!; [by vm_compute..|by left|by vm_compute|by vm_compute].
Qed.
Print Assumptions C68_too_many_refuted.
