(** Proofs about SpawnModel and the rest of FlavorModel *)
From Coq Require Import ZArith Lia String.
From stdpp Require Import base option strings list gmap.
From RecordUpdate Require Import RecordSet.
From Verif Require Import CloudModel FlavorModel FlavorSpec FlavorProofs SpawnModel SpawnSpec.
Import RecordSetNotations.
Open Scope Z_scope.

(** ** Numbers *)
Lemma ceil_le c n : ceil c ≤ n ↔ c ≤ 1000 * n.
Proof. unfold ceil. pose proof (Z.div_mod (c + 999) 1000). pose proof (Z.mod_pos_bound (c + 999) 1000). lia. Qed.
Lemma quot_le a b : 0 < b → b ≤ a → 1 ≤ Z.quot a b ∧ Z.quot a b * b ≤ a.
Proof.
  intros Hb Ha. rewrite Z.quot_div_nonneg by lia.
  pose proof (Z.div_mod a b). pose proof (Z.mod_pos_bound a b). nia.
Qed.

Lemma spawnable_ok o f disk k used reserved servers n :
  0 < v_cores f → 0 < v_ram f → 0 ≤ v_disk f →
  n = spawnable o f disk k used reserved servers →
  0 ≤ n ∧ (0 < n →
    (∀ d, 0 < at_dim d k → at_dim d used + at_dim d reserved + n * at_dim d (share f disk) ≤ at_dim d k
                            ∨ at_dim d (share f disk) = 0) ∧
    (-1 < m_inst o → m_inst o < k_inst k → servers + k_inst reserved + n ≤ m_inst o)).
Proof.
  intros Hc Hr Hd ->. unfold spawnable.
  set (inst0 := if 0 <? k_inst k then k_inst k - k_inst used - k_inst reserved else unquotadVal).
  set (inst := if (0 <? inst0) && (-1 <? m_inst o) && (m_inst o <? k_inst k)
               then if m_inst o - (servers + k_inst reserved) <? inst0 then m_inst o - (servers + k_inst reserved) else inst0
               else inst0).
  set (ram := if 0 <? k_ram k then _ else _). set (cores := if 0 <? k_cores k then _ else _).
  set (vol := if (0 <? k_vol k) && _ then _ else _).
  destruct (Z.ltb_spec inst 1); [cbn; lia|]. destruct (Z.ltb_spec ram (v_ram f)); [cbn; lia|].
  destruct (Z.ltb_spec cores (v_cores f)); [cbn; lia|]. destruct (Z.ltb_spec vol disk); [cbn; lia|]. cbn [orb].
  assert (Hi0 : inst ≤ inst0).
  { unfold inst. destruct (_ && _); [|lia]. destruct (Z.ltb_spec (m_inst o - (servers + k_inst reserved)) inst0); lia. }
  assert (Him : -1 < m_inst o → m_inst o < k_inst k → inst ≤ m_inst o - (servers + k_inst reserved)).
  { intros H3 H4. unfold inst. rewrite (proj2 (Z.ltb_lt 0 inst0)), (proj2 (Z.ltb_lt (-1) (m_inst o))), (proj2 (Z.ltb_lt (m_inst o) (k_inst k))) by lia.
    cbn. destruct (Z.ltb_spec (m_inst o - (servers + k_inst reserved)) inst0); lia. }
  destruct (quot_le ram (v_ram f)) as [Hr1 Hr2]; [lia..|]. destruct (quot_le cores (v_cores f)) as [Hc1 Hc2]; [lia..|].
  set (n := if 1 <? inst then _ else _).
  assert (Hn : 1 ≤ n ∧ n ≤ inst ∧ n ≤ Z.quot ram (v_ram f) ∧ n ≤ Z.quot cores (v_cores f) ∧ (v_disk f < disk → n * disk ≤ vol)).
  { unfold n. destruct (Z.ltb_spec 1 inst).
    - set (n1 := if Z.quot ram (v_ram f) <? inst then _ else _).
      assert (1 ≤ n1 ∧ n1 ≤ inst ∧ n1 ≤ Z.quot ram (v_ram f)) by (unfold n1; destruct (Z.ltb_spec (Z.quot ram (v_ram f)) inst); lia).
      set (n2 := if Z.quot cores (v_cores f) <? n1 then _ else _).
      assert (1 ≤ n2 ∧ n2 ≤ n1 ∧ n2 ≤ Z.quot cores (v_cores f)) by (unfold n2; destruct (Z.ltb_spec (Z.quot cores (v_cores f)) n1); lia).
      destruct (Z.ltb_spec (v_disk f) disk); [|split_and!; lia].
      destruct (quot_le vol disk) as [Hv1 Hv2]; [lia..|].
      destruct (Z.ltb_spec (Z.quot vol disk) n2); split_and!; try lia; intros _; nia.
    - replace inst with 1 in * by lia. split_and!; lia. }
  split; [lia|]. intros _. split.
  - intros [] Hk; cbn [at_dim share k_inst k_cores k_ram k_vol] in *; clearbody n.
    + left. unfold inst0 in Hi0. rewrite (proj2 (Z.ltb_lt 0 (k_inst k))) in Hi0 by lia. lia.
    + left. unfold cores in *. rewrite (proj2 (Z.ltb_lt 0 (k_cores k))) in * by lia. nia.
    + left. unfold ram in *. rewrite (proj2 (Z.ltb_lt 0 (k_ram k))) in * by lia. nia.
    + destruct (Z.ltb_spec (v_disk f) disk); [|by right]. left. unfold vol in *.
      rewrite (proj2 (Z.ltb_lt 0 (k_vol k))) in * by lia. cbn [andb] in Hn. lia.
  - intros H3 H4. specialize (Him H3 H4). lia.
Qed.

Lemma space_pos f q : 0 < v_cores f → 0 ≤ q_cores q →
  q_cores q ≤ 1000 * v_cores f → 0 ≤ q_ram q → q_ram q ≤ v_ram f → 0 ≤ v_disk f → 1 ≤ holds f q.
Proof.
  intros Hc Hq Hqc Hr Hqr Hd. unfold holds, flavor_space, at_most. cbn [f_cores f_ram f_disk n_cores n_ram n_disk].
  destruct (Z.ltb_spec (1000 * v_cores f) (q_cores q)); [lia|]. destruct (Z.ltb_spec (v_ram f) (q_ram q)); [lia|].
  destruct (Z.ltb_spec (v_disk f) 0); [lia|]. cbn [orb]. unfold ZeroCoreMultiplier.
  set (can := if q_cores q =? 0 then _ else _).
  assert (Hcan : 1 ≤ can).
  { unfold can. destruct (Z.eqb_spec (q_cores q) 0); [lia|]. apply Z.div_le_lower_bound; lia. }
  clearbody can. destruct (Z.ltb_spec 1 can); [|lia]. destruct (Z.ltb_spec 0 0); [lia|].
  destruct (Z.ltb_spec 0 (q_ram q)); [|lia].
  destruct (quot_le (v_ram f) (q_ram q)) as [? _]; [lia..|]. destruct (Z.ltb_spec (Z.quot (v_ram f) (q_ram q)) can); lia.
Qed.
Lemma space_nonneg f q : 0 ≤ v_cores f → 0 ≤ q_cores q → 0 ≤ q_ram q → 0 ≤ v_disk f → 0 ≤ holds f q.
Proof.
  intros Hc Hq Hr Hd. unfold holds, flavor_space, at_most. cbn [f_cores f_ram f_disk n_cores n_ram n_disk].
  destruct (Z.ltb_spec (1000 * v_cores f) (q_cores q)); [cbn; lia|]. destruct (Z.ltb_spec (v_ram f) (q_ram q)); [cbn; lia|].
  destruct (Z.ltb_spec (v_disk f) 0); [lia|]. cbn [orb]. unfold ZeroCoreMultiplier.
  set (can := if q_cores q =? 0 then _ else _).
  assert (Hcan : 0 ≤ can).
  { unfold can. destruct (Z.eqb_spec (q_cores q) 0); [lia|]. apply Z.div_pos; lia. }
  clearbody can. destruct (Z.ltb_spec 1 can); [|lia]. destruct (Z.ltb_spec 0 0); [lia|].
  destruct (Z.ltb_spec 0 (q_ram q)); [|lia].
  destruct (quot_le (v_ram f) (q_ram q)) as [? _]; [lia..|]. destruct (Z.ltb_spec (Z.quot (v_ram f) (q_ram q)) can); lia.
Qed.

Lemma spawn_req o q :
  q_cores (reqForSpawn o q) = q_cores q ∧
  q_ram (reqForSpawn o q) = Z.max (q_ram q) (match q_os_ram q with Some (Some i) => i | _ => o_osram o end) ∧
  q_disk (reqForSpawn o q) = (if decide (q_disk q = 0) then Z.max 0 (o_osdisk o) else q_disk q) ∧
  q_flavor (reqForSpawn o q) = q_flavor q.
Proof.
  unfold reqForSpawn. cbn [q_cores q_ram q_disk q_flavor]. split_and!; [done| | |done].
  - destruct (Z.ltb_spec (q_ram q) (match q_os_ram q with Some (Some i) => i | _ => o_osram o end)); lia.
  - destruct (Z.eqb_spec (q_disk q) 0) as [->|]; [rewrite decide_True by done|rewrite decide_False by done].
    + destruct (Z.ltb_spec 0 (o_osdisk o)); lia.
    + destruct (Z.ltb_spec (q_disk q) (q_disk q)); lia.
Qed.

Section proofs.
Context (comp : string → option (string → bool)) (o : ocfg).

Lemma get_flavor name fl :
  match GetServerFlavor name fl with
  | Done f => f ∈ fl ∧ (v_id f = name ∨ v_name f = name)
  | Fail e => e = ErrNoSuchFlavor ∧ ∀ f, f ∈ fl → v_id f ≠ name ∧ v_name f ≠ name
  | Panics => False
  end.
Proof.
  unfold GetServerFlavor. destruct (list_find (λ f, v_id f = name) fl) as [[i f]|] eqn:H1.
  { apply list_find_Some in H1 as (H & ? & _). split; [by eapply elem_of_list_lookup_2|by left]. }
  destruct (list_find (λ f, v_name f = name) fl) as [[i f]|] eqn:H2.
  { apply list_find_Some in H2 as (H & ? & _). split; [by eapply elem_of_list_lookup_2|by right]. }
  split; [done|]. apply list_find_None in H1, H2. intros f Hf. rewrite Forall_forall in H1, H2. eauto.
Qed.

Lemma picks_in cores ram fl ms f i :
  picks comp o cores ram fl ms → ms !! i = Some (Some f) → f ∈ fl ∧ big_enough cores ram f ∧ allowed comp o f.
Proof.
  unfold picks, allowed. destruct (o_sets o) as [|set sets] eqn:Hs.
  - intros (g & -> & Hg & Hb & _). destruct i as [|i]; cbn; [|done]. intros [= <-]. naive_solver.
  - intros Hall Hi. destruct (Forall2_lookup_r _ _ _ _ _ Hall Hi) as (s & Hsi & Hg & (Hb & Hn & x & Hx & Hxn) & _).
    split_and!; [done..|]. right. exists s, x. split_and!; [|done..]. by eapply elem_of_list_lookup_2.
Qed.
Lemma choice_in failed ms f : first_choice failed ms f → ∃ i, ms !! i = Some (Some f).
Proof. intros [(i & H & _)|(i & H & _)]; eauto. Qed.
Lemma determine_done failed order fl q f :
  (∀ j, order j ≡ₚ fl) → valid comp (o_regex o) → proper comp (o_sets o) →
  determineFlavor comp o failed order q = Done f →
  f ∈ fl ∧ big_enough (ceil (q_cores q)) (q_ram q) f ∧ allowed comp o f.
Proof.
  intros Ho Hv Hp H. pose proof (determine_ok comp o failed order fl q Ho Hv Hp) as Hd. rewrite H in Hd.
  destruct Hd as (ms & Hm & Hc). destruct (choice_in _ _ _ Hc) as [i Hi]. by eapply picks_in.
Qed.

(** ** reqCheck *)
Lemma refused failed order fl q :
  (∀ j, order j ≡ₚ fl) → valid comp (o_regex o) → proper comp (o_sets o) →
  (∀ name f g, q_flavor q = Some name → f ∈ fl → g ∈ fl →
     v_id f = name ∨ v_name f = name → v_id g = name ∨ v_name g = name → f = g) →
  q_disk (reqForSpawn o q) ≤ m_vol o →
  reqCheck comp o failed order q = Fail ErrImpossible →
  ∀ f, f ∈ fl → within_maxima o f → (q_flavor q = None → allowed comp o f) → ¬ can_run_on o q f.
Proof.
  intros Ho Hv Hp Hu Hdisk. unfold reqCheck. destruct (spawn_req o q) as (Hc & Hr & Hd & Hf).
  destruct (Z.ltb_spec (m_vol o) (q_disk (reqForSpawn o q))); [lia|]. rewrite orb_false_r.
  destruct ((m_ram o <? q_ram (reqForSpawn o q)) || (m_cores o <? ceil (q_cores (reqForSpawn o q)))) eqn:Hm.
  { intros _ f Hin [Hwc Hwr] Ha (Hrc & Hrr & Hro & _). apply orb_true_iff in Hm as [Hm|Hm]; apply Z.ltb_lt in Hm; rewrite ?Hr, ?Hc in Hm; [lia|].
    assert (ceil (q_cores q) ≤ v_cores f) by (apply ceil_le; lia). lia. }
  destruct (q_flavor q) as [name|] eqn:Hq.
  - pose proof (get_flavor name (order 0%nat)) as Hg. destruct (GetServerFlavor name (order 0%nat)) as [g|e|]; [|by destruct Hg as [-> _]|done].
    destruct ((v_cores g <? _) || _) eqn:Hsmall; [|done]. intros _ f Hin _ _ (Hrc & Hrr & Hro & Hn). rewrite Hq in Hn.
    destruct Hg as [Hgin Hgn]. rewrite Ho in Hgin. assert (f = g) as <- by (by eapply Hu).
    rewrite Hc, Hr in Hsmall.
    apply orb_true_iff in Hsmall as [Hs|Hs]; apply Z.ltb_lt in Hs; [|lia].
    assert (ceil (q_cores q) ≤ v_cores f) by (apply ceil_le; lia). lia.
  - pose proof (determine_ok comp o failed order fl q Ho Hv Hp) as Hd'.
    destruct (determineFlavor comp o failed order q) as [g|e|]; [done| |done].
    intros [= ->] f Hin _ Ha (Hrc & Hrr & _). destruct Hd' as [_ Hn]. apply (Hn f Hin). split; [|by apply Ha].
    split; [by apply ceil_le|done].
Qed.
Lemma accepted failed order fl q :
  (∀ j, order j ≡ₚ fl) → valid comp (o_regex o) → proper comp (o_sets o) →
  reqCheck comp o failed order q = Done tt →
  (q_flavor q ≠ None ∨ match q_os_ram q with Some (Some i) => i | _ => o_osram o end ≤ q_ram q) →
  (∀ name f g, q_flavor q = Some name → f ∈ fl → g ∈ fl →
     v_id f = name ∨ v_name f = name → v_id g = name ∨ v_name g = name → f = g) →
  ∀ failed' order', (∀ j, order' j ≡ₚ fl) →
  ∃ f, spawn_flavor comp o failed' order' q = Done f ∧ f ∈ fl ∧ can_run_on o q f ∧ (q_flavor q = None → allowed comp o f).
Proof.
  intros Ho Hv Hp H Hor Hu failed' order' Ho'. destruct (spawn_req o q) as (Hc & Hr & Hd & Hf).
  unfold reqCheck in H. destruct (_ || _ || _); [done|]. unfold spawn_flavor, can_run_on. destruct (q_flavor q) as [name|] eqn:Hq.
  - pose proof (get_flavor name (order 0%nat)) as Hg. destruct (GetServerFlavor name (order 0%nat)) as [g|e|]; [|done|done].
    destruct ((v_cores g <? _) || _) eqn:Hs; [done|]. apply orb_false_iff in Hs as [Hs1 Hs2].
    apply Z.ltb_ge in Hs1, Hs2. rewrite Hc in Hs1. rewrite Hr in Hs2.
    pose proof (get_flavor name (order' 0%nat)) as Hg'. destruct (GetServerFlavor name (order' 0%nat)) as [g'|e'|]; [| |done].
    + destruct Hg as [Hgin Hgn]. destruct Hg' as [Hgin' Hgn']. rewrite Ho in Hgin. rewrite Ho' in Hgin'.
      assert (g' = g) as -> by (by eapply Hu). exists g. split_and!; [done|done| | | |done|done]; [by apply ceil_le|lia..].
    + exfalso. destruct Hg as [Hgin Hgn]. destruct Hg' as [_ Hn]. rewrite Ho, <-Ho' in Hgin. destruct (Hn g Hgin). naive_solver.
  - destruct Hor as [?|Hor]; [done|].
    destruct (determineFlavor comp o failed order q) as [g|e|] eqn:Hdet; [|done|done].
    pose proof (determine_done _ _ _ _ _ Ho Hv Hp Hdet) as (Hgin & [Hb1 Hb2] & Hga).
    pose proof (determine_ok comp o failed' order' fl (reqForSpawn o q) Ho' Hv Hp) as Hd'.
    destruct (determineFlavor comp o failed' order' (reqForSpawn o q)) as [f|e|] eqn:Hdet'; [| |done].
    + pose proof (determine_done _ _ _ _ _ Ho' Hv Hp Hdet') as (Hfin & [Hf1 Hf2] & Hfa).
      rewrite Hc in Hf1. rewrite Hr in Hf2. exists f. split_and!; [done|done| | | |done|done]; [by apply ceil_le|lia..].
    + exfalso. destruct Hd' as [_ Hn]. apply (Hn g Hgin). split; [|done]. split; [by rewrite Hc|rewrite Hr; lia].
Qed.

Lemma to_spawn_some failed order q desired total mine k used reserved servers n f :
  to_spawn comp o failed order q desired total mine k used reserved servers = Some (n, f) →
  spawn_flavor comp o failed order q = Done f ∧
  n ≤ spawnable o f (q_disk (reqForSpawn o q)) k used reserved servers ∧
  spawnable o f (q_disk (reqForSpawn o q)) k used reserved servers ≠ 0 ∧
  holds f (reqForSpawn o q) ≠ 0 ∧
  n + mine ≤ (desired + holds f (reqForSpawn o q) - 1) / holds f (reqForSpawn o q) ∧
  (0 < o_spawns o → total + n ≤ o_spawns o) ∧
  (0 < spawnable o f (q_disk (reqForSpawn o q)) k used reserved servers → 0 < n).
Proof.
  unfold to_spawn. destruct ((0 <? o_spawns o) && (o_spawns o <=? total)) eqn:Hmax; [done|].
  destruct (spawn_flavor comp o failed order q) as [g|e|]; [|done|done].
  change (flavor_space _ _) with (holds g (reqForSpawn o q)).
  set (can := spawnable _ _ _ _ _ _ _). set (per := holds g _).
  destruct (Z.eqb_spec can 0); [done|]. destruct (Z.eqb_spec per 0); [done|].
  set (needed := (desired + per - 1) / per - mine). destruct (Z.leb_spec needed 0); [done|].
  intros [= <- <-]. unfold can in *. clear can. set (can := spawnable _ _ _ _ _ _ _) in *.
  split; [done|]. apply andb_false_iff in Hmax.
  assert (0 < o_spawns o → total < o_spawns o).
  { intros Hs. destruct Hmax as [Hm|Hm]; [apply Z.ltb_ge in Hm; lia|apply Z.leb_gt in Hm; lia]. }
  assert (Ht : (if can <? needed then can else needed) ≤ can ∧ (if can <? needed then can else needed) ≤ needed ∧ (0 < can → 0 < (if can <? needed then can else needed))).
  { destruct (Z.ltb_spec can needed); lia. }
  set (todo := if can <? needed then can else needed) in *. clearbody todo. fold per. subst needed.
  destruct (Z.ltb_spec 0 (o_spawns o)); cbn [andb]; [|split_and!; lia].
  destruct (Z.ltb_spec (o_spawns o - total) todo); split_and!; lia.
Qed.
Lemma spawn_flavor_in failed order fl q f :
  (∀ j, order j ≡ₚ fl) → valid comp (o_regex o) → proper comp (o_sets o) →
  spawn_flavor comp o failed order q = Done f → f ∈ fl.
Proof.
  intros Ho Hv Hp. unfold spawn_flavor. destruct (q_flavor q) as [name|].
  - pose proof (get_flavor name (order 0%nat)) as Hg. intros H. rewrite H in Hg. destruct Hg as [Hg _]. by rewrite Ho in Hg.
  - intros H. by eapply determine_done in H as (? & _).
Qed.
End proofs.

Lemma room_spawnable o f disk k used reserved servers :
  0 < v_cores f → 0 < v_ram f → 0 ≤ v_disk f →
  room o f disk k used reserved servers → 1 ≤ spawnable o f disk k used reserved servers.
Proof.
  intros Hc Hr Hd (Hroom & Hdisk & Hmax). unfold spawnable.
  pose proof (Hroom Instances) as Hi. pose proof (Hroom Cores) as Hco. pose proof (Hroom Memory) as Hm. pose proof (Hroom Volume) as Hvo.
  cbn [at_dim share k_inst k_cores k_ram k_vol] in Hi, Hco, Hm, Hvo. clear Hroom.
  set (inst0 := if 0 <? k_inst k then k_inst k - k_inst used - k_inst reserved else unquotadVal).
  set (inst := if (0 <? inst0) && (-1 <? m_inst o) && (m_inst o <? k_inst k)
               then if m_inst o - (servers + k_inst reserved) <? inst0 then m_inst o - (servers + k_inst reserved) else inst0
               else inst0).
  set (ram := if 0 <? k_ram k then _ else _). set (cores := if 0 <? k_cores k then _ else _).
  set (vol := if (0 <? k_vol k) && _ then _ else _).
  assert (H0 : 1 ≤ inst0) by (unfold inst0; destruct (Z.ltb_spec 0 (k_inst k)); [rewrite decide_True in Hi by done|rewrite decide_False in Hi by lia]; lia).
  assert (H1 : 1 ≤ inst).
  { unfold inst. destruct (Z.ltb_spec 0 inst0), (Z.ltb_spec (-1) (m_inst o)), (Z.ltb_spec (m_inst o) (k_inst k)); cbn [andb]; try lia.
    specialize (Hmax ltac:(lia) ltac:(lia)). destruct (Z.ltb_spec (m_inst o - (servers + k_inst reserved)) inst0); lia. }
  assert (H2 : v_ram f ≤ ram) by (unfold ram; destruct (Z.ltb_spec 0 (k_ram k)); [rewrite decide_True in Hm by done|rewrite decide_False in Hm by lia]; lia).
  assert (H3 : v_cores f ≤ cores) by (unfold cores; destruct (Z.ltb_spec 0 (k_cores k)); [rewrite decide_True in Hco by done|rewrite decide_False in Hco by lia]; lia).
  assert (H4 : disk ≤ vol).
  { unfold vol. destruct (Z.ltb_spec 0 (k_vol k)); cbn [andb]; [|lia]. destruct (Z.ltb_spec (v_disk f) disk); [|lia].
    rewrite decide_True in Hvo by done. lia. }
  destruct (Z.ltb_spec inst 1); [lia|]. destruct (Z.ltb_spec ram (v_ram f)); [lia|].
  destruct (Z.ltb_spec cores (v_cores f)); [lia|]. destruct (Z.ltb_spec vol disk); [lia|]. cbn [orb].
  destruct (Z.ltb_spec 1 inst); [|lia].
  destruct (quot_le ram (v_ram f)) as [Hr1 _]; [lia..|]. destruct (quot_le cores (v_cores f)) as [Hc1 _]; [lia..|].
  set (n1 := if Z.quot ram (v_ram f) <? inst then _ else _).
  assert (1 ≤ n1) by (unfold n1; destruct (Z.ltb_spec (Z.quot ram (v_ram f)) inst); lia).
  set (n2 := if Z.quot cores (v_cores f) <? n1 then _ else _).
  assert (1 ≤ n2) by (unfold n2; destruct (Z.ltb_spec (Z.quot cores (v_cores f)) n1); lia).
  destruct (Z.ltb_spec (v_disk f) disk); [|lia].
  destruct (quot_le vol disk) as [Hv1 _]; [lia..|]. destruct (Z.ltb_spec (Z.quot vol disk) n2); lia.
Qed.
Lemma created comp o failed order fl q f desired total k used reserved servers :
  flavors_ok fl → f ∈ fl → spawn_flavor comp o failed order q = Done f → can_run_on o q f →
  0 ≤ q_cores q → 0 ≤ q_ram q → 1 ≤ desired → (0 < o_spawns o → total < o_spawns o) →
  room o f (q_disk (reqForSpawn o q)) k used reserved servers →
  ∃ n, to_spawn comp o failed order q desired total 0 k used reserved servers = Some (n, f) ∧ 1 ≤ n.
Proof.
  intros Hfl Hin Hf (Hrc & Hrr & Hro & _) Hqc Hqr Hd Ht Hroom. destruct (proj2 Hfl _ Hin) as (Hc & Hr & Hdk).
  pose proof (room_spawnable _ _ _ _ _ _ _ Hc Hr Hdk Hroom) as Hs. destruct (spawn_req o q) as (Hsc & Hsr & _ & _).
  assert (Hper : 1 ≤ holds f (reqForSpawn o q)).
  { apply space_pos; try done; rewrite ?Hsc, ?Hsr; lia. }
  unfold to_spawn. rewrite Hf. change (flavor_space _ _) with (holds f (reqForSpawn o q)).
  set (can := spawnable _ _ _ _ _ _ _) in *. set (per := holds f _) in *. clearbody can per.
  assert (1 ≤ (desired + per - 1) / per) by (apply Z.div_le_lower_bound; lia).
  assert (Hm : (0 <? o_spawns o) && (o_spawns o <=? total) = false).
  { destruct (Z.ltb_spec 0 (o_spawns o)); [|done]. cbn. apply Z.leb_gt. by apply Ht. }
  rewrite Hm. destruct (Z.eqb_spec can 0); [lia|]. destruct (Z.eqb_spec per 0); [lia|].
  destruct (Z.leb_spec ((desired + per - 1) / per - 0) 0); [lia|]. eexists. split; [done|].
  set (todo := if can <? _ then _ else _). assert (1 ≤ todo) by (unfold todo; destruct (Z.ltb_spec can ((desired + per - 1) / per - 0)); lia).
  destruct (Z.ltb_spec 0 (o_spawns o)); cbn [andb]; [|lia]. specialize (Ht ltac:(lia)).
  destruct (Z.ltb_spec (o_spawns o - total) todo); lia.
Qed.

Lemma holds_most f q q' : 0 ≤ v_disk f → 0 < q_cores q → 0 ≤ q_ram q → holds f q ≠ 0 → 0 < v_cores f →
  q_cores q' = q_cores q → q_ram q' = q_ram q → most f q' (holds f q) ∧ 0 < holds f q.
Proof.
  intros Hd Hq Hr Hne Hc E1 E2. unfold most. rewrite E1, E2. clear E1 E2 q'. revert Hne.
  unfold holds, flavor_space, at_most. cbn [f_cores f_ram f_disk n_cores n_ram n_disk].
  destruct (Z.ltb_spec (1000 * v_cores f) (q_cores q)); [done|]. destruct (Z.ltb_spec (v_ram f) (q_ram q)); [done|].
  destruct (Z.ltb_spec (v_disk f) 0); [lia|]. cbn [orb]. intros _. destruct (Z.eqb_spec (q_cores q) 0); [lia|].
  pose proof (Z.div_mod (1000 * v_cores f) (q_cores q) ltac:(lia)) as Hdm. pose proof (Z.mod_pos_bound (1000 * v_cores f) (q_cores q) ltac:(lia)) as Hmb.
  assert (1 ≤ 1000 * v_cores f / q_cores q) by (apply Z.div_le_lower_bound; lia).
  set (can := 1000 * v_cores f / q_cores q) in *. clearbody can. set (md := (1000 * v_cores f) mod q_cores q) in *. clearbody md.
  destruct (Z.ltb_spec 0 0); [lia|].
  destruct (Z.ltb_spec 1 can).
  2:{ assert (can = 1) as -> by lia. split_and!; try lia. }
  destruct (Z.ltb_spec 0 (q_ram q)).
  2:{ assert (q_ram q = 0) as -> by lia. split_and!; nia. }
  rewrite Z.quot_div_nonneg by lia.
  pose proof (Z.div_mod (v_ram f) (q_ram q) ltac:(lia)) as Hdm'. pose proof (Z.mod_pos_bound (v_ram f) (q_ram q) ltac:(lia)) as Hmb'.
  assert (1 ≤ v_ram f / q_ram q) by (apply Z.div_le_lower_bound; lia).
  set (can' := v_ram f / q_ram q) in *. clearbody can'. set (md' := v_ram f mod q_ram q) in *. clearbody md'.
  destruct (Z.ltb_spec can' can); split_and!; nia.
Qed.
