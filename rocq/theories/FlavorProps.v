(** C66, C67: the flavors of servers that are picked, and what is refused as impossible. *)
From Coq Require Import ZArith Lia String Ascii.
From stdpp Require Import base option strings list gmap.
From Verif Require Import CloudModel FlavorModel FlavorSpec FlavorProofs SpawnModel SpawnSpec SpawnProofs.
Open Scope Z_scope.

(** ** A cloud for the cases: regular expressions are prefixes, one string is not valid *)
Definition starts (s : string) : option (string → bool) :=
  if decide (s = "("%string) then None else Some (String.prefix s).
Definition tiny := VFlavor "1" "m1.tiny" 1 512 10.
Definition small := VFlavor "2" "m1.small" 2 4000 20.
Definition medium := VFlavor "3" "m1.medium" 2 8000 20.
Definition large := VFlavor "4" "s2.large" 4 8000 40.
Definition huge := VFlavor "5" "s2.huge" 16 64000 100.
Definition kinds := [huge; tiny; medium; large; small].
Definition none_failed (_ : string) := false.
Definition unlimited := Quota 0 0 0 0.
Definition in_order (_ : nat) := kinds.
Definition with_sets (sets : option string) (k : quota) := initialize "" sets 2000 10 0 (-1) false k.
Lemma in_order_ok : ∀ j, in_order j ≡ₚ kinds.
Proof. done. Qed.
Lemma kinds_ok : flavors_ok kinds.
Proof.
  split; [apply (bool_decide_unpack _); by vm_compute|]. intros f Hf. unfold kinds in Hf.
  repeat (apply elem_of_cons in Hf as [->|Hf]; [done|]). by apply elem_of_nil in Hf.
Qed.
Lemma sets_proper : proper starts [["m1"; "s2"]; ["s2.l"; "x"]]%string.
Proof.
  intros set Hs. repeat (apply elem_of_cons in Hs as [->|Hs]; [split; [done|]; intros s H;
    repeat (apply elem_of_cons in H as [->|H]; [split; [done|by eexists]|]); by apply elem_of_nil in H|]). by apply elem_of_nil in Hs.
Qed.

(** ** C66: the cheapest flavor that will do *)
(** Without flavor sets: one of the cheapest flavors that are big enough and match the
    regular expression; an error just if the expression is invalid or there is no such
    flavor. *)
Theorem C66_cheapest comp cores ram regex fl :
  match CheapestServerFlavor comp cores ram regex fl with
  | Done f => cheapest (λ f, big_enough cores ram f ∧ named comp regex (v_name f)) fl f
  | Fail ErrBadRegex => ¬ valid comp regex
  | Fail ErrNoFlavor => valid comp regex ∧ ∀ f, f ∈ fl → ¬ (big_enough cores ram f ∧ named comp regex (v_name f))
  | _ => False
  end.
Proof. exact (cheapest_single comp cores ram regex fl). Qed.
Print Assumptions C66_cheapest.
Example C66_cheapest_case :
  CheapestServerFlavor starts 2 5000 "m1" kinds = Done medium ∧
  CheapestServerFlavor starts 3 5000 "" kinds = Done large ∧
  CheapestServerFlavor starts 3 5000 "m1" kinds = Fail ErrNoFlavor ∧
  CheapestServerFlavor starts 1 1 "(" kinds = Fail ErrBadRegex.
Proof. by vm_compute. Qed.

(** With flavor sets: for every set in order one of its cheapest flavors that will do, or
    none just if there is none. *)
Theorem C66_sets comp o cores ram order fl :
  (∀ j, order j ≡ₚ fl) → valid comp (o_regex o) → proper comp (o_sets o) → o_sets o ≠ [] →
  ∃ ms, CheapestServerFlavors comp cores ram (o_regex o) (o_sets o) order = Done ms ∧
    Forall2 (λ set m, match m with
                      | Some f => cheapest (usable comp cores ram (o_regex o) set) fl f
                      | None => ∀ g, g ∈ fl → ¬ usable comp cores ram (o_regex o) set g
                      end) (o_sets o) ms.
Proof.
  intros Ho Hv Hp Hne. pose proof (flavors_picks comp o cores ram order fl Ho Hv Hp) as H.
  destruct (CheapestServerFlavors _ _ _ _ _ _) as [ms|e|]; [|by destruct H as (_ & ? & _)|done].
  exists ms. split; [done|]. unfold picks in H. by destruct (o_sets o).
Qed.
Print Assumptions C66_sets.
Example C66_sets_case :
  let o := with_sets (Some "m1,s2;s2.l,x") unlimited in
  valid starts (o_regex o) ∧ proper starts (o_sets o) ∧ o_sets o ≠ [] ∧
  CheapestServerFlavors starts 2 5000 (o_regex o) (o_sets o) in_order = Done [Some medium; Some large] ∧
  CheapestServerFlavors starts 9 5000 (o_regex o) (o_sets o) in_order = Done [Some huge; None].
Proof. cbn zeta. split_and!; [by left|exact sets_proper|done|by vm_compute..]. Qed.

(** The flavor of which a server is created: the pick of the earliest set whose pick has
    not failed of late; if all have, that of the earliest set that has one. *)
Theorem C66_determine comp o failed order fl q :
  (∀ j, order j ≡ₚ fl) → valid comp (o_regex o) → proper comp (o_sets o) →
  match determineFlavor comp o failed order q with
  | Done f => ∃ ms, picks comp o (ceil (q_cores q)) (q_ram q) fl ms ∧ first_choice failed ms f
  | Fail e => ∀ f, f ∈ fl → ¬ (big_enough (ceil (q_cores q)) (q_ram q) f ∧ allowed comp o f)
  | Panics => False
  end.
Proof.
  intros Ho Hv Hp. pose proof (determine_ok comp o failed order fl q Ho Hv Hp) as H.
  destruct (determineFlavor _ _ _ _ _); [done|by destruct H|done].
Qed.
Print Assumptions C66_determine.
Example C66_determine_case :
  let o := with_sets (Some "m1,s2;s2.l,x") unlimited in
  let q := Reqs 1500 5000 0 None None in
  valid starts (o_regex o) ∧ proper starts (o_sets o) ∧
  determineFlavor starts o none_failed in_order q = Done medium ∧
  determineFlavor starts o (String.eqb "3") in_order q = Done large ∧
  determineFlavor starts o (λ _, true) in_order q = Done medium ∧
  determineFlavor starts o none_failed in_order (Reqs 17000 5000 0 None None) = Fail ErrImpossible.
Proof. cbn zeta. split_and!; [by left|exact sets_proper|by vm_compute..]. Qed.

(** What is picked costs the same in whatever order Go goes through the map of flavors. *)
Theorem C66_any_order comp cores ram regex fl fl' f f' :
  fl ≡ₚ fl' → CheapestServerFlavor comp cores ram regex fl = Done f → CheapestServerFlavor comp cores ram regex fl' = Done f' →
  v_cores f = v_cores f' ∧ v_ram f = v_ram f' ∧ v_disk f = v_disk f'.
Proof.
  intros Hfl H H'. pose proof (cheapest_single comp cores ram regex fl) as Hc. pose proof (cheapest_single comp cores ram regex fl') as Hc'.
  rewrite H in Hc. rewrite H' in Hc'. destruct Hc as (Hin & HP & Hmin). destruct Hc' as (Hin' & HP' & Hmin').
  specialize (Hmin f' ltac:(by rewrite Hfl) HP'). specialize (Hmin' f ltac:(by rewrite <-Hfl) HP). unfold le_cost in *. lia.
Qed.
Print Assumptions C66_any_order.
Example C66_any_order_case :
  kinds ≡ₚ reverse kinds ∧ CheapestServerFlavor starts 2 1 "" kinds = Done small ∧ CheapestServerFlavor starts 2 1 "" (reverse kinds) = Done small.
Proof. split; [by rewrite reverse_Permutation|by vm_compute]. Qed.

(** A set with an empty name, as after a `;' or `,' at the end, makes the scheduler panic:
    the nil expression that stands for the empty string is used to match. *)
Theorem C66_empty_name_refuted : ∃ o q, o = with_sets (Some "m1;s2;") unlimited ∧
  (∃ f, f ∈ kinds ∧ big_enough (ceil (q_cores q)) (q_ram q) f ∧ allowed starts o f) ∧
  determineFlavor starts o none_failed in_order q = Panics ∧ reqCheck starts o none_failed in_order q = Panics.
Proof.
  exists (with_sets (Some "m1;s2;") unlimited), (Reqs 1000 1000 0 None None). split; [done|]. split.
  - exists small. split; [unfold kinds; set_solver|]. split; [split; by vm_compute|]. split; [by left|]. right.
    exists ["m1"%string], "m1"%string. split; [vm_compute; left|]. split; [left|]. right. by eexists.
  - by vm_compute.
Qed.
Print Assumptions C66_empty_name_refuted.

(** ** C67: what cannot run is refused as impossible *)
(** What is refused as impossible cannot run on any flavor of which the quota allows a
    server. Missing: disks beyond the volume quota (which is never set, so that it counts
    as a million GB), and cloud_flavors that name two flavors. *)
Theorem C67_refused_partial comp o failed order fl q :
  (∀ j, order j ≡ₚ fl) → valid comp (o_regex o) → proper comp (o_sets o) →
  (∀ name f g, q_flavor q = Some name → f ∈ fl → g ∈ fl →
     v_id f = name ∨ v_name f = name → v_id g = name ∨ v_name g = name → f = g) →
  q_disk (reqForSpawn o q) ≤ m_vol o →
  reqCheck comp o failed order q = Fail ErrImpossible →
  ∀ f, f ∈ fl → within_maxima o f → (q_flavor q = None → allowed comp o f) → ¬ can_run_on o q f.
Proof. exact (refused comp o failed order fl q). Qed.
Print Assumptions C67_refused_partial.
Lemma kinds_named name f g : f ∈ kinds → g ∈ kinds → v_id f = name ∨ v_name f = name → v_id g = name ∨ v_name g = name → f = g.
Proof.
  intros Hf Hg. unfold kinds in *. repeat (apply elem_of_cons in Hf as [->|Hf]; [|]); [..|by apply elem_of_nil in Hf];
  (repeat (apply elem_of_cons in Hg as [->|Hg]; [cbn; intros [<-|<-] [H|H]; done|])); by apply elem_of_nil in Hg.
Qed.
Example C67_refused_case :
  let o := with_sets (Some "m1,s2;s2.l,x") (Quota 10 8 100000 0) in
  (∀ q, reqCheck starts o none_failed in_order q = Fail ErrImpossible → q_disk (reqForSpawn o q) ≤ m_vol o →
        within_maxima o large → (q_flavor q = None → allowed starts o large) → ¬ can_run_on o q large) ∧
  reqCheck starts o none_failed in_order (Reqs 9000 1000 0 None None) = Fail ErrImpossible ∧
  reqCheck starts o none_failed in_order (Reqs 3000 1000 0 (Some "m1.small"%string) None) = Fail ErrImpossible ∧
  reqCheck starts o none_failed in_order (Reqs 3000 1000 0 (Some "4"%string) None) = Done tt.
Proof.
  cbn zeta. split_and!; [|by vm_compute..]. intros q Hr Hd. eapply C67_refused_partial; [exact in_order_ok|by left|exact sets_proper| |done|done|unfold kinds; set_solver].
  intros name f g _. apply kinds_named.
Qed.

(** What is accepted can run: in every pass, whatever flavors have failed, there is a
    flavor of which to create servers on which it can run. Missing: jobs that need less
    memory than the operating system and name no flavor (C67_os_ram_refuted). *)
Theorem C67_accepted_partial comp o failed order fl q :
  (∀ j, order j ≡ₚ fl) → valid comp (o_regex o) → proper comp (o_sets o) →
  reqCheck comp o failed order q = Done tt →
  (q_flavor q ≠ None ∨ match q_os_ram q with Some (Some i) => i | _ => o_osram o end ≤ q_ram q) →
  (∀ name f g, q_flavor q = Some name → f ∈ fl → g ∈ fl →
     v_id f = name ∨ v_name f = name → v_id g = name ∨ v_name g = name → f = g) →
  ∀ failed' order', (∀ j, order' j ≡ₚ fl) →
  ∃ f, spawn_flavor comp o failed' order' q = Done f ∧ f ∈ fl ∧ can_run_on o q f ∧ (q_flavor q = None → allowed comp o f).
Proof. exact (accepted comp o failed order fl q). Qed.
Print Assumptions C67_accepted_partial.
Example C67_accepted_case :
  let o := with_sets (Some "m1,s2;s2.l,x") (Quota 10 8 100000 0) in
  ∀ failed' order', (∀ j, order' j ≡ₚ kinds) →
  ∃ f, spawn_flavor starts o failed' order' (Reqs 1500 5000 0 None None) = Done f ∧ 5000 ≤ v_ram f.
Proof.
  cbn zeta. intros failed' order' Ho. destruct (C67_accepted_partial starts (with_sets (Some "m1,s2;s2.l,x") (Quota 10 8 100000 0)) none_failed in_order kinds (Reqs 1500 5000 0 None None)) with (failed' := failed') (order' := order')
    as (f & Hf & _ & (_ & Hr & _) & _); try done; [by left|exact sets_proper|right; by vm_compute|]. exists f. by split.
Qed.

(** And servers of it are created as soon as there is room for one in the quota and within
    the configured maxima, and none are being created for it. *)
Theorem C67_created comp o failed order fl q f desired total k used reserved servers :
  flavors_ok fl → f ∈ fl → spawn_flavor comp o failed order q = Done f → can_run_on o q f →
  0 ≤ q_cores q → 0 ≤ q_ram q → 1 ≤ desired → (0 < o_spawns o → total < o_spawns o) →
  room o f (q_disk (reqForSpawn o q)) k used reserved servers →
  ∃ n, to_spawn comp o failed order q desired total 0 k used reserved servers = Some (n, f) ∧ 1 ≤ n.
Proof. exact (created comp o failed order fl q f desired total k used reserved servers). Qed.
Print Assumptions C67_created.
Example C67_created_case :
  let o := with_sets None (Quota 10 8 100000 0) in
  let q := Reqs 1500 5000 30 None None in
  ∃ n, to_spawn starts o none_failed in_order q 7 0 0 (Quota 10 8 100000 0) (Quota 3 3 3000 0) (Quota 1 2 8000 30) 2 = Some (n, medium) ∧ 1 ≤ n.
Proof.
  cbn zeta. apply (C67_created _ _ _ _ kinds); [exact kinds_ok|unfold kinds; set_solver|by vm_compute|by vm_compute|done..|].
  split; [intros []; by vm_compute|by vm_compute].
Qed.

(** Without flavor sets a job that fits on no flavor is not refused as impossible: the
    cloud's own error is returned, for which the manager does not bury jobs. *)
Theorem C67_no_sets_refuted : ∃ o q, (∀ f, f ∈ kinds → ¬ can_run_on o q f) ∧
  reqCheck starts o none_failed in_order q = Fail ErrNoFlavor.
Proof.
  exists (with_sets None unlimited), (Reqs 17000 1000 0 None None). split; [|by vm_compute].
  intros f Hf [H _]. revert H. unfold kinds in Hf. repeat (apply elem_of_cons in Hf as [->|Hf]; [by vm_compute|]). by apply elem_of_nil in Hf.
Qed.
Print Assumptions C67_no_sets_refuted.
(** Nor is one that names a flavor that does not exist. *)
Theorem C67_unknown_flavor_refuted : ∃ o q, (∀ f, f ∈ kinds → ¬ can_run_on o q f) ∧
  reqCheck starts o none_failed in_order q = Fail ErrNoSuchFlavor.
Proof.
  exists (with_sets (Some "m1") unlimited), (Reqs 1000 1000 0 (Some "m1.smal"%string) None). split; [|by vm_compute].
  intros f Hf (_ & _ & _ & H). cbn in H. unfold kinds in Hf. repeat (apply elem_of_cons in Hf as [->|Hf]; [by destruct H|]). by apply elem_of_nil in Hf.
Qed.
Print Assumptions C67_unknown_flavor_refuted.
(** The memory of the operating system is not looked at when a flavor is looked for: the
    job is accepted, but no flavor is ever found to create a server of. *)
Theorem C67_os_ram_refuted : ∃ o q, reqCheck starts o none_failed in_order q = Done tt ∧
  (∀ f, f ∈ kinds → ¬ can_run_on o q f) ∧
  ∀ desired total mine k used reserved servers,
    to_spawn starts o none_failed in_order q desired total mine k used reserved servers = None.
Proof.
  exists (with_sets None unlimited), (Reqs 1000 1000 0 None (Some (Some 70000))). split; [by vm_compute|]. split.
  - intros f Hf (_ & _ & H & _). revert H. unfold kinds in Hf. repeat (apply elem_of_cons in Hf as [->|Hf]; [by vm_compute|]). by apply elem_of_nil in Hf.
  - intros. unfold to_spawn. destruct (_ && _); [done|]. by replace (spawn_flavor _ _ _ _ _) with (@Fail vflavor ErrNoFlavor) by by vm_compute.
Qed.
Print Assumptions C67_os_ram_refuted.
(** The flavor picked may be bigger than the whole quota, even though the needs of the job
    are not: the job is accepted, but nothing is ever created for it. *)
Theorem C67_quota_refuted : ∃ o q k, o = with_sets (Some "s2") k ∧ k_cores k = 3 ∧
  reqCheck starts o none_failed in_order q = Done tt ∧
  ∀ desired total mine used reserved servers,
    0 ≤ k_cores used → 0 ≤ k_cores reserved →
    to_spawn starts o none_failed in_order q desired total mine k used reserved servers = None.
Proof.
  set (k := Quota 10 3 100000 0). set (q := Reqs 3000 1000 0 None None).
  exists (with_sets (Some "s2") k), q, k. split; [done|]. split; [done|]. split; [by vm_compute|]. intros desired total mine used reserved servers Hu Hr.
  unfold to_spawn. destruct (_ && _); [done|]. replace (spawn_flavor _ _ _ _ _) with (@Done vflavor large) by by vm_compute.
  assert (H : spawnable (with_sets (Some "s2") k) large (q_disk (reqForSpawn (with_sets (Some "s2") k) q)) k used reserved servers = 0).
  { unfold spawnable. set (i := if 0 <? k_inst k then _ else _). cbn zeta. set (i' := if (0 <? i) && _ && _ then _ else _). clearbody i'.
    replace (0 <? k_cores k) with true by done. change (k_cores k) with 3. change (v_cores large) with 4.
    replace (3 - k_cores used - k_cores reserved <? 4) with true by lia. rewrite orb_true_r. done. }
  rewrite H. done.
Qed.
Print Assumptions C67_quota_refuted.
