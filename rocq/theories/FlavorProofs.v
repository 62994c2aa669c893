(** Proofs about FlavorModel *)
From Coq Require Import ZArith Lia String Ascii.
From stdpp Require Import base option strings list.
From Verif Require Import CloudModel UtilModel FlavorModel FlavorSpec.
Open Scope Z_scope.

Lemma le_cost_refl f : le_cost f f.
Proof. right. split; [done|]. right. lia. Qed.
Lemma le_cost_trans f g h : le_cost f g → le_cost g h → le_cost f h.
Proof. unfold le_cost. lia. Qed.

(** what is picked so far is one of the cheapest of those seen *)
Definition so_far (P : vflavor → Prop) (seen : list vflavor) (fr : option vflavor) : Prop :=
  match fr with Some f => cheapest P seen f | None => ∀ g, g ∈ seen → ¬ P g end.
Lemma so_far_perm P l l' fr : l ≡ₚ l' → so_far P l fr → so_far P l' fr.
Proof.
  intros HP. destruct fr as [f|]; cbn.
  - intros (Hf & Hp & Hm). split_and!; [by rewrite <-HP|done|]. intros g Hg. apply Hm. by rewrite HP.
  - intros H g Hg. apply H. by rewrite HP.
Qed.
Lemma so_far_skip P seen f fr : ¬ P f → so_far P seen fr → so_far P (f :: seen) fr.
Proof.
  intros Hn. destruct fr as [r|]; cbn.
  - intros (Hf & Hp & Hm). split_and!; [by right|done|]. intros g [->|Hg]%elem_of_cons; [done|]. by apply Hm.
  - intros H g [->|Hg]%elem_of_cons; [done|]. by apply H.
Qed.
Lemma so_far_replace cores ram (Q : vflavor → Prop) seen f fr :
  Q f → so_far (λ g, big_enough cores ram g ∧ Q g) seen fr →
  so_far (λ g, big_enough cores ram g ∧ Q g) (f :: seen) (replace cores ram f fr).
Proof.
  intros HQ H. unfold replace.
  destruct (Z.leb_spec cores (v_cores f)), (Z.leb_spec ram (v_ram f)); cbn [andb];
    try (apply so_far_skip; [unfold big_enough; naive_solver lia|done]).
  destruct fr as [r|]; cbn in H |- *.
  2:{ split_and!; [by left|split; lia|done|]. intros g [->|Hg]%elem_of_cons; [intros _; apply le_cost_refl|]. intros Hp. by edestruct H. }
  destruct H as (Hr & Hp & Hm).
  assert (Hnew : le_cost f r → cheapest (λ g, big_enough cores ram g ∧ Q g) (f :: seen) f).
  { intros Hle. split_and!; [by left|split; lia|done|]. intros g [->|Hg]%elem_of_cons Hp'; [apply le_cost_refl|].
    eapply le_cost_trans; [done|]. by apply Hm. }
  assert (Hold : le_cost r f → cheapest (λ g, big_enough cores ram g ∧ Q g) (f :: seen) r).
  { intros Hle. split; [by right|]. split; [done|]. intros g [->|Hg]%elem_of_cons Hp'; [done|]. by apply Hm. }
  unfold le_cost in Hnew, Hold.
  destruct (Z.ltb_spec (v_cores f) (v_cores r)); [apply Hnew; lia|].
  destruct (Z.eqb_spec (v_cores f) (v_cores r)); [|apply Hold; lia].
  destruct (Z.ltb_spec (v_ram f) (v_ram r)); [apply Hnew; lia|].
  destruct (Z.eqb_spec (v_ram f) (v_ram r)); cbn [andb]; [|apply Hold; lia].
  destruct (Z.ltb_spec (v_disk f) (v_disk r)); [apply Hnew; lia|apply Hold; lia].
Qed.

Definition rx_named (rx : reg) (name : string) : Prop := match rx with Some m => m name = true | None => True end.
Definition sub_named (subset : list reg) (name : string) : Prop := in_subset subset name = Some true.

Lemma pick_loop_ok cores ram rx subset fl seen fr r :
  so_far (λ g, big_enough cores ram g ∧ rx_named rx (v_name g) ∧ sub_named subset (v_name g)) seen fr →
  pick_loop cores ram rx subset fl fr = Some r →
  so_far (λ g, big_enough cores ram g ∧ rx_named rx (v_name g) ∧ sub_named subset (v_name g)) (fl ++ seen) r.
Proof.
  set (P := λ g, big_enough cores ram g ∧ rx_named rx (v_name g) ∧ sub_named subset (v_name g)).
  revert seen fr. induction fl as [|f fl IH]; intros seen fr H; cbn [pick_loop app].
  { intros [= ->]. done. }
  intros Hl. eapply so_far_perm; [symmetry; apply Permutation_middle|].
  destruct (match rx with Some m => m (v_name f) | None => true end) eqn:Hrx.
  - assert (rx_named rx (v_name f)) by (destruct rx; done).
    destruct (in_subset subset (v_name f)) as [[]|] eqn:Hs; [| |done].
    + eapply IH; [|exact Hl]. by apply so_far_replace.
    + eapply IH; [|exact Hl]. apply so_far_skip; [|done]. intros (_&_&Hn). unfold sub_named in Hn. congruence.
  - eapply IH; [|exact Hl]. apply so_far_skip; [|done]. intros (_&Hn&_). destruct rx; cbn in Hn; congruence.
Qed.
Lemma pick_loop_total cores ram rx subset fl fr :
  (∀ f, f ∈ fl → rx_named rx (v_name f) → is_Some (in_subset subset (v_name f))) →
  is_Some (pick_loop cores ram rx subset fl fr).
Proof.
  revert fr. induction fl as [|f fl IH]; intros fr H; cbn [pick_loop]; [done|].
  assert (Hfl : ∀ fr, is_Some (pick_loop cores ram rx subset fl fr)).
  { intros fr'. apply IH. intros g Hg. apply H. by right. }
  destruct (match rx with Some m => m (v_name f) | None => true end) eqn:Hrx; [|done].
  destruct (H f ltac:(by left) ltac:(destruct rx; done)) as [[] ->]; done.
Qed.

Section proofs.
Context (comp : string → option (string → bool)).
Lemma regex_named s r : regexStrToRegexp comp s = Some r → ∀ name, rx_named r name ↔ named comp s name.
Proof.
  unfold regexStrToRegexp, named. case_decide as Hs; [intros [= <-] name; cbn; tauto|].
  destruct (comp s) as [m|] eqn:Hm; [|done]. intros [= <-] name. cbn. split; [eauto|]. intros [?|(?&[= <-]&?)]; done.
Qed.
Lemma regex_valid s : is_Some (regexStrToRegexp comp s) ↔ valid comp s.
Proof.
  unfold regexStrToRegexp, valid. case_decide; [split; eauto|]. destruct (comp s) as [m|].
  - split; eauto.
  - split; [intros [? ?]; done|]. intros [?|[? ?]]; done.
Qed.
Lemma any_match_spec (set : list string) rs :
  compile_set comp set = Some rs → (∀ s, s ∈ set → s ≠ ""%string) →
  ∀ name, ∃ b, any_match rs name = Some b ∧ (b = true ↔ ∃ s, s ∈ set ∧ named comp s name).
Proof.
  revert rs. induction set as [|s set IH]; intros rs; cbn [compile_set].
  { intros [= <-] _ name. exists false. split; [done|]. split; [done|]. intros (?&?%elem_of_nil&_). done. }
  intros H Hne name. destruct (regexStrToRegexp comp s) as [r|] eqn:Hr; [|done].
  destruct (compile_set comp set) as [rs'|] eqn:Hc; [|done]. injection H as <-.
  destruct (IH _ eq_refl ltac:(intros; apply Hne; by right) name) as (b & Hb & Hiff).
  pose proof (regex_named _ _ Hr name) as Hn.
  assert (Hs : s ≠ ""%string) by (apply Hne; by left).
  destruct r as [m|]. 2:{ unfold regexStrToRegexp in Hr. case_decide; [done|]. by destruct (comp s). }
  cbn [any_match]. cbn in Hn. destruct (m name) eqn:Hm.
  - exists true. split; [done|]. split; [|done]. intros _. exists s. split; [by left|]. by apply Hn.
  - exists b. split; [done|]. rewrite Hiff. split.
    + intros (s' & Hs' & Hn'). exists s'. split; [by right|done].
    + intros (s' & [->|Hs']%elem_of_cons & Hn'); [|eauto]. apply Hn in Hn'. done.
Qed.
Lemma compile_nil set : compile_set comp set = Some [] → set = [].
Proof.
  destruct set as [|s set]; [done|]. cbn. destruct (regexStrToRegexp comp s); [|done]. by destruct (compile_set comp set).
Qed.
Lemma compile_total set : (∀ s, s ∈ set → is_Some (comp s)) → is_Some (compile_set comp set).
Proof.
  induction set as [|s set IH]; intros H; cbn; [done|].
  destruct (proj2 (regex_valid s) (or_intror (H s ltac:(by left)))) as [r ->].
  destruct (IH ltac:(intros; apply H; by right)) as [rs ->]. done.
Qed.
Lemma in_subset_spec set rs :
  set ≠ [] → compile_set comp set = Some rs → (∀ s, s ∈ set → s ≠ ""%string) →
  ∀ name, ∃ b, in_subset rs name = Some b ∧ (b = true ↔ ∃ s, s ∈ set ∧ named comp s name).
Proof.
  intros Hs Hc Hne name. destruct (any_match_spec _ _ Hc Hne name) as (b & Hb & Hiff). exists b. split; [|done].
  destruct rs; [apply compile_nil in Hc; done|exact Hb].
Qed.

Lemma so_far_iff (P Q : vflavor → Prop) fl fr : (∀ f, f ∈ fl → P f ↔ Q f) → so_far P fl fr → so_far Q fl fr.
Proof.
  intros HPQ. destruct fr as [f|]; cbn.
  - intros (Hf & Hp & Hm). split_and!; [done|by apply HPQ|]. intros g Hg Hq. apply Hm; [done|]. by apply HPQ.
  - intros H g Hg Hq. eapply H; [done|]. by apply HPQ.
Qed.

(** ** Without sets *)
Lemma pick_none_total cores ram rx fl : is_Some (pickCheapestFlavorFromSubset cores ram rx [] fl).
Proof. apply pick_loop_total. intros. by eexists. Qed.
Lemma pick_none_ok cores ram regex rx fl fr :
  regexStrToRegexp comp regex = Some rx → pickCheapestFlavorFromSubset cores ram rx [] fl = Some fr →
  so_far (λ f, big_enough cores ram f ∧ named comp regex (v_name f)) fl fr.
Proof.
  intros Hr Hp. apply (pick_loop_ok _ _ _ _ _ []) in Hp. 2:{ cbn. intros g Hg. by apply elem_of_nil in Hg. }
  rewrite app_nil_r in Hp. eapply so_far_iff; [|exact Hp]. intros f _. cbn.
  rewrite (regex_named _ _ Hr). unfold sub_named. cbn. tauto.
Qed.
Lemma cheapest_single cores ram regex fl :
  match CheapestServerFlavor comp cores ram regex fl with
  | Done f => cheapest (λ f, big_enough cores ram f ∧ named comp regex (v_name f)) fl f
  | Fail ErrBadRegex => ¬ valid comp regex
  | Fail ErrNoFlavor => valid comp regex ∧ ∀ f, f ∈ fl → ¬ (big_enough cores ram f ∧ named comp regex (v_name f))
  | _ => False
  end.
Proof.
  unfold CheapestServerFlavor. destruct (regexStrToRegexp comp regex) as [r|] eqn:Hr.
  2:{ rewrite <-regex_valid, Hr. intros [? ?]; done. }
  destruct (pick_none_total cores ram r fl) as [fr Hp]. rewrite Hp.
  pose proof (pick_none_ok _ _ _ _ _ _ Hr Hp) as H. destruct fr; cbn in H; [done|].
  split; [|done]. apply regex_valid. by rewrite Hr.
Qed.

(** ** With sets *)
Lemma sets_loop_ok cores ram regex r sets fl :
  regexStrToRegexp comp regex = Some r → proper comp sets →
  ∀ i order, (∀ j, order j ≡ₚ fl) →
  ∃ ms, sets_loop comp cores ram r sets i order = Done ms ∧
        Forall2 (λ set m, so_far (usable comp cores ram regex set) fl m) sets ms.
Proof.
  intros Hr. induction sets as [|set sets IH]; intros Hp i order Ho; cbn [sets_loop].
  { exists []. split; [done|constructor]. }
  destruct (Hp set ltac:(by left)) as [Hne Hs].
  destruct (compile_total set) as [rs Hrs]; [intros s H; by apply Hs|]. rewrite Hrs.
  assert (Hin := in_subset_spec _ _ Hne Hrs ltac:(intros s H; by apply Hs)).
  destruct (pick_loop_total cores ram r rs (order i) None) as [m Hm].
  { intros f _ _. destruct (Hin (v_name f)) as (b & -> & _). done. }
  unfold pickCheapestFlavorFromSubset. rewrite Hm.
  destruct (IH ltac:(intros s H; apply Hp; by right) (S i) order Ho) as (ms & -> & Hms).
  exists (m :: ms). split; [done|]. constructor; [|done].
  apply (pick_loop_ok _ _ _ _ _ []) in Hm. 2:{ cbn. intros g Hg. by apply elem_of_nil in Hg. }
  rewrite app_nil_r in Hm. eapply so_far_perm; [apply Ho|]. eapply so_far_iff; [|exact Hm].
  intros f _. unfold usable. rewrite (regex_named _ _ Hr). unfold sub_named.
  destruct (Hin (v_name f)) as (b & -> & Hb). rewrite <-Hb. split; [intros (?&?&[= ->])|intros (?&?&->)]; done.
Qed.
Lemma flavors_picks o cores ram order fl :
  (∀ j, order j ≡ₚ fl) → valid comp (o_regex o) → proper comp (o_sets o) →
  match CheapestServerFlavors comp cores ram (o_regex o) (o_sets o) order with
  | Done ms => picks comp o cores ram fl ms
  | Fail e => e = ErrNoFlavor ∧ o_sets o = [] ∧
              ∀ f, f ∈ fl → ¬ (big_enough cores ram f ∧ named comp (o_regex o) (v_name f))
  | Panics => False
  end.
Proof.
  intros Ho Hv Hp. unfold CheapestServerFlavors, picks. destruct (o_sets o) as [|set sets] eqn:Hs.
  - pose proof (cheapest_single cores ram (o_regex o) (order 0%nat)) as H.
    destruct (CheapestServerFlavor comp cores ram (o_regex o) (order 0%nat)) as [f|[]|]; try done.
    + exists f. split; [done|]. eapply (so_far_perm _ _ _ (Some f)); [apply Ho|exact H].
    + split_and!; [done..|]. intros f Hf. apply H. by rewrite Ho.
  - destruct (proj2 (regex_valid _) Hv) as [r Hr]. rewrite Hr.
    destruct (sets_loop_ok cores ram _ _ _ _ Hr Hp 0%nat order Ho) as (ms & -> & Hms).
    eapply Forall2_impl; [exact Hms|]. intros s [f|] H; exact H.
Qed.

(** ** determineFlavor *)
Lemma first_good_some failed fs f0 f :
  first_good failed fs (Some f0) = Some f →
  (∃ i, fs !! i = Some (Some f) ∧ failed (v_id f) = false ∧ ∀ j g, (j < i)%nat → fs !! j = Some (Some g) → failed (v_id g) = true) ∨
  f = f0 ∧ ∀ j g, fs !! j = Some (Some g) → failed (v_id g) = true.
Proof.
  induction fs as [|[g|] fs IH]; cbn [first_good].
  - intros [= ->]. right. split; [done|]. intros j g H. by rewrite lookup_nil in H.
  - destruct (failed (v_id g)) eqn:Hg.
    + intros H. destruct (IH H) as [(i & Hi & Hf & Hj)|[-> Hj]].
      * left. exists (S i). split_and!; [done..|]. intros [|j] g' Hlt Hl; [by injection Hl as <-|]. eapply (Hj j); [lia|done].
      * right. split; [done|]. intros [|j] g' Hl; [by injection Hl as <-|]. by eapply (Hj j).
    + intros [= <-]. left. exists 0%nat. split_and!; [done..|]. intros; lia.
  - intros H. destruct (IH H) as [(i & Hi & Hf & Hj)|[-> Hj]].
    + left. exists (S i). split_and!; [done..|]. intros [|j] g' Hlt Hl; [done|]. eapply (Hj j); [lia|done].
    + right. split; [done|]. intros [|j] g' Hl; [done|]. by eapply (Hj j).
Qed.
Lemma first_good_none failed fs :
  match first_good failed fs None with
  | Some f => first_choice failed fs f
  | None => ∀ j g, fs !! j ≠ Some (Some g)
  end.
Proof.
  induction fs as [|[g|] fs IH]; cbn [first_good].
  - intros j g H. by rewrite lookup_nil in H.
  - destruct (failed (v_id g)) eqn:Hg.
    + destruct (first_good failed fs (Some g)) as [f|] eqn:H.
      * destruct (first_good_some _ _ _ _ H) as [(i & Hi & Hf & Hj)|[-> Hj]].
        -- left. exists (S i). split_and!; [done..|]. intros [|j] g' Hlt Hl; [by injection Hl as <-|]. eapply (Hj j); [lia|done].
        -- right. exists 0%nat. split_and!; [done|intros; lia|]. intros [|j] g' Hl; [by injection Hl as <-|]. by eapply (Hj j).
      * exfalso. clear IH Hg. revert g H. induction fs as [|[g'|] fs IH]; intros g H; cbn [first_good] in H; [done| |by eapply IH].
        destruct (failed (v_id g')); [by eapply IH|done].
    + left. exists 0%nat. split_and!; [done..|]. intros; lia.
  - destruct (first_good failed fs None) as [f|].
    + destruct IH as [(i & Hi & Hf & Hj)|(i & Hi & Hlt & Hj)].
      * left. exists (S i). split_and!; [done..|]. intros [|j] g' Hlt Hl; [done|]. eapply (Hj j); [lia|done].
      * right. exists (S i). split_and!; [done| |].
        -- intros [|j] g' Hl; [done|]. eapply (Hlt j); lia.
        -- intros [|j] g' Hl; [done|]. by eapply (Hj j).
    + intros [|j] g H; [done|]. by eapply IH.
Qed.
Lemma determine_ok o failed order fl q :
  (∀ j, order j ≡ₚ fl) → valid comp (o_regex o) → proper comp (o_sets o) →
  match determineFlavor comp o failed order q with
  | Done f => ∃ ms, picks comp o (ceil (q_cores q)) (q_ram q) fl ms ∧ first_choice failed ms f
  | Fail e => e = (if decide (o_sets o = []) then ErrNoFlavor else ErrImpossible) ∧
              ∀ f, f ∈ fl → ¬ (big_enough (ceil (q_cores q)) (q_ram q) f ∧ allowed comp o f)
  | Panics => False
  end.
Proof.
  intros Ho Hv Hp. unfold determineFlavor.
  pose proof (flavors_picks o (ceil (q_cores q)) (q_ram q) order fl Ho Hv Hp) as H.
  destruct (CheapestServerFlavors comp (ceil (q_cores q)) (q_ram q) (o_regex o) (o_sets o) order) as [ms|e|]; [| |done].
  2:{ destruct H as (-> & Hs & Hn). rewrite decide_True by done. split; [done|]. intros f Hf [Hb [Ha _]]. by eapply Hn. }
  pose proof (first_good_none failed ms) as Hg. destruct (first_good failed ms None) as [f|]; [eauto|].
  unfold picks in H. destruct (o_sets o) as [|set sets] eqn:Hs.
  { destruct H as (f & -> & _). by destruct (Hg 0%nat f). }
  rewrite decide_False by done. split; [done|].
  intros f Hf (Hb & Ha & [?|(set' & s & Hin & Hins & Hn)]); [congruence|].
  rewrite Hs in Hin. apply elem_of_list_lookup in Hin as [i Hi].
  destruct (Forall2_lookup_l _ _ _ _ _ H Hi) as (m & Hm & Hpm).
  destruct m as [g|]; [by destruct (Hg i g)|]. eapply (Hpm f); [done|]. split_and!; [done..|]. eauto.
Qed.
End proofs.
