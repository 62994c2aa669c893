(** C81-C85: lookups by rep group. *)
From Coq Require Import ZArith Lia String Ascii.
From stdpp Require Import base option strings gmap list sorting.
From RecordUpdate Require Import RecordSet.
From Verif Require Import UtilModel LearnModel LearnProofs RepModel RepSpec RepProofs RepProofs2 RepProofs3 RepProofs4.
Import RecordSetNotations.
Open Scope Z_scope.

(** keys for the cases *)
Definition K (n : N) : string := byte_key (n, 7%N).
Lemma K_key n : (n < 2 ^ 64)%N → is_key (K n).
Proof. intros H. exists n, 7%N. done. Qed.
Definition job (g : string) : rjob := RJob g 0 0.
Lemma ordinary_b g : (0 <? String.length g)%nat && (String.length g + 36 <=? 2 ^ 15)%nat = true → ordinary g.
Proof. intros [H1 H2]%andb_true_iff. split; [by apply Nat.ltb_lt|by apply Nat.leb_le]. Qed.
Ltac in_list H := repeat (apply elem_of_cons in H as [H|H]); [..|by apply elem_of_nil in H].
Ltac adds_ok := let kj := fresh in let H := fresh in intros kj H; in_list H; subst kj; cbn [fst snd j_rg job].

(** ** C81: completed jobs are found by their rep group *)
(** The completed jobs listed for a rep group are those last added under it that are not being run again; whatever the names
    of the rep groups are. *)
Theorem C81_listed h g k j : (∀ r, r ∈ h → keyed r) → let st := rrun h rempty in
  (k, j) ∈ complete_by_rg st g ↔
  (g, k) ∈ noted h rempty ∅ ∧ live st !! k = None ∧ ∃ j0, comp st !! k = Some j0 ∧ j = RJob g (j_start j0) (j_end j0).
Proof. intros Hk. apply complete_by_rg_in. apply tinv_run; [apply tinv_empty|by apply along_keyed]. Qed.
Print Assumptions C81_listed.
(** None is listed twice, and they come in the order of their start and end times. *)
Theorem C81_order h g : (∀ r, r ∈ h → keyed r) → let l := complete_by_rg (rrun h rempty) g in
  NoDup l.*1 ∧ ∀ a b i i', (i < i')%nat → l !! i = Some a → l !! i' = Some b →
    j_start a.2 < j_start b.2 ∨ (j_start a.2 = j_start b.2 ∧ j_end a.2 ≤ j_end b.2).
Proof.
  intros Hk. cbv zeta. split; [apply (complete_by_rg_nodup _ (noted h rempty ∅)); apply tinv_run; [apply tinv_empty|by apply along_keyed]|].
  pose proof (complete_by_rg_sorted (rrun h rempty) g) as Hs. induction Hs as [|x l Hs IH Hf]; [done|].
  intros a b [|i] [|i'] Hi Ha Hb; [lia| |lia|].
  - cbn in Ha, Hb. injection Ha as <-. rewrite Forall_forall in Hf. apply (Hf b). by apply elem_of_list_lookup_2 in Hb.
  - apply (IH a b i i'); [lia|done|done].
Qed.
Print Assumptions C81_order.
(** What is listed for a rep group was added under it, perhaps with the key it had before a modification. *)
Lemma noted_added h : ∀ st (P : gset (string * string)) (G : string → Prop), known (λ g _, G g) st → (∀ g k, (g, k) ∈ P → G g) →
  ∀ g k, (g, k) ∈ noted h st P → (g, k) ∈ P ∨ (∃ i jobs deps j, RAdd i jobs deps ∈ h ∧ (k, j) ∈ jobs ∧ j_rg j = g) ∨
    (∃ o, RModify o k ∈ h ∧ (G g ∨ ∃ i jobs deps k0 j, RAdd i jobs deps ∈ h ∧ (k0, j) ∈ jobs ∧ j_rg j = g)).
Proof.
  induction h as [|r h IH]; intros st P G HG HP g k Hin; [by left|]. cbn [noted] in Hin.
  set (G' := λ g, G g ∨ ∃ i jobs deps k0 j, r = RAdd i jobs deps ∧ (k0, j) ∈ jobs ∧ j_rg j = g).
  assert (known (λ g _, G' g) (rstep st r)) as HG'.
  { assert (∀ g, G g → G' g) as Hm by (intros ? ?; by left). destruct r as [i jobs deps|k' s e|ks|o n|]; cbn [rstep].
    - assert (∀ k0 j, (k0, j) ∈ jobs → G' (j_rg j)) as Hj by (intros k0 j ?; right; exists i, jobs, deps, k0, j; done). split.
      + intros k0 j [?|[?|[?|?]]]%add_source; [apply Hm; by apply (k_i _ _ HG k0)|apply Hm; by apply (k_l _ _ HG k0)|apply Hm; by apply (k_c _ _ HG k0)|by apply (Hj k0)].
      + destruct (decide (kept i st jobs = [])) as [En|Hn]; [rewrite add_nil by done; intros k0 j ?; apply Hm; by apply (k_l _ _ HG k0)|].
        destruct (add_fields i jobs deps st Hn) as (-> & _). intros k0 j.
        replace (live (stored_st st _ _)) with (put_jobs (live st) (kept i st jobs ++ again st (kept i st jobs) deps)) by (by destruct st).
        intros [[Hx|Hx]%elem_of_app|[_ ?]]%put_jobs_lookup; [apply (Hj k0); by apply kept_sub in Hx| |apply Hm; by apply (k_l _ _ HG k0)].
        apply again_in in Hx as (_ & ? & _). apply Hm. by apply (k_c _ _ HG k0).
      + destruct (decide (kept i st jobs = [])) as [En|Hn]; [rewrite add_nil by done; intros k0 j ?; apply Hm; by apply (k_c _ _ HG k0)|].
        destruct (add_fields i jobs deps st Hn) as (_ & -> & _). intros k0 j. replace (comp (stored_st st _ _)) with (comp st) by (by destruct st).
        intros ?. apply Hm. by apply (k_c _ _ HG k0).
    - unfold archive. destruct (items st !! k') as [j|] eqn:E; [|split; intros k0 j0 ?; apply Hm; [by apply (k_i _ _ HG k0)|by apply (k_l _ _ HG k0)|by apply (k_c _ _ HG k0)]].
      pose proof (k_i _ _ HG k' j E) as Hj. destruct (storable _); cbn [fst]; destruct st as [lv cp rt rg en it rp]; destruct HG as [Hi Hl Hc]; cbn in *; split; cbn; intros k0 j0.
      + intros [_ ?]%lookup_delete_Some. apply Hm. by apply (Hi k0).
      + intros [_ ?]%lookup_delete_Some. apply Hm. by apply (Hl k0).
      + intros [[_ <-]|[_ ?]]%lookup_insert_Some; apply Hm; [done|by apply (Hc k0)].
      + intros [[_ <-]|[_ ?]]%lookup_insert_Some; apply Hm; [done|by apply (Hi k0)].
      + intros ?. apply Hm. by apply (Hl k0).
      + intros ?. apply Hm. by apply (Hc k0).
    - destruct (delete_jobs_fields ks st) as (A & _ & _ & _ & D & E). split; intros k0 j0.
      + rewrite D. destruct (decide _); [done|]. intros ?. apply Hm. by apply (k_i _ _ HG k0).
      + rewrite E. destruct (decide _); [done|]. intros ?. apply Hm. by apply (k_l _ _ HG k0).
      + rewrite A. intros ?. apply Hm. by apply (k_c _ _ HG k0).
    - unfold modify. destruct (items st !! o) as [j|] eqn:E; [|split; intros k0 j0 ?; apply Hm; [by apply (k_i _ _ HG k0)|by apply (k_l _ _ HG k0)|by apply (k_c _ _ HG k0)]].
      pose proof (k_i _ _ HG o j E) as Hj. destruct (bool_decide _ && _); [split; intros k0 j0 ?; apply Hm; [by apply (k_i _ _ HG k0)|by apply (k_l _ _ HG k0)|by apply (k_c _ _ HG k0)]|].
      set (st1 := if bool_decide (o = n) then st else _).
      assert (known (λ g _, G' g) st1) as H1.
      { unfold st1. destruct (bool_decide _); [split; intros k0 j0 ?; apply Hm; [by apply (k_i _ _ HG k0)|by apply (k_l _ _ HG k0)|by apply (k_c _ _ HG k0)]|]. clear st1 E.
        destruct st as [lv cp rt rg en it rp]; destruct HG as [Hi Hl Hc]; cbn in *; split; cbn; intros k0 j0; [|intros ?; apply Hm; by apply (Hl k0)|intros ?; apply Hm; by apply (Hc k0)].
        intros [[_ <-]|[_ [_ ?]%lookup_delete_Some]]%lookup_insert_Some; apply Hm; [done|by apply (Hi k0)]. }
      destruct (put_lookups (filter _ _) _); [|done]. destruct (put_lookups (rgs st) _); [|done].
      destruct st1 as [lv cp rt rg en it rp]; destruct H1 as [Hi Hl Hc]; cbn in *; split; cbn; [exact Hi| |exact Hc]. intros k0 j0.
      intros [[_ <-]|[_ [_ ?]%lookup_delete_Some]]%lookup_insert_Some; [by apply Hm|by apply (Hl k0)].
    - rewrite restart_eq. split; cbn; intros k0 j0 ?; apply Hm; [by apply (k_l _ _ HG k0)|by apply (k_l _ _ HG k0)|by apply (k_c _ _ HG k0)]. }
  assert (∀ g k, (g, k) ∈ notes st P r → (g, k) ∈ P ∨ (∃ i jobs deps j, r = RAdd i jobs deps ∧ (k, j) ∈ jobs ∧ j_rg j = g) ∨ (∃ o, r = RModify o k ∧ G g)) as Hnotes.
  { clear g k Hin. intros g k. destruct r as [i jobs deps|k' s e|ks|o n|]; cbn [notes]; [|auto..|auto].
    - rewrite <- kept_eq. destruct (forallb _ _); [|auto]. intros [?|Hx]%elem_of_union; [auto|].
      apply elem_of_list_to_set, elem_of_list_fmap in Hx as ([k0 j0] & E & Hx%kept_sub). injection E as -> ->. right. left. exists i, jobs, deps, j0. done.
    - destruct (items st !! o) as [j|] eqn:E; [|auto]. destruct (bool_decide _ && _); [|auto]. intros [Hx|Hx]%elem_of_union.
      + apply elem_of_singleton in Hx. injection Hx as -> ->. right. right. exists o. split; [done|]. by apply (k_i _ _ HG o).
      + apply elem_of_filter in Hx as [_ ?]. auto. }
  assert (∀ g, G' g → G g ∨ ∃ i jobs deps k0 j, RAdd i jobs deps ∈ r :: h ∧ (k0, j) ∈ jobs ∧ j_rg j = g) as Hg.
  { intros g' [?|(i & jobs & deps & k0 & j & -> & ? & ?)]; [by left|right]. exists i, jobs, deps, k0, j. split; [left|done]. }
  destruct (IH (rstep st r) (notes st P r) G' HG') with (g := g) (k := k) as [Hx|[Hx|Hx]]; [|done|..].
  - intros g' k' Hx. destruct (Hnotes g' k' Hx) as [?|[(i & jobs & deps & j & -> & ? & ?)|(o & -> & ?)]]; [left; by apply (HP g' k')|right; exists i, jobs, deps, k', j; done|by left].
  - destruct (Hnotes g k Hx) as [?|[(i & jobs & deps & j & -> & ? & ?)|(o & -> & ?)]]; [by left| |].
    + right. left. exists i, jobs, deps, j. split; [left|done].
    + right. right. exists o. split; [left|]. by left.
  - destruct Hx as (i & jobs & deps & j & ? & ?). right. left. exists i, jobs, deps, j. split; [by right|done].
  - destruct Hx as (o & Ho & Hx). right. right. exists o. split; [by right|]. destruct Hx as [Hx|(i & jobs & deps & k0 & j & ? & ?)]; [by apply Hg|].
    right. exists i, jobs, deps, k0, j. split; [by right|done].
Qed.
Theorem C81_added h g k j : (∀ r, r ∈ h → keyed r) → (k, j) ∈ complete_by_rg (rrun h rempty) g →
  ∃ i jobs deps k0 j0, RAdd i jobs deps ∈ h ∧ (k0, j0) ∈ jobs ∧ j_rg j0 = g ∧ (k0 = k ∨ ∃ o, RModify o k ∈ h).
Proof.
  intros Hk Hin. apply (C81_listed h g k j Hk) in Hin as (Hin & _).
  destruct (noted_added h rempty ∅ (λ _, False) (known_empty _) ltac:(set_solver) g k Hin) as [Hx|[(i & jobs & deps & j0 & ? & ? & ?)|(o & Ho & [[]|(i & jobs & deps & k0 & j0 & ? & ? & ?)])]].
  - set_solver.
  - exists i, jobs, deps, k, j0. auto.
  - exists i, jobs, deps, k0, j0. split_and!; [done..|]. right. by exists o.
Qed.
Print Assumptions C81_added.
(** A job that completed is found under its rep group, unless it is run again; if no job that completed before is modified,
    and no add both ignores known jobs and brings back dependants. *)
Theorem C81_found_partial h k j : along ordinary_req h rempty → along not_both h rempty → along fresh_mods h rempty →
  let st := rrun h rempty in comp st !! k = Some j → live st !! k = None → (k, j) ∈ complete_by_rg st (j_rg j).
Proof.
  intros Ho Hb Hf st Hc Hl. apply (complete_by_rg_in st (noted h rempty ∅)).
  - apply tinv_run; [apply tinv_empty|]. revert Ho. apply along_impl. by intros st' r [? _].
  - split; [|split; [done|exists j; split; [done|by destruct j]]].
    apply (k_c _ _ (found_run h rempty ∅ oinv_empty (known_empty _) (along_and _ _ _ _ Ho Hb) Hf) k j Hc).
Qed.
Print Assumptions C81_found_partial.
(** rep groups whose names are made to be confused, and a job added under both *)
Definition gA : string := "a"%string.
Definition gB : string := "a_::_b"%string.
Definition h81 : list rreq :=
  [RAdd false [(K 1, job gA); (K 2, job gB)] []; RArchive (K 1) 5 9; RArchive (K 2) 3 4;
   RAdd true [(K 1, job gB); (K 3, job gA)] []; RArchive (K 3) 1 2; RAdd false [(K 2, job gA)] []; RArchive (K 2) 6 7; RRestart].
Example C81_case : (∀ r, r ∈ h81 → keyed r) ∧ along ordinary_req h81 rempty ∧ along not_both h81 rempty ∧ along fresh_mods h81 rempty ∧
  complete_by_rg (rrun h81 rempty) gA = [(K 3, RJob gA 1 2); (K 1, RJob gA 5 9); (K 2, RJob gA 6 7)] ∧
  complete_by_rg (rrun h81 rempty) gB = [(K 2, RJob gB 6 7)] ∧
  live (rrun h81 rempty) !! K 1 = None ∧ comp (rrun h81 rempty) !! K 1 = Some (RJob gA 5 9).
Proof.
  assert (∀ r, r ∈ h81 → keyed r ∧ match r with RAdd _ jobs _ => ∀ kj, kj ∈ jobs → ordinary (j_rg kj.2) | _ => True end) as H.
  { intros r Hr. unfold h81 in Hr. in_list Hr; subst r; try done; split; adds_ok; try (by apply K_key); by apply ordinary_b; vm_compute. }
  split; [intros r Hr; apply (H r Hr)|]. split; [|split; [|split; [|split; [by vm_compute|]]]].
  - clear -H. revert H. generalize h81, rempty. intros h. induction h as [|r h IH]; intros st H; [done|]. split; [|apply IH; intros r' ?; apply H; by right]. destruct (H r ltac:(left)) as [H1 H2]. by split.
  - unfold h81. cbn [along]. split_and!; try exact I. intros k Hk. by apply elem_of_nil in Hk.
  - unfold h81. cbn [along]. split_and!; exact I.
  - split; [by vm_compute|]. split; by vm_compute.
Qed.
(** Modifying a job that is run again makes what it completed before be lost from its rep group. *)
Theorem C81_modified_refuted : ∃ h k j, along ordinary_req h rempty ∧ along not_both h rempty ∧
  comp (rrun h rempty) !! k = Some j ∧ live (rrun h rempty) !! k = None ∧ (∀ g, complete_by_rg (rrun h rempty) g = []).
Proof.
  exists [RAdd false [(K 1, job gA)] []; RArchive (K 1) 5 9; RAdd false [(K 1, job gA)] []; RModify (K 1) (K 2)], (K 1), (RJob gA 5 9).
  assert (∀ st, ordinary_req st (RAdd false [(K 1, job gA)] [])) as H1.
  { intros st. split; adds_ok; [by apply K_key|]. by apply ordinary_b; vm_compute. }
  split; [split; [apply H1|]; split; [by split|]; split; [apply H1|]; split; [|done]; split; [by apply (K_key 2)|done]|].
  split; [done|]. split; [by vm_compute|]. split; [by vm_compute|].
  intros g. destruct (complete_by_rg _ g) as [|[k j] l] eqn:E; [done|]. exfalso.
  assert ((k, j) ∈ (k, j) :: l) as Hin by left. rewrite <- E in Hin. apply C81_listed in Hin as (Hin & _ & j0 & Hc & _).
  2:{ intros r Hr. in_list Hr; subst r; try done; [apply (proj1 (H1 rempty))|apply (proj1 (H1 rempty))|by apply (K_key 2)]. }
  revert Hin Hc. generalize (eq_refl k). set (h := [_; _; _; _]). intros _ Hin.
  assert (noted h rempty ∅ = {[(gA, K 2)]}) as En by (apply (bool_decide_unpack _); by vm_compute).
  rewrite En in Hin. apply elem_of_singleton in Hin. injection Hin as -> ->. vm_compute. done.
Qed.
Print Assumptions C81_modified_refuted.
(** An add that ignores known jobs queues them all the same if it brings back a dependant, but without a lookup; so what
    completes is not found. *)
Definition h_ignored : list rreq :=
  [RAdd false [(K 1, job gA); (K 2, job gA)] []; RArchive (K 1) 1 2; RArchive (K 2) 1 2;
   RAdd true [(K 1, job gB); (K 3, job gA)] [K 2]; RArchive (K 1) 3 4].
Lemma h_ignored_ok : along ordinary_req h_ignored rempty.
Proof.
  assert (∀ r, r ∈ h_ignored → keyed r ∧ match r with RAdd _ jobs _ => ∀ kj, kj ∈ jobs → ordinary (j_rg kj.2) | _ => True end) as H.
  { intros r Hr. unfold h_ignored in Hr. in_list Hr; subst r; try done; split; adds_ok; try (by apply K_key); by apply ordinary_b; vm_compute. }
  revert H. generalize h_ignored, rempty. intros h. induction h as [|r h IH]; intros st H; [done|]. split; [|apply IH; intros r' ?; apply H; by right]. destruct (H r ltac:(left)) as [H1 H2]. by split.
Qed.
Theorem C81_ignored_refuted : ∃ h k j, along ordinary_req h rempty ∧ along fresh_mods h rempty ∧
  let st := rrun h rempty in comp st !! k = Some j ∧ live st !! k = None ∧ complete_by_rg st (j_rg j) = [].
Proof.
  exists h_ignored, (K 1), (RJob gB 3 4). split; [exact h_ignored_ok|]. split; [by vm_compute|]. cbv zeta. split; [by vm_compute|]. split; by vm_compute.
Qed.
Print Assumptions C81_ignored_refuted.

(** ** C82: the last completion time of a rep group *)
(** It is the latest end time of all jobs ever archived with the rep group. *)
Theorem C82_latest h rg g t : (g, t) ∈ last_completion (rrun h rempty) rg MExact ↔
  g = rg ∧ (rg, t) ∈ completed h rempty [] ∧ ∀ t', (rg, t') ∈ completed h rempty [] → t' ≤ t.
Proof.
  assert (einvt (ends (rrun h rempty)) (completed h rempty [])) as H.
  { apply ends_run. intros g'. change (ends rempty) with (∅ : gmap string Z). rewrite lookup_empty. by intros t' ?%elem_of_nil. }
  rewrite <- (einvt_iff _ _ H rg t). unfold last_completion, rg_list. cbn [omap list_omap]. destruct (ends (rrun h rempty) !! rg) as [t0|]; cbn.
  - rewrite elem_of_list_singleton. split; [intros [= -> ->]; done|]. by intros [-> [= ->]].
  - split; [by intros ?%elem_of_nil|]. by intros [_ ?].
Qed.
Print Assumptions C82_latest.
(** A search gives those of all matching rep groups with completed jobs. *)
Theorem C82_search_partial h rg m g t : along ordinary_req h rempty → along not_both h rempty →
  (g, t) ∈ last_completion (rrun h rempty) rg m ↔
  matching g rg m ∧ (g, t) ∈ completed h rempty [] ∧ ∀ t', (g, t') ∈ completed h rempty [] → t' ≤ t.
Proof.
  intros Ho Hb. assert (einvt (ends (rrun h rempty)) (completed h rempty [])) as H.
  { apply ends_run. intros g'. change (ends rempty) with (∅ : gmap string Z). rewrite lookup_empty. by intros t' ?%elem_of_nil. }
  rewrite <- (einvt_iff _ _ H g t). pose proof (rginv_run h (along_and _ _ _ _ Ho Hb)) as Hg. unfold last_completion. rewrite elem_of_list_omap. split.
  - intros (g' & [Hm _]%rg_list_in & Hx). destruct (ends _ !! g') eqn:E; [|done]. cbn in Hx. injection Hx as -> ->. done.
  - intros [Hm He]. exists g. rewrite He. split; [|done]. apply rg_list_in. split; [done|]. right. by apply (rg_e _ Hg g t).
Qed.
Print Assumptions C82_search_partial.
Example C82_case : along ordinary_req h81 rempty ∧ along not_both h81 rempty ∧
  last_completion (rrun h81 rempty) "a" MPrefix = [("a", 9); ("a_::_b", 4)]%string ∧ last_completion (rrun h81 rempty) "b" MSuffix = [("a_::_b"%string, 4)] ∧
  completed h81 rempty [] = [(gA, 7); (gA, 2); (gB, 4); (gA, 9)].
Proof.
  destruct C81_case as (_ & Ho & Hb & _). split; [exact Ho|]. split; [exact Hb|]. split; [by vm_compute|]. split; by vm_compute.
Qed.
(** A rep group that came with such an add is not found by a search. *)
Theorem C82_search_refuted : ∃ h rg m g t, along ordinary_req h rempty ∧ matching g rg m ∧ (g, t) ∈ completed h rempty [] ∧ last_completion (rrun h rempty) rg m = [].
Proof.
  exists h_ignored, "b"%string, MSub, gB, 4. split; [exact h_ignored_ok|]. split; [by exists "a_::_"%string, ""%string|]. split; [|by vm_compute].
  assert (completed h_ignored rempty [] = [(gB, 4); (gA, 2); (gA, 2)]) as -> by (by vm_compute). left.
Qed.
Print Assumptions C82_search_refuted.

(** ** C83: queued jobs are found by their rep group *)
Theorem C83_found h k j : along ordinary_req h rempty → let st := rrun h rempty in
  items st !! k = Some j → (k, j) ∈ queue_by_rg st (j_rg j) ∧ NoDup (queue_by_rg st (j_rg j)).*1.
Proof.
  intros Ho st Hi. pose proof (oinv_run h Ho) as H. split; [apply queue_by_rg_in; split; [by apply (o_ri _ H)|done]|]. apply queue_by_rg_nodup. apply (o_nd _ H).
Qed.
Print Assumptions C83_found.
(** Only they are, if no job is added under another rep group while it is queued. *)
Theorem C83_only_partial h g k j : along ordinary_req h rempty → along not_both h rempty → along same_groups h rempty → let st := rrun h rempty in
  (k, j) ∈ queue_by_rg st g ↔ items st !! k = Some j ∧ j_rg j = g.
Proof.
  intros Ho Hb Hs st. pose proof (einv_run h (along_and _ _ _ _ Ho (along_and _ _ _ _ Hb Hs))) as H. rewrite queue_by_rg_in. split.
  - intros [Hr Hi]. destruct (e_r _ H k g Hr) as (j' & Hj' & <-). split; [done|]. fold st in Hj'. congruence.
  - intros [Hi <-]. split; [by apply (o_ri _ (e_o _ H))|done].
Qed.
Print Assumptions C83_only_partial.
Definition h83 : list rreq :=
  [RAdd false [(K 1, job gA); (K 2, job gB); (K 3, job gA)] []; RModify (K 3) (K 4); RArchive (K 1) 5 9; RAdd false [(K 5, job gB)] [K 1]; RDelete [K 2]; RRestart].
Example C83_case : along ordinary_req h83 rempty ∧ along not_both h83 rempty ∧ along same_groups h83 rempty ∧
  queue_by_rg (rrun h83 rempty) gB = [(K 5, job gB)] ∧
  items (rrun h83 rempty) !! K 4 = Some (job gA) ∧ items (rrun h83 rempty) !! K 1 = Some (RJob gA 5 9) ∧ length (queue_by_rg (rrun h83 rempty) gA) = 2%nat.
Proof.
  assert (∀ r, r ∈ h83 → keyed r ∧ match r with RAdd _ jobs _ => ∀ kj, kj ∈ jobs → ordinary (j_rg kj.2) | _ => True end) as H.
  { intros r Hr. unfold h83 in Hr. in_list Hr; subst r; try done; split; try done; try (by apply (K_key 4)); adds_ok; try (by apply K_key); by apply ordinary_b; vm_compute. }
  split. { revert H. generalize h83, rempty. intros h. induction h as [|r h IH]; intros st H; [done|]. split; [|apply IH; intros r' ?; apply H; by right]. destruct (H r ltac:(left)) as [H1 H2]. by split. }
  split; [by vm_compute|]. split; [|split; [by vm_compute|split; [by vm_compute|split; by vm_compute]]].
  unfold h83. cbn [along]. split; [|split; [done|split; [done|split; [|done]]]].
  - cbn. intros k j Hk. split; [intros j'; by rewrite lookup_empty|]. intros j' Hk'. in_list Hk; in_list Hk'; apply pair_equal_spec in Hk as [-> ->]; apply pair_equal_spec in Hk' as [E ->]; try reflexivity; exfalso; revert E; vm_compute; discriminate.
  - cbn. intros k j Hk. in_list Hk. apply pair_equal_spec in Hk as [-> ->]. split; [|intros j' Hk'; in_list Hk'; by apply pair_equal_spec in Hk' as [_ ->]]. intros j'. vm_compute. discriminate.
Qed.
(** Otherwise a job is also listed for a rep group that is not its own. *)
Theorem C83_other_refuted : ∃ h k j g, along ordinary_req h rempty ∧ along not_both h rempty ∧ (k, j) ∈ queue_by_rg (rrun h rempty) g ∧ j_rg j ≠ g.
Proof.
  exists [RAdd false [(K 1, job gA)] []; RAdd false [(K 1, job gB)] []], (K 1), (job gA), gB.
  split; [split; [|split; [|done]]; split; adds_ok; try (by apply K_key); by apply ordinary_b; vm_compute|]. split; [done|]. split; [|done].
  assert (queue_by_rg (rrun [RAdd false [(K 1, job gA)] []; RAdd false [(K 1, job gB)] []] rempty) gB = [(K 1, job gA)]) as -> by (by vm_compute). left.
Qed.
Print Assumptions C83_other_refuted.

(** ** C84: searches *)
(** The kinds of matches *)
Theorem C84_matches g rg m : rg_matches g rg m = true ↔ matching g rg m.
Proof. exact (matches_spec g rg m). Qed.
Print Assumptions C84_matches.
Example C84_matches_case : matching "xaay" "aa" MSub ∧ matching "aay" "aa" MPrefix ∧ matching "xaa" "aa" MSuffix ∧ ¬ matching "xaa" "aa" MPrefix.
Proof.
  split; [by exists "x"%string, "y"%string|]. split; [by exists "y"%string|]. split; [by exists "x"%string|]. intros [b E]. done.
Qed.
(** A search finds all queued jobs of matching rep groups, and the completed ones. *)
Theorem C84_finds_partial h rg m c k j : along ordinary_req h rempty → along not_both h rempty → let st := rrun h rempty in
  matching (j_rg j) rg m → (items st !! k = Some j → (k, j) ∈ by_rg st rg m c) ∧
  (along fresh_mods h rempty → comp st !! k = Some j → live st !! k = None → (k, j) ∈ by_rg st rg m true).
Proof.
  intros Ho Hb st Hm. pose proof (rginv_run h (along_and _ _ _ _ Ho Hb)) as H. split.
  - intros Hi. apply by_rg_in. exists (j_rg j). split; [apply rg_list_in; split; [done|]; right; by apply (k_i _ _ (rg_k _ H) k)|]. left. by apply C83_found.
  - intros Hf Hc Hl. apply by_rg_in. exists (j_rg j). split; [apply rg_list_in; split; [done|]; right; by apply (k_c _ _ (rg_k _ H) k)|]. right. split; [done|]. by apply C81_found_partial.
Qed.
Print Assumptions C84_finds_partial.
(** The two requests for incomplete jobs agree, and list each of the matching jobs once, if no job is added under another rep
    group while it is queued. *)
Theorem C84_same_partial h rg m k j : along ordinary_req h rempty → along not_both h rempty → along same_groups h rempty → rg ≠ ""%string → let st := rrun h rempty in
  ((k, j) ∈ by_rg st rg m false ↔ items st !! k = Some j ∧ matching (j_rg j) rg m) ∧
  ((k, j) ∈ current st rg m ↔ items st !! k = Some j ∧ matching (j_rg j) rg m) ∧ NoDup (by_rg st rg m false).*1.
Proof.
  intros Ho Hb Hs Hrg st. pose proof (einv_run h (along_and _ _ _ _ Ho (along_and _ _ _ _ Hb Hs))) as H. split_and!.
  - split.
    + intros (g & [Hg _]%rg_list_in & [Hq|[? _]])%by_rg_in; [|done]. apply C83_only_partial in Hq as [Hi <-]; done.
    + intros [Hi Hm]. by apply (C84_finds_partial h rg m false k j Ho Hb Hm).
  - apply current_in; [done|apply (e_o _ H)|intros _; apply (e_r _ H)].
  - by apply by_rg_nodup.
Qed.
Print Assumptions C84_same_partial.
Example C84_case : along ordinary_req h83 rempty ∧ along not_both h83 rempty ∧ along same_groups h83 rempty ∧
  length (by_rg (rrun h83 rempty) "a" MSub false) = 3%nat ∧ by_rg (rrun h83 rempty) "b" MSub true = [(K 5, job gB)] ∧ current (rrun h83 rempty) "b" MSuffix = [(K 5, job gB)] ∧
  length (by_rg (rrun h81 rempty) "a" MPrefix true) = 4%nat.
Proof.
  destruct C83_case as (H1 & H2 & H3 & _). split; [exact H1|]. split; [exact H2|]. split; [exact H3|]. split; [by vm_compute|]. split; [by vm_compute|]. split; by vm_compute.
Qed.
(** Otherwise the same job is listed twice. *)
Theorem C84_twice_refuted : ∃ h rg m k j, along ordinary_req h rempty ∧ along not_both h rempty ∧ by_rg (rrun h rempty) rg m false = [(k, j); (k, j)].
Proof.
  exists [RAdd false [(K 1, job gA)] []; RAdd false [(K 1, job gB)] []], "a"%string, MSub, (K 1), (job gA).
  split; [split; [|split; [|done]]; split; adds_ok; try (by apply K_key); by apply ordinary_b; vm_compute|]. split; [done|]. by vm_compute.
Qed.
Print Assumptions C84_twice_refuted.

(** ** C85: an add that fails adds nothing *)
(** It does not fail for the sake of rep groups that are not blank and not too long, and then all jobs are queued, recorded
    and found under the rep groups given. *)
Theorem C85_added h jobs deps : along ordinary_req h rempty → ordinary_req (rrun h rempty) (RAdd false jobs deps) →
  let r := add_jobs false jobs deps (rrun h rempty) in
  r.2 = true ∧ ∀ k j, (k, j) ∈ jobs → is_Some (items r.1 !! k) ∧ is_Some (live r.1 !! k) ∧ k ∈ (queue_by_rg r.1 (j_rg j)).*1.
Proof.
  intros Ho Hr. pose proof (oinv_run h Ho) as H. cbv zeta. destruct (decide (jobs = [])) as [->|Hn]; [rewrite add_nil by done; split; [done|]; by intros k j ?%elem_of_nil|].
  destruct (add_ok false jobs deps _ (o_li _ H) Hr Hn) as (st2 & H1 & H2 & H3 & H4 & E & _). rewrite E. cbn [fst snd]. split; [done|]. intros k j Hin.
  set (st := rrun h rempty) in *.
  assert ((k, j) ∈ queued_of false st jobs deps) as Hq by (apply queued_new; apply elem_of_app; by left).
  assert (is_Some (items (enqueue st2 (queued_of false st jobs deps)) !! k)) as Hi by (rewrite enqueue_items; apply add_items_some; by apply (elem_of_list_fmap_1 fst) in Hq).
  split; [done|]. split.
  - destruct (enqueue_only st2 (queued_of false st jobs deps)) as (-> & _). destruct H1 as (-> & _).
    replace (live (stored_st st _ _)) with (put_jobs (live st) (jobs ++ again st jobs deps)) by (by destruct st). apply put_jobs_in. rewrite fmap_app. apply elem_of_app. left. by apply (elem_of_list_fmap_1 fst) in Hin.
  - destruct Hi as [j' Hj']. apply elem_of_list_fmap. exists (k, j'). split; [done|]. apply queue_by_rg_in. split; [|done].
    rewrite enqueue_rpl, rpl_adds_in. right. eauto.
Qed.
Print Assumptions C85_added.
Example C85_case : along ordinary_req h81 rempty ∧ ordinary_req (rrun h81 rempty) (RAdd false [(K 1, job gB)] [K 3]) ∧
  queue_by_rg (add_jobs false [(K 1, job gB)] [K 3] (rrun h81 rempty)).1 gB = [(K 1, job gB)] ∧ queue_by_rg (add_jobs false [(K 1, job gB)] [K 3] (rrun h81 rempty)).1 gA = [(K 3, RJob gA 1 2)].
Proof.
  split; [apply C81_case|]. split; [split; adds_ok; [by apply K_key|]; by apply ordinary_b; vm_compute|]. split; by vm_compute.
Qed.
(** An add of a job with a blank rep group fails; but the job is recorded, is there after the next start, and then can never
    be archived. *)
Definition blank_at (k : string) (st : rstate) : Prop :=
  (∃ j, items st !! k = Some j ∧ j_rg j = ""%string) ∧ (∃ j, live st !! k = Some j ∧ j_rg j = ""%string) ∧ comp st !! k = None.
Lemma blank_stays k h : ∀ st, blank_at k st → (∀ r, r ∈ h → r = RRestart ∨ ∃ k' s e, r = RArchive k' s e) → blank_at k (rrun h st).
Proof.
  induction h as [|r h IH]; intros st H Hh; [done|]. unfold rrun. cbn [fold_left]. apply IH; [|intros r' ?; apply Hh; by right].
  destruct H as ((j & Hi & Hj) & (j' & Hl & Hj') & Hc). destruct (Hh r ltac:(left)) as [->|(k' & s & e & ->)]; cbn [rstep].
  - rewrite restart_eq. split; cbn; [by exists j'|]. split; [by exists j'|done].
  - unfold archive. destruct (items st !! k') as [j0|] eqn:E; [|split; [by exists j|split; [by exists j'|done]]].
    destruct (decide (k' = k)) as [->|Hne].
    + rewrite Hi in E. injection E as <-. rewrite Hj. change (storable "") with false. cbn [fst]. destruct st as [lv cp rt rg en it rp]. cbn in *.
      split; [exists (RJob "" s e); cbn; by rewrite lookup_insert|]. split; [by exists j'|done].
    + destruct (storable (j_rg j0)); cbn [fst]; destruct st as [lv cp rt rg en it rp]; cbn in *.
      * split; [exists j; cbn; by rewrite lookup_delete_ne|]. split; [exists j'; cbn; by rewrite lookup_delete_ne|]. cbn. by rewrite lookup_insert_ne.
      * split; [exists j; cbn; by rewrite lookup_insert_ne|]. split; [by exists j'|done].
Qed.
Theorem C85_blank_refuted : ∃ jobs k, let r := add_jobs false jobs [] rempty in
  k ∈ jobs.*1 ∧ r.2 = false ∧ items r.1 !! k = None ∧ is_Some (items (restart r.1) !! k) ∧
  ∀ h, (∀ q, q ∈ h → q = RRestart ∨ ∃ k' s e, q = RArchive k' s e) → is_Some (items (rrun h (restart r.1)) !! k) ∧ comp (rrun h (restart r.1)) !! k = None.
Proof.
  exists [(K 1, job "")], (K 1). cbv zeta. split; [left|]. split; [by vm_compute|]. split; [by vm_compute|]. split; [eexists; by vm_compute|].
  intros h Hh. assert (blank_at (K 1) (restart (add_jobs false [(K 1, job "")] [] rempty).1)) as H.
  { split; [exists (job ""); split; [by vm_compute|done]|]. split; [exists (job ""); split; [by vm_compute|done]|by vm_compute]. }
  apply (blank_stays (K 1) h _ H) in Hh as ((j & Hi & _) & _ & Hc). split; [by exists j|done].
Qed.
Print Assumptions C85_blank_refuted.
