(** What prepareNewJobs and retrieveDependentJobs find *)
From Coq Require Import ZArith Lia String.
From stdpp Require Import base option strings gmap list.
From RecordUpdate Require Import RecordSet.
From Verif Require Import GoHeap QueueModel ServerModel.
Import RecordSetNotations.
Open Scope Z_scope.

(** the record retrieveDependentJobs finds for a key *)
Definition record_of (d : db) (newkeys : gset key) (k : key) : option job :=
  match live d !! k with
  | Some j => Some j
  | None => if decide (k ∈ newkeys) then None else complete d !! k
  end.
(** the groups that gain members *)
Inductive reached (d : db) (newkeys : gset key) (G : gset string) : string → Prop :=
| reached_base g : g ∈ G → reached d newkeys G g
| reached_step g k j g' : reached d newkeys G g → (g, k) ∈ rdtk d → record_of d newkeys k = Some j →
    g' ∈ jdepgroups j → g' ≠ ""%string → reached d newkeys G g'.
Definition affected (d : db) (newkeys : gset key) (G : gset string) (k : key) : Prop :=
  ∃ g, reached d newkeys G g ∧ (g, k) ∈ rdtk d.

Definition db_keys (d : db) : Prop :=
  (∀ k j, live d !! k = Some j → jkey j = k) ∧ (∀ k j, complete d !! k = Some j → jkey j = k).

Section passes.
Context (d : db) (nk : gset key) (G : gset string) (Hdb : db_keys d).

(** what is kept true of (done, toq, upd) *)
Record DP (known : gset string) (acc : gset key * list job * list job) : Prop := {
  dp_upd j : j ∈ acc.2 → live d !! jkey j = Some j ∧ jkey j ∈ acc.1.1;
  dp_updN : NoDup (jkey <$> acc.2);
  dp_toq j : j ∈ acc.1.2 → live d !! jkey j = None ∧ jkey j ∉ nk ∧ complete d !! jkey j = Some j ∧ jkey j ∈ acc.1.1;
  dp_toqN : NoDup (jkey <$> acc.1.2);
  dp_done k j : k ∈ acc.1.1 → record_of d nk k = Some j →
    (live d !! k = Some j ∧ j ∈ acc.2 ∨ live d !! k = None ∧ j ∈ acc.1.2) ∧
    ∀ g, g ∈ jdepgroups j → g ≠ ""%string → g ∈ known;
  dp_aff k : k ∈ acc.1.1 → affected d nk G k;
  dp_known g : g ∈ known → reached d nk G g;
}.

Definition pass_one (groups prefixes : gset string) :
    gset key * list job * list job * gset string → string * key → gset key * list job * list job * gset string :=
  λ '(done, toq, upd, newg) (gk : string * key),
      let k := gk.2 in
      if decide (gk.1 ∈ prefixes ∧ k ∉ done) then
        let found := match live d !! k with
                     | Some j => Some (j, true)
                     | None => if decide (k ∈ nk) then None
                               else (λ j, (j, false)) <$> complete d !! k
                     end in
        match found with
        | None => ({[k]} ∪ done, toq, upd, newg)
        | Some (j, isl) =>
            ({[k]} ∪ done,
             (if isl : bool then toq else toq ++ [j]),
             (if isl : bool then upd ++ [j] else upd),
             newg ∪ filter (λ g, g ≠ ""%string ∧ g ∉ groups) (list_to_set (jdepgroups j)))
        end
      else (done, toq, upd, newg).

Lemma pass_one_facts groups prefixes done toq upd newg g0 k0 done' toq' upd' newg' :
  DP (groups ∪ newg) (done, toq, upd) → (g0, k0) ∈ rdtk d → (∀ g, g ∈ prefixes → reached d nk G g) →
  pass_one groups prefixes (done, toq, upd, newg) (g0, k0) = (done', toq', upd', newg') →
  DP (groups ∪ newg') (done', toq', upd') ∧ (g0 ∈ prefixes → k0 ∈ done') ∧ done ⊆ done' ∧
  (done' ⊆ {[k0]} ∪ done) ∧ newg ⊆ newg' ∧ (newg' = newg ∨ k0 ∉ done ∧ k0 ∈ done').
Proof.
  intros HP Hin Hpre. unfold pass_one. cbn [fst snd].
  destruct (decide (g0 ∈ prefixes ∧ k0 ∉ done)) as [[Hg Hk]|Hno].
  2: { intros [= <- <- <- <-]. split; [done|]. split; [|set_solver]. intros Hg.
       destruct (decide (k0 ∈ done)); [done|]. exfalso. by apply Hno. }
  assert (Haff : affected d nk G k0) by (exists g0; split; [by apply Hpre|done]).
  destruct HP as [P1 P2 P3 P4 P5 P6 P7]. cbn [fst snd] in *.
  assert (Hupd : k0 ∉ jkey <$> upd).
  { intros (j & -> & Hj)%elem_of_list_fmap. by apply Hk, P1. }
  assert (Htoq : k0 ∉ jkey <$> toq).
  { intros (j & -> & Hj)%elem_of_list_fmap. by apply Hk, P3. }
  destruct (live d !! k0) as [j|] eqn:Hl.
  - assert (Hjk : jkey j = k0) by (by apply (proj1 Hdb)). intros [= <- <- <- <-].
    split; [|split; [set_solver|split; [set_solver|split; [set_solver|split; [set_solver|right; split; [done|set_solver]]]]]].
    split; cbn [fst snd].
    + intros j' [Hj|Hj]%elem_of_app.
      * destruct (P1 _ Hj). split; [done|]. apply elem_of_union. by right.
      * apply elem_of_list_singleton in Hj as ->. rewrite Hjk. split; [done|]. apply elem_of_union. left. by apply elem_of_singleton.
    + rewrite fmap_app. apply NoDup_app. split; [done|]. split; [|apply NoDup_singleton].
      intros x Hx [->|[]%elem_of_nil]%elem_of_cons. congruence.
    + intros j' Hj. destruct (P3 _ Hj) as (? & ? & ? & ?). split_and!; try done. apply elem_of_union. by right.
    + done.
    + intros k j' Hk' Hrec. apply elem_of_union in Hk' as [->%elem_of_singleton|Hk'].
      * unfold record_of in Hrec. rewrite Hl in Hrec. injection Hrec as <-. split.
        -- left. split; [done|]. apply elem_of_app. right. by apply elem_of_list_singleton.
        -- intros g Hg1 Hg2. destruct (decide (g ∈ groups)); [set_solver|].
           apply elem_of_union. right. apply elem_of_union. right. apply elem_of_filter. split; [done|].
           by apply elem_of_list_to_set.
      * destruct (P5 _ _ Hk' Hrec) as [H1 H2]. split.
        -- destruct H1 as [[? ?]|?]; [left|by right]. split; [done|]. apply elem_of_app. by left.
        -- intros g Hg1 Hg2. specialize (H2 g Hg1 Hg2). set_solver.
    + intros k [->%elem_of_singleton|Hk']%elem_of_union; [done|by apply P6].
    + intros g [Hg'|[Hg'|[[Hg1 Hg2] Hg3]%elem_of_filter]%elem_of_union]%elem_of_union.
      * apply P7. set_solver.
      * apply P7. set_solver.
      * apply elem_of_list_to_set in Hg3. eapply reached_step; [by apply Hpre|done| |done|done].
        unfold record_of. by rewrite Hl.
  - destruct (decide (k0 ∈ nk)) as [Hnk|Hnk].
    { intros [= <- <- <- <-].
      split; [|split; [set_solver|split; [set_solver|split; [set_solver|split; [set_solver|by left]]]]].
      split; cbn [fst snd]; try done.
      + intros j' Hj. destruct (P1 _ Hj). split; [done|]. apply elem_of_union. by right.
      + intros j' Hj. destruct (P3 _ Hj) as (? & ? & ? & ?). split_and!; try done. apply elem_of_union. by right.
      + intros k j' Hk' Hrec. apply elem_of_union in Hk' as [->%elem_of_singleton|Hk']; [|by apply P5].
        unfold record_of in Hrec. rewrite Hl, decide_True in Hrec by done. done.
      + intros k [->%elem_of_singleton|Hk']%elem_of_union; [done|by apply P6]. }
    destruct (complete d !! k0) as [j|] eqn:Hc; cbn [fmap option_fmap option_map].
    2: { intros [= <- <- <- <-].
      split; [|split; [set_solver|split; [set_solver|split; [set_solver|split; [set_solver|by left]]]]].
      split; cbn [fst snd]; try done.
      + intros j' Hj. destruct (P1 _ Hj). split; [done|]. apply elem_of_union. by right.
      + intros j' Hj. destruct (P3 _ Hj) as (? & ? & ? & ?). split_and!; try done. apply elem_of_union. by right.
      + intros k j' Hk' Hrec. apply elem_of_union in Hk' as [->%elem_of_singleton|Hk']; [|by apply P5].
        unfold record_of in Hrec. rewrite Hl, decide_False, Hc in Hrec by done. done.
      + intros k [->%elem_of_singleton|Hk']%elem_of_union; [done|by apply P6]. }
    assert (Hjk : jkey j = k0) by (by apply (proj2 Hdb)). intros [= <- <- <- <-].
    split; [|split; [set_solver|split; [set_solver|split; [set_solver|split; [set_solver|right; split; [done|set_solver]]]]]].
    split; cbn [fst snd].
    + intros j' Hj. destruct (P1 _ Hj). split; [done|]. apply elem_of_union. by right.
    + done.
    + intros j' [Hj|Hj]%elem_of_app.
      * destruct (P3 _ Hj) as (? & ? & ? & ?). split_and!; try done. apply elem_of_union. by right.
      * apply elem_of_list_singleton in Hj as ->. rewrite Hjk. split_and!; try done. apply elem_of_union. left. by apply elem_of_singleton.
    + rewrite fmap_app. apply NoDup_app. split; [done|]. split; [|apply NoDup_singleton].
      intros x Hx [->|[]%elem_of_nil]%elem_of_cons. congruence.
    + intros k j' Hk' Hrec. apply elem_of_union in Hk' as [->%elem_of_singleton|Hk'].
      * unfold record_of in Hrec. rewrite Hl, decide_False, Hc in Hrec by done. injection Hrec as <-. split.
        -- right. split; [done|]. apply elem_of_app. right. by apply elem_of_list_singleton.
        -- intros g Hg1 Hg2. destruct (decide (g ∈ groups)); [set_solver|].
           apply elem_of_union. right. apply elem_of_union. right. apply elem_of_filter. split; [done|].
           by apply elem_of_list_to_set.
      * destruct (P5 _ _ Hk' Hrec) as [H1 H2]. split.
        -- destruct H1 as [?|[? ?]]; [by left|right]. split; [done|]. apply elem_of_app. by left.
        -- intros g Hg1 Hg2. specialize (H2 g Hg1 Hg2). set_solver.
    + intros k [->%elem_of_singleton|Hk']%elem_of_union; [done|by apply P6].
    + intros g [Hg'|[Hg'|[[Hg1 Hg2] Hg3]%elem_of_filter]%elem_of_union]%elem_of_union.
      * apply P7. set_solver.
      * apply P7. set_solver.
      * apply elem_of_list_to_set in Hg3. eapply reached_step; [by apply Hpre|done| |done|done].
        unfold record_of. by rewrite Hl, decide_False, Hc.
Qed.

Lemma pass_fold groups prefixes l done toq upd newg done' toq' upd' newg' :
  DP (groups ∪ newg) (done, toq, upd) → (∀ gk, gk ∈ l → gk ∈ rdtk d) → (∀ g, g ∈ prefixes → reached d nk G g) →
  fold_left (pass_one groups prefixes) l (done, toq, upd, newg) = (done', toq', upd', newg') →
  DP (groups ∪ newg') (done', toq', upd') ∧ (∀ g k, (g, k) ∈ l → g ∈ prefixes → k ∈ done') ∧ done ⊆ done' ∧
  (∀ k, k ∈ done' → k ∈ done ∨ k ∈ snd <$> l) ∧ newg ⊆ newg' ∧ (newg' = newg ∨ ∃ k, k ∉ done ∧ k ∈ done').
Proof.
  intros HP Hl Hpre. revert done toq upd newg HP. induction l as [|[g0 k0] l IH]; intros done toq upd newg HP; cbn [fold_left].
  { intros [= <- <- <- <-]. split; [done|]. split; [by intros ? ? ?%elem_of_nil|]. split; [done|].
    split; [by left|]. split; [done|by left]. }
  destruct (pass_one groups prefixes (done, toq, upd, newg) (g0, k0)) as [[[done1 toq1] upd1] newg1] eqn:H1.
  intros Hf. destruct (pass_one_facts _ _ _ _ _ _ _ _ _ _ _ _ HP ltac:(apply Hl; left) Hpre H1) as (P1 & P2 & P3 & P4 & P5 & P6).
  destruct (IH ltac:(intros gk Hgk; apply Hl; by right) _ _ _ _ P1 Hf) as (Q1 & Q2 & Q3 & Q4 & Q5 & Q6).
  split; [done|]. split; [|split; [by etrans|split; [|split; [by etrans|]]]].
  - intros g k [[= -> ->]|Hin]%elem_of_cons Hg; [by apply Q3, P2|by eapply Q2].
  - intros k Hk. destruct (Q4 _ Hk) as [Hk1|Hk1].
    + apply P4 in Hk1 as [->%elem_of_singleton|?]%elem_of_union; [right|by left]. cbn. left.
    + right. cbn. by right.
  - destruct Q6 as [->|(k & Hk1 & Hk2)].
    + destruct P6 as [->|[? ?]]; [by left|right]. exists k0. split; [done|by apply Q3].
    + right. exists k. split; [|done]. intros ?. by apply Hk1, P3.
Qed.

Lemma dependents_pass_fold groups prefixes acc :
  dependents_pass d nk groups prefixes acc = fold_left (pass_one groups prefixes) (elements (rdtk d)) (acc, ∅).
Proof. done. Qed.

Definition rkeys : gset key := set_map snd (rdtk d).

(** the whole search, with fuel enough *)
Lemma dependents_facts fuel groups prefixes done toq upd toq' upd' :
  DP groups (done, toq, upd) → prefixes ⊆ groups → done ⊆ rkeys →
  (∀ g k, g ∈ groups → g ∉ prefixes → (g, k) ∈ rdtk d → k ∈ done) →
  (size (rkeys ∖ done) < fuel)%nat →
  dependents fuel d nk groups prefixes (done, toq, upd) = (toq', upd') →
  ∃ known done', DP known (done', toq', upd') ∧ groups ⊆ known ∧
    ∀ g k, g ∈ known → (g, k) ∈ rdtk d → k ∈ done'.
Proof.
  revert groups prefixes done toq upd. induction fuel as [|fuel IH]; intros groups prefixes done toq upd HP Hpg Hdk Hproc Hfuel; [lia|].
  cbn [dependents]. rewrite dependents_pass_fold.
  destruct (fold_left (pass_one groups prefixes) (elements (rdtk d)) (done, toq, upd, ∅)) as [[[done1 toq1] upd1] newg] eqn:Hf.
  assert (HP0 : DP (groups ∪ ∅) (done, toq, upd)) by (by rewrite union_empty_r_L).
  destruct (pass_fold _ _ _ _ _ _ _ _ _ _ _ HP0 (λ gk, proj1 (elem_of_elements _ _)) ltac:(intros g Hg; by apply (dp_known _ _ HP), Hpg) Hf)
    as (Q1 & Q2 & Q3 & Q4 & Q5 & Q6).
  assert (Hall : ∀ g k, g ∈ groups → (g, k) ∈ rdtk d → k ∈ done1).
  { intros g k Hg Hin. destruct (decide (g ∈ prefixes)) as [Hp|Hp].
    - eapply Q2; [by apply elem_of_elements|done].
    - apply Q3. by eapply Hproc. }
  destruct (decide (newg = ∅)) as [->|Hne].
  { intros [= <- <-]. exists groups, done1. rewrite union_empty_r_L in Q1. done. }
  assert (Hdk1 : done1 ⊆ rkeys).
  { intros k Hk. destruct (Q4 _ Hk) as [Hk1|(gk & -> & Hk1)%elem_of_list_fmap]; [by apply Hdk|].
    apply elem_of_map. exists gk. split; [done|]. by apply elem_of_elements. }
  intros Hd. destruct (IH _ newg _ _ _ Q1 (union_subseteq_r _ _) Hdk1) as (known & done' & R1 & R2 & R3); [| |exact Hd|].
  - intros g k [Hg|Hg]%elem_of_union Hn Hin; [by eapply Hall|done].
  - clear IH Hf. destruct Q6 as [->|(k & Hk1 & Hk2)]; [done|].
    assert (size (rkeys ∖ done1) < size (rkeys ∖ done))%nat; [|lia].
    apply subset_size. split; [set_solver|]. intros Hsub.
    assert (k ∈ rkeys ∖ done) as Hk by (apply elem_of_difference; split; [by apply Hdk1|done]).
    apply Hsub in Hk. set_solver.
  - exists known, done'. split; [done|]. split; [set_solver|done].
Qed.
End passes.

Lemma size_list_le (l : list key) : (size (list_to_set l : gset key) ≤ length l)%nat.
Proof.
  induction l as [|x l IH]; cbn [list_to_set length]; [by rewrite size_empty|].
  rewrite size_union_alt, size_singleton.
  pose proof (subseteq_size ((list_to_set l : gset key) ∖ {[x]}) (list_to_set l) ltac:(set_solver)). lia.
Qed.
Lemma size_snd (X : gset (string * key)) : (size (set_map snd X : gset key) ≤ size X)%nat.
Proof.
  unfold set_map. etrans; [apply size_list_le|]. rewrite fmap_length. done.
Qed.
(** The search for dependants: exactly the affected keys with a record *)
Lemma dependents_all d nk G toq upd : db_keys d →
  dependents (S (size (rdtk d))) d nk G G (∅, [], []) = (toq, upd) →
  NoDup (jkey <$> upd) ∧ NoDup (jkey <$> toq) ∧
  (∀ j, j ∈ upd ↔ affected d nk G (jkey j) ∧ live d !! jkey j = Some j) ∧
  (∀ j, j ∈ toq ↔ affected d nk G (jkey j) ∧ live d !! jkey j = None ∧ jkey j ∉ nk ∧ complete d !! jkey j = Some j).
Proof.
  intros Hdb Hd.
  assert (HP : DP d nk G G (∅, [], [])).
  { split; cbn; try (by intros ? ?%elem_of_nil); try (by constructor); try set_solver. }
  destruct (dependents_facts d nk G Hdb (S (size (rdtk d))) G G ∅ [] [] toq upd HP) as (known & dn & [P1 P2 P3 P4 P5 P6 P7] & H2 & H3);
    [done|set_solver|set_solver| |done|].
  { apply Nat.lt_succ_r. etrans; [apply subseteq_size with (Y := rkeys d); set_solver|].
    unfold rkeys. apply size_snd. }
  cbn [fst snd] in *.
  assert (Hreach : ∀ g, reached d nk G g → g ∈ known).
  { intros g Hr. induction Hr as [g Hg|g k j g' Hr IH Hin Hrec Hg Hne]; [by apply H2|].
    by destruct (P5 k j (H3 _ _ IH Hin) Hrec) as [_ ?]; auto. }
  assert (Hdone : ∀ k, affected d nk G k → k ∈ dn).
  { intros k (g & Hg & Hin). by eapply H3; [apply Hreach|]. }
  split; [done|]. split; [done|]. split.
  - intros j. split.
    + intros Hj. destruct (P1 _ Hj). split; [by apply P6|done].
    + intros [Ha Hl]. destruct (P5 (jkey j) j (Hdone _ Ha)) as [[[_ ?]|[? _]] _]; [by unfold record_of; rewrite Hl|done|congruence].
  - intros j. split.
    + intros Hj. destruct (P3 _ Hj) as (? & ? & ? & ?). split_and!; try done. by apply P6.
    + intros (Ha & Hl & Hn & Hc). destruct (P5 (jkey j) j (Hdone _ Ha)) as [[[? _]|[_ ?]] _]; [|congruence|done].
      unfold record_of. by rewrite Hl, decide_False.
Qed.
