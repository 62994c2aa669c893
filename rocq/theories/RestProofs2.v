(** The DELETE requests of the REST interface as a whole. *)
From Coq Require Import ZArith Lia String Ascii.
From stdpp Require Import base option strings gmap list.
From RecordUpdate Require Import RecordSet.
From Verif Require Import GoHeap QueueModel ServerModel ServerSpec ServerCore ServerEff ServerEff4 ServerKey ServerDep
  ListModel ListSpec LearnProofs RestModel RestSpec RestProofs.
Import RecordSetNotations.
Open Scope Z_scope.

Lemma cancel_delete now od la r limit s : Good s → any_orders od → r_state r = "deletable"%string → r_limit r = Some limit →
  ∃ s' h, rest_cancel now od la r s = Some (s', RHandled h, []) ∧
    (∀ k, removed s s' k → names od la r k ∧ (∀ k', is_Some (seen s' k') → k ∉ waits_for s k') ∧ live (sdb s') !! k = None) ∧
    (∀ k, ¬ removed s s' k → untouched s s' k) ∧ complete (sdb s') = complete (sdb s) ∧ ∀ k, k ∈ h ↔ removed s s' k.
Proof.
  intros [HS HD HQ HW] Hod Hst Hl. assert (HG : DG s) by (by split). unfold rest_cancel. rewrite bool_decide_eq_true_2.
  2: { rewrite Hst. apply (bool_decide_unpack _). by vm_compute. }
  rewrite Hl. destruct (find_spec od la r limit s HS Hod) as (ks & -> & Hn & _).
  { rewrite Hst. unfold three. right. right. left. }
  cbn beta iota zeta delta [mbind option_bind]. rewrite bool_decide_eq_true_2 by done. unfold rest_delete.
  destruct (delete_rounds_total (S (length ks)) (o_deps od) ks s HG) as [[s1 dels] Hr]. rewrite Hr.
  cbn beta iota zeta delta [mbind option_bind].
  destruct (delete_rounds_facts _ _ _ _ _ _ HS Hr) as (G1 & G2 & G3 & G4 & G5 & G6).
  destruct (delete_rounds_waits _ _ _ _ _ _ HG Hr) as [HG1 Hg].
  assert (Hrem : ∀ k, k ∈ concat dels ↔ removed s s1 k).
  { intros k. unfold removed. rewrite seen_some, seen_none by done. split; [by apply (go_in Hg)|].
    intros [[? Ha] Hb]. destruct (decide (k ∈ concat dels)) as [|Hno]; [done|]. rewrite (go_out Hg) in Hb by done. congruence. }
  assert (Hlv : ∀ k, live (sdb s1) !! k = if decide (k ∈ concat dels) then None else live (sdb s) !! k).
  { intros k. rewrite G6. cbn. apply foldr_delete_at. }
  exists s1, (filter (λ k, k ∈ concat dels) ks). split; [done|]. split_and!.
  - intros k Hk%Hrem. split; [by apply Hn, G3|]. split; [|by rewrite Hlv, decide_True].
    intros k' Hk' Hw. apply (go_free Hg k k' Hk), Hrem in Hw as [_ Hno]. rewrite Hno in Hk'. by destruct Hk'.
  - intros k Hk. assert (Hkd : k ∉ concat dels) by (by rewrite Hrem). unfold untouched.
    rewrite !seen_find, (go_out Hg), Hlv, decide_False by done. split; [done|]. split; [|done]. by apply (gone_waits s s1 (concat dels)).
  - by rewrite G6.
  - intros k. rewrite elem_of_list_filter, Hrem. split; [by intros [? _]|]. intros Hk. split; [done|]. by apply G3, Hrem.
Qed.
(** everything asked for goes, if nothing that is left waits for it: also what is running *)
Lemma cancel_delete_all now od la r limit s s' a l (rank : key → nat) (R : list key) : Good s → any_orders od → r_state r = "deletable"%string →
  r_limit r = Some limit → limit ≤ 0 → no_keys r s → rest_cancel now od la r s = Some (s', a, l) → NoDup R →
  (∀ k, k ∈ R → is_Some (seen s k) ∧ names od la r k) →
  (∀ k k', k ∈ R → k ∈ waits_for s k' → k' ∈ R ∧ (rank k < rank k')%nat) →
  ∀ k, k ∈ R → seen s' k = None.
Proof.
  intros [HS HD HQ HW] Hod Hst Hl Hlim Hnk Hc HND HR Hcl. assert (HG : DG s) by (by split). revert Hc. unfold rest_cancel. rewrite bool_decide_eq_true_2.
  2: { rewrite Hst. apply (bool_decide_unpack _). by vm_compute. }
  rewrite Hl. destruct (find_spec od la r limit s HS Hod) as (ks & -> & Hn & _ & Hall & _).
  { rewrite Hst. unfold three. right. right. left. }
  cbn beta iota zeta delta [mbind option_bind]. rewrite bool_decide_eq_true_2 by done. unfold rest_delete.
  destruct (delete_rounds (S (length ks)) (o_deps od) ks s) as [[s1 dels]|] eqn:Hr; [|done].
  cbn beta iota zeta delta [mbind option_bind]. intros [= <- <- <-].
  destruct (delete_rounds_waits _ _ _ _ _ _ HG Hr) as [HG1 Hg].
  assert (HRk : R ⊆ ks).
  { intros k Hk. destruct (HR k Hk) as [[[i j] Hs] Hna]. apply Hall; try done. exists i, j. rewrite Hst. done. }
  intros k Hk. apply seen_none; [apply HG1|]. apply (go_in Hg).
  apply (delete_rounds_all rank _ _ _ _ _ _ R HG Hr); try done.
  - assert (length R ≤ length ks)%nat; [|lia]. apply submseteq_length, NoDup_submseteq; [done|]. intros z Hz. by apply HRk.
  - intros z Hz. apply seen_some; [done|]. by apply HR.
Qed.
Lemma cancel_kill now od la r limit s : Good s → any_orders od → r_state r = "running"%string ∨ r_state r = "lost"%string → r_limit r = Some limit →
  no_keys r s →
  ∃ s' h l, rest_cancel now od la r s = Some (s', RHandled h, l) ∧
    live (sdb s') = live (sdb s) ∧ complete (sdb s') = complete (sdb s) ∧
    (∀ k, k ∉ h → seen s' k = seen s k) ∧
    (∀ k, k ∈ h → names od la r k ∧ ∃ j, seen s k = Some (SRun, j) ∧
       (r_state r = "running"%string → jlost j = false ∧ seen s' k = Some (SRun, j <| jkilled := true |>)) ∧
       (r_state r = "lost"%string → jlost j = true ∧ ∃ i j', seen s' k = Some (i, j') ∧ i ≠ SRun)) ∧
    (limit ≤ 0 → ∀ k, names od la r k → in_state (r_state r) s k → k ∈ h).
Proof.
  intros HG Hod Hst Hl Hnk. pose proof (g_s _ HG) as HS. unfold rest_cancel.
  assert (H3 : r_state r ∈ three) by (destruct Hst as [-> | ->]; unfold three; [left|right; left]).
  rewrite bool_decide_eq_true_2 by done. rewrite Hl.
  destruct (find_spec od la r limit s HS Hod H3) as (ks & -> & Hn & Hin & Hall & _).
  cbn beta iota zeta delta [mbind option_bind].
  rewrite bool_decide_eq_false_2 by (destruct Hst as [-> | ->]; done).
  destruct (kill_loop now ks s HG) as (s' & h & l & -> & HG' & Hlv & Hcp & Hk).
  { intros k Hk. destruct (Hin Hnk k Hk) as (i & j & -> & _). done. }
  exists s', h, l. split; [done|]. split; [done|]. split; [done|]. split_and!.
  - intros k. apply Hk.
  - intros k Hkh. destruct (Hk k) as (A1 & _ & A3). pose proof Hkh as [Hks (j & Hj)]%A1. split; [by apply Hn|]. exists j. split; [done|].
    specialize (A3 j Hkh Hj). destruct (Hin Hnk k Hks) as (i & j' & Hs & Hi1 & Hi2). rewrite Hs in Hj. injection Hj as -> ->.
    unfold killed_seen in A3. split; intros E.
    + destruct (Hi1 E) as [_ E']. rewrite E' in A3. done.
    + destruct (Hi2 E) as [_ E']. rewrite E' in A3. done.
  - intros Hlim k Hna Hst'. apply Hk. split; [by apply Hall|]. destruct Hst' as (i & j & Hs & Hi1 & Hi2). exists j. rewrite Hs.
    destruct Hst as [E|E]; [by destruct (Hi1 E) as [-> _]|by destruct (Hi2 E) as [-> _]].
Qed.
(** other states are refused *)
Lemma cancel_refused now od la r s : r_state r ∉ three ∨ r_limit r = None → rest_cancel now od la r s = Some (s, RBad, []).
Proof.
  intros H. unfold rest_cancel. case_bool_decide as Hd; [|done]. destruct H as [H|H]; [done|]. by rewrite H.
Qed.

(** ** Tokens *)
Lemma substring_all n s : substring 0 n s = s ∨ (n < String.length s)%nat.
Proof.
  revert n. induction s as [|a s IH]; intros [|n]; cbn; [by left..|right; lia|]. destruct (IH n) as [->|?]; [by left|right; lia].
Qed.
Lemma bearer_header a : String.prefix bearer a = true ↔ ∃ t, a = (bearer +:+ t)%string.
Proof. apply prefix_spec. Qed.
Lemma bearer_rest t : String.substring (String.length bearer) (String.length (bearer +:+ t) - String.length bearer) (bearer +:+ t) = t.
Proof.
  change (bearer +:+ t)%string with (String "B" (String "e" (String "a" (String "r" (String "e" (String "r" (String " " t))))))).
  change (String.length bearer) with 7%nat. cbn. rewrite ?Nat.sub_0_r.
  destruct (substring_all (String.length t) t) as [H|H]; [exact H|lia].
Qed.
Lemma authorized_iff token h : token ≠ ""%string → http_authorized token h = AAllowed ↔ shows_token token h.
Proof.
  intros Ht. unfold http_authorized, shows_token. destruct (h_form h); cbn [negb]; [|split; [done|by intros [? _]]].
  destruct (bool_decide_reflect (h_token h = ""%string)) as [E|E].
  - rewrite E. destruct (bool_decide_reflect (h_auth h = ""%string)) as [Ea|Ea].
    { rewrite Ea. split; [done|]. intros [_ [?|[_ H]]]; [congruence|discriminate H]. }
    destruct (String.prefix bearer (h_auth h)) eqn:Ep; cbn [negb].
    + apply bearer_header in Ep as [t Ep]. rewrite Ep, bearer_rest. destruct (bool_decide_reflect (t = token)) as [->|Hne].
      * split; [|done]. intros _. split; [done|]. right. done.
      * split; [done|]. intros [_ [?|[_ H]]]; [congruence|]. unfold bearer in H. by injection H as ->.
    + split; [done|]. intros [_ [?|[_ H]]]; [congruence|]. assert (String.prefix bearer (h_auth h) = true); [|congruence].
      apply bearer_header. by exists token.
  - destruct (bool_decide_reflect (h_token h = token)) as [Et|Et].
    + split; [|done]. intros _. split; [done|by left].
    + split; [done|]. intros [_ [?|[? _]]]; done.
Qed.
Lemma serve_denied {S A} (act act' : endpoint → S → S * A) deny token e h s s' : token ≠ ""%string → asks_token e = true → ¬ shows_token token h →
  fst (http_serve act deny token e h s) = s ∧ snd (http_serve act deny token e h s) = snd (http_serve act' deny token e h s').
Proof.
  intros Ht He Hn. unfold http_serve. rewrite He. pose proof (authorized_iff token h Ht).
  destruct (http_authorized token h); try done. tauto.
Qed.
Lemma serve_allowed {S A} (act : endpoint → S → S * A) deny token e h s : token ≠ ""%string → shows_token token h →
  http_serve act deny token e h s = act e s.
Proof.
  intros Ht Hs. unfold http_serve. rewrite (proj2 (authorized_iff token h Ht) Hs). by destruct (asks_token e).
Qed.
Lemma cli_iff token method given : String.length token = token_length → cli_allowed token method given = true ↔ given = token ∨ method = "ping"%string.
Proof.
  intros Hl. unfold cli_allowed. rewrite negb_true_iff, andb_false_iff, orb_false_iff, !negb_false_iff, Nat.eqb_eq, bool_decide_eq_true, bool_decide_eq_false.
  split.
  - intros [[_ ?]|?%dec_stable]; [by left|by right].
  - intros [->| ->]; [by left|right; tauto].
Qed.
