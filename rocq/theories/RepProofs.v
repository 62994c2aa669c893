(** Proofs on lookups by rep group. *)
From Coq Require Import ZArith Lia String Ascii.
From stdpp Require Import base option strings gmap list sorting.
From RecordUpdate Require Import RecordSet.
From Verif Require Import UtilModel LearnModel LearnProofs RepModel RepSpec.
Import RecordSetNotations.
Open Scope Z_scope.

(** * Strings *)
Lemma hex_length k v : String.length (hex k v) = k.
Proof. revert v. induction k as [|k IH]; intros v; [done|]. cbn [hex]. rewrite str_app_length, IH. cbn. lia. Qed.
Lemma key_length k : is_key k → String.length k = 32%nat.
Proof. intros (l & h & _ & _ & ->). unfold byte_key. rewrite str_app_length, !hex_length. done. Qed.
Lemma drop_prefix_app p s : drop_prefix p (p +:+ s) = s.
Proof.
  unfold drop_prefix. rewrite str_app_length. replace (String.length p + String.length s - String.length p)%nat with (String.length s) by lia.
  induction p as [|a p IH]; [|exact IH]. change (substring 0 (String.length s) s = s). clear. induction s as [|a s IH]; [done|]. cbn. by f_equal.
Qed.
Lemma has_suffix_spec suf s : has_suffix suf s = true ↔ ∃ a, s = a +:+ suf.
Proof.
  induction s as [|c s IH]; cbn [has_suffix]; rewrite orb_true_iff, bool_decide_eq_true.
  - split; [intros [<-|?]; [by exists EmptyString|done]|]. intros [[|x a] E]; [by left|done].
  - rewrite IH. split.
    + intros [->|[a ->]]; [by exists EmptyString|by exists (String c a)].
    + intros [[|x a] E]; [by left|]. injection E as -> ->. right. by exists a.
Qed.
Lemma contains_spec sub s : contains sub s = true ↔ ∃ a b, s = a +:+ sub +:+ b.
Proof.
  induction s as [|c s IH]; cbn [contains]; rewrite orb_true_iff, prefix_spec.
  - split; [intros [[b E]|?]; [by exists EmptyString, b|done]|]. intros ([|x a] & b & E); [left; by exists b|done].
  - rewrite IH. split.
    + intros [[b E]|(a & b & ->)]; [by exists EmptyString, b|by exists (String c a), b].
    + intros ([|x a] & b & E); [left; by exists b|]. injection E as -> ->. right. by exists a, b.
Qed.
Lemma matches_spec g rg m : rg_matches g rg m = true ↔ matching g rg m.
Proof. destruct m; cbn; [apply bool_decide_eq_true|apply contains_spec|apply prefix_spec|apply has_suffix_spec]. Qed.
Lemma lookup_key_inj g k g' k' : String.length k = String.length k' → lookup_key g k = lookup_key g' k' → g = g' ∧ k = k'.
Proof.
  intros Hl H. unfold lookup_key in H. rewrite <- !app_assoc_s in H. apply app_inj_same in H as [H ->]; [|done].
  apply app_inj_same in H as [-> _]; done.
Qed.
Lemma lookup_key_length g k : String.length (lookup_key g k) = (String.length g + (4 + String.length k))%nat.
Proof. unfold lookup_key. by rewrite !str_app_length. Qed.

(** * Storing *)
Lemma put_lookups_some b ks b' : put_lookups b ks = Some b' → (∀ k, k ∈ ks → storable k = true) ∧ b' = fold_left (λ b k, <[k := 0]> b) ks b.
Proof.
  unfold put_lookups. destruct (forallb storable ks) eqn:E; [|done]. intros [= <-]. split; [|done]. intros k Hk. rewrite forallb_forall in E. apply E. by apply elem_of_list_In.
Qed.
Lemma put_lookups_none b ks : put_lookups b ks = None ↔ ∃ k, k ∈ ks ∧ storable k = false.
Proof.
  unfold put_lookups. destruct (forallb storable ks) eqn:E; split.
  - done.
  - intros (k & Hk & Hs). rewrite forallb_forall in E. by rewrite E in Hs by (by apply elem_of_list_In).
  - intros _. induction ks as [|a ks IH]; [done|]. cbn in E. apply andb_false_iff in E as [E|E]; [exists a; split; [left|done]|].
    destruct (IH E) as (k & Hk & Hs). exists k. split; [by right|done].
  - done.
Qed.
Lemma put_fold ks : ∀ (b : bucket) s (v : Z), fold_left (λ b k, <[k := 0]> b) ks b !! s = Some v ↔ (s ∈ ks ∧ v = 0) ∨ (s ∉ ks ∧ b !! s = Some v).
Proof.
  induction ks as [|k ks IH]; intros b s v; cbn [fold_left].
  - split; [intros H; right; split; [apply not_elem_of_nil|done]|]. intros [[H _]|[_ H]]; [by apply elem_of_nil in H|done].
  - rewrite IH, elem_of_cons. destruct (decide (s = k)) as [->|Hne].
    + rewrite lookup_insert. split.
      * intros [[? ->]|[? [= <-]]]; left; auto.
      * intros [[_ ->]|[Hn _]]; [|destruct Hn; by left]. destruct (decide (k ∈ ks)); [left|right]; done.
    + rewrite lookup_insert_ne by done. split.
      * intros [[? ->]|[Hn ?]]; [left; auto|right]. split; [|done]. intros [?|?]; done.
      * intros [[[?|?] ->]|[Hn ?]]; [done|left; auto|right]. split; [|done]. intros ?. apply Hn. by right.
Qed.
Lemma put_jobs_lookup l : ∀ (m : gmap string rjob) k j, put_jobs m l !! k = Some j → (k, j) ∈ l ∨ (k ∉ l.*1 ∧ m !! k = Some j).
Proof.
  unfold put_jobs. induction l as [|[k0 j0] l IH]; intros m k j; cbn [fold_left fst snd]; [intros H; right; split; [apply not_elem_of_nil|done]|].
  intros [H|[Hn H]]%IH; [left; by right|]. destruct (decide (k = k0)) as [->|Hne].
  - rewrite lookup_insert in H. injection H as <-. left. left.
  - rewrite lookup_insert_ne in H by done. right. split; [|done]. cbn. rewrite not_elem_of_cons. done.
Qed.
Lemma put_jobs_in l : ∀ (m : gmap string rjob) k, k ∈ l.*1 → is_Some (put_jobs m l !! k).
Proof.
  unfold put_jobs. induction l as [|[k0 j0] l IH]; intros m k; cbn [fold_left fst snd]; [by intros ?%elem_of_nil|].
  cbn. intros [->|H]%elem_of_cons; [|by apply IH]. destruct (decide (k0 ∈ l.*1)) as [H|H]; [by apply IH|].
  clear IH. revert m H. generalize j0. induction l as [|[k1 j1] l IH]; intros j m H; cbn; [by rewrite lookup_insert|].
  cbn in H. apply not_elem_of_cons in H as [H1 H2]. rewrite insert_commute by done. by apply IH.
Qed.
Lemma put_jobs_old l : ∀ (m : gmap string rjob) k, is_Some (m !! k) → is_Some (put_jobs m l !! k).
Proof.
  unfold put_jobs. induction l as [|[k0 j0] l IH]; intros m k H; cbn [fold_left fst snd]; [done|]. apply IH.
  destruct (decide (k = k0)) as [->|Hne]; [by rewrite lookup_insert|by rewrite lookup_insert_ne].
Qed.

(** * The fields after an add *)
Definition only_items (st st' : rstate) : Prop :=
  live st' = live st ∧ comp st' = comp st ∧ rtk st' = rtk st ∧ rgs st' = rgs st ∧ ends st' = ends st.
Lemma only_items_refl st : only_items st st.
Proof. done. Qed.
Lemma only_items_trans s1 s2 s3 : only_items s1 s2 → only_items s2 s3 → only_items s1 s3.
Proof. intros (A & B & C & D & E) (A' & B' & C' & D' & E'). unfold only_items. rewrite A', B', C', D', E'. done. Qed.
Lemma update_items_only l : ∀ st, only_items st (update_items l st).1 ∧ rpl (update_items l st).1 = rpl st.
Proof.
  induction l as [|kj l IH]; intros st; cbn [update_items]; [done|]. destruct (items st !! kj.1); [|done].
  destruct (IH (st <| items ::= <[kj.1:=kj.2]> |>)) as [H1 H2]. split; [|by rewrite H2; destruct st].
  apply (only_items_trans _ (st <| items ::= <[kj.1:=kj.2]> |>)); [by destruct st|done].
Qed.
Lemma add_items_only l : ∀ st, only_items st (fold_left add_item l st).
Proof.
  induction l as [|kj l IH]; intros st; cbn [fold_left]; [done|]. apply (only_items_trans _ (add_item st kj)); [|apply IH].
  unfold add_item. destruct (items st !! kj.1); [done|by destruct st].
Qed.
Lemma enqueue_only st l : only_items st (enqueue st l).
Proof.
  unfold enqueue. apply (only_items_trans _ (fold_left add_item l st)); [apply add_items_only|]. by destruct (fold_left add_item l st).
Qed.
Lemma kept_eq i st jobs : kept i st jobs =
  if i then List.filter (λ kj, bool_decide (live st !! kj.1 = None ∧ comp st !! kj.1 = None)) jobs else jobs.
Proof.
  unfold kept. destruct i; [|done]. apply List.filter_ext. intros [k j]. unfold was_added. cbn.
  destruct (live st !! k); [by rewrite bool_decide_false by (intros [? _]; done)|].
  destruct (comp st !! k); [by rewrite bool_decide_false by (intros [_ ?]; done)|by rewrite bool_decide_true].
Qed.
Lemma kept_sub i st jobs kj : kj ∈ kept i st jobs → kj ∈ jobs.
Proof. unfold kept. destruct i; [|done]. intros H%elem_of_list_In. apply filter_In in H as [H _]. by apply elem_of_list_In. Qed.

Definition tkeys (new : list (string * rjob)) : list string := (λ kj, lookup_key (j_rg kj.2) kj.1) <$> new.
Definition gkeys (new : list (string * rjob)) : list string := (λ kj : string * rjob, j_rg kj.2) <$> new.
Definition stored_st (st : rstate) (new old : list (string * rjob)) : rstate :=
  st <| rtk := default (rtk st) (put_lookups (rtk st) (tkeys new)) |> <| rgs := default (rgs st) (put_lookups (rgs st) (gkeys new)) |>
     <| live := put_jobs (live st) (new ++ old) |>.
Lemma add_unfold i jobs deps st : add_jobs i jobs deps st =
  let new := kept i st jobs in let old := again st new deps in
  if bool_decide (new = []) then (st, true) else
  match put_lookups (rtk st) (tkeys new), put_lookups (rgs st) (gkeys new) with
  | Some _, Some _ => let '(st2, ok) := update_items (to_update st deps) (stored_st st new old) in
                      if ok then (enqueue st2 (match old with [] => new | _ => old ++ jobs end), true) else (st2, false)
  | _, _ => (stored_st st new old, false)
  end.
Proof. unfold add_jobs. cbv zeta. destruct (kept i st jobs) eqn:E; [done|]. rewrite bool_decide_false by done. done. Qed.
Lemma add_fields i jobs deps st : let new := kept i st jobs in let old := again st new deps in
  new ≠ [] → only_items (stored_st st new old) (add_jobs i jobs deps st).1.
Proof.
  cbv zeta. intros Hn. rewrite add_unfold. cbv zeta. rewrite bool_decide_false by done.
  destruct (put_lookups (rtk st) _); [|done]. destruct (put_lookups (rgs st) _); [|done].
  destruct (update_items _ _) as [st2 ok] eqn:E. pose proof (update_items_only (to_update st deps) (stored_st st (kept i st jobs) (again st (kept i st jobs) deps))) as [H _].
  rewrite E in H. cbn [fst] in H. destruct ok; [|done]. cbn [fst]. eapply only_items_trans; [exact H|]. apply enqueue_only.
Qed.
Lemma add_nil i jobs deps st : kept i st jobs = [] → add_jobs i jobs deps st = (st, true).
Proof. intros H. rewrite add_unfold. cbv zeta. by rewrite bool_decide_true. Qed.
Lemma delete_jobs_fields ks : ∀ st, let st' := delete_jobs ks st in
  comp st' = comp st ∧ rtk st' = rtk st ∧ rgs st' = rgs st ∧ ends st' = ends st ∧
  (∀ k, items st' !! k = if decide (k ∈ ks) then None else items st !! k) ∧
  (∀ k, live st' !! k = if decide (k ∈ ks ∧ is_Some (items st !! k)) then None else live st !! k).
Proof.
  unfold delete_jobs. induction ks as [|k0 ks IH]; intros st; cbn [fold_left]; cbv zeta.
  - split_and!; try done; intros k; (rewrite decide_False; [done|]; first [intros [H _]|intros H]; by apply elem_of_nil in H).
  - destruct (IH (delete_one st k0)) as (A & B & C & D & E & F). unfold delete_one in *. destruct (items st !! k0) as [j|] eqn:E0.
    + destruct st as [lv cp rt rg en it rp]. cbn in *. split_and!; try done.
      * intros k. rewrite E. destruct (decide (k = k0)) as [->|Hne].
        { rewrite lookup_delete. rewrite (decide_True (P := k0 ∈ k0 :: ks)) by left. by destruct (decide _). }
        rewrite lookup_delete_ne by done. destruct (decide (k ∈ ks)); [rewrite decide_True by (by right)|rewrite decide_False by (rewrite elem_of_cons; intros [?|?]; done)]; done.
      * intros k. rewrite F. destruct (decide (k = k0)) as [->|Hne].
        { rewrite (decide_True (P := k0 ∈ k0 :: ks ∧ _)) by (split; [left|by eexists]). rewrite !lookup_delete. by destruct (decide _). }
        rewrite !lookup_delete_ne by done.
        destruct (decide (k ∈ ks ∧ is_Some (it !! k))) as [[? ?]|Hn]; [rewrite decide_True by (split; [by right|done]); done|].
        rewrite decide_False; [done|]. intros [[?|?]%elem_of_cons ?]; [done|]. by apply Hn.
    + split_and!; try done.
      * intros k. rewrite E. destruct (decide (k = k0)) as [->|Hne].
        { rewrite (decide_True (P := k0 ∈ k0 :: ks)) by left. rewrite E0. by destruct (decide _). }
        destruct (decide (k ∈ ks)); [rewrite decide_True by (by right)|rewrite decide_False by (rewrite elem_of_cons; intros [?|?]; done)]; done.
      * intros k. rewrite F. destruct (decide (k ∈ ks ∧ is_Some (items st !! k))) as [[? ?]|Hn]; [rewrite decide_True by (split; [by right|done]); done|].
        rewrite decide_False; [done|]. intros [[->|?]%elem_of_cons Hs]; [rewrite E0 in Hs; by destruct Hs|by apply Hn].
Qed.
(** * Induction over histories *)
Lemma rrun_ind (C : rstate → rreq → Prop) (P : rstate → Prop) : (∀ st r, P st → C st r → P (rstep st r)) →
  ∀ h st, P st → along C h st → P (rrun h st).
Proof. intros Hs h. induction h as [|r h IH]; intros st H0 Ha; [done|]. destruct Ha as [Hc Ha]. unfold rrun. cbn [fold_left]. apply IH; [by apply Hs|done]. Qed.
Lemma along_impl (C D : rstate → rreq → Prop) h : ∀ st, (∀ st r, C st r → D st r) → along C h st → along D h st.
Proof. induction h as [|r h IH]; intros st H; [done|]. intros [Hc Ha]. split; [by apply H|by apply IH]. Qed.
Lemma along_and (C D : rstate → rreq → Prop) h : ∀ st, along C h st → along D h st → along (λ st r, C st r ∧ D st r) h st.
Proof. induction h as [|r h IH]; intros st; [done|]. intros [Hc Ha] [Hd Hb]. split; [done|by apply IH]. Qed.
Lemma along_keyed h : ∀ st, (∀ r, r ∈ h → keyed r) → along (λ _ r, keyed r) h st.
Proof. induction h as [|r h IH]; intros st H; [done|]. split; [apply H; left|apply IH; intros r' Hr'; apply H; by right]. Qed.
