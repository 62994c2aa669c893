(** Proofs about the LSF scheduler: picking queues, counting jobs, the options of bsub. *)
From Coq Require Import ZArith Lia String Ascii.
From stdpp Require Import base option strings list gmap sorting pretty.
From Verif Require Import UtilModel UtilProofs UtilProps BsubModel LsfModel LsfSpec LsfProofs.
Open Scope Z_scope.

(** ** Better queues come first *)
Lemma rd_le (l k : list Z) : (∀ x, x ∈ l → x ∈ k) → (length (remove_dups l) ≤ length (remove_dups k))%nat.
Proof.
  intros H. apply submseteq_length. apply NoDup_submseteq; [apply NoDup_remove_dups|]. intros x. rewrite !elem_of_remove_dups. apply H.
Qed.
Lemma rd_lt (l k : list Z) y : (∀ x, x ∈ l → x ∈ k) → y ∈ k → y ∉ l → (length (remove_dups l) < length (remove_dups k))%nat.
Proof.
  intros H Hk Hl. assert (Hs : y :: remove_dups l ⊆+ remove_dups k).
  { apply NoDup_submseteq; [constructor; [by rewrite elem_of_remove_dups|apply NoDup_remove_dups]|].
    intros x. rewrite elem_of_cons, !elem_of_remove_dups. intros [->|Hx]; [done|by apply H]. }
  apply submseteq_length in Hs. cbn in Hs. lia.
Qed.
Section better.
Context (us : list seen) (worth : seen → string → Z).
Lemma above_le a b c : worth b c ≤ worth a c → above us worth a c ≤ above us worth b c.
Proof. intros H. apply inj_le. apply rd_le. intros x. rewrite !elem_of_list_filter. intros [? ?]. split; [lia|done]. Qed.
Lemma below_le a b c : worth a c ≤ worth b c → below us worth a c ≤ below us worth b c.
Proof. intros H. apply inj_le. apply rd_le. intros x. rewrite !elem_of_list_filter. intros [? ?]. split; [lia|done]. Qed.
Lemma above_lt a b c : a ∈ us → worth b c < worth a c → above us worth a c < above us worth b c.
Proof.
  intros Ha H. apply inj_lt. apply (rd_lt _ _ (worth a c)).
  - intros x. rewrite !elem_of_list_filter. intros [? ?]. split; [lia|done].
  - rewrite elem_of_list_filter, elem_of_list_fmap. eauto.
  - rewrite elem_of_list_filter. lia.
Qed.
Lemma below_lt a b c : a ∈ us → worth a c < worth b c → below us worth a c < below us worth b c.
Proof.
  intros Ha H. apply inj_lt. apply (rd_lt _ _ (worth a c)).
  - intros x. rewrite !elem_of_list_filter. intros [? ?]. split; [lia|done].
  - rewrite elem_of_list_filter, elem_of_list_fmap. eauto.
  - rewrite elem_of_list_filter. lia.
Qed.
Lemma values_below (l : list Z) n : n ∈ us → ∀ c, NoDup l → (∀ x, x ∈ l → x ∈ (λ m, worth m c) <$> us) → worth n c ∉ l → 1 + Z.of_nat (length l) ≤ Z.of_nat (length us).
Proof.
  intros Hn c Hl Hs Hx. assert (H : worth n c :: l ⊆+ (λ m, worth m c) <$> us).
  { apply NoDup_submseteq; [by constructor|]. intros x. rewrite elem_of_cons. intros [->|H]; [|by apply Hs]. apply elem_of_list_fmap. eauto. }
  apply submseteq_length in H. rewrite fmap_length in H. cbn in H. lia.
Qed.
Lemma above_bound n c : n ∈ us → 0 ≤ above us worth n c ≤ Z.of_nat (length us) - 1.
Proof.
  intros Hn. split; [unfold above; lia|]. assert (1 + above us worth n c ≤ Z.of_nat (length us)); [|lia].
  apply (values_below _ n Hn c); [apply NoDup_remove_dups| |].
  - intros x. rewrite elem_of_remove_dups, elem_of_list_filter. tauto.
  - rewrite elem_of_remove_dups, elem_of_list_filter. lia.
Qed.
Lemma below_bound n c : n ∈ us → 0 ≤ below us worth n c ≤ Z.of_nat (length us) - 1.
Proof.
  intros Hn. split; [unfold below; lia|]. assert (1 + below us worth n c ≤ Z.of_nat (length us)); [|lia].
  apply (values_below _ n Hn c); [apply NoDup_remove_dups| |].
  - intros x. rewrite elem_of_remove_dups, elem_of_list_filter. tauto.
  - rewrite elem_of_remove_dups, elem_of_list_filter. lia.
Qed.
Lemma as_good_up a b c : c ∈ ["hosts"; "max_user"; "max"; "runlimit"]%string → as_good worth a b c → worth b c ≤ worth a c.
Proof. intros Hc. unfold as_good. by rewrite decide_True. Qed.
Lemma as_good_down a b c : c ∉ ["hosts"; "max_user"; "max"; "runlimit"]%string → as_good worth a b c → worth a c ≤ worth b c.
Proof. intros Hc. unfold as_good. by rewrite decide_False. Qed.
Lemma better_penalty a b c : a ∈ us → (∀ d, d ∈ eight → as_good worth a b d) → c ∈ eight → worth a c ≠ worth b c → penalty us worth a < penalty us worth b.
Proof.
  intros Ha Hg Hc Hne. unfold penalty.
  assert (Hu : ∀ d, d ∈ eight → d ∈ ["hosts"; "max_user"; "max"; "runlimit"]%string → above us worth a d ≤ above us worth b d ∧ (d = c → above us worth a d < above us worth b d)).
  { intros d Hd Hd'. specialize (as_good_up a b d Hd' (Hg d Hd)). intros H. split; [by apply above_le|]. intros ->. apply above_lt; [done|lia]. }
  assert (Hd : ∀ d, d ∈ eight → d ∉ ["hosts"; "max_user"; "max"; "runlimit"]%string → below us worth a d ≤ below us worth b d ∧ (d = c → below us worth a d < below us worth b d)).
  { intros d Hd Hd'. specialize (as_good_down a b d Hd' (Hg d Hd)). intros H. split; [by apply below_le|]. intros ->. apply below_lt; [done|lia]. }
  destruct (Hu "hosts"%string) as [? ?]; [by apply (bool_decide_unpack _)..|].
  destruct (Hu "max_user"%string) as [? ?]; [by apply (bool_decide_unpack _)..|].
  destruct (Hu "max"%string) as [? ?]; [by apply (bool_decide_unpack _)..|].
  destruct (Hu "runlimit"%string) as [? ?]; [by apply (bool_decide_unpack _)..|].
  destruct (Hd "prio"%string) as [? ?]; [by apply (bool_decide_unpack _)..|].
  destruct (Hd "chunk_size"%string) as [? ?]; [by apply (bool_decide_unpack _)..|].
  destruct (Hd "num_users"%string) as [? ?]; [by apply (bool_decide_unpack _)..|].
  destruct (Hd "memlimit"%string) as [? ?]; [by apply (bool_decide_unpack _)..|].
  clear Hu Hd Hg Ha Hne. unfold eight in Hc. rewrite !elem_of_cons, elem_of_nil in Hc.
  destruct Hc as [->|[->|[->|[->|[->|[->|[->|[->|[]]]]]]]]]; repeat match goal with H : ?x = ?x → _ |- _ => specialize (H eq_refl) | H : _ = _ → _ |- _ => clear H end; lia.
Qed.
Lemma chunk_penalty a b : a ∈ us → b ∈ us → (length us ≤ 197)%nat → worth a "chunk_size"%string < worth b "chunk_size"%string → penalty us worth a < penalty us worth b.
Proof.
  intros Ha Hb Hl Hc. pose proof (below_lt a b _ Ha Hc). unfold penalty.
  pose proof (above_bound a "hosts" Ha). pose proof (above_bound b "hosts" Hb).
  pose proof (below_bound a "num_users" Ha). pose proof (below_bound b "num_users" Hb).
  pose proof (above_bound a "max_user" Ha). pose proof (above_bound b "max_user" Hb).
  pose proof (above_bound a "max" Ha). pose proof (above_bound b "max" Hb).
  pose proof (below_bound a "prio" Ha). pose proof (below_bound b "prio" Hb).
  pose proof (above_bound a "runlimit" Ha). pose proof (above_bound b "runlimit" Hb).
  pose proof (below_bound a "memlimit" Ha). pose proof (below_bound b "memlimit" Hb). lia.
Qed.
Lemma less_earlier ss a b : ss ≡ₚ us → StronglySorted (before us worth) ss → a ∈ us → b ∈ us → penalty us worth a < penalty us worth b → earlier a b ss.
Proof.
  intros Hp Hs Ha Hb Hlt. rewrite <- Hp in Ha, Hb. apply elem_of_list_lookup in Ha as [i Hi], Hb as [j Hj]. exists i, j. split_and!; [done|done|].
  destruct (decide (i < j)%nat); [done|]. exfalso. destruct (decide (i = j)) as [->|Hne]; [rewrite Hi in Hj; injection Hj as ->; lia|].
  assert (H : before us worth b a).
  { clear Hp. revert i j Hi Hj n Hne. induction Hs as [|x s Hs IH Hf]; intros i j Hi Hj Hn Hne; [done|].
    destruct j as [|j], i as [|i]; cbn in Hi, Hj; [lia| |lia|].
    - injection Hj as ->. rewrite Forall_forall in Hf. apply Hf. by apply elem_of_list_lookup_2 in Hi.
    - apply (IH i j); [done..|lia|lia]. }
  destruct H as [H|[H _]]; lia.
Qed.
End better.

(** ** Texts *)
Lemma prefix_iff p s : String.prefix p s = true ↔ starts_with p s.
Proof.
  revert s. induction p as [|c p IH]; intros s.
  - split; [by intros _; exists s|by destruct s].
  - destruct s as [|d s]; [split; [done|]; intros [t Ht]; done|]. cbn [String.prefix]. destruct (ascii_dec c d) as [->|Hne].
    + rewrite IH. split; intros [t Ht]; exists t; [rewrite Ht; done|]. injection Ht as ->. done.
    + split; [done|]. intros [t Ht]. injection Ht as -> _. done.
Qed.
Lemma contains_iff p s : contains p s = true ↔ occurs_in p s.
Proof.
  induction s as [|c s IH]; cbn [contains]; rewrite orb_true_iff, prefix_iff.
  - split; [intros [[t Ht]|?]; [exists ""%string, t; done|done]|]. intros (a & b & H). left. destruct a; [|done]. by exists b.
  - rewrite IH. split.
    + intros [[t Ht]|(a & b & ->)]; [exists ""%string, t; done|by exists (String c a), b].
    + intros (a & b & H). destruct a as [|d a]; [left; by exists b|]. right. injection H as -> H. by exists a, b.
Qed.
Lemma chars_app a b : list_ascii_of_string (a +:+ b) = list_ascii_of_string a ++ list_ascii_of_string b.
Proof. induction a as [|c a IH]; [done|]. change (c :: list_ascii_of_string (a +:+ b) = c :: (list_ascii_of_string a ++ list_ascii_of_string b)). by rewrite IH. Qed.
Lemma app_assoc_s a b c : (a +:+ b) +:+ c = a +:+ (b +:+ c).
Proof. induction a as [|x a IH]; [done|]. change (String x ((a +:+ b) +:+ c) = String x (a +:+ (b +:+ c))). by rewrite IH. Qed.
Lemma split_parts s : parts_of (split "," s) s.
Proof.
  assert (H : ∀ n s, (String.length s ≤ n)%nat → parts_of (split "," s) s); [|by apply (H (String.length s))]. clear s.
  induction n as [|n IH]; intros s Hn.
  - destruct s; [|cbn in Hn; lia]. split_and!; [done| |done]. constructor; [|done]. apply not_elem_of_nil.
  - destruct (split_cases ","%char s) as [Hs|(a & b & -> & Ha)].
    + rewrite split_lacks by done. split_and!; [done| |done]. constructor; [|done]. exact Hs.
    + rewrite split_at by done. destruct (IH b) as (H1 & H2 & H3).
      { assert (String.length (a ++ String "," b) = String.length a + S (String.length b))%nat; [|lia]. clear. induction a as [|x a IH]; [done|]. change (S (String.length (a ++ String "," b)) = S (String.length a + S (String.length b)))%nat. by rewrite IH. }
      split_and!; [done| |].
      * constructor; [|done]. exact Ha.
      * cbn [joined]. destruct (split "," b) as [|p ps]; [done|]. by rewrite H3.
Qed.
Lemma parts_split parts s : parts_of parts s → split "," s = parts.
Proof.
  revert s. induction parts as [|p ps IH]; intros s (H1 & H2 & H3); [done|]. inversion H2 as [|? ? Hp Hps]; subst.
  destruct ps as [|p' ps].
  - cbn [joined]. apply split_lacks. exact Hp.
  - change (joined (p :: p' :: ps)) with ((p ++ String "," (joined (p' :: ps)))%string).
    rewrite split_at by exact Hp. f_equal. apply IH. split_and!; done.
Qed.

(** ** Picking *)
Definition okq (qs : list (string * gmap string Z)) (q : lreq) (queue : string) : bool :=
  negb (queueShouldBeAvoided queue (to_avoid q)) && negb (queueHasTooLittleMemory qs queue q) && negb (queueHasTooLittleTime qs queue (r_time q + minimumQueueTime)).
Lemma okq_iff qs q queue : okq qs q queue = true ↔ suits q queue (value qs "memlimit" queue) (value qs "runlimit" queue).
Proof.
  unfold okq. rewrite !andb_true_iff, !negb_true_iff. unfold suits. rewrite Logic.and_assoc. f_equiv; [|f_equiv].
  - unfold queueShouldBeAvoided, to_avoid. destruct (decide (r_avoid q = ""%string)) as [He|He]; cbn [existsb].
    + split; [|done]. intros _ parts part Hne. done.
    + rewrite <- not_true_iff_false, existsb_exists. split.
      * intros H parts part _ Hp Hin Ho. apply H. exists part. rewrite (parts_split _ _ Hp). split; [by apply elem_of_list_In|by apply contains_iff].
      * intros H (part & Hin & Hc). apply (H (split "," (r_avoid q)) part He); [apply split_parts|by apply elem_of_list_In|by apply contains_iff].
  - unfold queueHasTooLittleMemory. rewrite andb_false_iff, !Z.ltb_ge. lia.
  - unfold queueHasTooLittleTime, minimumQueueTime, second. rewrite andb_false_iff, !Z.ltb_ge. lia.
Qed.
Lemma pick_spec qs q queues : match pick qs q queues with
  | Some queue => ∃ a b, queues = a ++ queue :: b ∧ okq qs q queue = true ∧ Forall (λ x, okq qs q x = false) a
  | None => Forall (λ x, okq qs q x = false) queues end.
Proof.
  induction queues as [|x queues IH]; [constructor|]. cbn [pick].
  assert (Hs : okq qs q x = false → match pick qs q queues with
    | Some queue => ∃ a b, x :: queues = a ++ queue :: b ∧ okq qs q queue = true ∧ Forall (λ x, okq qs q x = false) a
    | None => Forall (λ x, okq qs q x = false) (x :: queues) end).
  { intros Hx. destruct (pick qs q queues) as [queue|]; [|by constructor]. destruct IH as (a & b & -> & H1 & H2). exists (x :: a), b. split_and!; [done|done|by constructor]. }
  unfold okq in *. destruct (queueShouldBeAvoided x (to_avoid q)) eqn:E1; [by apply Hs|].
  destruct (queueHasTooLittleMemory qs x q) eqn:E2; [by apply Hs|].
  destruct (queueHasTooLittleTime qs x (r_time q + minimumQueueTime)) eqn:E3; [by apply Hs|].
  exists [], queues. split_and!; [done|by rewrite E1, E2, E3|constructor].
Qed.
Lemma contains_comma s parts : parts_of parts s → contains "," s = bool_decide (2 ≤ length parts)%nat.
Proof.
  intros H. destruct H as (H1 & H2 & H3). destruct parts as [|p [|p' ps]]; [done| |].
  - rewrite bool_decide_eq_false_2 by (cbn; lia). apply not_true_iff_false. rewrite contains_iff. intros (a & b & E). cbn [joined] in H3. subst p.
    inversion H2 as [|? ? Hp _]; subst. apply Hp. rewrite !chars_app. apply elem_of_app. right. apply elem_of_list_here.
  - rewrite bool_decide_eq_true_2 by (cbn; lia). apply contains_iff. subst s. exists p, (joined (p' :: ps)). done.
Qed.

Section picks.
Context (l : list seen) (order : string → list (string * gmap string Z)) (worth : seen → string → Z).
Context (Hg : good_seen l) (Ho : any_order l order) (Hw : ∀ n c, n ∈ usable l → c ∈ eight → is_worth l n c (worth n c)).
Lemma value_unknown c q : ¬ (∃ n, n ∈ usable l ∧ n_queue n = q) → value (queues_of l) c q = 0.
Proof.
  intros H. unfold value. destruct (list_find _ (queues_of l)) as [[i [q' m]]|] eqn:He; [|done].
  exfalso. apply list_find_Some in He as (Hi & Hq & _). cbn in Hq. subst q'. apply H.
  apply elem_of_list_lookup_2 in Hi. rewrite queues_of_eq in Hi. apply elem_of_list_fmap in Hi as (n & E & Hn). injection E as -> _. by exists n.
Qed.
Lemma value_limit c q : c ∈ eight → limit_of l worth q c (value (queues_of l) c q).
Proof.
  intros Hc. destruct (decide (q ∈ n_queue <$> usable l)) as [H|H].
  - apply elem_of_list_fmap in H as (n & -> & Hn). left. exists n. split_and!; [done|done|]. by apply val_worth.
  - right. assert (¬ ∃ n, n ∈ usable l ∧ n_queue n = q). { intros (n & Hn & <-). apply H. apply elem_of_list_fmap. by exists n. }
    split; [done|]. by apply value_unknown.
Qed.
Lemma limit_unique c q v w : limit_of l worth q c v → limit_of l worth q c w → v = w.
Proof.
  intros [(n & Hn & Hq & ->)|[Hv ->]] [(m & Hm & Hq' & ->)|[Hv' ->]]; [|exfalso; eauto..|done].
  destruct Hg as [Hnd _]. apply usable_nodup in Hnd. apply elem_of_list_lookup in Hn as [i Hi], Hm as [j Hj].
  assert (i = j) as ->. { apply (NoDup_lookup _ _ _ q Hnd); rewrite list_lookup_fmap; [rewrite Hi|rewrite Hj]; cbn; congruence. }
  congruence.
Qed.
Lemma okq_named q queue : okq (queues_of l) q queue = true ↔ named_suits l worth q queue.
Proof.
  rewrite okq_iff. split.
  - intros H. eexists _, _. split_and!; [apply value_limit; by apply (bool_decide_unpack _)..|done].
  - intros (m & r & Hm & Hr & H). rewrite (limit_unique _ _ _ _ (value_limit "memlimit" queue ltac:(by apply (bool_decide_unpack _))) Hm).
    by rewrite (limit_unique _ _ _ _ (value_limit "runlimit" queue ltac:(by apply (bool_decide_unpack _))) Hr).
Qed.
Lemma okq_seen q n : n ∈ usable l → okq (queues_of l) q (n_queue n) = true ↔ suits q (n_queue n) (worth n "memlimit"%string) (worth n "runlimit"%string).
Proof. intros Hn. rewrite okq_iff. by rewrite !(val_worth l worth) by (done || by apply (bool_decide_unpack _)). Qed.
Lemma best_spec q : r_queue q = None →
  match determineQueue (queues_of l) (sortedqs (queues_of l) order) q with
  | Some name => ∃ n, n ∈ usable l ∧ name = n_queue n ∧ suits q name (worth n "memlimit"%string) (worth n "runlimit"%string) ∧
      ∀ m, m ∈ usable l → suits q (n_queue m) (worth m "memlimit"%string) (worth m "runlimit"%string) → m = n ∨ before (usable l) worth n m
  | None => ∀ m, m ∈ usable l → ¬ suits q (n_queue m) (worth m "memlimit"%string) (worth m "runlimit"%string)
  end.
Proof.
  intros Hr. unfold determineQueue. rewrite Hr. destruct (sorted_spec l order worth Hg Ho Hw) as (ss & Hss & Hp & Hs).
  rewrite Hss. generalize (pick_spec (queues_of l) q (n_queue <$> ss)). destruct (pick (queues_of l) q (n_queue <$> ss)) as [name|].
  - intros (a & b & He & Hok & Hno). apply fmap_app_inv in He as (sa & sb & -> & Hb & ->). symmetry in Hb. apply fmap_cons_inv in Hb as (n & sb' & -> & -> & ->).
    assert (Hn : n ∈ usable l). { rewrite <- Hp. apply elem_of_app. right. apply elem_of_list_here. }
    exists n. split_and!; [done|done|by apply okq_seen|]. intros m Hm Hsu. rewrite <- Hp in Hm. apply elem_of_app in Hm as [Hm|Hm].
    + exfalso. rewrite Forall_fmap, Forall_forall in Hno. specialize (Hno m Hm). cbn in Hno. apply okq_seen in Hsu; [congruence|]. rewrite <- Hp. apply elem_of_app. by left.
    + apply elem_of_cons in Hm as [->|Hm]; [by left|right]. apply StronglySorted_app_inv_r in Hs. inversion Hs as [|? ? _ Hf]; subst.
      rewrite Forall_forall in Hf. by apply Hf.
  - intros Hno m Hm Hsu. rewrite Forall_fmap, Forall_forall in Hno. assert (Hm' : m ∈ ss) by (by rewrite Hp). specialize (Hno m Hm'). cbn in Hno. apply okq_seen in Hsu; congruence.
Qed.
Lemma listed_spec sorted q s parts : r_queue q = Some s → parts_of parts s → (2 ≤ length parts)%nat →
  match determineQueue (queues_of l) sorted q with
  | Some name => ∃ a b, parts = a ++ name :: b ∧ named_suits l worth q name ∧ ∀ x, x ∈ a → ¬ named_suits l worth q x
  | None => ∀ x, x ∈ parts → ¬ named_suits l worth q x
  end.
Proof.
  intros Hr Hp Hl. unfold determineQueue. rewrite Hr, (contains_comma s parts Hp), bool_decide_eq_true_2 by done. rewrite (parts_split _ _ Hp).
  generalize (pick_spec (queues_of l) q parts). destruct (pick (queues_of l) q parts) as [name|].
  - intros (a & b & -> & Hok & Hno). exists a, b. split_and!; [done|by apply okq_named|]. intros x Hx Hn. apply okq_named in Hn. rewrite Forall_forall in Hno. specialize (Hno x Hx). cbn in Hno. congruence.
  - intros Hno x Hx Hn. apply okq_named in Hn. rewrite Forall_forall in Hno. specialize (Hno x Hx). cbn in Hno. congruence.
Qed.
Lemma time_spec sorted q : (∀ s, r_queue q = Some s → ¬ no_comma s) → 
  r_time q + 60 * 10 ^ 9 ≤ MaxQueueTime (queues_of l) sorted q.
Proof.
  intros Hc. unfold MaxQueueTime. assert (H : match determineQueue (queues_of l) sorted q with Some x => okq (queues_of l) q x = true | None => True end).
  { unfold determineQueue. destruct (r_queue q) as [s|] eqn:Hr.
    - assert (contains "," s = true) as ->.
      { rewrite (contains_comma s (split "," s) (split_parts s)). apply bool_decide_eq_true_2. destruct (split_parts s) as (H1 & H2 & H3).
        destruct (split "," s) as [|p [|p' ps]]; [done| |cbn; lia]. exfalso. cbn [joined] in H3. subst p. inversion H2; subst. by apply (Hc s). }
      generalize (pick_spec (queues_of l) q (split "," s)). destruct (pick _ _ _); [|done]. by intros (a & b & _ & ? & _).
    - generalize (pick_spec (queues_of l) q sorted). destruct (pick _ _ _); [|done]. by intros (a & b & _ & ? & _). }
  destruct (determineQueue (queues_of l) sorted q) as [x|]; [|unfold minimumQueueTime, second; cbn; lia].
  apply okq_iff in H. destruct H as (_ & _ & H). unfold minimumQueueTime, second.
  assert (Hv : 0 ≤ value (queues_of l) "runlimit" x).
  { destruct (value_limit "runlimit" x ltac:(by apply (bool_decide_unpack _))) as [(n & Hn & _ & ->)|[_ ->]]; [|done].
    apply (worth_nonneg l n "runlimit"); [done|by apply usable_elem in Hn as [? _]|apply Hw; [done|by apply (bool_decide_unpack _)]]. }
  destruct (Z.eqb_spec (value (queues_of l) "runlimit" x * 10 ^ 9) 0); lia.
Qed.
End picks.
