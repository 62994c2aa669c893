(** Proofs about the LSF scheduler: counting jobs, the options of bsub. *)
From Coq Require Import ZArith Lia String Ascii.
From stdpp Require Import base option strings list gmap sorting pretty.
From Verif Require Import UtilModel BsubModel LsfModel LsfSpec LsfProofs2.
Open Scope Z_scope.

(** ** Texts *)
Lemma string_of_chars s : string_of_list_ascii (list_ascii_of_string s) = s.
Proof. apply string_of_list_ascii_of_string. Qed.
Lemma chars_inj s t : list_ascii_of_string s = list_ascii_of_string t → s = t.
Proof. intros H. by rewrite <- (string_of_chars s), H, string_of_chars. Qed.
Lemma ends_iff s : ends_in_bracket s = true ↔ ∃ a, s = a +:+ "]".
Proof.
  unfold ends_in_bracket. split.
  - destruct (reverse (list_ascii_of_string s)) as [|c r] eqn:Hr; [done|]. intros Hc. apply bool_decide_eq_true in Hc as ->.
    apply (f_equal reverse) in Hr. rewrite reverse_involutive, reverse_cons in Hr. exists (string_of_list_ascii (reverse r)).
    apply chars_inj. rewrite chars_app, list_ascii_of_string_of_list_ascii. done.
  - intros [a ->]. rewrite chars_app. cbn [list_ascii_of_string]. rewrite reverse_app. by cbn.
Qed.
Lemma digits_spec l : ∀ ds r, digits l = (ds, r) → l = ds ++ r ∧ Forall (λ c, is_digit c = true) ds ∧ (match r with c :: _ => is_digit c = false | [] => True end).
Proof.
  induction l as [|c l IH]; cbn [digits]; intros ds r H.
  - injection H as <- <-. done.
  - destruct (is_digit c) eqn:Hc.
    + destruct (digits l) as [a b] eqn:Hd. injection H as <- <-. destruct (IH a b eq_refl) as (-> & Hf & Hr). split_and!; [done|by constructor|done].
    + injection H as <- <-. done.
Qed.
Lemma digits_app ds r : Forall (λ c, is_digit c = true) ds → (match r with c :: _ => is_digit c = false | [] => True end) → digits (ds ++ r) = (ds, r).
Proof.
  intros Hd Hr. induction Hd as [|c ds Hc Hd IH]; [|cbn [app digits]; by rewrite Hc, IH].
  cbn [app]. destruct r as [|c r]; [done|]. cbn [digits]. by rewrite Hr.
Qed.
Lemma array_index_iff name i : array_index name = Some i ↔ one_of_array name i.
Proof.
  unfold array_index, one_of_array. split.
  - destruct (reverse (list_ascii_of_string name)) as [|c s] eqn:Hr; [done|]. destruct (decide (c = "]"%char)) as [->|]; [|done].
    destruct (digits s) as [ds r] eqn:Hd. destruct (digits_spec _ _ _ Hd) as (-> & Hf & _). destruct ds as [|d0 ds]; [done|]. destruct r as [|d r]; [done|].
    destruct (decide (d = "["%char)) as [->|]; [|done]. intros [= <-]. exists (string_of_list_ascii (reverse r)). split_and!.
    + apply (f_equal reverse) in Hr. rewrite reverse_involutive in Hr. apply chars_inj. rewrite !chars_app, !list_ascii_of_string_of_list_ascii, Hr.
      rewrite reverse_cons, reverse_app, !reverse_cons, <- !(assoc_L (++)). done.
    + intros E. apply (f_equal list_ascii_of_string) in E. rewrite list_ascii_of_string_of_list_ascii in E. apply (f_equal length) in E. rewrite reverse_length in E. done.
    + rewrite list_ascii_of_string_of_list_ascii. by apply Forall_reverse.
  - intros (base & -> & Hi & Hf). rewrite !chars_app. cbn [list_ascii_of_string].
    assert (Hr : reverse (list_ascii_of_string base ++ ["["%char] ++ list_ascii_of_string i ++ ["]"%char]) = "]"%char :: (reverse (list_ascii_of_string i) ++ "["%char :: reverse (list_ascii_of_string base))).
    { rewrite !reverse_app, <- !(assoc_L (++)). done. }
    rewrite Hr. rewrite decide_True by done. rewrite digits_app; [|by apply Forall_reverse|done].
    destruct (reverse (list_ascii_of_string i)) as [|d ds] eqn:Hd.
    + exfalso. apply Hi. apply (f_equal length) in Hd. rewrite reverse_length in Hd. by destruct i.
    + rewrite decide_True by done. f_equal. rewrite <- Hd, reverse_involutive. apply string_of_chars.
Qed.
Lemma sidaid_iff fields j k : job_of fields = Some j → sidaid j = Some k ↔ known_as fields k.
Proof.
  intros Hj. assert (Hs : shows fields (b_id j) (b_stat j) (b_name j)).
  { unfold job_of in Hj. destruct fields as [|f0 [|f1 [|f2 [|f3 [|f4 [|f5 [|f6 [|f7 r]]]]]]]]; try done. injection Hj as <-. unfold shows. cbn. eauto 10. }
  assert (Hu : ∀ id stat name, shows fields id stat name → id = b_id j ∧ stat = b_stat j ∧ name = b_name j).
  { intros id stat name (?&?&?&?&?&?&E). destruct Hs as (?&?&?&?&?&?&E'). rewrite E in E'. by injection E'. }
  unfold sidaid, known_as. destruct (ends_in_bracket (b_id j)) eqn:He.
  - apply ends_iff in He. split.
    + intros [= <-]. eexists _, _, _. split; [done|]. left. done.
    + intros (id & stat & name & H & Hk). destruct (Hu _ _ _ H) as (-> & -> & ->). destruct Hk as [[-> _]|[? _]]; done.
  - assert (Hn : ¬ ∃ a, b_id j = a +:+ "]"). { rewrite <- ends_iff. congruence. }
    split.
    + destruct (array_index (b_name j)) as [i|] eqn:Hi; [|done]. intros [= <-]. apply array_index_iff in Hi. eexists _, _, _. split; [done|]. right. eauto.
    + intros (id & stat & name & H & Hk). destruct (Hu _ _ _ H) as (-> & -> & ->). destruct Hk as [[-> ?]|(_ & i & Hi & ->)]; [done|].
      apply array_index_iff in Hi. by rewrite Hi.
Qed.

(** ** Counting *)
Lemma job_of_iff fields j : job_of fields = Some j ↔ shows fields (b_id j) (b_stat j) (b_name j).
Proof.
  unfold job_of, shows. split.
  - destruct fields as [|f0 [|f1 [|f2 [|f3 [|f4 [|f5 [|f6 [|f7 r]]]]]]]]; try done. intros [= <-]. cbn. eauto 10.
  - intros (?&?&?&?&?&?&->). by destruct j.
Qed.
Definition line_job (prefix : string) (fields : list string) : option bjob :=
  j ← job_of fields; if decide (b_stat j = "EXIT"%string) then None else if decide (b_stat j = "DONE"%string) then None
          else if String.prefix prefix (b_name j) then Some j else None.
Lemma line_job_iff prefix fields j : line_job prefix fields = Some j ↔ job_of fields = Some j ∧ alive (b_stat j) ∧ starts_with prefix (b_name j).
Proof.
  unfold line_job, alive. destruct (job_of fields) as [j'|]; cbn; [|naive_solver]. rewrite <- prefix_iff.
  destruct (decide (b_stat j' = "EXIT"%string)); [naive_solver|]. destruct (decide (b_stat j' = "DONE"%string)); [naive_solver|].
  destruct (String.prefix prefix (b_name j')) eqn:E; split; [intros [= <-]; done|intros [[= <-] _]; done|done|]. intros ([= <-] & _ & H). congruence.
Qed.
Lemma job_line_iff prefix fields : job_line prefix fields ↔ is_Some (line_job prefix fields).
Proof.
  split.
  - intros (id & stat & name & Hs & Ha & Hp). exists (BJob id stat name). apply line_job_iff. split; [by apply job_of_iff|done].
  - intros [j Hj]. apply line_job_iff in Hj as (Hj & Ha & Hp). exists (b_id j), (b_stat j), (b_name j). split_and!; [by apply job_of_iff|done|done].
Qed.
Lemma running_line_iff prefix fields : running_line prefix fields ↔ ∃ j, line_job prefix fields = Some j ∧ b_stat j = "RUN"%string.
Proof.
  split.
  - intros (id & name & Hs & Hp). exists (BJob id "RUN" name). split; [|done]. apply line_job_iff. split_and!; [by apply job_of_iff|by split|done].
  - intros (j & Hj & Hr). apply line_job_iff in Hj as (Hj & Ha & Hp). exists (b_id j), (b_name j). split; [|done]. rewrite <- Hr. by apply job_of_iff.
Qed.
Lemma num_unique {A} (P : A → Prop) l n m : num P l n → num P l m → n = m.
Proof. intros H. revert m. induction H; intros m Hm; inversion Hm; subst; try done; f_equal; auto. Qed.
Lemma parse_num prefix lines : num (job_line prefix) lines (Z.of_nat (length (parseBjobs prefix lines))).
Proof.
  induction lines as [|x lines IH]; [constructor|]. unfold parseBjobs in *. cbn [omap list_omap]. fold (line_job prefix x).
  destruct (line_job prefix x) as [j|] eqn:Hj.
  - cbn [length]. rewrite Nat2Z.inj_succ, <- Z.add_1_r. apply num_yes; [|exact IH]. apply job_line_iff. by eexists.
  - apply num_no; [|exact IH]. rewrite job_line_iff, Hj. by apply is_Some_None.
Qed.
Definition runs (jobs : list bjob) : Z := Z.of_nat (length (filter (λ j, b_stat j = "RUN"%string) jobs)).
Lemma parse_runs prefix lines : num (running_line prefix) lines (runs (parseBjobs prefix lines)).
Proof.
  unfold runs. induction lines as [|x lines IH]; [constructor|]. unfold parseBjobs in *. cbn [omap list_omap]. fold (line_job prefix x).
  destruct (line_job prefix x) as [j|] eqn:Hj.
  - rewrite filter_cons. destruct (decide (b_stat j = "RUN"%string)).
    + cbn [length]. rewrite Nat2Z.inj_succ, <- Z.add_1_r. apply num_yes; [|exact IH]. apply running_line_iff. eauto.
    + apply num_no; [|exact IH]. rewrite running_line_iff. intros (j' & Hj' & Hr). congruence.
  - apply num_no; [|exact IH]. rewrite running_line_iff. intros (j' & Hj' & Hr). congruence.
Qed.
Lemma parse_in prefix lines j : j ∈ parseBjobs prefix lines ↔ ∃ x, x ∈ lines ∧ line_job prefix x = Some j.
Proof. unfold parseBjobs. rewrite elem_of_list_omap. done. Qed.

Lemma over_max_spec max jobs : ∀ c n ks, over_max max jobs c = (n, ks) →
  let len := Z.of_nat (length jobs) in
  Z.min max (c + len) ≤ Z.max n c ∧ c ≤ n ∧ n + Z.of_nat (length ks) ≤ c + len ∧ n ≤ Z.max max c + runs jobs ∧
  (c + len ≤ max → ks = [] ∧ n = c + len) ∧
  (∀ k, k ∈ ks → ∃ j, j ∈ jobs ∧ b_stat j ≠ "RUN"%string ∧ sidaid j = Some k) ∧
  ((∀ j, j ∈ jobs → b_stat j ≠ "RUN"%string → is_Some (sidaid j)) → n + Z.of_nat (length ks) = c + len).
Proof.
  induction jobs as [|j jobs IH]; intros c n ks H; cbn [over_max] in H; cbn [length]; cbv zeta in *.
  - injection H as <- <-. unfold runs. cbn. split_and!; try lia; [intros _; split; [done|lia]|]. intros k Hk. by apply elem_of_nil in Hk.
  - rewrite Nat2Z.inj_succ. destruct ((max <? c + 1) && negb (bool_decide (b_stat j = "RUN"%string))) eqn:Hc.
    + apply andb_true_iff in Hc as [Hm Hr]. apply Z.ltb_lt in Hm. apply negb_true_iff, bool_decide_eq_false in Hr.
      destruct (over_max max jobs c) as [n' ks'] eqn:Ho. injection H as <- <-. destruct (IH _ _ _ Ho) as (H1 & H2 & H3 & H4 & H5 & H6 & H7).
      assert (Hrun : runs (j :: jobs) = runs jobs). { unfold runs. rewrite filter_cons_False by done. done. }
      assert (Hlen : Z.of_nat (length ks') ≤ Z.of_nat (length (match sidaid j with Some s => s :: ks' | None => ks' end)) ≤ Z.of_nat (length ks') + 1).
      { destruct (sidaid j); cbn [length]; lia. }
      rewrite Hrun. split_and!; try lia.
      * intros k. destruct (sidaid j) as [s|] eqn:Hs; [rewrite elem_of_cons; intros [->|Hk]|intros Hk].
        -- exists j. split_and!; [apply elem_of_list_here|done|done].
        -- destruct (H6 k Hk) as (j' & ? & ?). exists j'. split; [by apply elem_of_list_further|done].
        -- destruct (H6 k Hk) as (j' & ? & ?). exists j'. split; [by apply elem_of_list_further|done].
      * intros Ha. destruct (Ha j) as [s Hs]; [apply elem_of_list_here|done|]. rewrite Hs. cbn [length].
        assert (n' + Z.of_nat (length ks') = c + Z.of_nat (length jobs)); [|lia]. apply H7. intros j' Hj'. apply Ha. by apply elem_of_list_further.
    + destruct (IH _ _ _ H) as (H1 & H2 & H3 & H4 & H5 & H6 & H7).
      assert (Hrun : runs (j :: jobs) = runs jobs + (if decide (b_stat j = "RUN"%string) then 1 else 0)).
      { unfold runs. rewrite filter_cons. destruct (decide _); cbn [length]; lia. }
      rewrite Hrun. assert (0 ≤ runs jobs) by (unfold runs; lia). split_and!; try lia.
      * apply andb_false_iff in Hc as [Hc|Hc]; [apply Z.ltb_ge in Hc; destruct (decide _); lia|].
        apply negb_false_iff, bool_decide_eq_true in Hc. rewrite decide_True by done. lia.
      * intros Hl. destruct H5; [lia|]. split; [done|lia].
      * intros k Hk. destruct (H6 k Hk) as (j' & ? & ?). exists j'. split; [by apply elem_of_list_further|done].
      * intros Ha. assert (n + Z.of_nat (length ks) = c + 1 + Z.of_nat (length jobs)); [|lia]. apply H7. intros j' Hj'. apply Ha. by apply elem_of_list_further.
Qed.

(** ** Names *)
Lemma lacks_none x p y : no_bracket x → ¬ ∃ z, x = y +:+ String "[" p +:+ z.
Proof. intros Hx [z ->]. apply Hx. rewrite !chars_app. apply elem_of_app. right. apply elem_of_list_here. Qed.
Lemma no_bracket_app a b : no_bracket a → no_bracket b → no_bracket (a +:+ b).
Proof. unfold no_bracket. rewrite chars_app, elem_of_app. tauto. Qed.
Lemma letter_plain d : no_bracket d → no_bracket (letter d).
Proof.
  unfold no_bracket, letter. destruct d as [|c d]; [done|]. assert (Hs : substring 0 0 d = ""%string) by (destruct d; done). cbn [substring]. rewrite Hs.
  cbn. rewrite !elem_of_cons, elem_of_nil. tauto.
Qed.
Lemma name_asks hash random cmd deployment needed (args : list string) : plain hash random deployment → 1 ≤ needed →
  length args = 5%nat → ∀ first : list string, asks_for (first ++ ["-J"%string; generateBsubName hash random cmd deployment needed] ++ args) needed.
Proof.
  intros (Hh & Hr & Hd) Hn Hl first. eexists first, args, _. split_and!; [done|done|].
  unfold generateBsubName. set (base := jobName hash cmd deployment +:+ "_" +:+ random).
  assert (Hb : no_bracket base).
  { unfold base, jobName, all_prefix. repeat apply no_bracket_app; try done; try apply letter_plain; try done; unfold no_bracket; cbn; rewrite ?elem_of_cons, elem_of_nil; naive_solver. }
  assert (Ha : ∀ s, jobName hash cmd deployment +:+ "_" +:+ random +:+ s = base +:+ s).
  { intros s. unfold base. by rewrite !app_assoc_s. }
  rewrite Ha. destruct (Z.ltb_spec 1 needed) as [Hm|Hm].
  - right. split; [done|]. exists base. split; [done|]. intros (y & z & E). apply Hb. rewrite E, !chars_app. apply elem_of_app. right. apply elem_of_list_here.
  - left. split; [lia|]. intros (y & z & E). apply (f_equal list_ascii_of_string) in E. rewrite !chars_app in E. cbn [list_ascii_of_string] in E. rewrite app_nil_r in E.
    apply Hb. rewrite E. apply elem_of_app. right. apply elem_of_list_here.
Qed.
Lemma prefix_same (a b c : string) : String.length a = String.length b → starts_with a (b +:+ c) → a = b.
Proof.
  revert b. induction a as [|x a IH]; intros b Hl [t Ht].
  - by destruct b.
  - destruct b as [|y b]; [done|]. injection Hl as Hl. change (String y (b +:+ c) = String x (a +:+ t)) in Ht. injection Ht as -> Ht. f_equal. apply IH; [done|by exists t].
Qed.
Lemma length_app_s a b : String.length (a +:+ b) = (String.length a + String.length b)%nat.
Proof. induction a as [|x a IH]; [done|]. change (S (String.length (a +:+ b)) = S (String.length a + String.length b))%nat. by rewrite IH. Qed.
Lemma ours_spec hash random cmd cmd' d d' needed : (∀ x y, String.length (hash x) = String.length (hash y)) → d ≠ ""%string → d' ≠ ""%string →
  starts_with (jobName hash cmd d) (generateBsubName hash random cmd' d' needed) ↔ (letter d = letter d' ∧ hash cmd = hash cmd').
Proof.
  intros Hl Hd Hd'. assert (H1 : ∀ d, d ≠ ""%string → ∃ c, letter d = String c "").
  { intros [|c e] He; [done|]. exists c. unfold letter. cbn [substring]. f_equal. by destruct e. }
  destruct (H1 d Hd) as [c Hc], (H1 d' Hd') as [c' Hc'].
  unfold generateBsubName, jobName, all_prefix. rewrite Hc, Hc'. split.
  - intros H. rewrite !app_assoc_s in H. set (rest := "_" +:+ random +:+ _) in H.
    assert (E : ("wr" +:+ String c "" +:+ "_" +:+ hash cmd) = ("wr" +:+ String c' "" +:+ "_" +:+ hash cmd')).
    { apply (prefix_same _ _ rest); [rewrite !length_app_s; cbn [String.length]; by rewrite (Hl cmd cmd')|]. by rewrite !app_assoc_s. }
    change (String "w" (String "r" (String c (String "_" (hash cmd)))) = String "w" (String "r" (String c' (String "_" (hash cmd'))))) in E. by injection E as -> ->.
  - intros [E ->]. rewrite E. eexists. done.
Qed.

(** ** The options *)
Lemma user_args_spec mb : ∀ n ws l, (length ws ≤ n)%nat → user_args mb ws = Args l → passed_on mb ws l.
Proof.
  induction n as [|n IH]; intros ws l Hn H.
  - destruct ws; [|cbn in Hn; lia]. injection H as <-. split; [done|]. intros i w Hi. done.
  - destruct ws as [|w ws]; [injection H as <-; split; [done|]; intros i w Hi; done|]. cbn [user_args] in H.
    destruct (String.prefix "-" w) eqn:Hp; [|done]. apply prefix_iff in Hp.
    destruct ws as [|v ws].
    + destruct (decide (w = "-R"%string)); [done|]. injection H as <-. split; [done|]. intros i u Hi. apply list_lookup_singleton_Some in Hi as [-> ->].
      exists u. split_and!; [done|done|]. intros []. lia.
    + assert (Hgo : ∀ v' l', user_args mb ws = Args l' → (w ≠ "-R"%string → v' = v) →
        (w = "-R"%string → ∃ cs rest, parse_bsub (str v) = POk cs rest ∧ str v' = show_clauses (replace_memory_and_hosts (str mb) (str "1") cs)) → passed_on mb (w :: v :: ws) (w :: v' :: l')).
      { intros v' l' Hl' H1 H2. destruct (IH ws l') as [IH1 IH2]; [cbn in Hn; lia|done|]. split; [cbn; by rewrite IH1|]. intros i u Hi.
        destruct i as [|[|i]].
        - injection Hi as <-. exists w. split_and!; [done|done|]. intros [k Hk]. lia.
        - injection Hi as <-. exists v'. split_and!; [done|intros [k Hk]; lia|]. intros _. cbn. done.
        - cbn in Hi. destruct (IH2 i u Hi) as (w' & Hw' & He & Ho). exists w'. split_and!; [done| |].
          + intros [k Hk]. apply He. exists (pred k). lia.
          + intros [k Hk]. specialize (Ho ltac:(exists (pred k); lia)). destruct i as [|i]; [lia|]. exact Ho. }
      destruct (decide (w = "-R"%string)) as [->|Hw].
      * destruct (parse_bsub (str v)) as [cs rest| |] eqn:Hpb; [|done|done]. destruct (user_args mb ws) as [l'| |] eqn:Hu; [|done|done]. injection H as <-.
        apply Hgo; [done|done|]. intros _. exists cs, rest. split; [done|]. apply list_ascii_of_string_of_list_ascii.
      * destruct (user_args mb ws) as [l'| |] eqn:Hu; [|done|done]. injection H as <-. by apply Hgo.
Qed.
Lemma user_args_even mb : ∀ n ws, (length ws ≤ n)%nat → Nat.Even (length ws) → user_args mb ws ≠ Panic.
Proof.
  induction n as [|n IH]; intros ws Hn He; [destruct ws; [done|cbn in Hn; lia]|]. destruct ws as [|w [|v ws]]; [done|destruct He as [k Hk]; cbn in Hk; lia|].
  cbn [user_args]. destruct (String.prefix "-" w); [|done].
  assert (H : user_args mb ws ≠ Panic). { apply IH; [cbn in Hn; lia|]. destruct He as [k Hk]. exists (pred k). cbn in Hk. lia. }
  destruct (decide (w = "-R"%string)); [destruct (parse_bsub (str v)); [|done|done]|]; by destruct (user_args mb ws).
Qed.
Lemma slots_spec cores : slots cores (if 1000 <? cores then ["-n"; pretty ((cores + 999) / 1000)]%string else []).
Proof.
  unfold slots. destruct (Z.ltb_spec 1000 cores); [right; split; [done|]; eexists; split; [done|]|left; split; [lia|done]].
  pose proof (Z.div_mod (cores + 999) 1000 ltac:(lia)). pose proof (Z.mod_pos_bound (cores + 999) 1000 ltac:(lia)). lia.
Qed.
Lemma args_spec hash words random queue q cmd deployment needed u args err : generateBsubArgs hash words random queue q cmd deployment needed u = Some (args, err) →
  ∃ l sl, args = own_options queue (pretty (memory_limit u (r_ram q))) (pretty (r_ram q)) ++ l ++ sl ++ ["-J"; generateBsubName hash random cmd deployment needed; "-o"; "/dev/null"; "-e"; "/dev/null"; cmd]%string ∧ slots (r_cores q) sl ∧
    match r_misc q with
    | None => l = [] ∧ err = false
    | Some misc => if err then l = [] else ∃ ws, words misc = Some ws ∧ passed_on (pretty (r_ram q)) ws l
    end.
Proof.
  unfold generateBsubArgs. destruct (r_misc q) as [misc|].
  - unfold parseUserArgs. destruct (words misc) as [ws|].
    + destruct (user_args (pretty (r_ram q)) ws) as [l| |] eqn:Hu; [| |done]; intros [= <- <-].
      * exists l. eexists. split_and!; [done|apply slots_spec|]. exists ws. split; [done|]. by apply (user_args_spec _ (length ws)).
      * exists []. eexists. split_and!; [done|apply slots_spec|done].
    + intros [= <- <-]. exists []. eexists. split_and!; [done|apply slots_spec|done].
  - intros [= <- <-]. exists []. eexists. split_and!; [done|apply slots_spec|done|done].
Qed.

(** ** schedule *)
Section schedule.
Context (hash : string → string) (words : string → option (list string)) (deployment : string) (u : munit).
Context (qs : list (string * gmap string Z)) (sorted : list string) (cmd : string) (q : lreq) (count : Z) (lines : list (list string)) (random : string).
Context (Hcmd : cmd ≠ ""%string) (Hcount : 0 ≤ count) (Hplain : plain hash random deployment).
Lemma schedule_spec kill sub n r : schedule hash words deployment u qs sorted cmd q count lines random = Some (kill, sub) →
  num (job_line (jobName hash cmd deployment)) lines n → num (running_line (jobName hash cmd deployment)) lines r →
  ∃ m, asked sub m ∧ count ≤ n - Z.of_nat (length kill) + m ∧ (sub ≠ None → kill = [] ∧ m = count - n ∧ 0 < m) ∧
    (∀ k, k ∈ kill → ∃ x, x ∈ lines ∧ job_line (jobName hash cmd deployment) x ∧ ¬ running_line (jobName hash cmd deployment) x ∧ known_as x k) ∧
    ((∀ x, x ∈ lines → job_line (jobName hash cmd deployment) x → ¬ running_line (jobName hash cmd deployment) x → ∃ k, known_as x k) →
      n - Z.of_nat (length kill) + m ≤ count + r).
Proof.
  set (p := jobName hash cmd deployment). intros H Hn Hr. unfold schedule in H. destruct (determineQueue qs sorted q) as [queue|]; [|done].
  unfold checkCmd in H. rewrite decide_False in H by done. fold p in H. destruct (Z.leb_spec 0 count); [|lia].
  rewrite (num_unique _ _ _ _ Hn (parse_num p lines)). rewrite (num_unique _ _ _ _ Hr (parse_runs p lines)).
  destruct (over_max count (parseBjobs p lines) 0) as [c ks] eqn:Ho. destruct (over_max_spec _ _ _ _ _ Ho) as (H1 & H2 & H3 & H4 & H5 & H6 & H7).
  assert (Hk : ∀ k, k ∈ ks → ∃ x, x ∈ lines ∧ job_line p x ∧ ¬ running_line p x ∧ known_as x k).
  { intros k Hk. destruct (H6 k Hk) as (j & Hj & Hrun & Hs). apply parse_in in Hj as (x & Hx & Hj). exists x. split_and!; [done|apply job_line_iff; by eexists| |].
    - rewrite running_line_iff. intros (j' & Hj' & Hr'). congruence.
    - apply (sidaid_iff x j); [|done]. by apply line_job_iff in Hj as (? & _). }
  assert (Hall : (∀ x, x ∈ lines → job_line p x → ¬ running_line p x → ∃ k, known_as x k) → c + Z.of_nat (length ks) = Z.of_nat (length (parseBjobs p lines))).
  { intros Ha. apply H7. intros j Hj Hrun. apply parse_in in Hj as (x & Hx & Hj). destruct (Ha x Hx) as [k Hk'].
    - apply job_line_iff. by eexists.
    - rewrite running_line_iff. intros (j' & Hj' & Hr'). congruence.
    - exists k. apply (sidaid_iff x j); [|done]. by apply line_job_iff in Hj as (? & _). }
  destruct (Z.ltb_spec (count - c) 1).
  - injection H as <- <-. exists 0. split_and!; [done|lia|done|done|]. intros Ha. specialize (Hall Ha). lia.
  - destruct H5 as [-> ->]; [lia|]. destruct (generateBsubArgs hash words random queue q cmd deployment (count - (0 + Z.of_nat (length (parseBjobs p lines)))) u) as [[args err]|] eqn:Hg; [|done].
    injection H as <- <-. exists (count - Z.of_nat (length (parseBjobs p lines))). cbn [length] in *. rewrite Z.add_0_l in *. unfold runs in *. split_and!; [|lia|intros _; split_and!; [done|lia|lia]|done|lia].
    destruct (args_spec _ _ _ _ _ _ _ _ _ _ _ Hg) as (l & sl & -> & _). cbn [asked]. rewrite !(assoc_L (++)).
    apply (name_asks hash random cmd deployment _ ["-o"; "/dev/null"; "-e"; "/dev/null"; cmd]%string); [done|lia|done].
Qed.
Lemma settled_spec : num (job_line (jobName hash cmd deployment)) lines count → determineQueue qs sorted q ≠ None →
  schedule hash words deployment u qs sorted cmd q count lines random = Some ([], None).
Proof.
  intros Hn Hd. unfold schedule. destruct (determineQueue qs sorted q) as [queue|]; [|done].
  unfold checkCmd. rewrite decide_False by done. destruct (Z.leb_spec 0 count); [|lia]. set (p := jobName hash cmd deployment) in *.
  pose proof (num_unique _ _ _ _ Hn (parse_num p lines)) as E.
  destruct (over_max count (parseBjobs p lines) 0) as [c ks] eqn:Ho. destruct (over_max_spec _ _ _ _ _ Ho) as (_ & _ & _ & _ & H5 & _).
  destruct H5 as [-> ->]; [lia|]. destruct (Z.ltb_spec (count - (0 + Z.of_nat (length (parseBjobs p lines)))) 1); [done|lia].
Qed.
End schedule.

(** ** Memory limits *)
Lemma nearest_close z n : 0 ≤ n → 0 ≤ z → 2 * Z.abs (nearest z n * 2 ^ n - z) ≤ 2 ^ n.
Proof.
  intros Hn Hz. unfold nearest. assert (0 < 2 ^ n) by (apply Z.pow_pos_nonneg; lia). set (d := 2 ^ n) in *. clearbody d.
  pose proof (Z.div_mod z d ltac:(lia)). pose proof (Z.mod_pos_bound z d ltac:(lia)). set (qq := z / d) in *. set (rr := z mod d) in *. clearbody qq rr. subst z.
  destruct (Z.ltb_spec (2 * rr) d); [lia|]. destruct (Z.ltb_spec d (2 * rr)); [lia|]. destruct (Z.even qq); lia.
Qed.
Lemma float32_close z : 0 ≤ z → Z.abs (float32 z - z) * 2 ^ 24 ≤ z.
Proof.
  intros Hz. unfold float32. destruct (decide (excess z = 0)) as [He|He].
  - rewrite He. unfold nearest. change (2 ^ 0) with 1. rewrite Z.mod_1_r, Z.div_1_r. change (2 * 0 <? 1) with true. cbv zeta iota. rewrite Z.mul_1_r, Z.sub_diag. cbn [Z.abs]. lia.
  - assert (Hp : 0 < excess z) by (unfold excess in *; lia). pose proof (nearest_close z (excess z) ltac:(lia) Hz) as Hc.
    assert (Hlog : excess z = Z.log2 z - 23) by (unfold excess in *; lia).
    assert (Hz' : 0 < z). { destruct (Z.eq_dec z 0) as [->|]; [|lia]. rewrite Hlog in Hp. cbn in Hp. lia. }
    pose proof (Z.log2_spec z Hz') as [Hl _]. replace (Z.log2 z) with (excess z + 23) in Hl by lia. rewrite Z.pow_add_r in Hl by lia.
    change (2 ^ 24) with (2 * 2 ^ 23). set (d := 2 ^ excess z) in *. set (x := nearest z (excess z) * d) in *. clearbody x d. nia.
Qed.
Lemma float32_exact k e : 0 ≤ e → 0 ≤ k < 2 ^ 24 → float32 (k * 2 ^ e) = k * 2 ^ e.
Proof.
  intros He Hk. unfold float32. set (z := k * 2 ^ e). assert (Hd : (2 ^ excess z | z)).
  { destruct (decide (k = 0)) as [->|Hk0]; [unfold z; rewrite Z.mul_0_l; apply Z.divide_0_r|].
    unfold z. apply Z.divide_mul_r. exists (2 ^ (e - excess (k * 2 ^ e))). rewrite <- Z.pow_add_r; [f_equal; lia| |unfold excess; lia].
    unfold excess. rewrite Z.log2_mul_pow2 by lia. assert (Z.log2 k < 24) by (apply Z.log2_lt_pow2; lia). lia. }
  unfold nearest. assert (0 < 2 ^ excess z) by (apply Z.pow_pos_nonneg; [lia|unfold excess; lia]).
  apply Z.mod_divide in Hd as Hm; [|lia]. rewrite Hm. destruct (Z.ltb_spec (2 * 0) (2 ^ excess z)); [|lia].
  pose proof (Z.div_mod z (2 ^ excess z) ltac:(lia)). lia.
Qed.
Lemma mb_exact ram : 0 ≤ ram < 2 ^ 24 → memory_limit MB ram = ram.
Proof. intros H. cbn [memory_limit]. rewrite <- (Z.mul_1_r ram). change 1 with (2 ^ 0). by rewrite float32_exact by lia. Qed.
Lemma kb_exact ram : 0 ≤ ram → 125 * ram < 2 ^ 24 → memory_limit KB ram = 1000 * ram.
Proof.
  intros H0 H. assert (Hm : float32 ram = ram) by (apply (mb_exact ram); lia). cbn [memory_limit]. rewrite Hm. replace (ram * 1000) with (125 * ram * 2 ^ 3) by lia. rewrite float32_exact by lia. lia.
Qed.
Lemma mb_close ram : 0 ≤ ram → close_to (memory_limit MB ram) ram.
Proof. intros H. pose proof (float32_close ram H). unfold close_to. cbn [memory_limit]. lia. Qed.
Lemma kb_close ram : 0 ≤ ram → close_to (memory_limit KB ram) (1000 * ram).
Proof.
  intros H. pose proof (float32_close ram H) as Ha. unfold close_to. cbn [memory_limit]. set (a := float32 ram) in *. clearbody a.
  assert (Hp : 0 ≤ a * 1000). { destruct (Z.eq_dec ram 0); lia. }
  pose proof (float32_close (a * 1000) Hp) as Hb. lia.
Qed.

(** ** Validate *)
Lemma passed_on_tail mb w v ws w' v' l : passed_on mb (w :: v :: ws) (w' :: v' :: l) → passed_on mb ws l.
Proof.
  intros [H1 H2]. split; [cbn in H1; lia|]. intros i x Hi. destruct (H2 (S (S i)) x Hi) as (x' & Hx' & He & Ho). exists x'. split_and!; [done| |].
  - intros [k Hk]. apply He. exists (S k). lia.
  - intros [k Hk]. specialize (Ho ltac:(exists (S k); lia)). destruct i as [|i]; [lia|]. exact Ho.
Qed.
Lemma passed_on_args mb : ∀ n ws l, (length ws ≤ n)%nat → passed_on mb ws l → user_args mb ws = Args l ∨ user_args mb ws = Panic.
Proof.
  induction n as [|n IH]; intros ws l Hn H.
  - destruct ws; [|cbn in Hn; lia]. destruct H as [H _]. destruct l; [by left|done].
  - destruct ws as [|w ws]; [destruct H as [H _]; destruct l; [by left|done]|]. destruct (proj2 H 0%nat w eq_refl) as (w' & Hw' & He & _).
    destruct (He ltac:(by exists 0%nat)) as [-> Hp]. destruct l as [|? l]; [done|]. injection Hw' as ->. cbn [user_args]. apply prefix_iff in Hp as ->.
    destruct ws as [|v ws].
    + destruct (decide (w = "-R"%string)); [by right|left]. destruct H as [H _]. by destruct l.
    + destruct l as [|v' l]; [destruct H as [H _]; done|]. destruct (IH ws l) as [Hu|Hu]; [cbn in Hn; lia|by eapply passed_on_tail| |].
      * destruct (proj2 H 1%nat v eq_refl) as (v2 & Hv2 & _ & Ho). injection Hv2 as <-. destruct (Ho ltac:(by exists 0%nat)) as [Ho1 Ho2]. rewrite Hu. left.
        destruct (decide (w = "-R"%string)) as [Hw|Hw]; [|by rewrite (Ho1 Hw)]. destruct (Ho2 Hw) as (cs & rest & -> & Hs). rewrite <- Hs. by rewrite string_of_chars.
      * destruct (proj2 H 1%nat v eq_refl) as (v2 & Hv2 & _ & Ho). injection Hv2 as <-. destruct (Ho ltac:(by exists 0%nat)) as [Ho1 Ho2]. rewrite Hu. right.
        destruct (decide (w = "-R"%string)) as [Hw|Hw]; [|done]. by destruct (Ho2 Hw) as (cs & rest & -> & Hs).
Qed.
Lemma validate_spec hash words random accepts opts queue cache v cache' :
  (∀ o w, cache !! o = Some w → valid_options hash words random accepts queue o w) →
  Validate hash words random accepts opts queue cache = Some (v, cache') →
  valid_options hash words random accepts queue opts v ∧ ∀ o w, cache' !! o = Some w → valid_options hash words random accepts queue o w.
Proof.
  intros Hc H. unfold Validate in H. destruct (cache !! opts) as [w|] eqn:Ho; [injection H as -> ->; split; [by apply Hc|done]|].
  assert (Hgo : valid_options hash words random accepts queue opts v → cache' = <[opts := v]> cache → valid_options hash words random accepts queue opts v ∧ ∀ o w, cache' !! o = Some w → valid_options hash words random accepts queue o w).
  { intros Hv ->. split; [done|]. intros o w. rewrite lookup_insert_Some. intros [[<- <-]|[_ Hw]]; [done|by apply Hc]. }
  unfold generateBsubArgs in H. cbn [r_misc r_ram r_cores] in H. unfold parseUserArgs in H.
  change (pretty (memory_limit MB 1)) with "1"%string in H. change (pretty 1) with "1"%string in H. change (1000 <? 0) with false in H. cbn [app] in H.
  destruct (words opts) as [ws|] eqn:Hw.
  - destruct (user_args "1" ws) as [l| |] eqn:Hu; [| |done]; cbn [app] in H; injection H as <- <-; (apply Hgo; [|done]); unfold valid_options.
    + split.
      * intros Ha. exists ws, l. split_and!; [done|by apply (user_args_spec _ (length ws))|exact Ha].
      * intros (ws' & l' & Hws & Hl & Ha). rewrite Hw in Hws. injection Hws as <-. destruct (passed_on_args _ (length ws) ws l' ltac:(done) Hl) as [E|E]; rewrite Hu in E; [|done]. injection E as <-. exact Ha.
    + split; [done|]. intros (ws' & l' & Hws & Hl & _). rewrite Hw in Hws. injection Hws as <-. by destruct (passed_on_args _ (length ws) ws l' ltac:(done) Hl) as [E|E]; rewrite Hu in E.
  - injection H as <- <-. apply Hgo; [|done]. split; [done|]. intros (ws' & l' & Hws & _). congruence.
Qed.
