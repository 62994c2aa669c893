From Coq Require Import String Ascii Lia.
From stdpp Require Import base option strings list.
From Verif Require Import BsubModel BsubSpec BsubProofs BsubProofs2.

Lemma letter_wordy c : is_letter c = true → wordy c = true. Proof. unfold wordy. by intros ->. Qed.
Lemma digit_wordy c : is_digit c = true → wordy c = true. Proof. unfold wordy. intros ->. apply orb_true_r. Qed.
(** characters that are neither white nor quotes *)
Definition plainc (c : ascii) : bool := negb (is_white c) && negb (quote c).
Lemma wordy_plain c : wordy c = true → plainc c = true.
Proof. destruct c as [[] [] [] [] [] [] [] []]; intros H; vm_compute in H; try discriminate H; reflexivity. Qed.
Lemma scan_number_chars s a b : scan_number s = (a, b) → Forall (λ c, plainc c = true) a.
Proof.
  unfold scan_number. destruct (run is_digit s) as [x s1] eqn:E1. apply run_spec in E1 as (-> & H1 & _).
  assert (Hp : ∀ p l, (∀ c, p c = true → wordy c = true) → Forall (λ c, p c = true) l → Forall (λ c, plainc c = true) l).
  { intros p l Hp Hf. eapply Forall_impl; [exact Hf|]. auto using wordy_plain. }
  destruct (match s1 with "."%char :: s' => _ | _ => _ end) as [y s2] eqn:E2.
  assert (Hy : Forall (λ c, plainc c = true) y).
  { destruct s1 as [|c s1]; [by injection E2 as <- <-|]. destruct (bool_decide_reflect (c = "."%char)) as [->|Hc].
    - destruct (run is_digit s1) as [y' s3] eqn:E. apply run_spec in E as (-> & H2 & _). injection E2 as <- <-. constructor; [done|]. eapply Hp; [|done]. apply digit_wordy.
    - destruct c as [[] [] [] [] [] [] [] []]; try (by injection E2 as <- <-). done. }
  destruct (run is_letter s2) as [z s3] eqn:E3. apply run_spec in E3 as (-> & H3 & _). intros [= <- <-].
  apply Forall_app. split; [by eapply Hp; [apply digit_wordy|]|]. apply Forall_app. split; [done|]. by eapply Hp; [apply letter_wordy|].
Qed.
Lemma white_char c : is_white c = true → quote c = false ∧ is_letter c = false ∧ is_digit c = false.
Proof. destruct c as [[] [] [] [] [] [] [] []]; intros H; vm_compute in H; try discriminate H; repeat split. Qed.
Lemma bool_decide_quote c : bool_decide (c = """"%char ∨ c = "'"%char) = quote c.
Proof. unfold quote, one_of. apply bool_decide_ext. unfold str. cbn. rewrite !elem_of_cons, elem_of_nil. naive_solver. Qed.
Lemma squeeze_plain d k : Forall (λ c, plainc c = true) d → squeeze None (d ++ k) = d ++ squeeze None k.
Proof.
  induction d as [|c d IH]; [done|]. intros [Hc Hd]%Forall_cons. cbn [app squeeze].
  change (bool_decide (c ∈ [" "; "009"; "010"; "013"]%char)) with (is_white c). rewrite bool_decide_quote.
  unfold plainc in Hc. apply andb_true_iff in Hc as [H1 H2]. apply negb_true_iff in H1, H2. rewrite H1, H2. by rewrite IH.
Qed.
Lemma squeeze_white d k : Forall (λ c, is_white c = true) d → squeeze None (d ++ k) = squeeze None k.
Proof.
  induction d as [|c d IH]; [done|]. intros [Hc Hd]%Forall_cons. cbn [app squeeze].
  change (bool_decide (c ∈ [" "; "009"; "010"; "013"]%char)) with (is_white c). rewrite Hc. auto.
Qed.
Lemma squeeze_string q s a b : scan_string q s = Some (a, b) → squeeze (Some q) s = a ++ squeeze None b.
Proof.
  remember (length s) as n eqn:Hn. assert (Hle : (length s ≤ n)%nat) by lia. clear Hn. revert s a b Hle.
  induction n as [|n IH]; intros s a b Hle; [destruct s; cbn in *; [done|lia]|].
  destruct s as [|c s]; cbn in *; [done|]. destruct (bool_decide_reflect (c = "\"%char)) as [->|Hc].
  - destruct s as [|d s]; [done|]. destruct (scan_string q s) as [[a' b']|] eqn:E; cbn; [|done]. intros [= <- <-].
    cbn in Hle. rewrite (IH s a' b'); [done|lia|done].
  - case_bool_decide as Hq; [by intros [= <- <-]|].
    destruct (scan_string q s) as [[a' b']|] eqn:E; cbn; [|done]. intros [= <- <-]. rewrite (IH s a' b'); [done|lia|done].
Qed.
Lemma ops_plain d : d ∈ ops → Forall (λ c, plainc c = true) d.
Proof. unfold ops. cbn. rewrite !elem_of_cons, elem_of_nil. intros H. repeat destruct H as [->|H]; try done; repeat constructor. Qed.
Lemma squeeze_tok t k : tok_ok t → squeeze None (text t ++ k) = (if solid t then text t else []) ++ squeeze None k.
Proof.
  destruct t as [[] d]; unfold tok_ok; cbn [kind_of text]; intros H; cbn [solid].
  - destruct H as [_ H]. by apply squeeze_white.
  - apply squeeze_plain. destruct H as [->|(c & e & -> & H1 & H2)]; [by repeat constructor|].
    constructor; [by apply wordy_plain, letter_wordy|]. eapply Forall_impl; [done|]. cbn. apply wordy_plain.
  - apply squeeze_plain. destruct H as (c & e & -> & H1 & H2). constructor; [by apply wordy_plain, digit_wordy|]. by eapply scan_number_chars.
  - destruct H as (q & e & -> & Hq & H). change (squeeze None (q :: (e ++ k)) = q :: (e ++ squeeze None k)). cbn [squeeze].
    change (bool_decide (q ∈ [" "; "009"; "010"; "013"]%char)) with (is_white q). rewrite bool_decide_quote, Hq.
    destruct (is_white q) eqn:E; [apply white_char in E as [E _]; congruence|]. f_equal.
    apply scan_string_spec in H as [_ H]. by rewrite (squeeze_string q (e ++ k) e k).
  - apply squeeze_plain. by apply ops_plain.
Qed.
Definition texts (ts : list token) : chars := concat (text <$> ts).
Lemma texts_app a b : texts (a ++ b) = texts a ++ texts b. Proof. unfold texts. by rewrite fmap_app, concat_app. Qed.
Lemma texts_cons t b : texts (t :: b) = text t ++ texts b. Proof. done. Qed.
Lemma squeeze_toks ts k : Forall tok_ok ts → squeeze None (texts ts ++ k) = texts (nw ts) ++ squeeze None k.
Proof.
  induction ts as [|t ts IH]; [done|]. intros [Ht Hts]%Forall_cons. rewrite texts_cons, <- app_assoc, squeeze_tok by done. rewrite IH by done.
  rewrite nw_cons. destruct (solid t); [|done]. by rewrite texts_cons, <- app_assoc.
Qed.
(** ** What the tokeniser gives *)
Lemma one_of_elem x c : one_of x c = true ↔ c ∈ str x.
Proof. unfold one_of. apply bool_decide_eq_true. Qed.
Lemma op_in_ops d x : x ∈ ["["; "("; "{"; "]"; ")"; "}"; "!="; ":"; ","; "/"; "+"; "*"; "@"; "="; "=="; ">"; ">="; "<"; "<="; "&&"; "||"] → d = str x → tok_ok (Tok TOperator d).
Proof. intros H ->. unfold tok_ok, ops. cbn [kind_of text]. by apply elem_of_list_fmap_1. Qed.
Lemma operator_ok depth c s t depth' k : operator depth c s = TGot t depth' k → c :: s = text t ++ k ∧ tok_ok t ∧ solid t = true ∧ (t = Tok TWord (str "!") → match k with "="%char :: _ => False | _ => True end).
Proof.
  assert (Hin : ∀ d : chars, bool_decide (d ∈ ops) = true → tok_ok (Tok TOperator d)) by (intros d H; by apply bool_decide_eq_true in H).
  unfold operator.
  destruct (one_of "[({" c) eqn:E1.
  { intros [= <- <- <-]. split; [done|]. split; [|by split]. apply Hin. apply one_of_elem in E1. unfold str in E1; cbn in E1. rewrite !elem_of_cons, elem_of_nil in E1. by destruct E1 as [->|[->|[->|[]]]]. }
  destruct (one_of "])}" c) eqn:E2.
  { destruct depth as [|d depth]; [done|]. case_bool_decide; [|done]. intros [= <- <- <-]. split; [done|]. split; [|by split]. apply Hin. apply one_of_elem in E2. unfold str in E2; cbn in E2. rewrite !elem_of_cons, elem_of_nil in E2. by destruct E2 as [->|[->|[->|[]]]]. }
  destruct (bool_decide_reflect (c = "!"%char)) as [->|Hb].
  { destruct s as [|d s]; [intros [= <- <- <-]; split_and!; [done| |done|done]; by left|].
    destruct (bool_decide_reflect (d = "="%char)) as [->|Hd].
    - intros [= <- <- <-]. split; [done|]. split; [|by split]. by apply Hin.
    - intros H. assert (H' : TGot (Tok TWord ["!"%char]) depth (d :: s) = TGot t depth' k) by (rewrite <- H; destruct d as [[] [] [] [] [] [] [] []]; done).
      injection H' as <- <- <-. split_and!; [done|by left|done|]. intros _. destruct d as [[] [] [] [] [] [] [] []]; done. }
  destruct (one_of ":,/+*@" c) eqn:E3.
  { intros [= <- <- <-]. split; [done|]. split; [|by split]. apply Hin. apply one_of_elem in E3. unfold str in E3; cbn in E3. rewrite !elem_of_cons, elem_of_nil in E3. by destruct E3 as [->|[->|[->|[->|[->|[->|[]]]]]]]. }
  destruct (one_of "=><" c) eqn:E4.
  { apply one_of_elem in E4. unfold str in E4; cbn in E4. rewrite !elem_of_cons, elem_of_nil in E4.
    intros H. assert (H' : (∃ s', s = "="%char :: s' ∧ TGot (Tok TOperator [c; "="%char]) depth s' = TGot t depth' k) ∨ TGot (Tok TOperator [c]) depth s = TGot t depth' k).
    { destruct s as [|d s]; [by right|]. destruct (bool_decide_reflect (d = "="%char)) as [->|Hd]; [eauto|]. right. rewrite <- H. destruct d as [[] [] [] [] [] [] [] []]; done. }
    clear H. destruct H' as [(s' & -> & H)|H]; injection H as <- <- <-; (split; [done|]; split; [|by split]); apply Hin; by destruct E4 as [->|[->|[->|[]]]]. }
  destruct (one_of "&|" c) eqn:E5; [|done]. destruct s as [|d s]; [done|]. case_bool_decide; [|done]. subst d. intros [= <- <- <-].
  split; [done|]. split; [|by split]. apply Hin. apply one_of_elem in E5. unfold str in E5; cbn in E5. rewrite !elem_of_cons, elem_of_nil in E5. by destruct E5 as [->|[->|[]]].
Qed.
Lemma next_token_ok depth s t depth' k : next_token depth s = TGot t depth' k →
  s = text t ++ k ∧ tok_ok t ∧ (t = Tok TWord (str "!") → match k with "="%char :: _ => False | _ => True end).
Proof.
  unfold next_token. destruct s as [|c s]; [by destruct depth|].
  destruct (is_white c) eqn:E1.
  { destruct (run is_white s) as [a b] eqn:E. apply run_spec in E as (-> & H & _). intros [= <- <- <-]. split_and!; [done| |done]. split; [done|]. by constructor. }
  destruct (is_letter c) eqn:E2.
  { destruct (run _ s) as [a b] eqn:E. apply run_spec in E as (-> & H & _). intros [= <- <- <-]. split_and!; [done| |].
    - right. exists c, a. done. - intros [= -> ->]. discriminate E2. }
  destruct (is_digit c) eqn:E3.
  { destruct (scan_number s) as [a b] eqn:E. apply scan_number_spec in E as [-> H]. intros [= <- <- <-]. split_and!; [done| |done].
    exists c, a. split_and!; [done..|]. specialize (H [] I). by rewrite app_nil_r in H. }
  destruct (one_of _ c) eqn:E4.
  { destruct (scan_string c s) as [[a b]|] eqn:E; [|done]. apply scan_string_spec in E as [-> H]. intros [= <- <- <-]. split_and!; [done| |done].
    exists c, a. split_and!; [done..|]. specialize (H []). by rewrite app_nil_r in H. }
  intros (H1 & H2 & _ & H3)%operator_ok. done.
Qed.
Lemma tokens_ok n : ∀ depth s ts b, tokens n depth s = (ts, b) → Forall tok_ok ts ∧ ∃ k, s = texts ts ++ k ∧ (b = true → k = []).
Proof.
  induction n as [|n IH]; intros depth s ts b; cbn; [intros [= <- <-]; split; [done|]; by exists s|].
  destruct (next_token depth s) as [t depth' s'| |] eqn:E.
  - destruct (tokens n depth' s') as [l b'] eqn:E2. intros [= <- <-]. apply next_token_ok in E as (-> & Ht & _). apply IH in E2 as (H1 & k & -> & H2).
    split; [by constructor|]. exists k. split; [|done]. by rewrite texts_cons, <- app_assoc.
  - intros [= <- <-]. split; [done|]. exists s. split; [done|]. intros _. destruct s; [done|]. exfalso. revert E. unfold next_token.
    repeat case_match; try done. unfold operator. repeat case_match; done.
  - intros [= <- <-]. split; [done|]. exists s. done.
Qed.
(** no bang is followed by an equals sign, if there is no white space between them in the text *)
Definition bang : token := Tok TWord (str "!").
Definition starts_eq (t : token) : Prop := t = op "=" ∨ t = op "==".
Definition nobang (ts : list token) : Prop := ∀ a t b, ts = a ++ bang :: t :: b → ¬ starts_eq t.
Lemma nw_app_inv ts : ∀ a t b, nw ts = a ++ t :: b → ∃ a' b', ts = a' ++ t :: b' ∧ nw a' = a ∧ nw b' = b.
Proof.
  induction ts as [|x ts IH]; intros a t b H; [by destruct a|]. rewrite nw_cons in H. destruct (solid x) eqn:Ex.
  - destruct a as [|y a]; cbn in H; injection H as -> H.
    + exists [], ts. done.
    + destruct (IH _ _ _ H) as (a' & b' & -> & <- & <-). exists (y :: a'), b'. rewrite nw_cons, Ex. done.
  - destruct (IH _ _ _ H) as (a' & b' & -> & <- & <-). exists (x :: a'), b'. rewrite nw_cons, Ex. done.
Qed.
Lemma nw_nil_white a : Forall tok_ok a → nw a = [] → Forall (λ c, is_white c = true) (texts a).
Proof.
  induction a as [|t a IH]; [intros _ _; constructor|]. intros [Ht Ha]%Forall_cons. rewrite nw_cons. destruct (solid t) eqn:E; [done|]. intros H.
  rewrite texts_cons. apply Forall_app. split; [|auto]. destruct t as [[] d]; try done. by destruct Ht.
Qed.
Lemma tokens_bang n : ∀ depth s ts b a l, tokens n depth s = (ts, b) → ts = a ++ bang :: l →
  ∃ k, s = texts a ++ "!"%char :: texts l ++ k ∧ match texts l ++ k with "="%char :: _ => False | _ => True end.
Proof.
  induction n as [|n IH]; intros depth s ts b a l; cbn; [intros [= <- <-]; by destruct a|].
  destruct (next_token depth s) as [t depth' s'| |] eqn:E; [|intros [= <- <-]; by destruct a..].
  destruct (tokens n depth' s') as [l' b'] eqn:E2. intros [= <- <-] H. destruct a as [|t' a]; cbn in H; injection H as -> ->.
  - apply next_token_ok in E as (-> & _ & H3). specialize (H3 eq_refl). apply tokens_ok in E2 as (_ & k & -> & _). exists k. done.
  - destruct (IH _ _ _ _ a l E2 eq_refl) as (k & -> & Hk). apply next_token_ok in E as (-> & _). exists k. split; [|done].
    by rewrite texts_cons, <- app_assoc.
Qed.
Lemma no_split_nobang s : no_split_bang s → nobang (nw (tokenise s).1).
Proof.
  intros Hs a t b H Ht. destruct (tokenise s) as [ts fl] eqn:E. cbn [fst] in H. unfold tokenise in E.
  apply nw_app_inv in H as (a' & b' & -> & <- & Hb). destruct (nw_app_inv b' [] t b Hb) as (w & b2 & -> & Hw & _).
  destruct (tokens_bang _ _ _ _ _ _ _ E eq_refl) as (k & -> & Hk). apply tokens_ok in E as (Hok & _).
  assert (Hww : Forall (λ c, is_white c = true) (texts w)).
  { apply nw_nil_white; [|done]. apply Forall_app in Hok as [_ Hok]. apply Forall_cons in Hok as [_ Hok]. by apply Forall_app in Hok as [Hok _]. }
  assert (Hte : ∃ e, text t = "="%char :: e) by (destruct Ht as [->| ->]; eexists; done). destruct Hte as [e Hte].
  rewrite texts_app, texts_cons, Hte in Hk, Hs. rewrite <- app_assoc in Hk, Hs. cbn [app] in Hk, Hs.
  rewrite (Hs (texts a') (texts w) ((e ++ texts b2) ++ k) eq_refl Hww) in Hk. done.
Qed.
