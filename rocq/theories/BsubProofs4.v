From Coq Require Import String Ascii Lia.
From stdpp Require Import base option strings list.
From Verif Require Import BsubModel BsubSpec BsubProofs BsubProofs2 BsubProofs3.

(** * The tokens of printed text *)
Inductive lexes : chars → chars → list token → chars → chars → Prop :=
  | lex_nil depth s : lexes depth s [] depth s
  | lex_cons depth s t d1 s1 ts d2 s2 : next_token depth s = TGot t d1 s1 → lexes d1 s1 ts d2 s2 → lexes depth s (t :: ts) d2 s2.
Lemma lexes_app d s ts d1 s1 ts' d2 s2 : lexes d s ts d1 s1 → lexes d1 s1 ts' d2 s2 → lexes d s (ts ++ ts') d2 s2.
Proof. induction 1; cbn; [done|]. intros. econstructor; eauto. Qed.
Lemma lexes_one d s t d1 s1 : next_token d s = TGot t d1 s1 → lexes d s [t] d1 s1.
Proof. intros. econstructor; [done|constructor]. Qed.
Lemma tokens_lexes d s ts : lexes d s ts [] [] → ∀ n, (length s < n)%nat → tokens n d s = (ts, true).
Proof.
  remember [] as e eqn:He in |- * at 1. remember [] as e2 eqn:He2 in |- *. intros H. revert He He2.
  induction H as [d s|d s t d1 s1 ts d2 s2 Hn H IH]; intros -> ->; intros [|n] Hl; try lia; cbn; [done|].
  rewrite Hn. rewrite IH; [done|done|done|]. apply next_token_ok in Hn as (-> & Ht & _). rewrite app_length in Hl.
  assert (text t ≠ []); [|destruct (text t); cbn in *; [done|lia]].
  destruct t as [[] x]; cbn [text]; unfold tok_ok in Ht; cbn [kind_of text] in Ht.
  - by destruct Ht. - destruct Ht as [->|(? & ? & -> & _)]; done. - by destruct Ht as (? & ? & -> & _). - by destruct Ht as (? & ? & -> & _).
  - intros ->. revert Ht. unfold ops. cbn. rewrite !elem_of_cons, elem_of_nil. intros H'. repeat destruct H' as [H'|H']; done.
Qed.
Definition sp : token := Tok TWhite (str " ").
Definition ptk_bop (o : bop) : list token :=
  match o with BEquals | BNotEquals | BDoubleEquals | BDelay => [Tok TOperator (bop_sym o)] | _ => [sp; Tok TOperator (bop_sym o); sp] end.
Definition ptk_lop (o : lop) : list token :=
  match o with LAnd | LOr => [sp; Tok TOperator (lop_sym o); sp] | LComma => [Tok TOperator (lop_sym o); sp] | _ => [Tok TOperator (lop_sym o)] end.
Fixpoint ptk_primary (p : primary) : list token :=
  match p with
  | PName d => [Tok TWord d]
  | PLiteral d => [lit_tok d]
  | PParens cs => op "(" :: ptk_clauses cs ++ [op ")"]
  | PBraces cs => op "{" :: ptk_clauses cs ++ [op "}"]
  end
with ptk_call (c : call) : list token :=
  match c with C1 p => ptk_primary p | C2 p l => ptk_primary p ++ op "(" :: ptk_logic l ++ [op ")"] end
with ptk_binary (b : binary) : list token :=
  match b with B1 c => ptk_call c | B2 c o b => ptk_call c ++ ptk_bop o ++ ptk_binary b end
with ptk_logic (l : logic) : list token :=
  match l with L1 b => ptk_binary b | L2 b o l => ptk_binary b ++ ptk_lop o ++ ptk_logic l end
with ptk_clause (c : clause) : list token :=
  match c with K1 l => ptk_logic l | K2 l c => ptk_logic l ++ op "[" :: ptk_logic c ++ [op "]"] end
with ptk_clauses (cs : clauses) : list token :=
  match cs with KNil => [] | KCons c KNil => ptk_clause c | KCons c cs => ptk_clause c ++ sp :: ptk_clauses cs end.
(** well formed: words and literals as the tokeniser gives them, no bang before an equals sign *)
Fixpoint wf_primary (p : primary) : Prop :=
  match p with PName d => tok_ok (Tok TWord d) | PLiteral d => tok_ok (lit_tok d) | PParens cs | PBraces cs => wf_clauses cs end
with wf_call (c : call) : Prop := match c with C1 p => wf_primary p | C2 p l => wf_primary p ∧ wf_logic l end
with wf_binary (b : binary) : Prop :=
  match b with B1 c => wf_call c | B2 c o b => wf_call c ∧ wf_binary b ∧ (c = C1 (PName (str "!")) → o ≠ BEquals ∧ o ≠ BDoubleEquals) end
with wf_logic (l : logic) : Prop := match l with L1 b => wf_binary b | L2 b _ l => wf_binary b ∧ wf_logic l end
with wf_clause (c : clause) : Prop := match c with K1 l => wf_logic l | K2 l c => wf_logic l ∧ wf_logic c end
with wf_clauses (cs : clauses) : Prop := match cs with KNil => True | KCons c cs => wf_clause c ∧ wf_clauses cs end.
Definition hd_is (p : ascii → Prop) (k : chars) : Prop := match k with c :: _ => p c | [] => True end.
Definition stop (k : chars) : Prop := hd_is (λ c, wordy c = false ∧ dotty c = false) k.
Definition noeq (k : chars) : Prop := hd_is (λ c, c ≠ "="%char) k.
Definition nowhite (k : chars) : Prop := hd_is (λ c, is_white c = false) k.
Lemma wordy_run k : stop k → hd_is (λ c, (is_letter c || is_digit c) = false) k.
Proof. destruct k; cbn; [done|]. by intros [H _]. Qed.
Lemma lex_word d depth k : tok_ok (Tok TWord d) → stop k → (d = str "!" → noeq k) → lexes depth (d ++ k) [Tok TWord d] depth k.
Proof.
  intros H Hk Hb. apply lexes_one. destruct H as [H|(c & e & H & H1 & H2)]; cbn in H; subst d.
  - specialize (Hb eq_refl). destruct k as [|c k]; [done|]. cbn in Hb. destruct c as [[] [] [] [] [] [] [] []]; done.
  - cbn [app next_token]. destruct (is_white c) eqn:Ew; [apply white_char in Ew as (_ & E & _); congruence|]. rewrite H1.
    rewrite run_app; [done|done|]. apply wordy_run in Hk. by destruct k.
Qed.
Lemma lex_lit d depth k : tok_ok (lit_tok d) → stop k → lexes depth (d ++ k) [lit_tok d] depth k.
Proof.
  intros H Hk. apply lexes_one. unfold lit_tok in *. destruct d as [|c d]; [by destruct H as (? & ? & [=] & _)|].
  destruct (quote c) eqn:Eq.
  - destruct H as (q & e & [= <- <-] & _ & H). cbn [app next_token].
    destruct (is_white c) eqn:Ew; [apply white_char in Ew as (? & _); congruence|].
    assert (Hnl : wordy c = false). { destruct (wordy c) eqn:E; [|done]. apply wordy_plain in E. unfold plainc in E. rewrite Eq in E. by rewrite andb_comm in E. }
    unfold wordy in Hnl. apply orb_false_iff in Hnl as [-> ->]. fold (quote c). rewrite Eq. apply scan_string_spec in H as [_ H]. by rewrite H.
  - destruct H as (q & e & [= <- <-] & Hd & H). cbn [app next_token].
    destruct (is_white c) eqn:Ew; [apply white_char in Ew as (_ & _ & ?); congruence|].
    assert (Hnl : is_letter c = false). { clear -Hd. destruct c as [[] [] [] [] [] [] [] []]; vm_compute in Hd; try discriminate Hd; reflexivity. }
    rewrite Hnl, Hd. apply scan_number_spec in H as [_ H]. by rewrite H.
Qed.
Lemma next_sp depth k : nowhite k → next_token depth (" "%char :: k) = TGot sp depth k.
Proof. intros H. cbn [next_token]. change (is_white " ") with true. cbv iota. change (run is_white k) with (run is_white ([] ++ k)). rewrite run_app; [done|constructor|done]. Qed.
Ltac lexop := econstructor; [try (apply next_sp; first [done|reflexivity]); try reflexivity|].
Lemma lex_bop o depth k : nowhite k → noeq k → lexes depth (bop_text o ++ k) (ptk_bop o) depth k.
Proof.
  intros Hw He. destruct o; cbn [ptk_bop bop_text bop_sym].
  - apply lexes_one. destruct k as [|c k]; [done|]. cbn in He. destruct c as [[] [] [] [] [] [] [] []]; done.
  - by apply lexes_one.
  - by apply lexes_one.
  - econstructor; [by apply next_sp|]. econstructor; [done|]. apply lexes_one. by apply next_sp.
  - econstructor; [by apply next_sp|]. econstructor; [done|]. apply lexes_one. by apply next_sp.
  - econstructor; [by apply next_sp|]. econstructor; [done|]. apply lexes_one. by apply next_sp.
  - econstructor; [by apply next_sp|]. econstructor; [done|]. apply lexes_one. by apply next_sp.
  - econstructor; [by apply next_sp|]. econstructor; [done|]. apply lexes_one. by apply next_sp.
  - econstructor; [by apply next_sp|]. econstructor; [done|]. apply lexes_one. by apply next_sp.
  - by apply lexes_one.
Qed.
Lemma lex_lop o depth k : nowhite k → lexes depth (lop_text o ++ k) (ptk_lop o) depth k.
Proof.
  intros Hw. destruct o; cbn [ptk_lop lop_text lop_sym].
  - econstructor; [by apply next_sp|]. econstructor; [done|]. apply lexes_one. by apply next_sp.
  - econstructor; [by apply next_sp|]. econstructor; [done|]. apply lexes_one. by apply next_sp.
  - by apply lexes_one.
  - econstructor; [done|]. apply lexes_one. by apply next_sp.
  - by apply lexes_one.
Qed.
Definition goodh (s : chars) : Prop := ∃ c r, s = c :: r ∧ is_white c = false ∧ c ≠ "="%char.
Lemma goodh_app s k : goodh s → goodh (s ++ k). Proof. intros (c & r & -> & H). by exists c, (r ++ k). Qed.
Lemma goodh_nowhite s k : goodh s → nowhite (s ++ k). Proof. intros (c & r & -> & H & _). done. Qed.
Lemma goodh_noeq s k : goodh s → noeq (s ++ k). Proof. intros (c & r & -> & _ & H). done. Qed.
Lemma wordy_goodh c r : wordy c = true → goodh (c :: r).
Proof.
  intros H. exists c, r. split; [done|]. split; [|by intros ->].
  destruct (is_white c) eqn:E; [|done]. apply white_char in E as (_ & E1 & E2). unfold wordy in H. by rewrite E1, E2 in H.
Qed.
Lemma show_head :
  (∀ p, wf_primary p → goodh (show_primary p)) ∧ (∀ c, wf_call c → goodh (show_call c)) ∧ (∀ b, wf_binary b → goodh (show_binary b)) ∧
  (∀ l, wf_logic l → goodh (show_logic l)) ∧ (∀ c, wf_clause c → goodh (show_clause c)) ∧
  (∀ cs, wf_clauses cs → cs = KNil ∨ goodh (show_clauses cs)).
Proof.
  apply ast_ind; cbn [wf_primary wf_call wf_binary wf_logic wf_clause wf_clauses show_primary show_call show_binary show_logic show_clause]; intros; try (by apply goodh_app; naive_solver); try naive_solver.
  - destruct H as [H|(c & e & H & H1 & H2)]; cbn in H; subst d; [by exists "!"%char, []|]. by apply wordy_goodh, letter_wordy.
  - unfold lit_tok in H. destruct d as [|c d]; [by destruct H as (? & ? & [=] & _)|]. destruct (quote c) eqn:E.
    + exists c, d. split; [done|]. split; [|by intros ->]. destruct (is_white c) eqn:Ew; [|done]. apply white_char in Ew as [? _]. congruence.
    + destruct H as (? & ? & [= <- <-] & H & _). by apply wordy_goodh, digit_wordy.
  - exists "("%char. eexists. split; [reflexivity|done].
  - exists "{"%char. eexists. split; [reflexivity|done].
  - right. destruct H1 as [H1 H2]. destruct cs; cbn [show_clauses]; [auto|]. apply goodh_app. auto.
Qed.
Lemma stop_str x k : match x with EmptyString => False | String c _ => wordy c = false ∧ dotty c = false end → stop (str x ++ k).
Proof. by destruct x. Qed.
Lemma next_open depth (c : ascii) k : one_of "[({" c = true → next_token depth (c :: k) = TGot (Tok TOperator [c]) (inverse c :: depth) k.
Proof. intros H. apply one_of_elem in H. unfold str in H; cbn in H. rewrite !elem_of_cons, elem_of_nil in H. by destruct H as [->|[->|[->|[]]]]. Qed.
Lemma next_close depth (c : ascii) k : one_of "])}" c = true → next_token (c :: depth) (c :: k) = TGot (Tok TOperator [c]) depth k.
Proof. intros H. apply one_of_elem in H. unfold str in H; cbn in H. rewrite !elem_of_cons, elem_of_nil in H. by destruct H as [->|[->|[->|[]]]]. Qed.
Lemma lex_group depth (x y : string) s ts k :
  (x = "(" ∧ y = ")") ∨ (x = "{" ∧ y = "}") ∨ (x = "[" ∧ y = "]") →
  (∀ d, lexes d (s ++ str y ++ k) ts d (str y ++ k)) → lexes depth (str x ++ s ++ str y ++ k) (op x :: ts ++ [op y]) depth k.
Proof.
  intros H Hs. destruct H as [[-> ->]|[[-> ->]|[-> ->]]]; (eapply lex_cons; [by apply next_open|]; eapply lexes_app; [apply Hs|]; apply lexes_one; by apply next_close).
Qed.
Lemma bop_stop o k : stop (bop_text o ++ k). Proof. by destruct o. Qed.
Lemma bop_noeq o k : o ≠ BEquals → o ≠ BDoubleEquals → noeq (bop_text o ++ k). Proof. by destruct o. Qed.
Lemma lop_stop o k : stop (lop_text o ++ k). Proof. by destruct o. Qed.
Lemma lop_noeq o k : noeq (lop_text o ++ k). Proof. by destruct o. Qed.
Lemma lex_show :
  (∀ p, wf_primary p → ∀ d k, stop k → (p = PName (str "!") → noeq k) → lexes d (show_primary p ++ k) (ptk_primary p) d k) ∧
  (∀ c, wf_call c → ∀ d k, stop k → (c = C1 (PName (str "!")) → noeq k) → lexes d (show_call c ++ k) (ptk_call c) d k) ∧
  (∀ b, wf_binary b → ∀ d k, stop k → noeq k → lexes d (show_binary b ++ k) (ptk_binary b) d k) ∧
  (∀ l, wf_logic l → ∀ d k, stop k → noeq k → lexes d (show_logic l ++ k) (ptk_logic l) d k) ∧
  (∀ c, wf_clause c → ∀ d k, stop k → noeq k → lexes d (show_clause c ++ k) (ptk_clause c) d k) ∧
  (∀ cs, wf_clauses cs → ∀ d k, stop k → noeq k → lexes d (show_clauses cs ++ k) (ptk_clauses cs) d k).
Proof.
  destruct show_head as (Hp & Hc & Hb & Hl & Hk & Hks).
  apply ast_ind; cbn [wf_primary wf_call wf_binary wf_logic wf_clause wf_clauses show_primary show_call show_binary show_logic show_clause ptk_primary ptk_call ptk_binary ptk_logic ptk_clause].
  - intros d H dep k Hs Hn. apply lex_word; [done|done|]. intros ->. by apply Hn.
  - intros d H dep k Hs _. by apply lex_lit.
  - intros cs IH H dep k Hs _. rewrite <- !app_assoc. apply lex_group; [auto|]. intros d'. by apply IH.
  - intros cs IH H dep k Hs _. rewrite <- !app_assoc. apply lex_group; [auto|]. intros d'. by apply IH.
  - intros p IH H dep k Hs Hn. apply IH; [done|done|]. intros ->. by apply Hn.
  - intros p IH l IHl [H1 H2] dep k Hs _. rewrite <- !app_assoc. eapply lexes_app; [by apply IH|]. apply lex_group; [auto|]. intros d'. by apply IHl.
  - intros c IH H dep k Hs Hn. by apply IH.
  - intros c IH o b IHb (H1 & H2 & H3) dep k Hs Hn. rewrite <- !app_assoc. eapply lexes_app; [apply IH; [done|apply bop_stop|]|].
    { intros ->. apply bop_noeq; by apply H3. }
    eapply lexes_app; [apply lex_bop; [by apply goodh_nowhite, Hb|by apply goodh_noeq, Hb]|]. by apply IHb.
  - intros b IH H dep k Hs Hn. by apply IH.
  - intros b IH o l IHl [H1 H2] dep k Hs Hn. rewrite <- !app_assoc. eapply lexes_app; [apply IH; [done|apply lop_stop|apply lop_noeq]|].
    eapply lexes_app; [apply lex_lop; by apply goodh_nowhite, Hl|]. by apply IHl.
  - intros l IH H dep k Hs Hn. by apply IH.
  - intros l IH c IHc [H1 H2] dep k Hs Hn. rewrite <- !app_assoc. eapply lexes_app; [by apply IH|]. apply lex_group; [auto|]. intros d'. by apply IHc.
  - intros _ dep k _ _. constructor.
  - intros c IH cs IHs [H1 H2] dep k Hs Hn. destruct (Hks cs H2) as [->|Hg]; [by apply IH|].
    destruct cs as [|c' cs']; [by apply IH|].
    change (show_clauses (KCons c (KCons c' cs'))) with (show_clause c ++ str " " ++ show_clauses (KCons c' cs')).
    change (ptk_clauses (KCons c (KCons c' cs'))) with (ptk_clause c ++ sp :: ptk_clauses (KCons c' cs')).
    rewrite <- !app_assoc. eapply lexes_app; [by apply IH|]. eapply lex_cons; [apply next_sp; by apply goodh_nowhite|]. by apply IHs.
Qed.
(** ** Its white space *)
Lemma nw_op d ts : nw (Tok TOperator d :: ts) = Tok TOperator d :: nw ts. Proof. done. Qed.
Lemma nw_ptk_bop o : nw (ptk_bop o) = [Tok TOperator (bop_sym o)]. Proof. by destruct o. Qed.
Lemma nw_ptk_lop o : nw (ptk_lop o) = [Tok TOperator (lop_sym o)]. Proof. by destruct o. Qed.
Lemma nw_op' x ts : nw (op x :: ts) = op x :: nw ts. Proof. done. Qed.
Lemma nw_ptk :
  (∀ p, nw (ptk_primary p) = tk_primary p) ∧ (∀ c, nw (ptk_call c) = tk_call c) ∧ (∀ b, nw (ptk_binary b) = tk_binary b) ∧
  (∀ l, nw (ptk_logic l) = tk_logic l) ∧ (∀ c, nw (ptk_clause c) = tk_clause c) ∧ (∀ cs, nw (ptk_clauses cs) = tk_clauses cs).
Proof.
  apply ast_ind; cbn [ptk_primary ptk_call ptk_binary ptk_logic ptk_clause tk_primary tk_call tk_binary tk_logic tk_clause tk_clauses]; intros;
    rewrite ?nw_op', ?nw_app, ?nw_op', ?nw_app, ?nw_ptk_bop, ?nw_ptk_lop; try (by f_equal; auto); try (by rewrite H, H0).
  - unfold lit_tok. rewrite nw_cons. destruct d as [|c d]; [done|]. by destruct (quote c).
  - by rewrite H.
  - by rewrite H.
  - destruct cs; cbn [ptk_clauses]; [cbn [tk_clauses]; by rewrite app_nil_r|]. rewrite nw_app, nw_cons, H. change (solid sp) with false. cbv iota. by rewrite <- H0.
Qed.
Definition lastok (ts : list token) : Prop := last ts ≠ Some (op "(").
Lemma nopw_app a b : nopw a → nopw b → lastok a ∨ hsolid b → nopw (a ++ b).
Proof.
  induction a as [|t a IH]; [done|]. intros [H1 H2] Hb Hor. cbn [app nopw]. split.
  - intros Ht. specialize (H1 Ht). destruct a as [|t' a]; [|done]. cbn. destruct Hor as [Hor|Hor]; [by destruct Hor; subst t|]. by destruct b.
  - apply IH; [done|done|]. destruct Hor as [Hor|]; [|by right]. destruct a as [|t' a]; [left; done|]. left. unfold lastok in *. by rewrite last_cons_cons in Hor.
Qed.
Lemma lastok_app a b : lastok b → b ≠ [] → lastok (a ++ b).
Proof. unfold lastok. intros H Hn. rewrite last_app. destruct (last b) eqn:E; [done|]. apply last_None in E. done. Qed.
(** printed pieces: not empty, starting with something solid, not ending in an open bracket *)
Definition neat (ts : list token) : Prop := ts ≠ [] ∧ hsolid ts ∧ lastok ts ∧ nopw ts.
Lemma neat_op (x : string) : x ≠ "(" → neat [op x].
Proof.
  intros Hx. assert (Hop : op x ≠ op "("). { intros [= H]. apply Hx. apply (f_equal string_of_list_ascii) in H. unfold str in H. rewrite !string_of_list_ascii_of_string in H. done. }
  split_and!; [done|done| |split; [done|done]]. unfold lastok. cbn. congruence.
Qed.
Lemma neat_app a b : neat a → neat b → neat (a ++ b).
Proof.
  intros (H1 & H2 & H3 & H4) (H5 & H6 & H7 & H8). split_and!.
  - by destruct a. - by destruct a. - by apply lastok_app. - apply nopw_app; auto.
Qed.
Lemma neat_mid a m b : neat a → nopw m → lastok m → neat b → neat (a ++ m ++ b).
Proof.
  intros (H1 & H2 & H3 & H4) Hm Hm' (H5 & H6 & H7 & H8). split_and!.
  - by destruct a. - by destruct a. - by apply lastok_app; [apply lastok_app|destruct m]. - apply nopw_app; [done| |auto]. apply nopw_app; auto.
Qed.
Lemma neat_group (x y : string) ts : y ≠ "(" → (ts = [] ∨ neat ts) → neat (op x :: ts ++ [op y]).
Proof.
  intros Hy Hts. assert (H : neat (ts ++ [op y])) by (destruct Hts as [->|Hts]; [by apply neat_op|]; apply neat_app; [done|by apply neat_op]).
  destruct H as (H1 & H2 & H3 & H4). split_and!; [done|done| |].
  - apply (lastok_app [op x]); done.
  - split; [|done]. intros _. by destruct (ts ++ [op y]).
Qed.
Lemma nopw_bop o : nopw (ptk_bop o) ∧ lastok (ptk_bop o). Proof. destruct o; (split; [repeat split; by intros [=]|unfold lastok; cbn; by intros [=]]). Qed.
Lemma nopw_lop o : nopw (ptk_lop o) ∧ lastok (ptk_lop o). Proof. destruct o; (split; [repeat split; by intros [=]|unfold lastok; cbn; by intros [=]]). Qed.
Lemma neat_ptk :
  (∀ p, neat (ptk_primary p)) ∧ (∀ c, neat (ptk_call c)) ∧ (∀ b, neat (ptk_binary b)) ∧
  (∀ l, neat (ptk_logic l)) ∧ (∀ c, neat (ptk_clause c)) ∧ (∀ cs, cs = KNil ∨ neat (ptk_clauses cs)).
Proof.
  apply ast_ind; cbn [ptk_primary ptk_call ptk_binary ptk_logic ptk_clause]; intros; try done.
  - unfold lit_tok. split_and!; [done| |unfold lastok; cbn|split; [|done]]; destruct d as [|c d]; try (by destruct (quote c)); try done; destruct (quote c); by intros [=].
  - apply neat_group; [done|]. destruct H as [->|]; auto. - apply neat_group; [done|]. destruct H as [->|]; auto.
  - apply neat_app; [done|]. by apply neat_group; [|right].
  - destruct (nopw_bop o). by apply neat_mid.
  - destruct (nopw_lop o). by apply neat_mid.
  - apply neat_app; [done|]. by apply neat_group; [|right].
  - by left.
  - right. destruct cs as [|c' cs]; [done|]. change (neat (ptk_clause c ++ [sp] ++ ptk_clauses (KCons c' cs))).
    apply neat_mid; [done|by repeat split; intros [=]|by intros [=]|]. by destruct H0.
Qed.

(** * What is printed is what was read *)
Lemma nobang_app a b : nobang (a ++ b) → nobang a ∧ nobang b.
Proof.
  intros H. split; intros x t y ->.
  - apply (H x t (y ++ b)). by rewrite <- app_assoc.
  - apply (H (a ++ x) t y). by rewrite <- app_assoc.
Qed.
Lemma nobang_cons t b : nobang (t :: b) → nobang b. Proof. intros H. by apply (nobang_app [t] b) in H as [_ ?]. Qed.
Lemma tk_wf :
  (∀ p, Forall tok_ok (tk_primary p) → nobang (tk_primary p) → wf_primary p) ∧ (∀ c, Forall tok_ok (tk_call c) → nobang (tk_call c) → wf_call c) ∧
  (∀ b, Forall tok_ok (tk_binary b) → nobang (tk_binary b) → wf_binary b) ∧ (∀ l, Forall tok_ok (tk_logic l) → nobang (tk_logic l) → wf_logic l) ∧
  (∀ c, Forall tok_ok (tk_clause c) → nobang (tk_clause c) → wf_clause c) ∧ (∀ cs, Forall tok_ok (tk_clauses cs) → nobang (tk_clauses cs) → wf_clauses cs).
Proof.
  apply ast_ind; cbn [wf_primary wf_call wf_binary wf_logic wf_clause wf_clauses tk_primary tk_call tk_binary tk_logic tk_clause tk_clauses].
  - intros d [H _]%Forall_cons _. done.
  - intros d [H _]%Forall_cons _. done.
  - intros cs IH [_ [H _]%Forall_app]%Forall_cons [Hb _]%nobang_cons%nobang_app. auto.
  - intros cs IH [_ [H _]%Forall_app]%Forall_cons [Hb _]%nobang_cons%nobang_app. auto.
  - auto.
  - intros p IH l IHl [H1 [_ [H2 _]%Forall_app]%Forall_cons]%Forall_app [B1 [B2 _]%nobang_cons%nobang_app]%nobang_app. auto.
  - auto.
  - intros c IH o b IHb [H1 [_ H2]%Forall_cons]%Forall_app Hnb. pose proof Hnb as [B1 B2%nobang_cons]%nobang_app. split_and!; [auto..|].
    intros ->. cbn [tk_call tk_primary app] in Hnb. specialize (Hnb [] (Tok TOperator (bop_sym o)) (tk_binary b) eq_refl).
    split; intros ->; apply Hnb; [by left|by right].
  - auto.
  - intros b IH o l IHl [H1 [_ H2]%Forall_cons]%Forall_app [B1 B2%nobang_cons]%nobang_app. auto.
  - auto.
  - intros l IH c IHc [H1 [_ [H2 _]%Forall_app]%Forall_cons]%Forall_app [B1 [B2 _]%nobang_cons%nobang_app]%nobang_app. auto.
  - done.
  - intros c IH cs IHs [H1 H2]%Forall_app [B1 B2]%nobang_app. auto.
Qed.
(** the same without the condition on the bangs, for the text *)
Lemma text_lit d : text (lit_tok d) = d. Proof. done. Qed.
Lemma squeeze_op (x : string) k : Forall (λ c, plainc c = true) (str x) → squeeze None (str x ++ k) = str x ++ squeeze None k.
Proof. apply squeeze_plain. Qed.
Lemma squeeze_bop o k : squeeze None (bop_text o ++ k) = bop_sym o ++ squeeze None k. Proof. by destruct o. Qed.
Lemma squeeze_lop o k : squeeze None (lop_text o ++ k) = lop_sym o ++ squeeze None k. Proof. by destruct o. Qed.
Lemma squeeze_show :
  (∀ p, Forall tok_ok (tk_primary p) → ∀ k, squeeze None (show_primary p ++ k) = texts (tk_primary p) ++ squeeze None k) ∧
  (∀ c, Forall tok_ok (tk_call c) → ∀ k, squeeze None (show_call c ++ k) = texts (tk_call c) ++ squeeze None k) ∧
  (∀ b, Forall tok_ok (tk_binary b) → ∀ k, squeeze None (show_binary b ++ k) = texts (tk_binary b) ++ squeeze None k) ∧
  (∀ l, Forall tok_ok (tk_logic l) → ∀ k, squeeze None (show_logic l ++ k) = texts (tk_logic l) ++ squeeze None k) ∧
  (∀ c, Forall tok_ok (tk_clause c) → ∀ k, squeeze None (show_clause c ++ k) = texts (tk_clause c) ++ squeeze None k) ∧
  (∀ cs, Forall tok_ok (tk_clauses cs) → ∀ k, squeeze None (show_clauses cs ++ k) = texts (tk_clauses cs) ++ squeeze None k).
Proof.
  assert (Hg : ∀ (x y : string) s ts k, Forall (λ c, plainc c = true) (str x) → Forall (λ c, plainc c = true) (str y) →
     (∀ k, squeeze None (s ++ k) = texts ts ++ squeeze None k) →
     squeeze None (str x ++ s ++ str y ++ k) = (text (op x) ++ texts (ts ++ [op y])) ++ squeeze None k).
  { intros x y s ts k Hx Hy Hs. rewrite squeeze_op, Hs, squeeze_op by done. rewrite texts_app. replace (texts [op y]) with (str y) by (unfold texts; cbn; by rewrite app_nil_r). rewrite <- !app_assoc. done. }
  apply ast_ind; cbn [show_primary show_call show_binary show_logic show_clause tk_primary tk_call tk_binary tk_logic tk_clause tk_clauses].
  - intros d [H _]%Forall_cons k. pose proof (squeeze_tok _ k H) as Hq. cbn [text] in Hq. rewrite Hq. unfold texts. cbn. by rewrite app_nil_r.
  - intros d [H _]%Forall_cons k. pose proof (squeeze_tok _ k H) as Hq. rewrite text_lit in Hq. rewrite Hq. replace (texts [lit_tok d]) with d by (unfold texts; cbn; by rewrite app_nil_r). unfold lit_tok. destruct d as [|c d]; [done|]. by destruct (quote c).
  - intros cs IH [_ [H _]%Forall_app]%Forall_cons k. rewrite <- !app_assoc, texts_cons. apply Hg; [by repeat constructor..|auto].
  - intros cs IH [_ [H _]%Forall_app]%Forall_cons k. rewrite <- !app_assoc, texts_cons. apply Hg; [by repeat constructor..|auto].
  - auto.
  - intros p IH l IHl [H1 [_ [H2 _]%Forall_app]%Forall_cons]%Forall_app k. rewrite <- !app_assoc, IH by done. rewrite texts_app, texts_cons, <- app_assoc. f_equal. apply Hg; [by repeat constructor..|auto].
  - auto.
  - intros c IH o b IHb [H1 [_ H2]%Forall_cons]%Forall_app k. rewrite <- !app_assoc, IH, squeeze_bop, IHb by done. rewrite texts_app, texts_cons, <- !app_assoc. done.
  - auto.
  - intros c IH o b IHb [H1 [_ H2]%Forall_cons]%Forall_app k. rewrite <- !app_assoc, IH, squeeze_lop, IHb by done. rewrite texts_app, texts_cons, <- !app_assoc. done.
  - auto.
  - intros p IH l IHl [H1 [_ [H2 _]%Forall_app]%Forall_cons]%Forall_app k. rewrite <- !app_assoc, IH by done. rewrite texts_app, texts_cons, <- app_assoc. f_equal. apply Hg; [by repeat constructor..|auto].
  - done.
  - intros c IH cs IHs [H1 H2]%Forall_app k. rewrite texts_app, <- app_assoc, <- IHs by done. destruct cs as [|c' cs']; [by apply IH|].
    change (show_clauses (KCons c (KCons c' cs'))) with (show_clause c ++ str " " ++ show_clauses (KCons c' cs')). rewrite <- !app_assoc. by rewrite IH.
Qed.
Lemma parse_bsub_tk s r rest : parse_bsub s = POk r rest → Forall tok_ok (tk_clauses r) ∧ nw (tokenise s).1 = tk_clauses r.
Proof.
  intros H. pose proof (parse_bsub_answers s) as [_ Ha]. specialize (Ha _ _ H). subst rest. unfold parse_bsub in H. cbv zeta in H.
  destruct (tokenise s) as [ts b] eqn:E. unfold tokenise in E. apply tokens_ok in E as (Hok & _). cbn [fst] in *.
  apply parse_top_without in H. rewrite nw_skip in H.
  assert (Hn : Forall tok_ok (nw ts)) by (apply Forall_forall; intros t [_ Ht]%elem_of_list_filter; by eapply Forall_forall in Hok).
  pose proof (parse_top_takes _ (nw ts) r (nw_nw ts) Hn H) as Hts. rewrite <- Hts. done.
Qed.
Lemma show_text s r rest : parse_bsub s = POk r rest → ∃ k, squeeze None s = squeeze None (show_clauses r) ++ k ∧ (lexical s → k = []).
Proof.
  intros H. apply parse_bsub_tk in H as [Hok Htk]. destruct squeeze_show as (_ & _ & _ & _ & _ & Hs).
  specialize (Hs r Hok []). change (squeeze None []) with (@nil ascii) in Hs. rewrite !app_nil_r in Hs. rewrite Hs.
  destruct (tokenise s) as [ts b] eqn:E. pose proof E as E'. unfold tokenise in E'. apply tokens_ok in E' as (Hok' & k & Hsk & Hb). cbn [fst] in Htk.
  exists (squeeze None k). split; [rewrite Hsk, squeeze_toks by done; by rewrite Htk|]. unfold lexical. rewrite E. cbn. intros Hl. by rewrite Hb.
Qed.
Lemma show_parses s r rest : parse_bsub s = POk r rest → no_split_bang s → parse_bsub (show_clauses r) = POk r [] ∧ lexical (show_clauses r).
Proof.
  intros H Hb. pose proof H as H'. apply parse_bsub_tk in H' as [Hok Htk]. apply no_split_nobang in Hb. rewrite Htk in Hb.
  destruct tk_wf as (_ & _ & _ & _ & _ & Hwf). specialize (Hwf r Hok Hb). destruct lex_show as (_ & _ & _ & _ & _ & Hlex).
  specialize (Hlex r Hwf [] [] I I). rewrite app_nil_r in Hlex.
  assert (Et : tokenise (show_clauses r) = (ptk_clauses r, true)) by (unfold tokenise; apply tokens_lexes; [done|lia]).
  split; [|unfold lexical; by rewrite Et].
  pose proof (parse_bsub_answers s) as [_ Ha]. specialize (Ha _ _ H). subst rest.
  pose proof (parse_bsub_answers (show_clauses r)) as [Hf _]. unfold parse_bsub in *. cbv zeta in *. rewrite Et in *. cbn [fst] in *.
  set (n := (6 * length (tokenise s).1 + 6)%nat) in *. set (m := (6 * length (ptk_clauses r) + 6)%nat) in *.
  apply parse_top_without in H. rewrite nw_skip, Htk in H. destruct nw_ptk as (_ & _ & _ & _ & _ & Hnw). rewrite <- Hnw, <- nw_skip in H.
  assert (Hneat : nopw (ptk_clauses r)) by (destruct neat_ptk as (_ & _ & _ & _ & _ & Hn); destruct (Hn r) as [->|(_ & _ & _ & ?)]; done).
  apply parse_top_with in H; [|apply hsolid_skip|by apply nopw_skip].
  destruct (decide (n ≤ m)%nat) as [Hle|Hle].
  - destruct (parse_top_more n (skip (ptk_clauses r)) m Hle) as [Hx|Hx]; congruence.
  - destruct (parse_top_more m (skip (ptk_clauses r)) n ltac:(lia)) as [Hx|Hx]; congruence.
Qed.

(** * Replacing *)
Lemma replace_puts key o v :
  (∀ p, shape_primary (replace_primary (str key) o v p) = shape_primary p ∧ in_primary (replace_primary (str key) o v p) = put key o v <$> in_primary p) ∧
  (∀ c, shape_call (replace_call (str key) o v c) = shape_call c ∧ in_call (replace_call (str key) o v c) = put key o v <$> in_call c) ∧
  (∀ b, shape_binary (replace_binary (str key) o v b) = shape_binary b ∧ in_binary (replace_binary (str key) o v b) = put key o v <$> in_binary b) ∧
  (∀ l, shape_logic (replace_logic (str key) o v l) = shape_logic l ∧ in_logic (replace_logic (str key) o v l) = put key o v <$> in_logic l) ∧
  (∀ c, shape_clause (replace_clause (str key) o v c) = shape_clause c ∧ in_clause (replace_clause (str key) o v c) = put key o v <$> in_clause c) ∧
  (∀ cs, shape_clauses (replace_clauses (str key) o v cs) = shape_clauses cs ∧ in_clauses (replace_clauses (str key) o v cs) = put key o v <$> in_clauses cs).
Proof.
  apply ast_ind; cbn [replace_primary replace_call replace_binary replace_logic replace_clause replace_clauses]; intros; try done;
    try (destruct_and!; cbn [shape_primary shape_call shape_binary shape_logic shape_clause shape_clauses in_primary in_call in_binary in_logic in_clause in_clauses];
         rewrite ?fmap_app; split; congruence).
  case_bool_decide as Hk; cbn [shape_binary in_binary]; (split; [done|]); cbn [fmap list_fmap put]; [rewrite bool_decide_true by done|rewrite bool_decide_false by done]; done.
Qed.
Lemma shape_settings :
  (∀ p p', shape_primary p = shape_primary p' → (length (in_primary p) = length (in_primary p')) ∧ (in_primary p = in_primary p' → p = p')) ∧
  (∀ c c', shape_call c = shape_call c' → (length (in_call c) = length (in_call c')) ∧ (in_call c = in_call c' → c = c')) ∧
  (∀ b b', shape_binary b = shape_binary b' → (length (in_binary b) = length (in_binary b')) ∧ (in_binary b = in_binary b' → b = b')) ∧
  (∀ l l', shape_logic l = shape_logic l' → (length (in_logic l) = length (in_logic l')) ∧ (in_logic l = in_logic l' → l = l')) ∧
  (∀ c c', shape_clause c = shape_clause c' → (length (in_clause c) = length (in_clause c')) ∧ (in_clause c = in_clause c' → c = c')) ∧
  (∀ cs cs', shape_clauses cs = shape_clauses cs' → (length (in_clauses cs) = length (in_clauses cs')) ∧ (in_clauses cs = in_clauses cs' → cs = cs')).
Proof.
  assert (Happ : ∀ (a b a' b' : list setting) (P Q : Prop), length a = length a' ∧ (a = a' → P) → length b = length b' ∧ (b = b' → Q) →
     length (a ++ b) = length (a' ++ b') ∧ (a ++ b = a' ++ b' → P ∧ Q)).
  { intros a b a' b' P Q [H1 H2] [H3 H4]. split; [rewrite !app_length; lia|]. intros H. apply app_inj_1 in H as [? ?]; [auto|done]. }
  apply ast_ind; cbn [shape_primary shape_call shape_binary shape_logic shape_clause shape_clauses in_primary in_call in_binary in_logic in_clause in_clauses].
  - intros d [] [=]; subst; done.
  - intros d [] [=]; subst; done.
  - intros cs IH [] [=]. destruct (IH _ H0) as [H1 H2]. split; [done|]. intros H. f_equal. auto.
  - intros cs IH [] [=]. destruct (IH _ H0) as [H1 H2]. split; [done|]. intros H. f_equal. auto.
  - intros p IH [] [=]. destruct (IH _ H0) as [H1 H2]. split; [done|]. intros H. f_equal. auto.
  - intros p IH l IHl [] [=]. destruct (Happ _ _ _ _ _ _ (IH _ H0) (IHl _ H1)) as [H2 H3]. split; [done|]. intros H. destruct (H3 H). congruence.
  - intros c IH [] [=]. destruct (IH _ H0) as [H1 H2]. split; [done|]. intros H. f_equal. auto.
  - intros c IH o b IHb [] [=]. split; [done|]. cbn. congruence.
  - intros c IH [] [=]. destruct (IH _ H0) as [H1 H2]. split; [done|]. intros H. f_equal. auto.
  - intros p IH o l IHl [] [=]. destruct (Happ _ _ _ _ _ _ (IH _ H0) (IHl _ H2)) as [H3 H4]. split; [done|]. intros H. destruct (H4 H). congruence.
  - intros c IH [] [=]. destruct (IH _ H0) as [H1 H2]. split; [done|]. intros H. f_equal. auto.
  - intros p IH l IHl [] [=]. destruct (Happ _ _ _ _ _ _ (IH _ H0) (IHl _ H1)) as [H2 H3]. split; [done|]. intros H. destruct (H3 H). congruence.
  - intros [] [=]; done.
  - intros p IH l IHl [] [=]. destruct (Happ _ _ _ _ _ _ (IH _ H0) (IHl _ H1)) as [H2 H3]. split; [done|]. intros H. destruct (H3 H). congruence.
Qed.
Lemma leading_section l : leading_word l = section l.
Proof. unfold leading_word, section. by destruct l as [[[]|[]]|[[]|[]]]. Qed.
Lemma replace_logic_puts key o v l : only_puts key o v l (replace_logic (str key) o v l).
Proof. destruct (replace_puts key o v) as (_ & _ & _ & H & _). apply H. Qed.
Lemma replace_top_spec memory hosts i c : clause_replaced memory hosts i c (replace_top (bool_decide (i = 0%nat)) memory hosts c).
Proof.
  destruct c as [l|l cond]; cbn [clause_replaced replace_top].
  - destruct (decide (i = 0%nat)); [rewrite bool_decide_true by done|rewrite bool_decide_false by done; done].
    eexists. split; [done|]. apply replace_logic_puts.
  - rewrite leading_section. destruct (section l) as [d|]; [|exists cond; split_and!; done].
    eexists. split; [done|]. unfold replace_section. split_and!.
    + intros [= ->]. apply replace_logic_puts.
    + intros [= ->]. apply replace_logic_puts.
    + intros [= ->]. apply replace_logic_puts.
    + rewrite !not_elem_of_cons. intros (H1 & H2 & H3 & _). rewrite !bool_decide_false by congruence. done.
Qed.
Lemma replace_rest_lookup memory hosts cs i : clause_list (replace_rest memory hosts cs) !! i = replace_top false memory hosts <$> (clause_list cs !! i).
Proof. revert cs i. fix IH 1. intros [|c cs] i; [done|]. destruct i as [|i]; [done|]. exact (IH cs i). Qed.
Lemma replace_all_spec memory hosts cs i :
  match clause_list cs !! i with
  | Some c => ∃ c', clause_list (replace_memory_and_hosts memory hosts cs) !! i = Some c' ∧ clause_replaced memory hosts i c c'
  | None => clause_list (replace_memory_and_hosts memory hosts cs) !! i = None
  end.
Proof.
  destruct cs as [|c cs]; [done|]. cbn [clause_list replace_memory_and_hosts]. destruct i as [|i].
  - cbn. eexists. split; [done|]. apply (replace_top_spec memory hosts 0 c).
  - change ((c :: clause_list cs) !! S i) with (clause_list cs !! i).
    change ((replace_top true memory hosts c :: clause_list (replace_rest memory hosts cs)) !! S i) with (clause_list (replace_rest memory hosts cs) !! i).
    rewrite replace_rest_lookup. destruct (clause_list cs !! i) as [c'|]; [|done]. cbn. eexists. split; [done|]. apply (replace_top_spec memory hosts (S i) c').
Qed.
(** a check for [no_split_bang], for the cases *)
Fixpoint bang_check (s : chars) : bool :=
  match s with
  | [] => true
  | c :: s' => (if bool_decide (c = "!"%char) then match run is_white s' with (_ :: _, d :: _) => negb (bool_decide (d = "="%char)) | _ => true end else true) && bang_check s'
  end.
Lemma bang_check_ok s : bang_check s = true → no_split_bang s.
Proof.
  induction s as [|c s IH]; intros H a w b Hs Hw; [by destruct a|]. cbn in H. apply andb_true_iff in H as [H1 H2].
  destruct a as [|x a]; cbn in Hs; injection Hs as -> ->; [|by eapply IH].
  rewrite bool_decide_true in H1 by done. rewrite run_app in H1; [|done|done]. destruct w; [done|].
  by rewrite bool_decide_true in H1.
Qed.
