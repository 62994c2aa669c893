From Coq Require Import String Ascii Lia.
From stdpp Require Import base option strings list.
From Verif Require Import BsubModel BsubSpec BsubProofs.

(** * The tokens a piece of text stands for *)
Definition quote (c : ascii) : bool := one_of """'" c.
Definition lit_tok (d : chars) : token := Tok (match d with c :: _ => if quote c then TString else TNumber | [] => TNumber end) d.
Definition bop_sym (o : bop) : chars :=
  str match o with BEquals => "=" | BNotEquals => "!=" | BDoubleEquals => "==" | BLess => "<" | BLessEqual => "<="
                 | BGreater => ">" | BGreaterEqual => ">=" | BAdd => "+" | BMultiply => "*" | BDelay => "@" end.
Definition lop_sym (o : lop) : chars :=
  str match o with LAnd => "&&" | LOr => "||" | LColon => ":" | LComma => "," | LSlash => "/" end.
Fixpoint tk_primary (p : primary) : list token :=
  match p with
  | PName d => [Tok TWord d]
  | PLiteral d => [lit_tok d]
  | PParens cs => op "(" :: tk_clauses cs ++ [op ")"]
  | PBraces cs => op "{" :: tk_clauses cs ++ [op "}"]
  end
with tk_call (c : call) : list token :=
  match c with C1 p => tk_primary p | C2 p l => tk_primary p ++ op "(" :: tk_logic l ++ [op ")"] end
with tk_binary (b : binary) : list token :=
  match b with B1 c => tk_call c | B2 c o b => tk_call c ++ Tok TOperator (bop_sym o) :: tk_binary b end
with tk_logic (l : logic) : list token :=
  match l with L1 b => tk_binary b | L2 b o l => tk_binary b ++ Tok TOperator (lop_sym o) :: tk_logic l end
with tk_clause (c : clause) : list token :=
  match c with K1 l => tk_logic l | K2 l c => tk_logic l ++ op "[" :: tk_logic c ++ [op "]"] end
with tk_clauses (cs : clauses) : list token :=
  match cs with KNil => [] | KCons c cs => tk_clause c ++ tk_clauses cs end.
Lemma parse_bop_sym d o : parse_bop d = Some o → d = bop_sym o.
Proof. unfold parse_bop. repeat (case_bool_decide; [intros [= <-]; done|]). done. Qed.
Lemma parse_lop_sym d o : parse_lop d = Some o → d = lop_sym o.
Proof. unfold parse_lop. repeat (case_bool_decide; [intros [= <-]; done|]). done. Qed.

(** tokens as they come out of the tokeniser *)
Definition wordy (c : ascii) : bool := is_letter c || is_digit c.
Definition ops : list chars :=
  str <$> ["["; "("; "{"; "]"; ")"; "}"; "!="; ":"; ","; "/"; "+"; "*"; "@"; "="; "=="; ">"; ">="; "<"; "<="; "&&"; "||"].
Definition tok_ok (t : token) : Prop :=
  match kind_of t with
  | TWhite => text t ≠ [] ∧ Forall (λ c, is_white c = true) (text t)
  | TWord => text t = str "!" ∨ ∃ c d, text t = c :: d ∧ is_letter c = true ∧ Forall (λ c, wordy c = true) d
  | TNumber => ∃ c d, text t = c :: d ∧ is_digit c = true ∧ scan_number d = (d, [])
  | TString => ∃ q d, text t = q :: d ∧ quote q = true ∧ scan_string q d = Some (d, [])
  | TOperator => text t ∈ ops
  end.
Definition takes {A} (r : pres A) (tk : A → list token) (ts : list token) : Prop :=
  match r with POk a rest => ts = tk a ++ rest ∧ Forall tok_ok rest | _ => True end.
Lemma skip_id ts : nw ts = ts → skip ts = ts.
Proof. intros <-. apply skip_nw. Qed.
Lemma accept_eq t ts ts' : accept t ts = Some ts' → ts = t :: ts'.
Proof. destruct ts; cbn; [done|]. case_bool_decide; [|done]. by intros [= ->]; subst. Qed.
Lemma nw_tail a b : nw (a ++ b) = a ++ b → nw b = b.
Proof.
  intros H. rewrite nw_app in H. assert (Hl : ∀ l, (length (nw l) ≤ length l)%nat) by (intros l; apply filter_length).
  apply app_inj_2 in H; [by destruct H|]. apply (f_equal length) in H. rewrite !app_length in H.
  pose proof (Hl a). pose proof (Hl b). lia.
Qed.
Lemma nw_tail1 t b : nw (t :: b) = t :: b → nw b = b.
Proof. apply (nw_tail [t]). Qed.
Lemma lit_tok_number d : tok_ok (Tok TNumber d) → Tok TNumber d = lit_tok d.
Proof.
  intros (c & d' & H & Hc & _). cbn in H. subst d. unfold lit_tok, quote. f_equal.
  destruct (one_of _ c) eqn:E; [|done]. unfold one_of in E. apply bool_decide_eq_true in E. exfalso. revert Hc E. clear.
  intros Hc E. unfold str in E. cbn in E. rewrite !elem_of_cons, elem_of_nil in E. destruct E as [-> | [-> | []]]; discriminate Hc.
Qed.
Lemma lit_tok_string d : tok_ok (Tok TString d) → Tok TString d = lit_tok d.
Proof. intros (c & d' & H & Hc & _). cbn in H. subst d. unfold lit_tok. by rewrite Hc. Qed.

Ltac use I t a r He Ho := let H := fresh in pose proof (I t) as H; cbv beta in H; 
  match type of H with _ → _ → takes ?x _ _ => specialize (H ltac:(assumption) ltac:(assumption)); destruct x as [a r| |]; cbn [pbind]; [|done|done]; destruct H as [He Ho] end.
Lemma parse_takes n :
  (∀ ts, nw ts = ts → Forall tok_ok ts → takes (parse_primary n ts) tk_primary ts) ∧
  (∀ c ts, nw ts = ts → Forall tok_ok ts → takes (parse_clauses n c ts) (λ cs, tk_clauses cs ++ [c]) ts) ∧
  (∀ ts, nw ts = ts → Forall tok_ok ts → takes (parse_call n ts) tk_call ts) ∧
  (∀ ts, nw ts = ts → Forall tok_ok ts → takes (parse_binary n ts) tk_binary ts) ∧
  (∀ ts, nw ts = ts → Forall tok_ok ts → takes (parse_logic n ts) tk_logic ts) ∧
  (∀ ts, nw ts = ts → Forall tok_ok ts → takes (parse_clause n ts) tk_clause ts).
Proof.
  induction n as [|n (I1 & I2 & I3 & I4 & I5 & I6)]; [done|]. split_and!.
  - intros ts Hw Hok. cbn [parse_primary]. destruct ts as [|[[] d] ts]; try done; apply Forall_cons in Hok as [Ht Hok].
    + done.
    + split; [|done]. change (Tok TNumber d :: ts = lit_tok d :: ts). by rewrite <- lit_tok_number.
    + split; [|done]. change (Tok TString d :: ts = lit_tok d :: ts). by rewrite <- lit_tok_string.
    + apply nw_tail1 in Hw. rewrite skip_id by done.
      destruct (bool_decide_reflect (d = str "(")) as [->|]; [|destruct (bool_decide_reflect (d = str "{")) as [->|]; [|done]].
      * use (I2 (op ")")) ts a r He Ho. split; [|done]. rewrite He. cbn. by rewrite <- app_assoc.
      * use (I2 (op "}")) ts a r He Ho. split; [|done]. rewrite He. cbn. by rewrite <- app_assoc.
  - intros c ts Hw Hok. cbn [parse_clauses]. use I6 ts a r He Ho. assert (Hr : nw r = r) by (rewrite He in Hw; by eapply nw_tail).
    rewrite skip_id by done. destruct (accept c r) as [r2|] eqn:E.
    + apply accept_eq in E. split; [|by subst r; apply Forall_cons in Ho as [_ ?]]. rewrite He, E. cbn. by rewrite app_nil_r, <- app_assoc.
    + use (I2 c) r cs r2 He2 Ho2. split; [|done]. rewrite He. rewrite He2 at 1. cbn. by rewrite <- !app_assoc.
  - intros ts Hw Hok. cbn [parse_call]. use I1 ts a r He Ho. assert (Hr : nw r = r) by (rewrite He in Hw; by eapply nw_tail).
    rewrite skip_id by done. destruct (accept _ r) as [r2|] eqn:E; [|done].
    apply accept_eq in E. subst r. apply nw_tail1 in Hr. apply Forall_cons in Ho as [_ Ho]. use I5 r2 l r3 He2 Ho2.
    assert (Hr3 : nw r3 = r3) by (rewrite He2 in Hr; by eapply nw_tail). rewrite skip_id by done.
    destruct (accept _ r3) as [r4|] eqn:E; [|done]. apply accept_eq in E. subst r3. apply Forall_cons in Ho2 as [_ Ho2].
    split; [|done]. rewrite He, He2. cbn. rewrite <- !app_assoc. cbn. rewrite <- app_assoc. done.
  - intros ts Hw Hok. cbn [parse_binary]. use I3 ts a r He Ho. assert (Hr : nw r = r) by (rewrite He in Hw; by eapply nw_tail).
    cbv zeta. rewrite skip_id by done. destruct r as [|[[] d] r2]; try done. destruct (parse_bop d) as [o|] eqn:E; [|done].
    apply nw_tail1 in Hr. rewrite skip_id by done. apply Forall_cons in Ho as [_ Ho]. use I4 r2 b r3 He2 Ho2. split; [|done].
    apply parse_bop_sym in E. rewrite He, He2, E. cbn. by rewrite <- app_assoc.
  - intros ts Hw Hok. cbn [parse_logic]. use I4 ts a r He Ho. assert (Hr : nw r = r) by (rewrite He in Hw; by eapply nw_tail).
    cbv zeta. rewrite skip_id by done. destruct r as [|[[] d] r2]; try done. destruct (parse_lop d) as [o|] eqn:E; [|done].
    apply nw_tail1 in Hr. rewrite skip_id by done. apply Forall_cons in Ho as [_ Ho]. use I5 r2 b r3 He2 Ho2. split; [|done].
    apply parse_lop_sym in E. rewrite He, He2, E. cbn. by rewrite <- app_assoc.
  - intros ts Hw Hok. cbn [parse_clause]. use I5 ts a r He Ho. assert (Hr : nw r = r) by (rewrite He in Hw; by eapply nw_tail).
    rewrite skip_id by done. destruct (accept _ r) as [r2|] eqn:E; [|done].
    apply accept_eq in E. subst r. apply nw_tail1 in Hr. rewrite skip_id by done. apply Forall_cons in Ho as [_ Ho]. use I5 r2 l r3 He2 Ho2.
    assert (Hr3 : nw r3 = r3) by (rewrite He2 in Hr; by eapply nw_tail). rewrite skip_id by done.
    destruct (accept _ r3) as [r4|] eqn:E; [|done]. apply accept_eq in E. subst r3. apply Forall_cons in Ho2 as [_ Ho2].
    split; [|done]. rewrite He, He2. cbn. rewrite <- !app_assoc. cbn. rewrite <- app_assoc. done.
Qed.
Lemma parse_top_takes n : ∀ ts r, nw ts = ts → Forall tok_ok ts → parse_top n ts = POk r [] → ts = tk_clauses r.
Proof.
  induction n as [|n IH]; intros ts r Hw Hok; destruct ts as [|t ts]; try (by intros [= <-]); try done. cbn [parse_top].
  destruct (parse_takes n) as (_ & _ & _ & _ & _ & I6). use I6 (t :: ts) a rest He Ho.
  assert (Hr : nw rest = rest) by (rewrite He in Hw; by eapply nw_tail). rewrite skip_id by done.
  destruct (parse_top n rest) as [cs r'| |] eqn:E; cbn [pbind]; [|done|done]. intros [= <- ->]. rewrite He. cbn. f_equal. by apply IH.
Qed.

(** * The tokeniser *)
Lemma run_spec p s a b : run p s = (a, b) → s = a ++ b ∧ Forall (λ c, p c = true) a ∧ match b with c :: _ => p c = false | [] => True end.
Proof.
  revert a b. induction s as [|c s IH]; cbn; intros a b; [by intros [= <- <-]|]. destruct (p c) eqn:E.
  - destruct (run p s) as [a' b']. intros [= <- <-]. destruct (IH a' b' eq_refl) as (-> & H2 & H3). cbn. auto.
  - intros [= <- <-]. done.
Qed.
Lemma run_app p a b : Forall (λ c, p c = true) a → match b with c :: _ => p c = false | [] => True end → run p (a ++ b) = (a, b).
Proof.
  induction a as [|c a IH]; cbn; intros Ha Hb; [destruct b; cbn; [done|]; by rewrite Hb|]. apply Forall_cons in Ha as [Hc Ha].
  by rewrite Hc, IH.
Qed.
Lemma scan_string_spec q s a b : scan_string q s = Some (a, b) → s = a ++ b ∧ ∀ k, scan_string q (a ++ k) = Some (a, k).
Proof.
  remember (length s) as n eqn:Hn. assert (Hle : (length s ≤ n)%nat) by lia. clear Hn. revert s a b Hle.
  induction n as [|n IH]; intros s a b Hle; [destruct s; cbn in *; [done|lia]|].
  destruct s as [|c s]; cbn in *; [done|]. destruct (bool_decide_reflect (c = "\"%char)) as [->|Hc].
  - destruct s as [|d s]; [done|]. destruct (scan_string q s) as [[a' b']|] eqn:E; cbn; [|done]. intros [= <- <-].
    destruct (IH s a' b' ltac:(cbn in Hle; lia) E) as [-> H2]. split; [done|]. intros k. cbn. by rewrite H2.
  - case_bool_decide as Hq; [intros [= <- <-]; split; [done|]; intros k; cbn; by rewrite !bool_decide_false, bool_decide_true by done|].
    destruct (scan_string q s) as [[a' b']|] eqn:E; cbn; [|done]. intros [= <- <-].
    destruct (IH s a' b' ltac:(lia) E) as [-> H2]. split; [done|]. intros k. cbn. rewrite !bool_decide_false by done. by rewrite H2.
Qed.
Definition dotty (c : ascii) : bool := bool_decide (c = "."%char).
Lemma scan_number_spec s a b : scan_number s = (a, b) →
  s = a ++ b ∧ ∀ k, match k with c :: _ => wordy c = false ∧ dotty c = false | [] => True end → scan_number (a ++ k) = (a, k).
Proof.
  unfold scan_number. destruct (run is_digit s) as [x s1] eqn:E1. apply run_spec in E1 as (-> & H1 & H1').
  assert (Hgen : ∃ y s2, match s1 with "."%char :: s' => let '(b, s'') := run is_digit s' in ("."%char :: b, s'') | _ => ([], s1) end = (y, s2)
     ∧ s1 = y ++ s2 ∧ ((y = [] ∧ s2 = s1) ∨ ∃ y', y = "."%char :: y' ∧ Forall (λ c, is_digit c = true) y')).
  { destruct s1 as [|c s1]; [by exists [], []; auto|]. destruct (bool_decide_reflect (c = "."%char)) as [->|Hc].
    - destruct (run is_digit s1) as [y s2] eqn:E. apply run_spec in E as (-> & H2 & _). exists ("."%char :: y), s2. eauto 10.
    - exists [], (c :: s1). split; [|auto]. destruct c as [[] [] [] [] [] [] [] []]; try done. }
  destruct Hgen as (y & s2 & -> & -> & Hy). destruct (run is_letter s2) as [z s3] eqn:E3. apply run_spec in E3 as (-> & H3 & H3').
  intros [= <- <-]. split; [by rewrite <- !app_assoc|]. intros k Hk.
  assert (Hl : run is_letter (z ++ k) = (z, k)) by (apply run_app; [done|]; destruct k; [done|]; destruct Hk as [Hk _]; unfold wordy in Hk; by apply orb_false_iff in Hk as [? _]).
  destruct Hy as [[-> _]|(y' & -> & Hy')].
  - cbn [app] in *. rewrite <- app_assoc. rewrite run_app; [|done|].
    2: { destruct z as [|c z]; cbn; [destruct k as [|c k]; [done|]; destruct Hk as [Hk _]; unfold wordy in Hk; by apply orb_false_iff in Hk as [_ ?]|done]. }
    destruct (z ++ k) as [|c zk] eqn:E; rewrite ?E in Hl; [cbn in Hl; by injection Hl as <- <-|].
    assert (Hd : c ≠ "."%char).
    { intros ->. destruct z as [|c' z]; cbn in E; [subst k; destruct Hk as [_ Hk]; discriminate Hk|]. injection E as -> _. apply Forall_cons in H3 as [H3 _]. discriminate H3. }
    destruct c as [[] [] [] [] [] [] [] []]; try (rewrite Hl; done). done.
  - rewrite <- !app_assoc. cbn [app]. rewrite run_app; [|done|done]. rewrite run_app; [|done|].
    2: { destruct z as [|c z]; cbn; [destruct k as [|c k]; [done|]; destruct Hk as [Hk _]; unfold wordy in Hk; by apply orb_false_iff in Hk as [_ ?]|].
         cbn in H1'. apply Forall_cons in H3 as [H3 _]. clear -H3. unfold is_letter, is_digit, one_of, str in *. cbn in *.
         apply bool_decide_eq_true in H3. rewrite !elem_of_cons, elem_of_nil in H3. naive_solver. }
    rewrite Hl. done.
Qed.
