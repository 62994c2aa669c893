From Coq Require Import String Ascii Lia.
From stdpp Require Import base option strings list.
From Verif Require Import BsubModel BsubSpec.

Arguments str : simpl never.
Arguments op : simpl never.

(** * Steps *)
Definition res_le {A} (r r' : pres A) : Prop := r = PFuel ∨ r = r'.
Lemma res_le_refl {A} (r : pres A) : res_le r r. Proof. by right. Qed.
Lemma pbind_le {A B} (r r' : pres A) (f f' : A → list token → pres B) :
  res_le r r' → (∀ a ts, res_le (f a ts) (f' a ts)) → res_le (pbind r f) (pbind r' f').
Proof. intros [->| ->] Hf; [by left|]. destruct r'; cbn; [apply Hf|apply res_le_refl..]. Qed.
Lemma parse_more n :
  (∀ ts m, (n ≤ m)%nat → res_le (parse_primary n ts) (parse_primary m ts)) ∧
  (∀ c ts m, (n ≤ m)%nat → res_le (parse_clauses n c ts) (parse_clauses m c ts)) ∧
  (∀ ts m, (n ≤ m)%nat → res_le (parse_call n ts) (parse_call m ts)) ∧
  (∀ ts m, (n ≤ m)%nat → res_le (parse_binary n ts) (parse_binary m ts)) ∧
  (∀ ts m, (n ≤ m)%nat → res_le (parse_logic n ts) (parse_logic m ts)) ∧
  (∀ ts m, (n ≤ m)%nat → res_le (parse_clause n ts) (parse_clause m ts)).
Proof.
  induction n as [|n (I1 & I2 & I3 & I4 & I5 & I6)]; [repeat split; by left|].
  assert (Hs : ∀ m, (S n ≤ m)%nat → ∃ m', m = S m' ∧ (n ≤ m')%nat) by (intros m Hm; exists (m - 1)%nat; lia).
  split_and!.
  - intros ts m (m' & -> & Hm)%Hs. cbn [parse_primary].
    destruct ts as [|[[] d] ts]; try apply res_le_refl. destruct (bool_decide (d = str "(")); [|destruct (bool_decide (d = str "{"))]; try apply res_le_refl;
      (apply pbind_le; [by apply I2|intros; apply res_le_refl]).
  - intros c ts m (m' & -> & Hm)%Hs. cbn [parse_clauses]. apply pbind_le; [by apply I6|]. intros k ts'.
    destruct (accept c (skip ts')); [apply res_le_refl|]. apply pbind_le; [by apply I2|intros; apply res_le_refl].
  - intros ts m (m' & -> & Hm)%Hs. cbn [parse_call]. apply pbind_le; [by apply I1|]. intros k ts'.
    destruct (accept _ (skip ts')); [|apply res_le_refl]. apply pbind_le; [by apply I5|intros; apply res_le_refl].
  - intros ts m (m' & -> & Hm)%Hs. cbn [parse_binary]. apply pbind_le; [by apply I3|]. intros k ts'. cbv zeta.
    destruct (skip ts') as [|[[] d] ts2]; try apply res_le_refl. destruct (parse_bop d); [|apply res_le_refl].
    apply pbind_le; [by apply I4|intros; apply res_le_refl].
  - intros ts m (m' & -> & Hm)%Hs. cbn [parse_logic]. apply pbind_le; [by apply I4|]. intros k ts'. cbv zeta.
    destruct (skip ts') as [|[[] d] ts2]; try apply res_le_refl. destruct (parse_lop d); [|apply res_le_refl].
    apply pbind_le; [by apply I5|intros; apply res_le_refl].
  - intros ts m (m' & -> & Hm)%Hs. cbn [parse_clause]. apply pbind_le; [by apply I5|]. intros k ts'.
    destruct (accept _ (skip ts')); [|apply res_le_refl]. apply pbind_le; [by apply I5|intros; apply res_le_refl].
Qed.
Lemma parse_top_more n : ∀ ts m, (n ≤ m)%nat → res_le (parse_top n ts) (parse_top m ts).
Proof.
  induction n as [|n IH]; intros ts m Hm; destruct ts as [|t ts]; try (destruct m; apply res_le_refl); [by left|].
  destruct m as [|m]; [lia|]. cbn [parse_top]. apply pbind_le; [apply (parse_more n); lia|]. intros k ts'.
  apply pbind_le; [apply IH; lia|intros; apply res_le_refl].
Qed.
(** what is parsed takes tokens away, and with enough steps an answer is found *)
Definition less {A} (r : pres A) (ts : list token) : Prop := match r with POk _ ts' => (length ts' < length ts)%nat | PErr => True | PFuel => False end.
Lemma skip_length ts : (length (skip ts) ≤ length ts)%nat.
Proof. induction ts as [|[[] d] ts IH]; cbn; lia. Qed.
Lemma accept_length t ts ts' : accept t ts = Some ts' → length ts = S (length ts').
Proof. destruct ts as [|x ts]; cbn; [done|]. case_bool_decide; [|done]. intros [= ->]. done. Qed.
Lemma less_bind {A B} (r : pres A) (f : A → list token → pres B) ts : less r ts → (∀ a ts', (length ts' < length ts)%nat → less (f a ts') ts) → less (pbind r f) ts.
Proof. destruct r; cbn; auto; done. Qed.
Lemma less_weak {A} (r : pres A) ts ts' : less r ts → (length ts ≤ length ts')%nat → less r ts'.
Proof. destruct r; cbn; [lia|done..]. Qed.
Lemma parse_enough n :
  (∀ ts, (6 * length ts + 1 ≤ n)%nat → less (parse_primary n ts) ts) ∧
  (∀ c ts, (6 * length ts + 6 ≤ n)%nat → less (parse_clauses n c ts) ts) ∧
  (∀ ts, (6 * length ts + 2 ≤ n)%nat → less (parse_call n ts) ts) ∧
  (∀ ts, (6 * length ts + 3 ≤ n)%nat → less (parse_binary n ts) ts) ∧
  (∀ ts, (6 * length ts + 4 ≤ n)%nat → less (parse_logic n ts) ts) ∧
  (∀ ts, (6 * length ts + 5 ≤ n)%nat → less (parse_clause n ts) ts).
Proof.
  induction n as [|n (I1 & I2 & I3 & I4 & I5 & I6)]; [repeat split; intros; lia|]. split_and!.
  - intros ts Hn. cbn [parse_primary]. destruct ts as [|[[] d] ts]; cbn [length] in *; try (cbn; lia); try done.
    pose proof (skip_length ts).
    destruct (bool_decide (d = str "(")); [|destruct (bool_decide (d = str "{")); [|done]]; (apply less_bind; [eapply less_weak; [apply I2; lia|cbn; lia]|]; intros a ts' Hl; cbn in *; lia).
  - intros c ts Hn. cbn [parse_clauses]. apply less_bind; [apply I6; lia|]. intros k ts' Hl. pose proof (skip_length ts').
    destruct (accept c (skip ts')) as [ts2|] eqn:E; [apply accept_length in E; cbn; lia|].
    apply less_bind; [eapply less_weak; [apply I2; lia|lia]|]. intros a ts2 Hl2. cbn. lia.
  - intros ts Hn. cbn [parse_call]. apply less_bind; [apply I1; lia|]. intros k ts' Hl. pose proof (skip_length ts').
    destruct (accept _ (skip ts')) as [ts2|] eqn:E; [apply accept_length in E|cbn; lia].
    apply less_bind; [eapply less_weak; [apply I5; lia|lia]|]. intros a ts3 Hl2. pose proof (skip_length ts3).
    destruct (accept _ (skip ts3)) as [ts4|] eqn:E2; [apply accept_length in E2; cbn; lia|done].
  - intros ts Hn. cbn [parse_binary]. apply less_bind; [apply I3; lia|]. intros k ts' Hl. cbv zeta. pose proof (skip_length ts') as Hs.
    destruct (skip ts') as [|[[] d] ts2]; try (cbn in *; lia). destruct (parse_bop d); [|cbn in *; lia]. pose proof (skip_length ts2). cbn [length] in Hs.
    apply less_bind; [eapply less_weak; [apply I4; lia|lia]|]. intros a ts3 Hl2. cbn. lia.
  - intros ts Hn. cbn [parse_logic]. apply less_bind; [apply I4; lia|]. intros k ts' Hl. cbv zeta. pose proof (skip_length ts') as Hs.
    destruct (skip ts') as [|[[] d] ts2]; try (cbn in *; lia). destruct (parse_lop d); [|cbn in *; lia]. pose proof (skip_length ts2). cbn [length] in Hs.
    apply less_bind; [eapply less_weak; [apply I5; lia|lia]|]. intros a ts3 Hl2. cbn. lia.
  - intros ts Hn. cbn [parse_clause]. apply less_bind; [apply I5; lia|]. intros k ts' Hl. pose proof (skip_length ts').
    destruct (accept _ (skip ts')) as [ts2|] eqn:E; [apply accept_length in E|cbn; lia]. pose proof (skip_length ts2).
    apply less_bind; [eapply less_weak; [apply I5; lia|lia]|]. intros a ts3 Hl2. pose proof (skip_length ts3).
    destruct (accept _ (skip ts3)) as [ts4|] eqn:E2; [apply accept_length in E2; cbn; lia|done].
Qed.
Lemma parse_top_enough n : ∀ ts, (6 * length ts + 6 ≤ n)%nat → parse_top n ts ≠ PFuel ∧ ∀ r rest, parse_top n ts = POk r rest → rest = [].
Proof.
  induction n as [|n IH]; intros ts Hn; [lia|]. destruct ts as [|t ts]; [split; [done|]; by intros ?? [= _ <-]|].
  cbn [parse_top]. destruct (parse_enough n) as (_ & _ & _ & _ & _ & I6). specialize (I6 (t :: ts) ltac:(lia)).
  destruct (parse_clause n (t :: ts)) as [c ts'| |]; cbn [pbind]; [|done|done]. cbn [less length] in I6, Hn.
  pose proof (skip_length ts'). destruct (IH (skip ts') ltac:(lia)) as [H1 H2].
  destruct (parse_top n (skip ts')) as [cs r'| |] eqn:E; cbn [pbind]; [|done|done]. split; [done|]. intros ?? [= _ <-]. by eapply H2.
Qed.
Lemma parse_bsub_answers s : parse_bsub s ≠ PFuel ∧ ∀ r rest, parse_bsub s = POk r rest → rest = [].
Proof. unfold parse_bsub. cbv zeta. pose proof (skip_length (tokenise s).1). apply parse_top_enough. lia. Qed.

(** * White space does not matter *)
Definition solid (t : token) : bool := bool_decide (kind_of t ≠ TWhite).
Definition nw (ts : list token) : list token := filter (λ t, solid t = true) ts.
Lemma nw_cons t ts : nw (t :: ts) = if solid t then t :: nw ts else nw ts.
Proof. unfold nw. rewrite filter_cons. destruct (solid t); [rewrite decide_True; done|rewrite decide_False; done]. Qed.
Lemma nw_app a b : nw (a ++ b) = nw a ++ nw b. Proof. apply filter_app. Qed.
Lemma nw_skip ts : nw (skip ts) = nw ts.
Proof. induction ts as [|[[] d] ts IH]; cbn [skip]; [done| |done..]. rewrite IH, nw_cons. done. Qed.
Lemma skip_nw ts : skip (nw ts) = nw ts.
Proof. induction ts as [|[[] d] ts IH]; [done|..]; rewrite nw_cons; cbn; done. Qed.
Lemma nw_nw ts : nw (nw ts) = nw ts.
Proof. induction ts as [|t ts IH]; [done|]. rewrite nw_cons. destruct (solid t) eqn:E; [rewrite nw_cons, E, IH|]; done. Qed.
Lemma skip_solid ts : match skip ts with t :: ts' => solid t = true ∧ nw ts = t :: nw ts' | [] => nw ts = [] end.
Proof. induction ts as [|[[] d] ts IH]; cbn [skip]; [done| |split; [done|]; by rewrite nw_cons..]. destruct (skip ts) eqn:E; rewrite nw_cons; cbn; done. Qed.
Lemma accept_nw t ts : solid t = true → accept t (nw ts) = nw <$> accept t (skip ts).
Proof.
  intros Ht. pose proof (skip_solid ts) as H. destruct (skip ts) as [|x ts']; [by rewrite H|].
  destruct H as [_ ->]. cbn. by case_bool_decide.
Qed.
Definition nwres {A} (r : pres A) : pres A := match r with POk a ts => POk a (nw ts) | r => r end.
(** the same without the white space, if it works with it *)
Definition sim {A} (r r' : pres A) : Prop := match r with POk a ts => r' = POk a (nw ts) | _ => True end.
Lemma sim_bind {A B} (r r' : pres A) (f f' : A → list token → pres B) :
  sim r r' → (∀ a ts, sim (f a ts) (f' a (nw ts))) → sim (pbind r f) (pbind r' f').
Proof. destruct r; cbn; [|done|done]. intros -> Hf. apply Hf. Qed.
Lemma parse_without n :
  (∀ ts, sim (parse_primary n ts) (parse_primary n (nw ts))) ∧
  (∀ c ts, solid c = true → sim (parse_clauses n c ts) (parse_clauses n c (nw ts))) ∧
  (∀ ts, sim (parse_call n ts) (parse_call n (nw ts))) ∧
  (∀ ts, sim (parse_binary n ts) (parse_binary n (nw ts))) ∧
  (∀ ts, sim (parse_logic n ts) (parse_logic n (nw ts))) ∧
  (∀ ts, sim (parse_clause n ts) (parse_clause n (nw ts))).
Proof.
  induction n as [|n (I1 & I2 & I3 & I4 & I5 & I6)]; [done|].
  assert (Hok : ∀ A (a : A) ts, sim (POk a (skip ts)) (POk a (skip (nw ts)))) by (intros; cbn; by rewrite skip_nw, nw_skip).
  split_and!.
  - intros ts. cbn [parse_primary]. destruct ts as [|[[] d] ts]; rewrite ?nw_cons; try done.
    assert (Hs : solid (Tok TOperator d) = true) by done. rewrite Hs.
    destruct (bool_decide (d = str "(")); [|destruct (bool_decide (d = str "{")); [|done]]; (apply sim_bind; [|done]); rewrite skip_nw, <- (nw_skip ts); by apply I2.
  - intros c ts Hc. cbn [parse_clauses]. apply sim_bind; [apply I6|]. intros k ts'. rewrite skip_nw, accept_nw by done.
    destruct (accept c (skip ts')) as [ts2|]; cbn [fmap option_fmap option_map]; [done|]. apply sim_bind; [|done].
    rewrite <- (nw_skip ts'). by apply I2.
  - intros ts. cbn [parse_call]. apply sim_bind; [apply I1|]. intros k ts'. rewrite skip_nw, accept_nw by done.
    destruct (accept _ (skip ts')) as [ts2|]; cbn [fmap option_fmap option_map]; [|cbn; by rewrite nw_skip]. apply sim_bind; [apply I5|]. intros a ts3.
    rewrite skip_nw, accept_nw by done. by destruct (accept _ (skip ts3)).
  - intros ts. cbn [parse_binary]. apply sim_bind; [apply I3|]. intros k ts'. cbv zeta. rewrite skip_nw. pose proof (skip_solid ts') as H.
    destruct (skip ts') as [|[[] d] ts2]; [rewrite H; done|destruct H as [H ->]; try done..].
    destruct (parse_bop d); [|unfold sim; by rewrite nw_cons, H]. apply sim_bind; [|done]. rewrite skip_nw, <- (nw_skip ts2). apply I4.
  - intros ts. cbn [parse_logic]. apply sim_bind; [apply I4|]. intros k ts'. cbv zeta. rewrite skip_nw. pose proof (skip_solid ts') as H.
    destruct (skip ts') as [|[[] d] ts2]; [rewrite H; done|destruct H as [H ->]; try done..].
    destruct (parse_lop d); [|unfold sim; by rewrite nw_cons, H]. apply sim_bind; [|done]. rewrite skip_nw, <- (nw_skip ts2). apply I5.
  - intros ts. cbn [parse_clause]. apply sim_bind; [apply I5|]. intros k ts'. rewrite skip_nw, accept_nw by done.
    destruct (accept _ (skip ts')) as [ts2|]; cbn [fmap option_fmap option_map]; [|cbn; by rewrite nw_skip]. apply sim_bind; [rewrite skip_nw, <- (nw_skip ts2); apply I5|]. intros a ts3.
    rewrite skip_nw, accept_nw by done. by destruct (accept _ (skip ts3)).
Qed.
Lemma parse_top_without n : ∀ ts r, parse_top n ts = POk r [] → parse_top n (nw ts) = POk r [].
Proof.
  induction n as [|n IH]; intros ts r; destruct ts as [|t ts]; try done. cbn [parse_top].
  destruct (parse_without n) as (_ & _ & _ & _ & _ & I6). specialize (I6 (t :: ts)).
  destruct (parse_clause n (t :: ts)) as [c ts'| |] eqn:E; cbn [pbind]; [|done|done]. cbn [sim] in I6.
  destruct (parse_top n (skip ts')) as [cs rest| |] eqn:E2; cbn [pbind]; [|done|done]. intros [= <- ->].
  apply IH in E2. rewrite nw_skip in E2. destruct (nw (t :: ts)) as [|t0 ts0] eqn:Ent.
  { exfalso. destruct n as [|n]; [done|]. clear -I6. destruct n as [|[|[|[|n]]]]; discriminate I6. }
  cbn [parse_top]. rewrite I6. cbn [pbind]. rewrite skip_nw, E2. done.
Qed.
(** and with it, if no white space follows a round bracket *)
Fixpoint nopw (ts : list token) : Prop :=
  match ts with
  | t :: ts' => (t = op "(" → match ts' with t' :: _ => solid t' = true | [] => True end) ∧ nopw ts'
  | [] => True
  end.
Definition hsolid (ts : list token) : Prop := match ts with t :: _ => solid t = true | [] => True end.
Lemma nopw_skip ts : nopw ts → nopw (skip ts).
Proof. induction ts as [|[[] d] ts IH]; cbn [skip]; try done. intros [_ H]. auto. Qed.
Lemma hsolid_skip ts : hsolid (skip ts).
Proof. pose proof (skip_solid ts). destruct (skip ts); [done|]. by destruct H. Qed.
Lemma accept_nopw t ts ts' : accept t ts = Some ts' → nopw ts → nopw ts' ∧ (t = op "(" → hsolid ts').
Proof. destruct ts as [|x ts]; cbn; [done|]. case_bool_decide; [|done]. intros [= ->] [H1 H2]. subst x. split; [done|]. intros Ht. specialize (H1 Ht). by destruct ts'. Qed.
Lemma skip_hsolid ts : hsolid ts → skip ts = ts.
Proof. destruct ts as [|[[] d] ts]; cbn; done. Qed.
(** [r'] is with, [r] without *)
Definition sim2 {A} (r r' : pres A) : Prop := match r with POk a ts => ∃ ts', r' = POk a ts' ∧ nw ts' = ts ∧ nopw ts' | _ => True end.
Lemma sim2_bind {A B} (r r' : pres A) (f f' : A → list token → pres B) :
  sim2 r r' → (∀ a ts, nopw ts → sim2 (f a (nw ts)) (f' a ts)) → sim2 (pbind r f) (pbind r' f').
Proof. destruct r; cbn; [|done|done]. intros (ts' & -> & <- & H) Hf. by apply Hf. Qed.
Lemma sim2_ok {A} (a : A) ts : nopw ts → sim2 (POk a (nw ts)) (POk a ts).
Proof. intros H. exists ts. done. Qed.
Lemma parse_with n :
  (∀ ts, hsolid ts → nopw ts → sim2 (parse_primary n (nw ts)) (parse_primary n ts)) ∧
  (∀ c ts, solid c = true → hsolid ts → nopw ts → sim2 (parse_clauses n c (nw ts)) (parse_clauses n c ts)) ∧
  (∀ ts, hsolid ts → nopw ts → sim2 (parse_call n (nw ts)) (parse_call n ts)) ∧
  (∀ ts, hsolid ts → nopw ts → sim2 (parse_binary n (nw ts)) (parse_binary n ts)) ∧
  (∀ ts, hsolid ts → nopw ts → sim2 (parse_logic n (nw ts)) (parse_logic n ts)) ∧
  (∀ ts, hsolid ts → nopw ts → sim2 (parse_clause n (nw ts)) (parse_clause n ts)).
Proof.
  induction n as [|n (I1 & I2 & I3 & I4 & I5 & I6)]; [done|]. split_and!.
  - intros ts Hh Hn. cbn [parse_primary]. destruct ts as [|t ts]; [done|]. cbn in Hh. rewrite nw_cons, Hh. destruct Hn as [_ Hn].
    destruct t as [[] d]; try done; try (by apply sim2_ok).
    destruct (bool_decide (d = str "(")); [|destruct (bool_decide (d = str "{")); [|done]]; (apply sim2_bind; [|intros; by apply sim2_ok]); rewrite skip_nw, <- (nw_skip ts);
      apply I2; auto using hsolid_skip, nopw_skip.
  - intros c ts Hc Hh Hn. cbn [parse_clauses]. apply sim2_bind; [by apply I6|]. intros k ts' Hn'. rewrite skip_nw, accept_nw by done.
    destruct (accept c (skip ts')) as [ts2|] eqn:E; cbn [fmap option_fmap option_map].
    { apply sim2_ok. apply accept_nopw in E as [E _]; [done|by apply nopw_skip]. }
    apply sim2_bind; [|intros; by apply sim2_ok]. rewrite <- (nw_skip ts'). apply I2; auto using hsolid_skip, nopw_skip.
  - intros ts Hh Hn. cbn [parse_call]. apply sim2_bind; [by apply I1|]. intros k ts' Hn'. rewrite skip_nw, accept_nw by done.
    destruct (accept _ (skip ts')) as [ts2|] eqn:E; cbn [fmap option_fmap option_map].
    2: { rewrite <- (nw_skip ts'). apply sim2_ok. by apply nopw_skip. }
    apply accept_nopw in E as [E1 E2]; [|by apply nopw_skip]. apply sim2_bind; [apply I5; auto|]. intros a ts3 Hn3.
    rewrite skip_nw, accept_nw by done. destruct (accept _ (skip ts3)) as [ts4|] eqn:E; cbn [fmap option_fmap option_map]; [|done].
    apply sim2_ok. apply accept_nopw in E as [E _]; [done|by apply nopw_skip].
  - intros ts Hh Hn. cbn [parse_binary]. apply sim2_bind; [by apply I3|]. intros k ts' Hn'. cbv zeta. rewrite skip_nw. pose proof (skip_solid ts') as H.
    apply nopw_skip in Hn'. destruct (skip ts') as [|t ts2]; [rewrite H; by exists []|]. destruct H as [H ->].
    assert (Hstay : sim2 (POk (B1 k) (t :: nw ts2)) (POk (B1 k) (t :: ts2))).
    { replace (t :: nw ts2) with (nw (t :: ts2)) by (rewrite nw_cons; by rewrite H). by apply sim2_ok. }
    destruct t as [[] d]; try done. destruct (parse_bop d); [|done]. destruct Hn' as [_ Hn'].
    apply sim2_bind; [|intros; by apply sim2_ok]. rewrite skip_nw, <- (nw_skip ts2). apply I4; auto using hsolid_skip, nopw_skip.
  - intros ts Hh Hn. cbn [parse_logic]. apply sim2_bind; [by apply I4|]. intros k ts' Hn'. cbv zeta. rewrite skip_nw. pose proof (skip_solid ts') as H.
    apply nopw_skip in Hn'. destruct (skip ts') as [|t ts2]; [rewrite H; by exists []|]. destruct H as [H ->].
    assert (Hstay : sim2 (POk (L1 k) (t :: nw ts2)) (POk (L1 k) (t :: ts2))).
    { replace (t :: nw ts2) with (nw (t :: ts2)) by (rewrite nw_cons; by rewrite H). by apply sim2_ok. }
    destruct t as [[] d]; try done. destruct (parse_lop d); [|done]. destruct Hn' as [_ Hn'].
    apply sim2_bind; [|intros; by apply sim2_ok]. rewrite skip_nw, <- (nw_skip ts2). apply I5; auto using hsolid_skip, nopw_skip.
  - intros ts Hh Hn. cbn [parse_clause]. apply sim2_bind; [by apply I5|]. intros k ts' Hn'. rewrite skip_nw, accept_nw by done.
    destruct (accept _ (skip ts')) as [ts2|] eqn:E; cbn [fmap option_fmap option_map].
    2: { rewrite <- (nw_skip ts'). apply sim2_ok. by apply nopw_skip. }
    apply accept_nopw in E as [E1 _]; [|by apply nopw_skip]. apply sim2_bind; [rewrite skip_nw, <- (nw_skip ts2); apply I5; auto using hsolid_skip, nopw_skip|]. intros a ts3 Hn3.
    rewrite skip_nw, accept_nw by done. destruct (accept _ (skip ts3)) as [ts4|] eqn:E; cbn [fmap option_fmap option_map]; [|done].
    apply sim2_ok. apply accept_nopw in E as [E _]; [done|by apply nopw_skip].
Qed.
Lemma parse_top_with n : ∀ ts r, hsolid ts → nopw ts → parse_top n (nw ts) = POk r [] → parse_top n ts = POk r [].
Proof.
  induction n as [|n IH]; intros ts r Hh Hn; destruct ts as [|t ts]; try done.
  { cbn in Hh. rewrite nw_cons, Hh. done. }
  intros H. cbn [parse_top]. destruct (parse_with n) as (_ & _ & _ & _ & _ & I6). specialize (I6 (t :: ts) Hh Hn).
  rewrite nw_cons in H, I6. cbn in Hh. rewrite Hh in H, I6. cbn [parse_top] in H.
  destruct (parse_clause n (t :: nw ts)) as [c ts'| |] eqn:E; cbn [pbind] in H; [|done|done]. cbn [sim2] in I6. destruct I6 as (ts2 & -> & <- & Hn2). cbn [pbind].
  destruct (parse_top n (skip (nw ts2))) as [cs rest| |] eqn:E2; cbn [pbind] in H; [|done|done]. injection H as <- ->.
  rewrite skip_nw, <- nw_skip in E2. rewrite (IH (skip ts2) cs); auto using hsolid_skip, nopw_skip.
Qed.
