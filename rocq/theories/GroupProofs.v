(** Lemmas for C35 and C36. *)
From Coq Require Import ZArith Lia String.
From stdpp Require Import base option strings gmap list.
From RecordUpdate Require Import RecordSet.
From Verif Require Import GroupModel GroupSpec.
Import RecordSetNotations.
Open Scope Z_scope.

(** *** counts *)
Lemma sg_eq g c s : gcount g = c → gskipped g = s → g = SGroup c s.
Proof. destruct g. cbn. by intros -> ->. Qed.
Lemma decrement_form d c s : 0 ≤ c → 0 ≤ s →
  (decrement d (SGroup c s)).2 = SGroup (Z.max 0 (c - Z.max 0 (Z.max 0 d - s))) (Z.max 0 (s - Z.max 0 d)) ∧
  (decrement d (SGroup c s)).1 = (let c' := gcount (decrement d (SGroup c s)).2 in if decide (c' = c) then -1 else c').
Proof.
  intros Hc Hs. unfold decrement. cbn.
  destruct (bool_decide_reflect (d < 1)) as [H1|H1]; cbn.
  { rewrite decide_True by done. split; [apply sg_eq; cbn; lia|done]. }
  destruct (bool_decide_reflect (0 < s)) as [H2|H2]; cbn.
  - destruct (bool_decide_reflect (d ≤ s)) as [H3|H3]; cbn.
    + rewrite decide_True by done. split; [apply sg_eq; cbn; lia|done].
    + destruct (bool_decide_reflect (c - (d - s) < 0)) as [H4|H4]; cbn.
      * destruct (bool_decide_reflect (0 = c)) as [H5|H5]; cbn; (split; [apply sg_eq; cbn; lia|case_decide; lia]).
      * destruct (bool_decide_reflect (c - (d - s) = c)) as [H5|H5]; cbn; (split; [apply sg_eq; cbn; lia|case_decide; lia]).
  - destruct (bool_decide_reflect (c - d < 0)) as [H4|H4]; cbn.
    + destruct (bool_decide_reflect (0 = c)) as [H5|H5]; cbn; (split; [apply sg_eq; cbn; lia|case_decide; lia]).
    + destruct (bool_decide_reflect (c - d = c)) as [H5|H5]; cbn; (split; [apply sg_eq; cbn; lia|case_decide; lia]).
Qed.
Lemma after_form drops : ∀ c s, 0 ≤ c → 0 ≤ s →
  after drops (SGroup c s) = SGroup (Z.max 0 (c - Z.max 0 (total drops - s))) (Z.max 0 (s - total drops)).
Proof.
  assert (Ht : ∀ l, 0 ≤ total l) by (induction l; cbn; lia).
  induction drops as [|d ds IH]; intros c s Hc Hs; [cbn; f_equal; lia|].
  change (after (d :: ds) (SGroup c s)) with (after ds (decrement d (SGroup c s)).2).
  rewrite (proj1 (decrement_form d c s Hc Hs)), IH by lia. cbn [total]. specialize (Ht ds). f_equal; lia.
Qed.
Lemma after_nonneg drops g : 0 ≤ gcount g → 0 ≤ gskipped g → 0 ≤ gcount (after drops g) ∧ 0 ≤ gskipped (after drops g).
Proof. destruct g as [c s]. cbn. intros Hc Hs. rewrite after_form by done. cbn. lia. Qed.

(** *** calls of decrementGroupCount *)
Lemma scheduled_app n a b : scheduled n (a ++ b) = scheduled n a ++ scheduled n b.
Proof. apply omap_app. Qed.
Lemma dgc_other runners n d groups m e groups' : decrement_group_count runners n d groups = (e, groups') → m ≠ n →
  groups' !! m = groups !! m ∧ scheduled m e = [].
Proof.
  unfold decrement_group_count. intros H Hm. destruct runners; cbn in H; [|by injection H as <- <-].
  destruct (groups !! n) as [g|] eqn:E; [|by injection H as <- <-].
  destruct (decrement (default 1 d) g) as [c g'] eqn:Ed. injection H as <- <-.
  rewrite lookup_insert_ne by done. split; [done|]. rewrite scheduled_app.
  destruct (bool_decide (0 ≤ c)), (has_skips g); cbn; rewrite ?decide_False by done; done.
Qed.
Lemma dgc_same n d groups g e groups' : decrement_group_count true n d groups = (e, groups') → groups !! n = Some g →
  0 ≤ gcount g → 0 ≤ gskipped g →
  groups' !! n = Some (after [default 1 d] g) ∧
  scheduled n e = if decide (gcount (after [default 1 d] g) = gcount g) then [] else [gcount (after [default 1 d] g)].
Proof.
  unfold decrement_group_count. cbn [negb]. intros H E Hc Hs. rewrite E in H.
  destruct g as [c s]. cbn in Hc, Hs. destruct (decrement_form (default 1 d) c s Hc Hs) as [H2 H1].
  change (after [default 1 d] (SGroup c s)) with ((decrement (default 1 d) (SGroup c s)).2).
  destruct (decrement (default 1 d) (SGroup c s)) as [k g']. cbn [fst snd] in *. injection H as <- <-.
  rewrite lookup_insert. split; [done|]. rewrite scheduled_app.
  assert (Hsk : ∀ b : bool, scheduled n (if b then [GTrigger] else []) = []) by (by intros []). rewrite Hsk, app_nil_r. clear Hsk.
  cbv zeta in H1. cbn [gcount]. subst k. case_decide as Hd; [done|].
  rewrite bool_decide_eq_true_2 by (rewrite H2; cbn; lia). cbn. by rewrite decide_True.
Qed.
Lemma decrements_group calls : ∀ n groups g e groups', decrements true calls groups = (e, groups') → groups !! n = Some g →
  0 ≤ gcount g → 0 ≤ gskipped g →
  groups' !! n = Some (after (drops_of n calls) g) ∧
  scheduled n e = news (gcount g) (counts (drops_of n calls) g).
Proof.
  unfold counts. induction calls as [|[m d] calls IH]; intros n groups g e groups' H E Hc Hs.
  - injection H as <- <-. done.
  - cbn [decrements] in H. destruct (decrement_group_count true m d groups) as [e1 groups1] eqn:E1.
    destruct (decrements true calls groups1) as [e2 groups2] eqn:E2. injection H as <- <-. rewrite scheduled_app.
    destruct (decide (m = n)) as [->|Hne].
    + destruct (dgc_same n d groups g e1 groups1 E1 E Hc Hs) as [Hg Hsch].
      destruct (after_nonneg [default 1 d] g Hc Hs) as [Hc' Hs'].
      destruct (IH n groups1 _ _ _ E2 Hg Hc' Hs') as [Ha Hb]. rewrite Ha, Hsch, Hb.
      unfold drops_of. cbn. rewrite !decide_True by done. fold (drops_of n calls). cbn [length seq fmap list_fmap].
      split; [done|]. cbn [take news]. rewrite take_0. change (after [default 1 d] g) with (decrement (default 1 d) g).2.
      rewrite <- fmap_S_seq. rewrite <- list_fmap_compose.
      change (foldl (λ g0 d0, (decrement d0 g0).2) g [default 1 d]) with (decrement (default 1 d) g).2.
      destruct (decide (gcount (decrement (default 1 d) g).2 = gcount g)) as [Hd|Hd]; [|done]. cbn [app]. rewrite Hd. done.
    + destruct (dgc_other _ _ _ _ n _ _ E1 (not_eq_sym Hne)) as [Hg Hsch]. rewrite Hsch. cbn [app].
      unfold drops_of. cbn. rewrite !decide_False by done. fold (drops_of n calls).
      eapply IH; [exact E2| |done..]. by rewrite Hg.
Qed.
Lemma last_news l : ∀ c, last (c :: news c l) = last (c :: l).
Proof.
  induction l as [|x l IH]; intros c; [done|]. cbn [news]. case_decide as H; [subst x; rewrite IH; by destruct l|].
  change (last (c :: x :: news x l)) with (last (x :: news x l)). by rewrite IH.
Qed.
Lemma last_counts drops g : last (gcount g :: counts drops g) = Some (gcount (after drops g)).
Proof.
  unfold counts. destruct drops as [|d ds] using rev_ind; [done|]. rewrite app_length. cbn [length]. rewrite Nat.add_1_r, seq_S, fmap_app. cbn [fmap list_fmap].
  rewrite app_comm_cons, last_snoc. f_equal. f_equal. f_equal. rewrite take_ge; [done|]. rewrite app_length. cbn. lia.
Qed.

(** *** calls of Schedule *)
Arguments of_cmd : simpl never.
Arguments made : simpl never.
Lemma of_cmd_app cmd a b : of_cmd cmd (a ++ b) = of_cmd cmd a ++ of_cmd cmd b.
Proof. apply filter_app. Qed.
Lemma of_cmd_one cmd c : of_cmd cmd [c] = if decide (ccmd c = cmd) then [c] else [].
Proof. unfold of_cmd. rewrite filter_cons. by case_decide. Qed.
Lemma of_cmd_delete_other cmd l i c : l !! i = Some c → ccmd c ≠ cmd → of_cmd cmd (delete i l) = of_cmd cmd l.
Proof.
  intros Hi Hc. rewrite <- (take_drop_middle l i c Hi) at 2. rewrite delete_take_drop, !of_cmd_app.
  f_equal. unfold of_cmd. by rewrite filter_cons, decide_False.
Qed.
Lemma of_cmd_delete_same cmd l i c x : l !! i = Some c → ccmd c = cmd → of_cmd cmd l = [x] → x = c ∧ of_cmd cmd (delete i l) = [].
Proof.
  intros Hi Hc. rewrite <- (take_drop_middle l i c Hi) at 1. rewrite delete_take_drop, !of_cmd_app.
  assert (E : of_cmd cmd (c :: drop (S i) l) = c :: of_cmd cmd (drop (S i) l)) by (unfold of_cmd; by rewrite filter_cons, decide_True).
  rewrite E. destruct (of_cmd cmd (take i l)) as [|y t]; cbn.
  - intros [= <- ->]. done.
  - intros [= <- H]. by destruct t.
Qed.
Lemma of_cmd_in cmd l i c : l !! i = Some c → ccmd c = cmd → of_cmd cmd l ≠ [].
Proof.
  intros Hi Hc H. apply elem_of_list_lookup_2 in Hi. assert (Hin : c ∈ of_cmd cmd l) by (by apply elem_of_list_filter).
  rewrite H in Hin. by apply elem_of_nil in Hin.
Qed.
(** at most one call of impl.schedule runs, and it runs exactly while the command is in the limiter *)
Definition single (s : sched) : Prop :=
  ∀ cmd, match limiter s !! cmd with
         | Some _ => ∃ c, of_cmd cmd (running s) = [c]
         | None => of_cmd cmd (running s) = []
         end.
Lemma single_enter c s : single s → single (enter c s).
Proof.
  intros Hs cmd. unfold enter. specialize (Hs cmd) as Hc. destruct (limiter s !! ccmd c) as [n|] eqn:E; cbn.
  - destruct (decide (ccmd c = cmd)) as [<-|Hne]; [rewrite lookup_insert; by rewrite E in Hc|by rewrite lookup_insert_ne].
  - rewrite of_cmd_app, of_cmd_one. destruct (decide (ccmd c = cmd)) as [<-|Hne].
    + rewrite lookup_insert. rewrite E in Hc. rewrite Hc. by exists c.
    + rewrite lookup_insert_ne, app_nil_r by done. done.
Qed.
Lemma single_leave c s i : single s → running s !! i = Some c → single (leave c (s <| running ::= delete i |>)).
Proof.
  intros Hs Hi cmd. specialize (Hs cmd) as Hc. specialize (Hs (ccmd c)) as Hcc. unfold leave. cbn.
  destruct (limiter s !! ccmd c) as [n|] eqn:E; [|by destruct (of_cmd_in _ _ _ _ Hi eq_refl)].
  assert (Hgoal : match delete (ccmd c) (limiter s) !! cmd with Some _ => ∃ c0, of_cmd cmd (delete i (running s)) = [c0] | None => of_cmd cmd (delete i (running s)) = [] end).
  { destruct (decide (ccmd c = cmd)) as [<-|Hne].
    - rewrite lookup_delete. destruct Hcc as [x Hx]. by destruct (of_cmd_delete_same _ _ _ _ _ Hi eq_refl Hx).
    - rewrite lookup_delete_ne by done. by rewrite (of_cmd_delete_other _ _ _ _ Hi). }
  by destruct (bool_decide (n ≠ ccount c)).
Qed.
Lemma single_step e s s' : single s → sched_step e s = Some s' → single s'.
Proof.
  intros Hs. destruct e as [c|i|i]; cbn.
  - intros [= <-]. by apply single_enter.
  - destruct (running s !! i) as [c|] eqn:Hi; [|done]. intros [= <-]. by apply single_leave.
  - destruct (recalls s !! i) as [c|] eqn:Hi; [|done]. intros [= <-]. by apply single_enter.
Qed.
Lemma single_run es : ∀ s s', single s → sched_run es s = Some s' → single s'.
Proof.
  induction es as [|e es IH]; intros s s' Hs; cbn [sched_run]; [by intros [= <-]|].
  destruct (sched_step e s) as [s1|] eqn:E; [|done]. cbn. apply IH. by eapply single_step.
Qed.
Lemma single0 : single sched0.
Proof. intros cmd. change (limiter sched0) with (∅ : gmap string Z); by rewrite lookup_empty. Qed.

(** the latest count of a command is on its way *)
Definition latest (cmd : string) (o : option Z) (s : sched) : Prop :=
  match o with
  | None => of_cmd cmd (running s) = [] ∧ of_cmd cmd (recalls s) = [] ∧ of_cmd cmd (told s) = []
  | Some n =>
      (∃ c, of_cmd cmd (running s) = [c] ∧ of_cmd cmd (recalls s) = [] ∧ limiter s !! cmd = Some n ∧ last (of_cmd cmd (told s)) = Some c) ∨
      (∃ c, of_cmd cmd (running s) = [] ∧ of_cmd cmd (recalls s) = [c] ∧ ccount c = n) ∨
      (∃ c, of_cmd cmd (running s) = [] ∧ of_cmd cmd (recalls s) = [] ∧ last (of_cmd cmd (told s)) = Some c ∧ ccount c = n)
  end.
Lemma enter_other cmd o c s : ccmd c ≠ cmd → latest cmd o s → latest cmd o (enter c s).
Proof.
  intros Hc H. unfold enter. destruct (limiter s !! ccmd c); unfold latest in *; cbn;
    rewrite ?of_cmd_app, ?of_cmd_one, ?(decide_False (P := ccmd c = cmd)), ?app_nil_r by done; rewrite ?lookup_insert_ne by done; done.
Qed.
Lemma enter_same cmd o c s : ccmd c = cmd → single s → of_cmd cmd (recalls s) = [] → latest cmd o s ∨ of_cmd cmd (running s) = [] →
  latest cmd (Some (ccount c)) (enter c s).
Proof.
  intros Hc Hs Hr Hl. specialize (Hs cmd). unfold enter. rewrite Hc. destruct (limiter s !! cmd) as [n|] eqn:E; left; cbn.
  - destruct Hs as [x Hx]. exists x. rewrite lookup_insert. split_and!; [done..|].
    destruct Hl as [Hl|Hl]; [|by rewrite Hl in Hx]. destruct o as [m|]; [|destruct Hl as [Hl _]; by rewrite Hl in Hx].
    destruct Hl as [(y & H1 & _ & _ & H4)|[(y & H1 & _)|(y & H1 & _)]]; [|by rewrite H1 in Hx..].
    rewrite H1 in Hx. by injection Hx as ->.
  - exists c. rewrite !of_cmd_app, !of_cmd_one, decide_True by done. rewrite Hs, lookup_insert, last_snoc. done.
Qed.
Lemma step_latest cmd o e s s' : single s → sched_step e s = Some s' → latest cmd o s →
  (∀ c, e = SCall c → ccmd c = cmd → of_cmd cmd (recalls s) = []) →
  latest cmd (match e with SCall c => if decide (ccmd c = cmd) then Some (ccount c) else o | _ => o end) s'.
Proof.
  intros Hs Hst Hl Hno. destruct e as [c|i|i]; cbn in Hst.
  - injection Hst as <-. destruct (decide (ccmd c = cmd)) as [Hc|Hc]; [|by apply enter_other].
    apply (enter_same cmd o); [done|done|by eapply Hno|by left].
  - destruct (running s !! i) as [c|] eqn:Hi; [|done]. injection Hst as <-. specialize (Hs (ccmd c)) as Hcc.
    unfold leave. cbn. destruct (limiter s !! ccmd c) as [n|] eqn:E; [|by destruct (of_cmd_in _ _ _ _ Hi eq_refl)].
    destruct (decide (ccmd c = cmd)) as [Hc|Hc].
    + rewrite Hc in *. pose proof (of_cmd_in _ _ _ _ Hi Hc) as Hne. destruct o as [m|]; [|by destruct Hl].
      destruct Hl as [(x & H1 & H2 & H3 & H4)|[(x & H1 & _)|(x & H1 & _)]]; [|done..].
      destruct (of_cmd_delete_same _ _ _ _ _ Hi Hc H1) as [-> Hd]. rewrite H3 in E. injection E as ->.
      right. destruct (bool_decide_reflect (n ≠ ccount c)) as [Hn|Hn]; [left|right].
      * exists (Call (ccmd c) (cprio c) n). cbn. rewrite of_cmd_app, of_cmd_one, H2, Hd. cbn. rewrite decide_True, Hc by done. done.
      * exists c. cbn. rewrite Hd, H2. split_and!; [done..|]. apply dec_stable in Hn. done.
    + assert (Hd : of_cmd cmd (delete i (running s)) = of_cmd cmd (running s)) by (by eapply of_cmd_delete_other).
      destruct (bool_decide (n ≠ ccount c)); unfold latest in *; cbn;
        rewrite ?of_cmd_app, ?of_cmd_one, ?Hd, ?lookup_delete_ne by done; cbn; rewrite ?decide_False by done; rewrite ?app_nil_r; done.
  - destruct (recalls s !! i) as [c|] eqn:Hi; [|done]. injection Hst as <-.
    destruct (decide (ccmd c = cmd)) as [Hc|Hc].
    + pose proof (of_cmd_in _ _ _ _ Hi Hc) as Hne. destruct o as [m|]; [|by destruct Hl as (_ & ? & _)].
      destruct Hl as [(x & _ & H2 & _)|[(x & H1 & H2 & H3)|(x & _ & H2 & _)]]; [done| |done].
      destruct (of_cmd_delete_same _ _ _ _ _ Hi Hc H2) as [-> Hd]. subst m.
      apply (enter_same cmd None); [done|exact Hs|done|by right].
    + apply enter_other; [done|]. unfold latest in *. cbn.
      assert (Hd : of_cmd cmd (delete i (recalls s)) = of_cmd cmd (recalls s)) by (by eapply of_cmd_delete_other). by rewrite !Hd.
Qed.
Lemma run_latest cmd es : ∀ o s s', single s → latest cmd o s → sched_run es s = Some s' → no_overtaking cmd es s →
  latest cmd (match last (of_cmd cmd (made es)) with Some c => Some (ccount c) | None => o end) s'.
Proof.
  induction es as [|e es IH]; intros o s s' Hs Hl Hr Hno; [by injection Hr as <-|].
  cbn [sched_run] in Hr. destruct (sched_step e s) as [s1|] eqn:E; [|done]. cbn in Hr. destruct Hno as [Hno Hno'].
  pose proof (step_latest cmd o e s s1 Hs E Hl Hno) as Hl1.
  specialize (IH _ s1 s' (single_step _ _ _ Hs E) Hl1 Hr (Hno' s1 E)).
  destruct e as [c|i|i]; [|exact IH..]. unfold made in *. cbn [omap list_omap].
  unfold of_cmd in *. rewrite filter_cons. case_decide as Hc; [|exact IH].
  rewrite last_cons. destruct (last (filter (λ c0, ccmd c0 = cmd) (omap _ es))); exact IH.
Qed.
Lemma latest_told cmd es s : sched_run es sched0 = Some s → no_overtaking cmd es sched0 → quiet cmd s →
  ccount <$> last (of_cmd cmd (told s)) = ccount <$> last (of_cmd cmd (made es)).
Proof.
  intros Hr Hno [Hq1 Hq2]. assert (H0 : latest cmd None sched0) by done.
  pose proof (run_latest cmd es None _ _ single0 H0 Hr Hno) as H.
  destruct (last (of_cmd cmd (made es))) as [c|]; cbn in H; cbn.
  - destruct H as [(x & H1 & _)|[(x & _ & H2 & _)|(x & _ & _ & H3 & H4)]]; [congruence..|]. rewrite H3. cbn. by rewrite H4.
  - destruct H as (_ & _ & ->). done.
Qed.
(** every count told is that of a call that was made *)
Definition from (cs : list call) (s : sched) : Prop :=
  let known cmd n := ∃ c, c ∈ cs ∧ ccmd c = cmd ∧ ccount c = n in
  (∀ c, c ∈ running s ∨ c ∈ recalls s ∨ c ∈ told s → known (ccmd c) (ccount c)) ∧ ∀ cmd n, limiter s !! cmd = Some n → known cmd n.
Lemma from_enter cs c s : from cs s → (∃ c', c' ∈ cs ∧ ccmd c' = ccmd c ∧ ccount c' = ccount c) → from cs (enter c s).
Proof.
  intros [H1 H2] Hc. unfold enter. destruct (limiter s !! ccmd c) eqn:E; (split; cbn; [|intros cmd n; rewrite lookup_insert_Some; intros [[<- <-]|[_ ?]]; [done|by apply H2]]).
  - exact H1.
  - intros x. rewrite !elem_of_app, !elem_of_list_singleton. intros [[?| ->]|[?|[?| ->]]]; auto.
Qed.
Lemma elem_of_delete {A} (l : list A) i x : x ∈ delete i l → x ∈ l.
Proof.
  rewrite delete_take_drop, elem_of_app. intros [H|H].
  - apply elem_of_take in H as (k & H & _). by eapply elem_of_list_lookup_2.
  - apply elem_of_list_lookup in H as [k H]. rewrite lookup_drop in H. by eapply elem_of_list_lookup_2.
Qed.
Lemma from_step cs e s s' : sched_step e s = Some s' → from cs s → from (cs ++ made [e]) s'.
Proof.
  intros Hst [H1 H2]. assert (Hm : from (cs ++ made [e]) s).
  { split; [intros c Hc; destruct (H1 c Hc) as (x & Hx & ?)|intros cmd n Hc; destruct (H2 cmd n Hc) as (x & Hx & ?)]; exists x; rewrite elem_of_app; auto. }
  clear H1 H2. destruct e as [c|i|i]; cbn in Hst.
  - injection Hst as <-. apply from_enter; [done|]. exists c. split; [|done]. apply elem_of_app. right. left.
  - destruct (running s !! i) as [c|] eqn:Hi; [|done]. injection Hst as <-. destruct Hm as [H1 H2]. unfold leave. cbn.
    assert (Hd : ∀ x, x ∈ delete i (running s) → x ∈ running s) by (intros x; apply elem_of_delete).
    destruct (limiter s !! ccmd c) as [n|] eqn:E; [|split; cbn; [|exact H2]; intros x Hx; apply H1; naive_solver].
    assert (Hlim : ∀ cmd m, delete (ccmd c) (limiter s) !! cmd = Some m → limiter s !! cmd = Some m).
    { intros cmd m Hx. by apply lookup_delete_Some in Hx as [_ ?]. }
    destruct (bool_decide (n ≠ ccount c)); (split; cbn; [|intros cmd m Hx; by apply H2, Hlim]).
    + intros x. rewrite elem_of_app, elem_of_list_singleton. intros [Hx|[[Hx| ->]|Hx]]; [apply H1; left; by apply Hd|apply H1; by right; left|cbn; by apply H2|apply H1; by right; right].
    + intros x [Hx|Hx]; apply H1; [left; by apply Hd|by right].
  - destruct (recalls s !! i) as [c|] eqn:Hi; [|done]. injection Hst as <-. destruct Hm as [H1 H2].
    assert (Hc : c ∈ recalls s) by (by eapply elem_of_list_lookup_2). apply from_enter; [|apply H1; by right; left].
    split; [|exact H2]. cbn. intros x [?|[Hx|?]]; apply H1; [by left|right; left; by eapply elem_of_delete|by right; right].
Qed.
Lemma from_run es : ∀ cs s s', sched_run es s = Some s' → from cs s → from (cs ++ made es) s'.
Proof.
  induction es as [|e es IH]; intros cs s s' Hr Hf; [injection Hr as <-; unfold made; cbn; by rewrite app_nil_r|].
  cbn [sched_run] in Hr. destruct (sched_step e s) as [s1|] eqn:E; [|done]. cbn in Hr.
  specialize (IH _ _ _ Hr (from_step _ _ _ _ E Hf)). rewrite <- (assoc_L (++)) in IH.
  assert (Hm : made [e] ++ made es = made (e :: es)) by (by destruct e). by rewrite <- Hm.
Qed.
(** *** without further calls all comes to an end *)
Definition off_by (m : gmap string Z) (l : list call) : nat := length (filter (λ c, m !! ccmd c ≠ Some (ccount c)) l).
Definition rank (s : sched) : nat := (2 * length (running s) + 3 * length (recalls s) + 2 * off_by (limiter s) (running s))%nat.
Arguments off_by : simpl never.
Arguments rank : simpl never.
Lemma length_filter_or {A} (P Q R : A → Prop) {dP : ∀ x, Decision (P x)} {dQ : ∀ x, Decision (Q x)} {dR : ∀ x, Decision (R x)} (l : list A) :
  (∀ x, x ∈ l → P x → Q x ∨ R x) → (length (filter P l) ≤ length (filter Q l) + length (filter R l))%nat.
Proof.
  induction l as [|x l IH]; intros H; [done|]. rewrite !filter_cons. specialize (H x ltac:(left)) as Hx.
  specialize (IH (λ y Hy, H y (elem_of_list_further _ _ _ Hy))).
  destruct (decide (P x)), (decide (Q x)), (decide (R x)); cbn; try lia. exfalso. tauto.
Qed.
Lemma length_delete {A} (l : list A) i x : l !! i = Some x → length l = S (length (delete i l)).
Proof. intros H. rewrite length_delete by eauto. apply lookup_lt_Some in H. lia. Qed.
Lemma rank_step e s s' : single s → sched_step e s = Some s' → (∀ c, e ≠ SCall c) → (rank s' < rank s)%nat.
Proof.
  intros Hs Hst Hno. destruct e as [c|i|i]; cbn in Hst; [by destruct (Hno c)| |].
  - destruct (running s !! i) as [c|] eqn:Hi; [|done]. injection Hst as <-. specialize (Hs (ccmd c)) as Hcc.
    unfold leave. cbn. destruct (limiter s !! ccmd c) as [n|] eqn:E; [|by destruct (of_cmd_in _ _ _ _ Hi eq_refl)].
    destruct Hcc as [x Hx]. destruct (of_cmd_delete_same _ _ _ _ _ Hi eq_refl Hx) as [-> Hd].
    pose proof (length_delete _ _ _ Hi) as Hlen.
    assert (Hoff : (off_by (delete (ccmd c) (limiter s)) (delete i (running s)) + (if decide (n = ccount c) then 0 else 1) ≤ off_by (limiter s) (running s))%nat).
    { unfold off_by. rewrite <- (take_drop_middle _ _ _ Hi) at 2. rewrite delete_take_drop, !filter_app, filter_cons, !app_length.
      assert (Hf : ∀ l : list call, (∀ y, y ∈ l → ccmd y ≠ ccmd c) → filter (λ y, delete (ccmd c) (limiter s) !! ccmd y ≠ Some (ccount y)) l = filter (λ y, limiter s !! ccmd y ≠ Some (ccount y)) l).
      { induction l as [|y l IH]; intros Hy; [done|]. rewrite !filter_cons. rewrite IH by (intros; apply Hy; by right).
        pose proof (Hy y ltac:(left)) as Hyc. rewrite lookup_delete_ne by done. done. }
      assert (Hni : ∀ y, y ∈ delete i (running s) → ccmd y ≠ ccmd c).
      { intros y Hy Hc. assert (y ∈ of_cmd (ccmd c) (delete i (running s))) as Hin by (by apply elem_of_list_filter). rewrite Hd in Hin. by apply elem_of_nil in Hin. }
      rewrite delete_take_drop in Hni. rewrite !Hf by (intros y Hy; apply Hni; apply elem_of_app; auto).
      rewrite E. destruct (decide (n = ccount c)) as [->|Hn]; [rewrite decide_False by (by intros [])|rewrite decide_True by congruence; cbn]; lia. }
    destruct (bool_decide_reflect (n ≠ ccount c)) as [Hn|Hn]; unfold rank; cbn; rewrite ?app_length; cbn.
    + rewrite decide_False in Hoff by done. lia.
    + lia.
  - destruct (recalls s !! i) as [c|] eqn:Hi; [|done]. injection Hst as <-. specialize (Hs (ccmd c)) as Hcc.
    pose proof (length_delete _ _ _ Hi) as Hlen. unfold enter. cbn.
    assert (Hoff : (off_by (<[ccmd c := ccount c]> (limiter s)) (running s) ≤ off_by (limiter s) (running s) + length (of_cmd (ccmd c) (running s)))%nat).
    { apply length_filter_or. intros y _ Hy. destruct (decide (ccmd y = ccmd c)) as [Hc|Hc]; [by right|left].
      by rewrite lookup_insert_ne in Hy. }
    destruct (limiter s !! ccmd c) as [n|] eqn:E; unfold rank; cbn.
    + destruct Hcc as [x Hx]. rewrite Hx in Hoff. cbn in Hoff. lia.
    + rewrite Hcc in Hoff. cbn in Hoff. rewrite app_length. cbn.
      assert (Hone : off_by (<[ccmd c := ccount c]> (limiter s)) (running s ++ [c]) = off_by (<[ccmd c := ccount c]> (limiter s)) (running s)).
      { unfold off_by. rewrite filter_app, filter_cons, lookup_insert, decide_False by (by intros []). by rewrite filter_nil, app_nil_r. }
      rewrite Hone. lia.
Qed.
Lemma rank_run es : ∀ s s', single s → sched_run es s = Some s' → made es = [] → (length es + rank s' ≤ rank s)%nat.
Proof.
  induction es as [|e es IH]; intros s s' Hs Hr Hm; [injection Hr as <-; cbn; lia|].
  cbn [sched_run] in Hr. destruct (sched_step e s) as [s1|] eqn:E; [|done]. cbn in Hr.
  assert (Hno : ∀ c, e ≠ SCall c) by (intros c ->; done). assert (Hm' : made es = []) by (destruct e; [done|exact Hm..]).
  pose proof (rank_step _ _ _ Hs E Hno). pose proof (IH s1 s' (single_step _ _ _ Hs E) Hr Hm'). cbn [length]. lia.
Qed.
Lemma comes_to_rest s : single s → ∃ es s', made es = [] ∧ sched_run es s = Some s' ∧ running s' = [] ∧ recalls s' = [].
Proof.
  remember (rank s) as n eqn:Hn. revert s Hn. induction (lt_wf n) as [n _ IH]. intros s -> Hs.
  assert (Hgo : ∀ e, (∀ c, e ≠ SCall c) → is_Some (sched_step e s) → ∃ es s', made es = [] ∧ sched_run es s = Some s' ∧ running s' = [] ∧ recalls s' = []).
  { intros e He [s1 E]. destruct (IH (rank s1) (rank_step _ _ _ Hs E He) s1 eq_refl (single_step _ _ _ Hs E)) as (es & s' & H1 & H2 & H3).
    exists (e :: es), s'. cbn [sched_run]. rewrite E. cbn. split; [|done]. destruct e; [by destruct (He c)|exact H1..]. }
  destruct (running s) as [|c l] eqn:E1; [destruct (recalls s) as [|c l] eqn:E2|].
  - by exists [], s.
  - apply (Hgo (SRecall 0)); [done|]. cbn. rewrite E2. cbn. eauto.
  - apply (Hgo (SEnd 0)); [done|]. cbn. rewrite E1. cbn. eauto.
Qed.
