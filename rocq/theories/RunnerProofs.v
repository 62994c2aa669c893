(** Lemmas for C90, C91 and C92. *)
From Coq Require Import ZArith Lia String Ascii.
From stdpp Require Import base option strings gmap list.
From Verif Require Import UtilModel UtilSpec UtilProofs UtilProofs2 LearnProofs RunnerModel RunnerSpec.
Open Scope Z_scope.

Lemma has_spec sub s : has sub s = true ↔ occurs sub s.
Proof.
  unfold occurs. induction s as [|c s IH]; cbn [has]; rewrite orb_true_iff, prefix_spec.
  - split; [intros [[b H]|H]; [by exists "", b|done]|]. intros ([|x a] & b & H); [left; by exists b|done].
  - rewrite IH. split.
    + intros [[b H]|(a & b & ->)]; [by exists "", b|by exists (String c a), b].
    + intros ([|x a] & b & H); [left; by exists b|]. right. injection H as -> ->. by exists a, b.
Qed.

(** ** A turn *)
(** the three ways a turn can go *)
Lemma turn_cases c st t : let r := runner_turn c st t in
  (r = (None, [])) ∨
  (∃ j, t_res t = ResJob j ∧ r = (None, [EReserve j; ERelease j])) ∨
  (∃ j, t_res t = ResJob j ∧ r = (None, [EReserve j]) ∧ over st ≠ [] ∧ path_over (c_exe c) (own_env c j) = None) ∨
  (∃ j o env, t_res t = ResJob j ∧ snd r = [EReserve j; EExec (t_start t) env j] ∧
    (fst r = None ∨ fst r = Some (RSt (rj_time j) (over st ++ o))) ∧
    t_top t + jtime st ≤ c_end c ∧ (rj_time j ≠ jtime st → t_check t + rj_time j ≤ c_end c) ∧
    (over st = [] ∧ o = [] ∧ env = own_env c j ∨
     over st ≠ [] ∧ path_over (c_exe c) (own_env c j) = Some o ∧
     env = job_env (c_order c) (c_os c) (add_override (c_order c) (over st ++ o) (rj_env j)))).
Proof.
  unfold runner_turn, own_env. case_bool_decide as H1; [by left|]. destruct (t_res t) as [| |j] eqn:E; [by left..|].
  destruct (bool_decide (rj_time j ≠ jtime st) && bool_decide (c_end c < t_check t + rj_time j)) eqn:H2.
  { right; left. by exists j. }
  apply andb_false_iff in H2. rewrite !bool_decide_eq_false in H2.
  case_bool_decide as H3.
  { right; right; right. exists j, [], (own_env c j). cbn [exec_turn fst snd]. rewrite H3. cbn [app].
    split_and!; try done; [destruct (t_out t); auto|lia|lia|by left]. }
  destruct (t_badenv t); [right; left; by exists j|].
  destruct (path_over _ _) as [o|] eqn:Hp; [|right; right; left; by exists j].
  cbv zeta. destruct (t_badadd t); [right; left; by exists j|].
  right; right; right. eexists j, o, _. cbn [exec_turn fst snd].
  split_and!; [done|reflexivity|destruct (t_out t); auto|lia|lia|]. by right.
Qed.

(** ** The loop: [from c st tr] says that [tr] is what the loop does from [st] *)
Lemma runner_split c st ts a t evs b : runner c st ts = a ++ (t, evs) :: b →
  ∃ st' ts', runner c st' (t :: ts') = (t, evs) :: b ∧ evs = snd (runner_turn c st' t) ∧ (a = [] → st' = st) ∧
    (a ≠ [] → ∃ t0 evs0 st0, last a = Some (t0, evs0) ∧ evs0 = snd (runner_turn c st0 t0) ∧ fst (runner_turn c st0 t0) = Some st').
Proof.
  revert st a. induction ts as [|t1 ts IH]; intros st a H; cbn [runner] in H; [by destruct a|].
  destruct a as [|x a].
  - cbn in H. injection H as <- Hevs Hb. exists st, ts. split_and!; try done. cbn [runner]. by rewrite Hevs, Hb.
  - cbn [app] in H. injection H as <- H. destruct (fst (runner_turn c st t1)) as [st1|] eqn:E; [|by destruct a].
    destruct (IH _ _ H) as (st' & ts' & H1 & H2 & H3 & H4). exists st', ts'. split_and!; try done. intros _.
    destruct a as [|y a].
    + rewrite (H3 eq_refl). exists t1, (snd (runner_turn c st t1)), st. done.
    + destruct (H4 ltac:(done)) as (t0 & e0 & st0 & ? & ? & ?). exists t0, e0, st0. done.
Qed.

(** *** C90 *)
Lemma exec_time c st t start env j : executed (snd (runner_turn c st t)) start env j →
  start = t_start t ∧ t_top t + jtime st ≤ c_end c ∧ (rj_time j ≠ jtime st → t_check t + rj_time j ≤ c_end c) ∧
  ∃ st', fst (runner_turn c st t) = None ∨ fst (runner_turn c st t) = Some st' ∧ jtime st' = rj_time j.
Proof.
  unfold executed. intros H. pose proof (turn_cases c st t) as HT. cbv zeta in HT.
  destruct HT as [E|[(j' & _ & E)|[(j' & _ & E & _)|(j' & o & env' & _ & E & Hf & H1 & H2 & _)]]]; rewrite E in H.
  - by apply elem_of_nil in H.
  - cbn in H. apply elem_of_cons in H as [H|H]; [done|]. apply elem_of_list_singleton in H. done.
  - cbn in H. apply elem_of_list_singleton in H. done.
  - apply elem_of_cons in H as [H|H]; [done|]. apply elem_of_list_singleton in H. injection H as -> -> ->.
    split_and!; try done. destruct Hf as [Hf|Hf]; rewrite Hf; [by exists st; left|]. eexists. right. split; [done|]. done.
Qed.
Lemma in_time c server domain ts t evs start env j :
  (t, evs) ∈ runner c (start_state server domain) ts → executed evs start env j → t_top t ≤ t_check t →
  t_top t + rj_time j ≤ c_end c.
Proof.
  intros Hin He Ht. apply elem_of_list_split in Hin as (a & b & Hr).
  destruct (runner_split _ _ _ _ _ _ _ Hr) as (st' & ts' & _ & -> & _). apply exec_time in He as (_ & H1 & H2 & _).
  destruct (decide (rj_time j = jtime st')) as [->|Hd]; [lia|]. specialize (H2 Hd). lia.
Qed.
Lemma in_time_first c server domain t ts evs b start env j :
  runner c (start_state server domain) ts = (t, evs) :: b → executed evs start env j → rj_time j ≠ 0 →
  t_check t + rj_time j ≤ c_end c.
Proof.
  intros Hr He Hz. destruct (runner_split c _ ts [] t evs b Hr) as (st' & ts' & _ & -> & Hs & _). rewrite (Hs eq_refl) in He.
  apply exec_time in He as (_ & _ & H2 & _). by apply H2.
Qed.
Lemma in_time_next c server domain ts a t1 evs1 s1 e1 j1 t evs b start env j :
  runner c (start_state server domain) ts = a ++ (t1, evs1) :: (t, evs) :: b →
  executed evs1 s1 e1 j1 → executed evs start env j → rj_time j ≠ rj_time j1 →
  t_check t + rj_time j ≤ c_end c.
Proof.
  intros Hr He1 He Hz. rewrite cons_middle, (assoc_L (++)) in Hr.
  destruct (runner_split c _ ts _ t evs b Hr) as (st' & ts' & _ & -> & _ & Hp).
  destruct Hp as (t0 & e0 & st0 & Hl & -> & Hn); [by destruct a|]. rewrite last_snoc in Hl. injection Hl as -> ->.
  apply exec_time in He1 as (_ & _ & _ & st2 & Hst). rewrite Hn in Hst. destruct Hst as [?|[Hst Hj]]; [done|]. injection Hst as <-.
  apply exec_time in He as (_ & _ & H2 & _). apply H2. by rewrite Hj.
Qed.

(** *** C91 *)
Lemma split_str c n v : c ∉ chars n → split c (n ++ String c v)%string = n :: split c v.
Proof. apply split_at. Qed.
Lemma path_named e : env_name e = "PATH" ↔ e = "PATH" ∨ ∃ v, e = ("PATH=" ++ v)%string.
Proof.
  rewrite env_name_named. unfold named. split.
  - intros [_ [->|[v ->]]]; [by left|right; by exists v].
  - intros H. split.
    { cbn. intros Hin. repeat (apply elem_of_cons in Hin as [Hin|Hin]; [done|]). by apply elem_of_nil in Hin. }
    destruct H as [->|[v ->]]; [by left|right; by exists v].
Qed.
Lemma path_val v : split "=" ("PATH=" ++ v)%string !! 1%nat = Some (hd "" (split "=" v)).
Proof.
  change ("PATH=" ++ v)%string with ("PATH" ++ String "=" v)%string. rewrite split_str.
  - cbn. destruct (split_cases "=" v) as [H|(a & b & -> & H)]; [by rewrite (split_lacks _ _ H)|by rewrite (split_at _ a b H)].
  - cbn. intros Hin. repeat (apply elem_of_cons in Hin as [Hin|Hin]; [done|]). by apply elem_of_nil in Hin.
Qed.
(** what the overrides a turn adds are *)
Lemma path_over_some exe env o : NoDup (env_name <$> env) → path_over exe env = Some o →
  (o = [] ∧ ∀ v, ("PATH=" ++ v)%string ∈ env → occurs exe (hd "" (split "=" v))) ∨
  ∃ v, ("PATH=" ++ v)%string ∈ env ∧ o = [("PATH=" ++ v ++ ":" ++ exe)%string] ∧ ¬ occurs exe (hd "" (split "=" v)).
Proof.
  induction env as [|e env IH]; intros Hn H; cbn [path_over] in H.
  { injection H as <-. left. split; [done|]. intros v Hv. by apply elem_of_nil in Hv. }
  cbn [fmap list_fmap] in Hn. apply NoDup_cons in Hn as [Hx Hn]. case_bool_decide as E.
  - apply path_named in E as [->|[v ->]]; [done|]. rewrite path_val in H. injection H as H.
    destruct (has exe (hd "" (split "=" v))) eqn:Eh.
    + left. split; [done|]. intros w Hw. apply elem_of_cons in Hw as [Hw|Hw].
      * injection Hw as ->. by apply has_spec.
      * exfalso. apply Hx. rewrite (proj2 (path_named ("PATH=" ++ v)%string)) by eauto.
        rewrite <- (proj2 (path_named ("PATH=" ++ w)%string)) by eauto. by apply elem_of_list_fmap_1.
    + right. exists v. split; [left|]. split; [done|]. rewrite <- has_spec. by rewrite Eh.
  - destruct (IH Hn H) as [[-> Hv]|(v & Hv & -> & Ho)].
    + left. split; [done|]. intros w Hw. apply elem_of_cons in Hw as [Hw|Hw]; [|by apply Hv]. exfalso. apply E. apply path_named. eauto.
    + right. exists v. split; [by right|done].
Qed.
(** the manager's overrides, and entries for PATH only *)
Definition over_form (server domain : string) (exe : string) (l : list string) : Prop :=
  ∃ ps, l = start_over server domain ++ ps ∧ (∀ p, p ∈ ps → ∃ v, p = ("PATH=" ++ v ++ ":" ++ exe)%string).
Lemma latest_self l : NoDup (env_name <$> l) → latest l l.
Proof. intros H. split; [done|]. intros e. by rewrite last_named_nodup. Qed.
Lemma own_nodup c j : some_order (c_order c) → env_ok c j → NoDup (env_name <$> own_env c j).
Proof.
  intros Ho (H1 & H2 & H3). rewrite uniquely_named_iff in H1, H2.
  by destruct (job_env_spec (c_order c) (c_os c) (rj_env j) _ Ho (latest_self _ H2) H1 H3).
Qed.
Lemma ran_env c j ov n e : some_order (c_order c) → env_ok c j → named n e →
  e ∈ job_env (c_order c) (c_os c) (add_override (c_order c) ov (rj_env j)) ↔
  e ∈ own_env c j ∧ (∀ x, x ∈ ov → ¬ named n x) ∨ last_for n e ov.
Proof.
  intros Ho (H1 & H2 & H3) Hn. rewrite uniquely_named_iff in H1, H2.
  pose proof (latest_self _ H2) as HL. pose proof (latest_add (c_order c) _ _ ov Ho HL) as HL'.
  destruct (job_env_spec (c_order c) (c_os c) (rj_env j) _ Ho HL H1 H3) as [_ Hown].
  destruct (job_env_spec (c_order c) (c_os c) (add_override (c_order c) ov (rj_env j)) _ Ho HL' H1 H3) as [_ Hran].
  rewrite Hran. unfold own_env. rewrite Hown. rewrite (last_for_iff n e ov Hn), <- not_named_iff, last_filter_app.
  assert (He : env_name e = n) by (by apply env_name_named). rewrite He, fmap_app, not_elem_of_app.
  change (base_env (c_os c) (add_override (c_order c) ov (rj_env j))) with (base_env (c_os c) (rj_env j)).
  pose proof (not_named_last ov n) as Hnl.
  destruct (last (filter (λ x, env_name x = n) ov)) as [r|] eqn:E.
  - split; [intros [(? & ? & ?)|?]; [exfalso; by apply Hnl in H4|by right]|]. intros [[_ H]|H]; [by apply Hnl in H|by right].
  - assert (n ∉ env_name <$> ov) by (by apply Hnl). assert (None ≠ Some e) by done. tauto.
Qed.

(** what holds before a turn, from what each turn keeps *)
Lemma runner_inv c (P : list (turn * list rdone) → rstate → Prop) st ts a t evs b :
  P [] st →
  (∀ tr st t st', P tr st → fst (runner_turn c st t) = Some st' → P (tr ++ [(t, snd (runner_turn c st t))]) st') →
  runner c st ts = a ++ (t, evs) :: b → ∃ st', P a st' ∧ evs = snd (runner_turn c st' t).
Proof.
  intros H0 HS. assert (Hg : ∀ ts st tr a, P tr st → runner c st ts = a ++ (t, evs) :: b →
    ∃ st', P (tr ++ a) st' ∧ evs = snd (runner_turn c st' t)); [|intros Hr; by apply (Hg ts st [])].
  clear H0 st ts a. induction ts as [|t1 ts IH]; intros st tr a HP H; cbn [runner] in H; [by destruct a|].
  destruct a as [|x a].
  - cbn in H. injection H as <- Hevs Hb. exists st. by rewrite app_nil_r.
  - cbn [app] in H. injection H as <- H. destruct (fst (runner_turn c st t1)) as [st1|] eqn:E; [|by destruct a].
    rewrite cons_middle, (assoc_L (++)). apply (IH st1); [|done]. by apply HS.
Qed.
Lemma path_over_form exe env o : path_over exe env = Some o →
  o = [] ∨ ∃ v, ("PATH=" ++ v)%string ∈ env ∧ o = [("PATH=" ++ v ++ ":" ++ exe)%string] ∧ ¬ occurs exe (hd "" (split "=" v)).
Proof.
  induction env as [|e env IH]; intros H; cbn [path_over] in H; [injection H as <-; by left|]. case_bool_decide as E.
  - apply path_named in E as [->|[v ->]]; [done|]. rewrite path_val in H. injection H as H.
    destruct (has exe (hd "" (split "=" v))) eqn:Eh; [by left|].
    right. exists v. split; [left|]. split; [done|]. rewrite <- has_spec. by rewrite Eh.
  - destruct (IH H) as [->|(v & Hv & -> & Ho)]; [by left|]. right. exists v. split; [by right|done].
Qed.
Lemma next_over c st t st' : fst (runner_turn c st t) = Some st' →
  ∃ j o, EReserve j ∈ snd (runner_turn c st t) ∧ over st' = over st ++ o ∧
    (o = [] ∨ path_over (c_exe c) (own_env c j) = Some o).
Proof.
  intros H. pose proof (turn_cases c st t) as HT. cbv zeta in HT.
  destruct HT as [E|[(j' & _ & E)|[(j' & _ & E & _)|(j' & o & env' & _ & E & Hf & H1 & H2 & H3)]]]; try (rewrite E in H; done).
  destruct Hf as [Hf|Hf]; [by rewrite Hf in H|]. rewrite Hf in H. injection H as <-. exists j', o. rewrite E.
  split; [left|]. split; [done|]. destruct H3 as [(_ & -> & _)|(_ & ? & _)]; auto.
Qed.
Lemma hd_split_id v : "="%char ∉ chars v → hd "" (split "=" v) = v.
Proof. intros H. by rewrite (split_lacks _ _ H). Qed.
Lemma string_assoc (a b d : string) : ((a ++ b) ++ d)%string = (a ++ (b ++ d))%string.
Proof. induction a as [|x a IH]; [done|]. exact (f_equal (String x) IH). Qed.
Lemma hd_split_occurs x v : occurs x (hd "" (split "=" v)) → occurs x v.
Proof.
  destruct (split_cases "=" v) as [H|(p & q & -> & H)]; [by rewrite (split_lacks _ _ H)|]. rewrite (split_at _ p q H). cbn [hd].
  intros (a & b & ->). exists a, (b ++ String "=" q)%string. by rewrite !string_assoc.
Qed.
(** what the overrides are before a turn, and what the job executed in it gets *)
Lemma exec_env c server domain ts a t evs b start env j :
  runner c (start_state server domain) ts = a ++ (t, evs) :: b → executed evs start env j →
  ∃ ps o, (∀ p, p ∈ ps → ∃ v, p = ("PATH=" ++ v ++ ":" ++ c_exe c)%string) ∧
    (no_path_lacks c a → ps = []) ∧ EReserve j ∈ evs ∧
    (server = "" ∧ env = own_env c j ∨
     server ≠ "" ∧ path_over (c_exe c) (own_env c j) = Some o ∧
     env = job_env (c_order c) (c_os c) (add_override (c_order c) (start_over server domain ++ ps ++ o) (rj_env j))).
Proof.
  intros Hr He.
  destruct (runner_inv c (λ tr st, ∃ ps, over st = start_over server domain ++ ps ∧ (server = "" → ps = []) ∧
      (∀ p, p ∈ ps → ∃ v, p = ("PATH=" ++ v ++ ":" ++ c_exe c)%string) ∧ (no_path_lacks c tr → ps = []))
    (start_state server domain) ts a t evs b) as (st' & (ps & Ho & Hs & Hps & Hnp) & ->); [| |done|].
  - exists []. rewrite app_nil_r. split_and!; try done. intros p Hp. by apply elem_of_nil in Hp.
  - intros tr st t' st' (ps & Ho & Hs & Hps & Hnp) Hn. pose proof (turn_cases c st t') as HT. cbv zeta in HT.
    destruct (next_over _ _ _ _ Hn) as (j' & o & Hj & Ho' & Hop).
    destruct (decide (server = "")) as [->|Hse].
    { rewrite (Hs eq_refl) in Ho. cbn in Ho. exists []. split_and!; try done; [|intros p Hp; by apply elem_of_nil in Hp].
      destruct HT as [E|[(j2 & _ & E)|[(j2 & _ & E & _)|(j2 & o2 & env' & _ & E & Hf & H1 & H2 & H3)]]]; try (rewrite E in Hn; done).
      destruct Hf as [Hf|Hf]; [by rewrite Hf in Hn|]. rewrite Hf in Hn. injection Hn as <-. cbn [over].
      destruct H3 as [(-> & -> & _)|(? & _)]; done. }
    exists (ps ++ o). rewrite Ho', Ho, (assoc_L (++)). split; [done|]. split; [done|].
    destruct Hop as [->|Hop].
    { rewrite app_nil_r. split; [done|]. intros Hnl. apply Hnp. intros t2 e2 j2 v Hin. apply (Hnl t2 e2 j2 v). apply elem_of_app. by left. }
    apply path_over_form in Hop as [->|(v & Hv & -> & Hno)].
    { rewrite app_nil_r. split; [done|]. intros Hnl. apply Hnp. intros t2 e2 j2 v Hin. apply (Hnl t2 e2 j2 v). apply elem_of_app. by left. }
    split.
    + intros p [Hp|Hp]%elem_of_app; [by apply Hps|]. apply elem_of_list_singleton in Hp. by exists v.
    + intros Hnl. exfalso. apply Hno. destruct (Hnl t' _ j' v ltac:(apply elem_of_app; right; left) Hj Hv) as [H1 H2].
      by rewrite hd_split_id.
  - pose proof (turn_cases c st' t) as HT. cbv zeta in HT. unfold executed in He.
    destruct HT as [E|[(j' & _ & E)|[(j' & _ & E & _)|(j' & o & env' & _ & E & Hf & H1 & H2 & H3)]]]; rewrite E in He |- *.
    + by apply elem_of_nil in He.
    + cbn in He. apply elem_of_cons in He as [He|He]; [done|]. apply elem_of_list_singleton in He. done.
    + cbn in He. apply elem_of_list_singleton in He. done.
    + apply elem_of_cons in He as [He|He]; [done|]. apply elem_of_list_singleton in He. injection He as -> -> ->.
      exists ps, o. split; [done|]. split; [done|]. split; [left|].
      destruct H3 as [(Hov & -> & ->)|(Hov & Hpo & ->)].
      * left. split; [|done]. rewrite Ho in Hov. unfold start_over in Hov. case_bool_decide; [done|].
        by destruct (split ":" server) as [|? [|? [|]]].
      * right. split; [|split; [done|by rewrite Ho, (assoc_L (++))]]. intros ->. rewrite (Hs eq_refl) in Ho. done.
Qed.
