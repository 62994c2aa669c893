(** Lemmas for C91 and C92, continued. *)
From Coq Require Import ZArith Lia String Ascii.
From stdpp Require Import base option strings gmap list.
From Verif Require Import UtilModel UtilSpec UtilProofs UtilProofs2 RunnerModel RunnerSpec RunnerProofs.
Open Scope Z_scope.

(** *** C91 *)
Lemma named_unique n m e : named n e → named m e → n = m.
Proof. rewrite <- !env_name_named. by intros -> ->. Qed.
Lemma named_path v : named "PATH" ("PATH=" ++ v)%string.
Proof. apply env_name_named, path_named. eauto. Qed.
Lemma wr_named n v : n ∈ wr_vars → named n (n ++ "=" ++ v)%string.
Proof.
  intros Hn. split; [|eauto]. intros Hin.
  repeat (apply elem_of_cons in Hn as [->|Hn]; [cbn in Hin; repeat (apply elem_of_cons in Hin as [Hin|Hin]; [done|]); by apply elem_of_nil in Hin|]).
  by apply elem_of_nil in Hn.
Qed.
Lemma start_over_named server domain e : e ∈ start_over server domain → ∃ n, n ∈ wr_vars ∧ named n e.
Proof.
  unfold start_over. case_bool_decide; [intros H0; by apply elem_of_nil in H0|]. intros [He|He]%elem_of_app.
  - destruct (split ":" server) as [|h [|p [|]]]; try (by apply elem_of_nil in He).
    apply elem_of_cons in He as [->|He]; [|apply elem_of_list_singleton in He as ->].
    + exists "WR_MANAGERHOST". split; [by left|]. apply (wr_named "WR_MANAGERHOST"). by left.
    + exists "WR_MANAGERPORT". split; [by right; left|]. apply (wr_named "WR_MANAGERPORT"). by right; left.
  - apply elem_of_list_singleton in He as ->. exists "WR_MANAGERCERTDOMAIN". split; [by right; right; left|].
    apply (wr_named "WR_MANAGERCERTDOMAIN"). by right; right; left.
Qed.
Lemma path_not_wr : "PATH" ∉ wr_vars.
Proof. intros H. repeat (apply elem_of_cons in H as [H|H]; [done|]). by apply elem_of_nil in H. Qed.
Lemma path_overs exe (ps o : list string) env : (∀ p, p ∈ ps → ∃ v, p = ("PATH=" ++ v ++ ":" ++ exe)%string) →
  path_over exe env = Some o → ∀ x, x ∈ ps ++ o → named "PATH" x.
Proof.
  intros Hps Hpo x [Hx|Hx]%elem_of_app; [destruct (Hps _ Hx) as [v ->]; apply named_path|].
  apply path_over_form in Hpo as [->|(v & _ & -> & _)]; [by apply elem_of_nil in Hx|]. apply elem_of_list_singleton in Hx as ->. apply named_path.
Qed.
Lemma other_vars c server domain ts t evs start env j n e :
  some_order (c_order c) → (t, evs) ∈ runner c (start_state server domain) ts → executed evs start env j → env_ok c j →
  named n e → n ≠ "PATH" → n ∉ wr_vars → e ∈ env ↔ e ∈ own_env c j.
Proof.
  intros Ho Hin He Hok Hn Hnp Hnw. apply elem_of_list_split in Hin as (a & b & Hr).
  destruct (exec_env _ _ _ _ _ _ _ _ _ _ _ Hr He) as (ps & o & Hps & _ & _ & [[_ ->]|(_ & Hpo & ->)]); [done|].
  rewrite (ran_env c j _ n e Ho Hok Hn).
  assert (Hno : ∀ x, x ∈ start_over server domain ++ ps ++ o → ¬ named n x).
  { intros x [Hx|Hx]%elem_of_app Hnx.
    - apply start_over_named in Hx as (m & Hm & Hmx). rewrite (named_unique n m x) in Hnw by done. done.
    - apply Hnp. apply (named_unique _ _ x Hnx). by apply (path_overs _ _ _ _ Hps Hpo). }
  split; [|by left]. intros [[? _]|Hl]; [done|]. exfalso. destruct Hl as (_ & b1 & b2 & Heq & _). apply (Hno e); [|done]. rewrite Heq.
  apply elem_of_app. right. left.
Qed.
Lemma last_for_wr n v (pre post : list string) : n ∈ wr_vars → (∀ x, x ∈ post → ¬ named n x) →
  last_for n (n ++ "=" ++ v)%string (pre ++ (n ++ "=" ++ v)%string :: post).
Proof. intros Hn Hp. split; [by apply wr_named|]. by exists pre, post. Qed.
Lemma wr_vars_set c h p domain ts t evs start env j :
  some_order (c_order c) → ":"%char ∉ chars h → ":"%char ∉ chars p →
  (t, evs) ∈ runner c (start_state (h ++ ":" ++ p)%string domain) ts → executed evs start env j → env_ok c j →
  ∀ e, (∃ n, n ∈ wr_vars ∧ named n e) →
    e ∈ env ↔ e = ("WR_MANAGERHOST=" ++ h)%string ∨ e = ("WR_MANAGERPORT=" ++ p)%string ∨ e = ("WR_MANAGERCERTDOMAIN=" ++ domain)%string.
Proof.
  intros Ho Hh Hp Hin He Hok e (n & Hn & Hne). apply elem_of_list_split in Hin as (a & b & Hr).
  destruct (exec_env _ _ _ _ _ _ _ _ _ _ _ Hr He) as (ps & o & Hps & _ & _ & [[Hse _]|(Hse & Hpo & ->)]); [by destruct h|].
  rewrite (ran_env c j _ n e Ho Hok Hne).
  assert (Hso : start_over (h ++ ":" ++ p)%string domain =
    [("WR_MANAGERHOST" ++ "=" ++ h)%string; ("WR_MANAGERPORT" ++ "=" ++ p)%string; ("WR_MANAGERCERTDOMAIN" ++ "=" ++ domain)%string]).
  { unfold start_over. rewrite bool_decide_false by done. change (h ++ ":" ++ p)%string with (h ++ String ":" p)%string.
    rewrite (split_str ":" h p Hh), (split_lacks _ _ Hp). done. }
  rewrite Hso. cbn [app]. set (qs := ps ++ o).
  assert (Hq : ∀ m x, m ∈ wr_vars → x ∈ qs → ¬ named m x).
  { intros m x Hm Hx Hnx. apply path_not_wr. rewrite (named_unique "PATH" m x); [done| |done]. by apply (path_overs _ _ _ _ Hps Hpo). }
  pose proof (wr_named "WR_MANAGERHOST" h ltac:(by left)) as N1.
  pose proof (wr_named "WR_MANAGERPORT" p ltac:(by right; left)) as N2.
  pose proof (wr_named "WR_MANAGERCERTDOMAIN" domain ltac:(by right; right; left)) as N3.
  split.
  - intros [[_ Hno]|Hl].
    + exfalso. apply elem_of_cons in Hn as [->|Hn]; [eapply Hno, N1; by left|].
      apply elem_of_cons in Hn as [->|Hn]; [eapply Hno, N2; by right; left|].
      apply elem_of_list_singleton in Hn as ->. eapply Hno, N3. by right; right; left.
    + destruct Hl as (_ & b1 & b2 & Heq & _).
      assert (Hel : e ∈ b1 ++ e :: b2) by (apply elem_of_app; right; left). rewrite <- Heq in Hel.
      apply elem_of_cons in Hel as [->|Hel]; [by left|]. apply elem_of_cons in Hel as [->|Hel]; [by right; left|].
      apply elem_of_cons in Hel as [->|Hel]; [by right; right|]. exfalso. by apply (Hq n e).
  - intros [-> | [-> | ->]]; right.
    + rewrite (named_unique n _ _ Hne N1). apply (last_for_wr "WR_MANAGERHOST" h []); [by left|].
      intros x Hx Hnx. apply elem_of_cons in Hx as [->|Hx]; [by pose proof (named_unique _ _ _ N2 Hnx)|].
      apply elem_of_cons in Hx as [->|Hx]; [by pose proof (named_unique _ _ _ N3 Hnx)|]. by apply (Hq _ x ltac:(by left) Hx).
    + rewrite (named_unique n _ _ Hne N2). apply (last_for_wr "WR_MANAGERPORT" p [("WR_MANAGERHOST" ++ "=" ++ h)%string]); [by right; left|].
      intros x Hx Hnx. apply elem_of_cons in Hx as [->|Hx]; [by pose proof (named_unique _ _ _ N3 Hnx)|]. by apply (Hq _ x ltac:(by right; left) Hx).
    + rewrite (named_unique n _ _ Hne N3).
      apply (last_for_wr "WR_MANAGERCERTDOMAIN" domain [("WR_MANAGERHOST" ++ "=" ++ h)%string; ("WR_MANAGERPORT" ++ "=" ++ p)%string]); [by right; right; left|].
      intros x Hx Hnx. by apply (Hq _ x ltac:(by right; right; left) Hx).
Qed.
Lemma path_added c server domain ts t evs start env j v :
  some_order (c_order c) → server ≠ "" → (t, evs) ∈ runner c (start_state server domain) ts → executed evs start env j → env_ok c j →
  ("PATH=" ++ v)%string ∈ own_env c j → ¬ occurs (c_exe c) v →
  ∀ e, named "PATH" e → e ∈ env ↔ e = ("PATH=" ++ v ++ ":" ++ c_exe c)%string.
Proof.
  intros Ho Hs Hin He Hok Hv Hocc e Hne. apply elem_of_list_split in Hin as (a & b & Hr).
  destruct (exec_env _ _ _ _ _ _ _ _ _ _ _ Hr He) as (ps & o & Hps & _ & _ & [[Hse _]|(_ & Hpo & ->)]); [done|].
  rewrite (ran_env c j _ _ e Ho Hok Hne).
  pose proof (own_nodup c j Ho Hok) as Hnd.
  destruct (path_over_some _ _ _ Hnd Hpo) as [[_ Hall]|(w & Hw & -> & _)].
  { exfalso. apply Hocc, hd_split_occurs. by apply Hall. }
  assert (w = v) as ->.
  { assert (HE : ("PATH=" ++ w)%string = ("PATH=" ++ v)%string); [|by injection HE].
    pose proof (proj2 (last_named_nodup _ _ Hnd) Hw) as H1. pose proof (proj2 (last_named_nodup _ _ Hnd) Hv) as H2.
    rewrite (proj2 (path_named ("PATH=" ++ w)%string)) in H1 by eauto. rewrite (proj2 (path_named ("PATH=" ++ v)%string)) in H2 by eauto.
    rewrite H1 in H2. by apply (inj Some) in H2. }
  rewrite (assoc_L (++)). split.
  - intros [[_ Hno]|Hl].
    + exfalso. eapply Hno; [apply elem_of_app; right; left|]. apply named_path.
    + destruct Hl as (_ & b1 & b2 & Heq & Hb2). destruct b2 as [|y b2 _] using rev_ind.
      * apply app_inj_tail in Heq as [_ Heq]. done.
      * exfalso. apply (Hb2 y); [apply elem_of_app; right; left|]. rewrite app_comm_cons, (assoc_L (++)) in Heq.
        apply app_inj_tail in Heq as [_ <-]. apply named_path.
  - intros ->. right. split; [done|]. eexists _, []. split; [reflexivity|]. intros x Hx. by apply elem_of_nil in Hx.
Qed.
Lemma path_kept c server domain ts a t evs b start env j :
  some_order (c_order c) → runner c (start_state server domain) ts = a ++ (t, evs) :: b → executed evs start env j → env_ok c j →
  no_path_lacks c (a ++ [(t, evs)]) → ∀ e, named "PATH" e → e ∈ env ↔ e ∈ own_env c j.
Proof.
  intros Ho Hr He Hok Hnl e Hne.
  destruct (exec_env _ _ _ _ _ _ _ _ _ _ _ Hr He) as (ps & o & Hps & Hnp & Hres & [[_ ->]|(_ & Hpo & ->)]); [done|].
  assert (Hps0 : ps = []). { apply Hnp. intros t2 e2 j2 v Hin. apply (Hnl t2 e2 j2 v). apply elem_of_app. by left. } subst ps.
  assert (Ho0 : o = []).
  { apply path_over_form in Hpo as [->|(v & Hv & _ & Hno)]; [done|]. exfalso. apply Hno.
    destruct (Hnl t evs j v ltac:(apply elem_of_app; right; left) Hres Hv) as [H1 H2]. by rewrite hd_split_id. }
  subst o. rewrite (ran_env c j _ _ e Ho Hok Hne). cbn [app]. rewrite app_nil_r.
  assert (Hno : ∀ x, x ∈ start_over server domain → ¬ named "PATH" x).
  { intros x Hx Hnx. apply start_over_named in Hx as (m & Hm & Hmx). apply path_not_wr. by rewrite (named_unique "PATH" m x). }
  split; [|by left]. intros [[? _]|Hl]; [done|]. exfalso. destruct Hl as (_ & b1 & b2 & Heq & _). apply (Hno e); [|done]. rewrite Heq.
  apply elem_of_app. right. left.
Qed.
Lemma no_server c domain ts t evs start env j :
  (t, evs) ∈ runner c (start_state "" domain) ts → executed evs start env j → env = own_env c j.
Proof.
  intros Hin He. apply elem_of_list_split in Hin as (a & b & Hr).
  by destruct (exec_env _ _ _ _ _ _ _ _ _ _ _ Hr He) as (ps & o & Hps & _ & _ & [[_ ->]|(? & _)]).
Qed.

(** *** C92 *)
Lemma path_over_none exe env : path_over exe env = None → "PATH" ∈ env.
Proof.
  induction env as [|e env IH]; cbn [path_over]; [done|]. case_bool_decide as E; [|intros H; right; by apply IH].
  apply path_named in E as [->|[v ->]]; [left|]. by rewrite path_val.
Qed.
(** the shape of what is done: each job reserved is executed, but the last may be released *)
Inductive shape : list rdone → Prop :=
  | shape_nil : shape []
  | shape_release j : shape [EReserve j; ERelease j]
  | shape_exec j s e l : shape l → shape (EReserve j :: EExec s e j :: l).
Lemma runner_shape c st ts : paths_set c ts → shape (all_evs (runner c st ts)).
Proof.
  revert st. induction ts as [|t ts IH]; intros st Hp; [constructor|]. unfold all_evs. cbn [runner fmap list_fmap concat fst snd].
  pose proof (turn_cases c st t) as HT. cbv zeta in HT.
  destruct HT as [E|[(j & _ & E)|[(j & Hj & E & _ & Hn)|(j & o & env & _ & E & Hf & _)]]].
  - rewrite E. constructor.
  - rewrite E. cbn. constructor.
  - exfalso. apply path_over_none in Hn. by apply (Hp t j); [left|..].
  - rewrite E. cbn [app snd]. constructor. destruct (fst (runner_turn c st t)) as [st'|]; [|constructor].
    apply IH. intros t' j' Ht. apply Hp. by right.
Qed.
Lemma shape_reserve l i j : shape l → l !! i = Some (EReserve j) →
  l !! S i = Some (ERelease j) ∨ ∃ s e, l !! S i = Some (EExec s e j).
Proof.
  intros H. revert i. induction H as [|j'|j' s e l H IH]; intros i Hi; [done| |].
  - destruct i as [|[|i]]; cbn in Hi; [|done..]. injection Hi as ->. by left.
  - destruct i as [|[|i]]; cbn in Hi; [injection Hi as ->; right; eauto|done|]. by apply (IH i).
Qed.
Lemma shape_done l i j : shape l → (l !! i = Some (ERelease j) ∨ ∃ s e, l !! i = Some (EExec s e j)) →
  ∃ k, i = S k ∧ l !! k = Some (EReserve j).
Proof.
  intros H. revert i. induction H as [|j'|j' s e l H IH]; intros i Hi; [destruct Hi as [?|(?&?&?)]; done| |].
  - destruct i as [|[|i]]; cbn in Hi; destruct Hi as [Hi|(?&?&Hi)]; try done. injection Hi as ->. by exists 0%nat.
  - destruct i as [|[|i]]; [cbn in Hi; destruct Hi as [Hi|(?&?&Hi)]; done| |].
    + cbn in Hi. destruct Hi as [Hi|(?&?&Hi)]; [done|]. injection Hi as _ _ ->. by exists 0%nat.
    + destruct (IH i Hi) as (k & -> & Hk). by exists (S (S k)).
Qed.
Lemma shape_last l i j : shape l → l !! i = Some (ERelease j) → length l = S i.
Proof.
  intros H. revert i. induction H as [|j'|j' s e l H IH]; intros i Hi; [done| |].
  - destruct i as [|[|i]]; cbn in Hi; try done.
  - destruct i as [|[|i]]; cbn in Hi; try done. cbn. by rewrite (IH i Hi).
Qed.
