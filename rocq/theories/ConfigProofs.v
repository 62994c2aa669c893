(** Proofs on the configuration: where values come from. *)
From Coq Require Import ZArith String Ascii Lia.
From stdpp Require Import base option strings list pretty.
From Verif Require Import ConfigModel ConfigSpec.
Open Scope Z_scope.

Lemma files_app env fs p1 p2 c : merge_files env fs (p1 ++ p2) c = merge_files env fs p2 (merge_files env fs p1 c).
Proof. apply fold_left_app. Qed.
Lemma files_snoc env fs ps p c : merge_files env fs (ps ++ [p]) c = load_file env fs (merge_files env fs ps c) p.
Proof. apply files_app. Qed.
Lemma load_env env file v f x : env f = Some x → load env file v f = x.
Proof. intros H. unfold load. by rewrite H. Qed.
Lemma load_file_some env (file : given) v f x : env f = None → file f = Some x → load env file v f = x.
Proof. intros H1 H2. unfold load. by rewrite H1, H2. Qed.
Lemma load_file_none env (file : given) v f : env f = None → file f = None → load env file v f = if bool_decide (v f = zero f) then dflt f else v f.
Proof. intros H1 H2. unfold load. by rewrite H1, H2. Qed.
(** ** The environment *)
Lemma env_wins env fs ps f x : env f = Some x →
  val (merge_files env fs ps (merge_env env)) f = x ∧
  srcs (merge_files env fs ps (merge_env env)) f = if bool_decide (x = dflt f) then None else Some "env var"%string.
Proof.
  intros H. induction ps as [|p ps IH] using rev_ind.
  { cbn. by rewrite (load_env env _ _ f x). }
  rewrite files_snoc. unfold load_file. destruct (fs p) as [file|]; [|done]. cbn. destruct IH as [IH1 IH2].
  rewrite (load_env env _ _ f x) by done. split; [done|]. by rewrite IH1, bool_decide_true.
Qed.
(** ** Files *)
Lemma start_none env f : env f = None → val (merge_env env) f = dflt f ∧ srcs (merge_env env) f = None.
Proof.
  intros H. unfold merge_env, merge. cbn [val srcs]. rewrite load_file_none by done. rewrite (bool_decide_true (zero f = zero f)) by done. by rewrite bool_decide_true.
Qed.
Lemma unmentioned env fs ps f : env f = None → (∀ p v, p ∈ ps → ¬ sets fs p f v) →
  ∀ c, (val c f ≠ zero f ∨ dflt f = zero f ∨ ∀ p, p ∈ ps → fs p = None) → val (merge_files env fs ps c) f = val c f ∧ srcs (merge_files env fs ps c) f = srcs c f.
Proof.
  intros He. induction ps as [|p ps IH]; intros Hn c Hc; [done|]. cbn [merge_files fold_left].
  assert (val (load_file env fs c p) f = val c f ∧ srcs (load_file env fs c p) f = srcs c f) as [E1 E2].
  { unfold load_file. destruct (fs p) as [file|] eqn:Ep; [|done]. unfold merge. cbn [val srcs].
    assert (file f = None) as Hf. { destruct (file f) as [v|] eqn:E; [|done]. destruct (Hn p v); [by left|]. by exists file. }
    rewrite load_file_none by done.
    assert ((if bool_decide (val c f = zero f) then dflt f else val c f) = val c f) as Hv.
    { case_bool_decide as Hz; [|done]. destruct Hc as [Hc|[Hc|Hc]]; [done|by rewrite Hc|]. rewrite (Hc p) in Ep; [done|by left]. }
    rewrite Hv. by rewrite bool_decide_true. }
  rewrite <-E1, <-E2. apply IH.
  - intros q v Hq. apply Hn. by right.
  - rewrite E1. destruct Hc as [Hc|[Hc|Hc]]; [by left|by right; left|right; right]. intros q Hq. apply Hc. by right.
Qed.
Lemma file_wins env fs p1 p p2 f v : env f = None → sets fs p f v → (∀ q w, q ∈ p2 → ¬ sets fs q f w) →
  (v ≠ zero f ∨ dflt f = zero f ∨ ∀ q, q ∈ p2 → fs q = None) →
  ∀ c, val (merge_files env fs (p1 ++ p :: p2) c) f = v.
Proof.
  intros He (file&Hp&Hf) Hn Hz c. rewrite files_app. cbn [merge_files fold_left].
  set (c1 := merge_files env fs p1 c). change (fold_left (load_file env fs) p1 c) with c1.
  assert (val (load_file env fs c1 p) f = v) as E. { unfold load_file. rewrite Hp. unfold merge. cbn [val]. by apply load_file_some. }
  destruct (unmentioned env fs p2 f He Hn (load_file env fs c1 p)) as [E1 _]; [by rewrite E|]. by rewrite <-E.
Qed.
Lemma default_stays env fs ps f : env f = None → (∀ p v, p ∈ ps → ¬ sets fs p f v) →
  val (merge_files env fs ps (merge_env env)) f = dflt f ∧ srcs (merge_files env fs ps (merge_env env)) f = None.
Proof.
  intros He Hn. destruct (start_none env f He) as [E1 E2]. rewrite <-E1, <-E2. apply unmentioned; [done|done|].
  rewrite E1. destruct (decide (dflt f = zero f)); [by right; left|by left].
Qed.
(** ** Sources *)
Lemma source_says env fs ps f : env f = None →
  (∀ p v, p ∈ ps → sets fs p f v → v ≠ zero f ∨ dflt f = zero f) →
  let c := merge_files env fs ps (merge_env env) in
  match srcs c f with None => val c f = dflt f | Some p => p ∈ ps ∧ sets fs p f (val c f) end.
Proof.
  intros He Hz. cbn.
  assert (match srcs (merge_files env fs ps (merge_env env)) f with None => val (merge_files env fs ps (merge_env env)) f = dflt f | Some p => p ∈ ps ∧ sets fs p f (val (merge_files env fs ps (merge_env env)) f) end) as H; [|done].
  induction ps as [|p ps IH] using rev_ind.
  { destruct (start_none env f He) as [E1 E2]. cbn [merge_files fold_left]. by rewrite E2. }
  rewrite files_snoc. set (c := merge_files env fs ps (merge_env env)) in *.
  assert (match srcs c f with None => val c f = dflt f | Some p => p ∈ ps ∧ sets fs p f (val c f) end) as IH'.
  { apply IH. intros q v Hq. apply Hz. apply elem_of_app. by left. }
  clear IH. rename IH' into IH.
  assert (match srcs c f with None => val c f = dflt f | Some q => q ∈ ps ++ [p] ∧ sets fs q f (val c f) end) as IH2.
  { destruct (srcs c f); [|done]. destruct IH as [Hq Hs]. split; [|done]. apply elem_of_app. by left. }
  unfold load_file. destruct (fs p) as [file|] eqn:Ep; [|exact IH2].
  unfold merge. cbn [val srcs]. case_bool_decide as E; [rewrite E; exact IH2|].
  split; [apply elem_of_app; right; by left|]. exists file. split; [done|].
  destruct (file f) as [v|] eqn:Ef; [by rewrite (load_file_some env file _ f v)|]. rewrite load_file_none in E by done. exfalso. apply E.
  case_bool_decide as Hv; [|done].
  destruct (srcs c f) as [q|].
  - destruct IH as [Hq Hs]. destruct (Hz q (val c f)) as [H|H]; [apply elem_of_app; by left|done|done|]. by rewrite Hv.
  - by rewrite IH.
Qed.
