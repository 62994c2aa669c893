(** Proofs on the configuration: the statements of ConfigProps.v. *)
From Coq Require Import ZArith String Ascii Lia.
From stdpp Require Import base option strings list pretty.
From Verif Require Import ConfigModel ConfigSpec ConfigProofs ConfigProofs2 ConfigProofs3.
Open Scope Z_scope.

Lemma paths_precedence dir home pwd d : config_paths dir home pwd d = rev (precedence dir home pwd d).
Proof.
  unfold config_paths, precedence, join. destruct (decide (dir = ""%string)) as [->|H].
  - done.
  - apply String.eqb_neq in H. rewrite H. done.
Qed.
Section cfg.
Context (tilde : string → string) (env : given) (fs : string → option given) (dir home pwd : string) (uid ask : Z) (d : string).
Let c := load_config tilde env fs dir home pwd uid ask d.
Lemma cfg_env f x : f ∉ adjusted → env f = Some x → val c f = x ∧ (source c f = "env var"%string ∨ x = dflt f ∧ source c f = "default"%string).
Proof.
  intros Hf He. unfold c, load_config, source. rewrite adjust_other, adjust_srcs by done.
  destruct (env_wins env fs (config_paths dir home pwd d) f x He) as [E1 E2]. rewrite E1, E2. split; [done|].
  case_bool_decide; [by right|by left].
Qed.
Lemma cfg_file f p1 p p2 v : f ∉ adjusted → env f = None → precedence dir home pwd d = p1 ++ p :: p2 → sets fs p f v →
  (∀ q w, q ∈ p1 → ¬ sets fs q f w) → (v ≠ zero f ∨ dflt f = zero f ∨ ∀ q, q ∈ p1 → fs q = None) → val c f = v.
Proof.
  intros Hf He Hp Hs Hn Hz. unfold c, load_config. rewrite adjust_other, paths_precedence, Hp by done.
  rewrite rev_app_distr. cbn [rev]. rewrite <-app_assoc. cbn [app]. apply file_wins; [done|done| |].
  - intros q w Hq. apply Hn. by apply elem_of_list_In, in_rev, elem_of_list_In in Hq.
  - destruct Hz as [Hz|[Hz|Hz]]; [by left|by right; left|right; right]. intros q Hq. apply Hz. by apply elem_of_list_In, in_rev, elem_of_list_In in Hq.
Qed.
Lemma cfg_default f : f ∉ adjusted → env f = None → (∀ p v, p ∈ precedence dir home pwd d → ¬ sets fs p f v) → val c f = dflt f ∧ source c f = "default"%string.
Proof.
  intros Hf He Hn. unfold c, load_config, source. rewrite adjust_other, adjust_srcs, paths_precedence by done.
  destruct (default_stays env fs (rev (precedence dir home pwd d)) f He) as [E1 E2].
  { intros p v Hp. apply Hn. by apply elem_of_list_In, in_rev, elem_of_list_In in Hp. }
  by rewrite E1, E2.
Qed.
Lemma cfg_source f : f ∉ adjusted → env f = None → (∀ p v, p ∈ precedence dir home pwd d → sets fs p f v → v ≠ zero f ∨ dflt f = zero f) →
  (source c f = "default"%string ∧ val c f = dflt f) ∨ (source c f ∈ precedence dir home pwd d ∧ sets fs (source c f) f (val c f)).
Proof.
  intros Hf He Hz. unfold c, load_config, source. rewrite adjust_other, adjust_srcs, paths_precedence by done.
  pose proof (source_says env fs (rev (precedence dir home pwd d)) f He) as H. cbv zeta in H.
  destruct (srcs _ f) as [p|].
  - right. unfold default, from_option, id. destruct H as [H1 H2].
    { intros p' v Hp. apply Hz. by apply elem_of_list_In, in_rev, elem_of_list_In in Hp. }
    split; [by apply elem_of_list_In, in_rev, elem_of_list_In in H1|done].
  - left. split; [done|]. apply H. intros p' v Hp. apply Hz. by apply elem_of_list_In, in_rev, elem_of_list_In in Hp.
Qed.
End cfg.

(** ** Directories *)
Lemma app_inv (t u v : string) : t +:+ u = t +:+ v → u = v.
Proof. induction t as [|a t IH]; [done|]. change ((String a t) +:+ u)%string with (String a (t +:+ u)). change ((String a t) +:+ v)%string with (String a (t +:+ v)). intros [= H]. by apply IH. Qed.
Lemma app_ass (t u v : string) : (t +:+ u) +:+ v = t +:+ (u +:+ v).
Proof. induction t as [|a t IH]; [done|]. change (String a ((t +:+ u) +:+ v) = String a (t +:+ (u +:+ v)))%string. by rewrite IH. Qed.
Lemma files_apart tilde u1 u2 a1 a2 d1 d2 c1 c2 f g : a_deployment d1 → a_deployment d2 → d1 ≠ d2 →
  str c1 "ManagerDir" = str c2 "ManagerDir" → f ∈ manager_files → g ∈ manager_files →
  is_abs (str c1 f) = false → is_remote (str c1 f) = false → is_abs (str c2 g) = false → is_remote (str c2 g) = false →
  str (adjust tilde u1 a1 d1 c1) f ≠ str (adjust tilde u2 a2 d2 c2) g.
Proof.
  intros D1 D2 Hd Hdir Hf Hg F1 F2 G1 G2. rewrite !adjust_file by done. unfold path_in. rewrite F1, F2, G1, G2, !andb_false_r. cbn [orb].
  unfold join. rewrite Hdir, !app_ass. intros E. apply app_inv in E. destruct D1 as [-> | ->], D2 as [-> | ->]; done.
Qed.
Lemma file_inside tilde uid ask d c f : f ∈ manager_files → is_abs (str c f) = false → is_remote (str c f) = false →
  str (adjust tilde uid ask d c) f = (str (adjust tilde uid ask d c) "ManagerDir" +:+ "/" +:+ str c f)%string.
Proof.
  intros Hf F1 F2. rewrite adjust_file by done. unfold path_in. rewrite F1, F2, andb_false_r. cbn [orb]. unfold join. f_equal.
  unfold str at 2. by rewrite adjust_dir.
Qed.
Lemma file_elsewhere tilde uid ask d c f : f ∈ manager_files → is_abs (str c f) = true ∨ f = "ManagerDBBkFile"%string ∧ is_remote (str c f) = true →
  str (adjust tilde uid ask d c) f = str c f.
Proof.
  intros Hf H. rewrite adjust_file by done. unfold path_in. destruct H as [->|[-> ->]]; [done|]. by rewrite orb_true_r.
Qed.
Lemma deployment_ok asked var repo : a_deployment (deployment_used asked var repo) ∧ (a_deployment asked → deployment_used asked var repo = asked) ∧
  (¬ a_deployment asked → a_deployment var → deployment_used asked var repo = var).
Proof.
  assert (∀ s, (String.eqb s "development" || String.eqb s "production") = bool_decide (a_deployment s)) as E.
  { intros s. unfold a_deployment. destruct (String.eqb s "development") eqn:E1.
    { apply String.eqb_eq in E1 as ->. by vm_compute. }
    destruct (String.eqb s "production") eqn:E2.
    { apply String.eqb_eq in E2 as ->. by vm_compute. }
    apply String.eqb_neq in E1, E2. rewrite bool_decide_false; [done|]. by intros [|]. }
  unfold deployment_used, default_deployment. rewrite !E. repeat case_bool_decide; try tauto. destruct repo; [split; [by right|]|split; [by left|]]; tauto.
Qed.
Lemma pair_inv {A B} (a a' : A) (b b' : B) : (a, b) = (a', b') → a = a' ∧ b = b'.
Proof. by intros [= -> ->]. Qed.
Lemma val_of_str c f s : str c f = s → s ≠ ""%string → val c f = VS s.
Proof. intros <- H. unfold str in *. by destruct (val c f). Qed.
Lemma ports_of tilde uid ask d c : has_ports uid → str c "ManagerPort" = ""%string →
  val (adjust tilde uid ask d c) "ManagerPort" = VS (pretty (nth_port d uid)) ∧ val (adjust tilde uid ask d c) "ManagerWeb" = VS (pretty (nth_port d uid + 1)).
Proof.
  intros Hu E. pose proof (adjust_ports tilde uid ask d c) as P. rewrite E, ports_unset in P by done.
  apply pair_inv in P as [P1 P2].
  split; apply val_of_str; [exact P1|apply pretty_ne_empty|exact P2|apply pretty_ne_empty].
Qed.
Lemma ports_default tilde env fs dir home pwd uid ask d : has_ports uid → env "ManagerPort"%string = None →
  (∀ p v, p ∈ precedence dir home pwd d → ¬ sets fs p "ManagerPort" v) →
  let c := load_config tilde env fs dir home pwd uid ask d in
  val c "ManagerPort" = VS (pretty (nth_port d uid)) ∧ val c "ManagerWeb" = VS (pretty (nth_port d uid + 1)).
Proof.
  intros Hu He Hn. cbv zeta. unfold load_config. apply ports_of; [done|].
  unfold str. rewrite paths_precedence.
  assert (val (merge_files env fs (rev (precedence dir home pwd d)) (merge_env env)) "ManagerPort" = VS "") as ->; [|done].
  apply (default_stays env fs (rev (precedence dir home pwd d)) "ManagerPort" He).
  intros p v Hp. apply Hn. by apply elem_of_list_In, in_rev, elem_of_list_In in Hp.
Qed.
Lemma ports_range d uid : has_ports uid → 1 ≤ uid → 1024 < nth_port d uid ∧ nth_port d uid + 1 ≤ 65535.
Proof. intros [H1 H2] H. unfold nth_port. destruct (String.eqb _ _); lia. Qed.
Lemma port_set tilde uid ask d c p : has_ports uid → str c "ManagerPort" = p → p ≠ ""%string →
  str (adjust tilde uid ask d c) "ManagerPort" = p ∧
  str (adjust tilde uid ask d c) "ManagerWeb" = if decide (str c "ManagerWeb" = ""%string) then pretty (nth_port d uid + 1) else str c "ManagerWeb".
Proof.
  intros Hu <- Hp. pose proof (adjust_ports tilde uid ask d c) as P. destruct (decide _) as [E|E].
  - rewrite E, ports_web in P by done. exact (pair_inv _ _ _ _ P).
  - rewrite ports_set in P by done. exact (pair_inv _ _ _ _ P).
Qed.
Lemma dir_abs tilde uid ask d c : is_abs (str (adjust tilde uid ask d c) "ManagerDir") = true → is_abs (tilde (str c "ManagerDir")) = true.
Proof. unfold str at 1. rewrite adjust_dir. generalize (tilde (str c "ManagerDir")). intros t H. by destruct t. Qed.
Lemma cfg_daemon tilde yint env fs dir home pwd uid ask d fs' dir' home' pwd' ask' :
  reads_numbers yint → (∀ s, is_abs s = true → tilde s = s) → has_ports uid → typed env → (∀ p file, fs p = Some file → typed file) →
  let c := load_config tilde env fs dir home pwd uid ask d in
  is_abs (str c "ManagerDir") = true → val c "ManagerUmask" ≠ VI 0 →
  (∀ f, val c f = VS "" → dflt f = VS "" ∧ ∀ p v, p ∈ precedence dir' home' pwd' d → ¬ sets fs' p f v) →
  ∀ f, val (load_config tilde (env_given yint (to_env c)) fs' dir' home' pwd' uid ask' d) f = val c f.
Proof.
  intros Hy Ht Hu Te Tf. cbv zeta. unfold load_config. rewrite (paths_precedence dir' home' pwd' d).
  pose proof (λ g, raw_typed env fs (config_paths dir home pwd d) g Te Tf) as T0. revert T0.
  generalize (merge_files env fs (config_paths dir home pwd d) (merge_env env)). intros c0 T0 Ha Hum Hem f.
  apply dir_abs in Ha. eapply daemon_same; [exact Hy|exact Ht|exact T0|exact Hu|exact Ha|exact Hum|].
  intros g Hg. destruct (Hem g Hg) as [H1 H2]. split; [exact H1|]. intros p v Hp. apply H2. by apply elem_of_list_In, in_rev, elem_of_list_In in Hp.
Qed.
