(** Proofs on the configuration: a daemon has that of its parent. *)
From Coq Require Import ZArith String Ascii Lia.
From stdpp Require Import base option strings list pretty.
From Verif Require Import ConfigModel ConfigSpec ConfigProofs ConfigProofs2.
Open Scope Z_scope.

(** ** Strings *)
Lemma sub_tail t u : String.substring (String.length t) (String.length u) (t +:+ u) = u.
Proof.
  induction t as [|a t IH]; [|exact IH]. change ("" +:+ u)%string with u. change (String.length "") with 0%nat.
  induction u as [|a u IH]; [done|]. cbn. by rewrite IH.
Qed.
Lemma sub_head t u : String.substring 0 (String.length t) (t +:+ u) = t.
Proof. induction t as [|a t IH]; [by destruct u|]. change ((String a t) +:+ u)%string with (String a (t +:+ u)). cbn. by rewrite IH. Qed.
Lemma len_app t u : String.length (t +:+ u) = (String.length t + String.length u)%nat.
Proof. induction t as [|a t IH]; [done|]. change ((String a t) +:+ u)%string with (String a (t +:+ u)). cbn. by rewrite IH. Qed.
Lemma trim_app t u : trim_suffix (t +:+ u) u = t.
Proof.
  unfold trim_suffix. rewrite len_app. replace (String.length t + String.length u - String.length u)%nat with (String.length t) by lia.
  rewrite sub_tail, sub_head, String.eqb_refl. rewrite (proj2 (Nat.leb_le _ _)) by lia. done.
Qed.
Lemma first_digit x s : (0 < x)%N → ∃ a t, pretty_N_go x s = String a t ∧ a ≠ "0"%char.
Proof.
  revert s. induction (N.lt_wf_0 x) as [x _ IH]; intros s Hx. rewrite pretty_N_go_step by done.
  destruct (decide (x < 10)%N) as [H|H].
  - rewrite N.div_small, pretty_N_go_0, N.mod_small by done. eexists _, _. split; [done|].
    intros E. change "0"%char with (pretty_N_char 0) in E. apply pretty_N_char_inj in E; lia.
  - apply IH; [by apply N.div_lt|]. apply N.div_str_pos. lia.
Qed.
Lemma fix_number n : n ≠ 0 → fix_umask (pretty n) = pretty n.
Proof.
  intros Hn. destruct n as [|p|p]; [done| |done]. change (pretty (Z.pos p)) with (pretty (N.pos p)). unfold pretty, pretty_N. rewrite decide_False by done.
  destruct (first_digit (N.pos p) "") as (a&t&E&Ha); [lia|]. rewrite E. cbn. destruct (Ascii.eqb a "0") eqn:E0; [|done].
  apply Ascii.eqb_eq in E0. done.
Qed.

(** ** Kinds *)
Lemma zero_idem v : zero_of (zero_of v) = zero_of v.
Proof. by destruct v. Qed.
Lemma load_typed env file v f : typed env → (∀ x, file f = Some x → zero_of x = zero f) → zero_of (v f) = zero f → zero_of (load env file v f) = zero f.
Proof.
  intros He Hf Hv. unfold load. destruct (env f) as [x|] eqn:E; [by apply He|]. destruct (file f) as [x|] eqn:E2; [by apply Hf|].
  unfold default, from_option, id. by case_bool_decide.
Qed.
Lemma raw_typed env fs ps f : typed env → (∀ p file, fs p = Some file → typed file) → zero_of (val (merge_files env fs ps (merge_env env)) f) = zero f.
Proof.
  intros He Hf. induction ps as [|p ps IH] using rev_ind.
  { cbn. apply load_typed; [done|done|]. apply zero_idem. }
  rewrite files_snoc. unfold load_file. destruct (fs p) as [file|] eqn:E; [|done]. cbn [val merge]. apply load_typed; [done| |done].
  intros x. by apply (Hf p).
Qed.

(** ** The daemon *)
Section daemon.
Context (tilde : string → string) (yint : string → option Z).
Hypothesis Hyint : reads_numbers yint.
Hypothesis Htilde : ∀ s, is_abs s = true → tilde s = s.
(** any configuration whose fields have the right kinds *)
Context (c0 : config) (uid ask ask' : Z) (d : string).
Hypothesis Htyped : ∀ f, zero_of (val c0 f) = zero f.
Hypothesis Hports : has_ports uid.
Hypothesis Hdir : is_abs (tilde (str c0 "ManagerDir")) = true.
Let c := adjust tilde uid ask d c0.
Hypothesis Humask : val c "ManagerUmask" ≠ VI 0.
Context (fs : string → option given) (ps : list string).
Hypothesis Hempty : ∀ f, val c f = VS "" → dflt f = VS "" ∧ ∀ p v, p ∈ ps → ¬ sets fs p f v.
Let env := env_given yint (to_env c).
Let raw := merge_files env fs ps (merge_env env).

Lemma str_typed x f s : zero_of (val x f) = zero f → dflt f = VS s → val x f = VS (str x f).
Proof. intros H Hd. unfold zero in H. rewrite Hd in H. unfold str. by destruct (val x f). Qed.
Lemma not_number f n : dflt f = VI n → f = "ManagerUmask"%string ∨ f ≠ "ManagerUmask"%string.
Proof. intros _. destruct (decide (f = "ManagerUmask"%string)); auto. Qed.
(** a field that is exported as it is *)
Lemma env_plain f : f ≠ "ManagerDir"%string → zero_of (val c f) = zero f → val c f ≠ VS "" → env f = Some (val c f).
Proof.
  intros Hf Ht Hne. unfold env, env_given, to_env. rewrite (eqb_ne f "ManagerDir") by done.
  assert ((if String.eqb f "ManagerUmask" then fix_umask (print_value (val c f)) else print_value (val c f)) = print_value (val c f)) as E.
  { destruct (String.eqb f "ManagerUmask") eqn:E; [|done]. apply String.eqb_eq in E as ->.
    destruct (val c "ManagerUmask") as [s|n|b] eqn:Ev; [done| |done]. cbn [print_value]. apply fix_number. intros ->. done. }
  rewrite E. unfold env_value. unfold zero in Ht.
  destruct (val c f) as [s|n|b] eqn:Ev; cbn [print_value zero_of] in *.
  - rewrite eqb_ne by congruence. by destruct (dflt f).
  - rewrite eqb_ne by apply pretty_ne_empty. destruct (dflt f); [done| |done]. by rewrite Hyint.
  - destruct (dflt f); [done|done|]. by destruct b.
Qed.
Lemma raw_plain f : f ≠ "ManagerDir"%string → zero_of (val c f) = zero f → val raw f = val c f.
Proof.
  intros Hf Ht. destruct (decide (val c f = VS "")) as [E|E].
  - destruct (Hempty f E) as [Hd Hn]. assert (env f = None) as He.
    { unfold env, env_given, to_env. rewrite (eqb_ne f "ManagerDir"), E by done. cbn [print_value]. by destruct (String.eqb f "ManagerUmask"). }
    destruct (default_stays env fs ps f He Hn) as [E1 _]. unfold raw. by rewrite E1, E, Hd.
  - apply (env_wins env fs ps f (val c f)). by apply env_plain.
Qed.
Lemma c_dir : val c "ManagerDir" = VS (tilde (str c0 "ManagerDir") +:+ "_" +:+ d)%string.
Proof. apply adjust_dir. Qed.
Lemma c_dep : val c "Deployment" = VS d.
Proof. apply adjust_deployment. Qed.
Lemma raw_dir : val raw "ManagerDir" = VS (tilde (str c0 "ManagerDir")).
Proof.
  apply (env_wins env fs ps "ManagerDir" (VS (tilde (str c0 "ManagerDir")))). unfold env, env_given, to_env.
  change (String.eqb "ManagerDir" "ManagerUmask") with false. change (String.eqb "ManagerDir" "ManagerDir") with true. cbv iota.
  rewrite c_dir. cbn [print_value]. assert (str c "Deployment" = d) as -> by (unfold str; by rewrite c_dep). rewrite trim_app.
  unfold env_value. destruct (String.eqb _ "") eqn:E; [|done]. apply String.eqb_eq in E. by rewrite E in Hdir.
Qed.
Lemma abs_app s t : is_abs s = true → is_abs (s +:+ t) = true.
Proof. by destruct s. Qed.
Lemma c_typed f : zero_of (val c f) = zero f.
Proof.
  destruct (decide (f ∈ adjusted)) as [Hin|Hout]; [|unfold c; rewrite adjust_other by done; apply Htyped].
  assert (∀ x g v, zero_of (val x f) = zero f → zero f = VS "" → zero_of (val (set_val g (VS v) x) f) = zero f) as Hs.
  { intros x g v Hx Hz. rewrite val_set. by destruct (String.eqb f g). }
  assert (zero f = VS "") as Hz. { unfold adjusted in Hin. repeat (apply elem_of_cons in Hin as [->|Hin]; [done|]). by apply elem_of_nil in Hin. }
  unfold c. rewrite adjust_unfold.
  assert (∀ x, zero_of (val x f) = zero f → zero_of (val (set_ports uid ask x) f) = zero f) as Hp.
  { intros x Hx. unfold set_ports. set (y := if String.eqb (str x "ManagerPort") "" then _ else x).
    assert (zero_of (val y f) = zero f). { unfold y. destruct (String.eqb _ ""); [|done]. destruct (cli_port _ _ _) as [p [w|]]; repeat apply Hs; done. }
    clearbody y. destruct (String.eqb (str y _) ""); [by apply Hs|done]. }
  assert (∀ g x, zero_of (val x f) = zero f → zero_of (val (to_abs g x) f) = zero f) as Ha. { intros g x Hx. unfold to_abs. destruct (is_abs (str x g)); [exact Hx|by apply Hs]. }
  assert (∀ l x, zero_of (val x f) = zero f → zero_of (val (fold_left (λ c f, to_abs f c) l x) f) = zero f) as Hl. { intros l. induction l as [|g l IH]; intros x Hx; [done|]. cbn [fold_left]. apply IH. by apply Ha. }
  apply Hp. unfold to_abs_all. set (y := fold_left _ _ _). assert (zero_of (val y f) = zero f). { apply Hl. repeat apply Hs; done. }
  clearbody y. destruct (is_remote _); [done|by apply Ha].
Qed.
Lemma raw_dir_str : str raw "ManagerDir" = tilde (str c0 "ManagerDir").
Proof. unfold str at 1. by rewrite raw_dir. Qed.
Lemma files_are f : f ∈ manager_files → f ≠ "ManagerDir"%string ∧ ∃ s, dflt f = VS s.
Proof.
  unfold manager_files. intros Hf. repeat (apply elem_of_cons in Hf as [->|Hf]; [split; [discriminate|eexists; reflexivity]|]). by apply elem_of_nil in Hf.
Qed.
Lemma c_file f : f ∈ manager_files → str c f = path_in (tilde (str c0 "ManagerDir") +:+ "_" +:+ d)%string f (str c0 f).
Proof. exact (adjust_file tilde uid ask d c0 f). Qed.
Lemma path_twice dir f s : is_abs dir = true → path_in dir f (path_in dir f s) = path_in dir f s ∧ path_in dir f s ≠ ""%string.
Proof.
  intros Hd. unfold path_in. destruct (is_abs s) eqn:E1; cbn [orb].
  { rewrite E1. split; [done|by destruct s]. }
  destruct (String.eqb f "ManagerDBBkFile" && is_remote s) eqn:E2.
  { rewrite E1, E2. split; [done|]. apply andb_prop in E2 as [_ E2]. by destruct s. }
  unfold join at 1. rewrite abs_app by done. cbn [orb]. split; [done|]. unfold join. by destruct dir.
Qed.
Lemma same_str x y f : str x f = str y f → str y f ≠ ""%string → val x f = val y f.
Proof. intros E Hn. unfold str in E, Hn. destruct (val y f); [|done|done]. destruct (val x f); [by rewrite E|by rewrite <-E in Hn..]. Qed.
Lemma daemon_file f : f ∈ manager_files → val (adjust tilde uid ask' d raw) f = val c f.
Proof.
  intros Hf. destruct (files_are f Hf) as [Hne _].
  pose proof (str_val raw c f (raw_plain f Hne (c_typed f))) as Es.
  assert (is_abs (tilde (str c0 "ManagerDir") +:+ "_" +:+ d)%string = true) as Ha by (by apply abs_app).
  destruct (path_twice _ f (str c0 f) Ha) as [E1 E2]. rewrite <-c_file in E1, E2 by done.
  apply same_str; [|exact E2]. rewrite adjust_file by done. by rewrite raw_dir_str, (Htilde _ Hdir), Es.
Qed.
Lemma daemon_port f : f = "ManagerPort"%string ∨ f = "ManagerWeb"%string → val (adjust tilde uid ask' d raw) f = val c f.
Proof.
  intros Hp.
  assert (str raw "ManagerPort" = str c "ManagerPort") as Q1. { apply str_val, raw_plain; [discriminate|apply c_typed]. }
  assert (str raw "ManagerWeb" = str c "ManagerWeb") as Q2. { apply str_val, raw_plain; [discriminate|apply c_typed]. }
  pose proof (adjust_ports tilde uid ask d c0 : (str c "ManagerPort", str c "ManagerWeb") = _) as P1. pose proof (adjust_ports tilde uid ask' d raw) as P2.
  rewrite Q1, Q2 in P2.
  assert (str c "ManagerPort" ≠ ""%string ∧ str c "ManagerWeb" ≠ ""%string) as [N1 N2].
  { revert P1. generalize (str c "ManagerPort") (str c "ManagerWeb"). intros p w. destruct (decide (str c0 "ManagerPort" = ""%string)) as [E|E].
    - rewrite E, ports_unset by done. intros [= -> ->]. split; apply pretty_ne_empty.
    - destruct (decide (str c0 "ManagerWeb" = ""%string)) as [E2|E2].
      + rewrite E2, ports_web by done. intros [= -> ->]. split; [done|apply pretty_ne_empty].
      + rewrite ports_set by done. intros [= -> ->]. done. }
  rewrite ports_set in P2 by done. injection P2 as P2 P3.
  destruct Hp as [-> | ->]; by apply same_str.
Qed.
Lemma adjusted_are f : f ∈ adjusted → f = "Deployment"%string ∨ f = "ManagerDir"%string ∨ f ∈ manager_files ∨ f = "ManagerPort"%string ∨ f = "ManagerWeb"%string.
Proof.
  intros Hin. change adjusted with (["Deployment"; "ManagerDir"]%string ++ manager_files ++ ["ManagerPort"; "ManagerWeb"]%string) in Hin.
  rewrite !elem_of_app, !elem_of_cons, !elem_of_nil in Hin. tauto.
Qed.
Lemma daemon_same f : val (adjust tilde uid ask' d raw) f = val c f.
Proof.
  destruct (decide (f ∈ adjusted)) as [Hin|Hout].
  2: { rewrite adjust_other by done. apply raw_plain; [|apply c_typed]. intros ->. apply Hout. unfold adjusted. right. by left. }
  destruct (adjusted_are f Hin) as [->|[->|[Hf|Hp]]].
  - by rewrite adjust_deployment, c_dep.
  - by rewrite adjust_dir, c_dir, raw_dir_str, (Htilde _ Hdir).
  - by apply daemon_file.
  - by apply daemon_port.
Qed.
End daemon.
