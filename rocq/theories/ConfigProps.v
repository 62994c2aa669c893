(** C75, C76, C77: the configuration of wr. *)
From Coq Require Import ZArith String Ascii Lia.
From stdpp Require Import base option strings list pretty.
From Verif Require Import ConfigModel ConfigSpec ConfigProofs ConfigProofs2 ConfigProofs3 ConfigProofs4.
Open Scope Z_scope.

(** For the cases: the home directory sets the operating system and the number of servers, the current one the
    operating system for the development deployment; the environment the user. *)
Definition home1 : given := λ f, if String.eqb f "CloudOS" then Some (VS "focal") else if String.eqb f "CloudServers" then Some (VI 5) else None.
Definition pwd1 : given := λ f, if String.eqb f "CloudOS" then Some (VS "jammy") else None.
Definition env1 : given := λ f, if String.eqb f "CloudUser" then Some (VS "me") else None.
Definition fs1 (p : string) : option given :=
  if String.eqb p "/home/u/.wr_config.yml" then Some home1 else if String.eqb p "/w/.wr_config.development.yml" then Some pwd1 else None.
(** the home directory for a tilde *)
Definition tilde1 (s : string) : string := match s with String "~" s' => ("/home/u" +:+ s')%string | _ => s end.
Definition conf1 (d : string) : config := load_config tilde1 env1 fs1 "" "/home/u" "/w" 1000 0 d.

(** ** C75: which setting counts, and its source *)
Theorem C75_environment tilde env fs dir home pwd uid ask d f x : f ∉ adjusted → env f = Some x →
  let c := load_config tilde env fs dir home pwd uid ask d in
  val c f = x ∧ (source c f = "env var"%string ∨ x = dflt f ∧ source c f = "default"%string).
Proof. exact (cfg_env tilde env fs dir home pwd uid ask d f x). Qed.
Print Assumptions C75_environment.
(** Otherwise the first in the order of precedence that sets it, if what it sets is not Go's zero value, or no file before it is there. *)
Theorem C75_file_partial tilde env fs dir home pwd uid ask d f p1 p p2 v : f ∉ adjusted → env f = None → precedence dir home pwd d = p1 ++ p :: p2 → sets fs p f v →
  (∀ q w, q ∈ p1 → ¬ sets fs q f w) → (v ≠ zero f ∨ dflt f = zero f ∨ ∀ q, q ∈ p1 → fs q = None) →
  val (load_config tilde env fs dir home pwd uid ask d) f = v.
Proof. exact (cfg_file tilde env fs dir home pwd uid ask d f p1 p p2 v). Qed.
Print Assumptions C75_file_partial.
Theorem C75_default tilde env fs dir home pwd uid ask d f : f ∉ adjusted → env f = None → (∀ p v, p ∈ precedence dir home pwd d → ¬ sets fs p f v) →
  let c := load_config tilde env fs dir home pwd uid ask d in val c f = dflt f ∧ source c f = "default"%string.
Proof. exact (cfg_default tilde env fs dir home pwd uid ask d f). Qed.
Print Assumptions C75_default.
(** The source said is a file that sets the value, or "default" for the default, under the same condition. *)
Theorem C75_source_partial tilde env fs dir home pwd uid ask d f : f ∉ adjusted → env f = None → (∀ p v, p ∈ precedence dir home pwd d → sets fs p f v → v ≠ zero f ∨ dflt f = zero f) →
  let c := load_config tilde env fs dir home pwd uid ask d in
  (source c f = "default"%string ∧ val c f = dflt f) ∨ (source c f ∈ precedence dir home pwd d ∧ sets fs (source c f) f (val c f)).
Proof. exact (cfg_source tilde env fs dir home pwd uid ask d f). Qed.
Print Assumptions C75_source_partial.
Lemma fs1_sets p f v : sets fs1 p f v → v ≠ zero f.
Proof.
  intros (file&H1&H2). unfold fs1 in H1. destruct (String.eqb p _).
  - injection H1 as <-. unfold home1 in H2. destruct (String.eqb f "CloudOS") eqn:E; [apply String.eqb_eq in E as ->; by injection H2 as <-|].
    destruct (String.eqb f "CloudServers") eqn:E2; [apply String.eqb_eq in E2 as ->; by injection H2 as <-|done].
  - destruct (String.eqb p _); [|done]. injection H1 as <-. unfold pwd1 in H2. destruct (String.eqb f "CloudOS") eqn:E; [apply String.eqb_eq in E as ->; by injection H2 as <-|done].
Qed.
Example C75_case :
  ("CloudOS"%string ∉ adjusted ∧ env1 "CloudOS" = None ∧ ∀ p v, p ∈ precedence "" "/home/u" "/w" "development" → sets fs1 p "CloudOS" v → v ≠ zero "CloudOS" ∨ dflt "CloudOS" = zero "CloudOS") ∧
  (val (conf1 "development") "CloudOS" = VS "jammy" ∧ source (conf1 "development") "CloudOS" = "/w/.wr_config.development.yml"%string) ∧
  (val (conf1 "production") "CloudOS" = VS "focal" ∧ source (conf1 "production") "CloudOS" = "/home/u/.wr_config.yml"%string) ∧
  (val (conf1 "production") "CloudUser" = VS "me" ∧ source (conf1 "production") "CloudUser" = "env var"%string) ∧
  val (conf1 "production") "CloudServers" = VI 5 ∧ val (conf1 "production") "CloudSpawns" = VI 10.
Proof.
  split; [|by vm_compute]. split; [apply not_in; by vm_compute|]. split; [done|]. intros p v _ H. left. by eapply fs1_sets.
Qed.
(** A setting to zero, here of the disk size, in one file is undone by any other file, which then is said to be the source. *)
Theorem C75_zero_refuted : ∃ tilde env fs dir home pwd uid ask d f p1 p p2 v, f ∉ adjusted ∧ env f = None ∧ precedence dir home pwd d = p1 ++ p :: p2 ∧ sets fs p f v ∧
  (∀ q w, q ∈ p1 → ¬ sets fs q f w) ∧ let c := load_config tilde env fs dir home pwd uid ask d in val c f = dflt f ∧ val c f ≠ v ∧ source c f ∈ p1.
Proof.
  exists tilde1, (λ _, None), (λ p, if String.eqb p "/h/.wr_config.yml" then Some (λ f, if String.eqb f "CloudDisk" then Some (VI 0) else None) else if String.eqb p "/w/.wr_config.yml" then Some (λ _, None) else None),
    ""%string, "/h"%string, "/w"%string, 1000, 0, "production"%string, "CloudDisk"%string, ["/w/.wr_config.production.yml"; "/w/.wr_config.yml"; "/h/.wr_config.production.yml"]%string, "/h/.wr_config.yml"%string, [], (VI 0).
  split; [apply not_in; by vm_compute|]. split; [done|]. split; [done|]. split; [by eexists|]. split.
  { intros q w Hq (file&H1&H2). repeat (apply elem_of_cons in Hq as [->|Hq]; [cbn in H1; try discriminate H1; injection H1 as <-; discriminate H2|]). by apply elem_of_nil in Hq. }
  split; [by vm_compute|]. split; [by vm_compute|]. apply (bool_decide_unpack _). by vm_compute.
Qed.
Print Assumptions C75_zero_refuted.
(** A umask means something else in the environment than in a file, where numbers that begin with 0 are octal; and 000 is not one. *)
Theorem C75_umask_refuted (yint : string → option Z) : yint "022"%string = Some 18 → yint "22"%string = Some 22 →
  env_given yint (λ _, "022"%string) "ManagerUmask" = Some (VI 22) ∧ yint "022"%string ≠ Some 22 ∧ env_given yint (λ _, "000"%string) "ManagerUmask" = None.
Proof. intros H1 H2. split; [|split; [by rewrite H1|done]]. change (VI <$> yint "22"%string = Some (VI 22)). by rewrite H2. Qed.
Print Assumptions C75_umask_refuted.
Example C75_umask_case : ∃ yint : string → option Z, yint "022"%string = Some 18 ∧ yint "22"%string = Some 22.
Proof. by exists (λ s, if String.eqb s "022" then Some 18 else Some 22). Qed.
(** The deployment is the one asked for, or else that of WR_DEPLOYMENT, or else one of the two. *)
Theorem C75_deployment asked var repo : a_deployment (deployment_used asked var repo) ∧ (a_deployment asked → deployment_used asked var repo = asked) ∧
  (¬ a_deployment asked → a_deployment var → deployment_used asked var repo = var).
Proof. exact (deployment_ok asked var repo). Qed.
Print Assumptions C75_deployment.
Example C75_deployment_case : a_deployment "development" ∧ ¬ a_deployment "devel" ∧ deployment_used "devel" "development" false = "development"%string.
Proof. split; [by right|]. split; [by intros [|]|done]. Qed.

(** ** C76: deployments and users are kept apart *)
(** The files of the manager are in its directory, unless set to an absolute path (or, for the backup, to S3). *)
Theorem C76_inside tilde uid ask d c f : f ∈ manager_files → is_abs (str c f) = false → is_remote (str c f) = false →
  str (adjust tilde uid ask d c) f = (str (adjust tilde uid ask d c) "ManagerDir" +:+ "/" +:+ str c f)%string.
Proof. exact (file_inside tilde uid ask d c f). Qed.
Print Assumptions C76_inside.
Theorem C76_elsewhere tilde uid ask d c f : f ∈ manager_files → is_abs (str c f) = true ∨ f = "ManagerDBBkFile"%string ∧ is_remote (str c f) = true →
  str (adjust tilde uid ask d c) f = str c f.
Proof. exact (file_elsewhere tilde uid ask d c f). Qed.
Print Assumptions C76_elsewhere.
(** With the same directory set, no file of one deployment is one of the other. *)
Theorem C76_files_apart tilde u1 u2 a1 a2 d1 d2 c1 c2 f g : a_deployment d1 → a_deployment d2 → d1 ≠ d2 →
  str c1 "ManagerDir" = str c2 "ManagerDir" → f ∈ manager_files → g ∈ manager_files →
  is_abs (str c1 f) = false → is_remote (str c1 f) = false → is_abs (str c2 g) = false → is_remote (str c2 g) = false →
  str (adjust tilde u1 a1 d1 c1) f ≠ str (adjust tilde u2 a2 d2 c2) g.
Proof. exact (files_apart tilde u1 u2 a1 a2 d1 d2 c1 c2 f g). Qed.
Print Assumptions C76_files_apart.
Example C76_files_case : "ManagerDBFile"%string ∈ manager_files ∧ is_abs (str (merge_env env1) "ManagerDBFile") = false ∧ is_remote (str (merge_env env1) "ManagerDBFile") = false ∧
  val (conf1 "production") "ManagerDBFile" = VS "/home/u/.wr_production/db" ∧ val (conf1 "development") "ManagerDBFile" = VS "/home/u/.wr_development/db".
Proof. split; [apply (bool_decide_unpack _); by vm_compute|]. by vm_compute. Qed.
(** If no port is set, the ports are those documented, *)
Theorem C76_ports tilde env fs dir home pwd uid ask d : has_ports uid → env "ManagerPort"%string = None →
  (∀ p v, p ∈ precedence dir home pwd d → ¬ sets fs p "ManagerPort" v) →
  let c := load_config tilde env fs dir home pwd uid ask d in
  let n := 1021 + 4 * uid + (if String.eqb d "development" then 2 else 0) in
  val c "ManagerPort" = VS (pretty n) ∧ val c "ManagerWeb" = VS (pretty (n + 1)).
Proof. exact (ports_default tilde env fs dir home pwd uid ask d). Qed.
Print Assumptions C76_ports.
(** which are different for different users and deployments, *)
Theorem C76_ports_apart d1 d2 u1 u2 : a_deployment d1 → a_deployment d2 → has_ports u1 → has_ports u2 → (u1, d1) ≠ (u2, d2) →
  let n d u := 1021 + 4 * u + (if String.eqb d "development" then 2 else 0) in
  NoDup [pretty (n d1 u1); pretty (n d1 u1 + 1); pretty (n d2 u2); pretty (n d2 u2 + 1)].
Proof. exact (ports_apart d1 d2 u1 u2). Qed.
Print Assumptions C76_ports_apart.
(** and not privileged, except for root. *)
Theorem C76_ports_range_partial d uid : has_ports uid → 1 ≤ uid → let n := 1021 + 4 * uid + (if String.eqb d "development" then 2 else 0) in 1024 < n ∧ n + 1 ≤ 65535.
Proof. exact (ports_range d uid). Qed.
Print Assumptions C76_ports_range_partial.
Theorem C76_root_refuted : has_ports 0 ∧ val (load_config tilde1 env1 fs1 "" "/home/u" "/w" 0 0 "production") "ManagerPort" = VS "1021".
Proof. split; [unfold has_ports; lia|]. by vm_compute. Qed.
Print Assumptions C76_root_refuted.
Example C76_ports_case : has_ports 1000 ∧ env1 "ManagerPort" = None ∧ (∀ p v, p ∈ precedence "" "/home/u" "/w" "production" → ¬ sets fs1 p "ManagerPort" v) ∧
  val (conf1 "production") "ManagerPort" = VS "5021" ∧ val (conf1 "development") "ManagerWeb" = VS "5024".
Proof.
  split; [unfold has_ports; lia|]. split; [done|]. split; [|by vm_compute].
  intros p v _ (file&H1&H2). unfold fs1 in H1. destruct (String.eqb p _); [by injection H1 as <-|]. destruct (String.eqb p _); [by injection H1 as <-|done].
Qed.
(** A port that is set is kept; the one of the web interface is then the one set, or the default. *)
Theorem C76_port_set tilde uid ask d c p : has_ports uid → str c "ManagerPort" = p → p ≠ ""%string →
  str (adjust tilde uid ask d c) "ManagerPort" = p ∧
  str (adjust tilde uid ask d c) "ManagerWeb" =
    if decide (str c "ManagerWeb" = ""%string) then pretty (1021 + 4 * uid + (if String.eqb d "development" then 2 else 0) + 1) else str c "ManagerWeb".
Proof. exact (port_set tilde uid ask d c p). Qed.
Print Assumptions C76_port_set.
Example C76_port_set_case : let c := load_config tilde1 (λ f, if String.eqb f "ManagerPort" then Some (VS "11301") else None) fs1 "" "/home/u" "/w" 1000 0 "production" in
  val c "ManagerPort" = VS "11301" ∧ val c "ManagerWeb" = VS "5022".
Proof. by vm_compute. Qed.
(** A port set for the web interface alone is ignored, and the source said is still that of the setting. *)
Theorem C76_web_refuted : ∃ fs, sets fs "/home/u/.wr_config.yml" "ManagerWeb" (VS "8080") ∧
  let c := load_config tilde1 env1 fs "" "/home/u" "/w" 1000 0 "production" in val c "ManagerWeb" = VS "5022" ∧ source c "ManagerWeb" = "/home/u/.wr_config.yml"%string.
Proof.
  exists (λ p, if String.eqb p "/home/u/.wr_config.yml" then Some (λ f, if String.eqb f "ManagerWeb" then Some (VS "8080") else None) else None).
  split; [by eexists|]. by vm_compute.
Qed.
Print Assumptions C76_web_refuted.

(** ** C77: the daemon has the configuration of the command that started it *)
(** wherever it runs and whatever files it finds, unless a setting is empty that has a default or is in its files,
    the umask is 0, or the directory is not absolute. *)
Theorem C77_daemon_partial tilde yint env fs dir home pwd uid ask d fs' dir' home' pwd' ask' :
  reads_numbers yint → (∀ s, is_abs s = true → tilde s = s) → has_ports uid → typed env → (∀ p file, fs p = Some file → typed file) →
  let c := load_config tilde env fs dir home pwd uid ask d in
  is_abs (str c "ManagerDir") = true → val c "ManagerUmask" ≠ VI 0 →
  (∀ f, val c f = VS "" → dflt f = VS "" ∧ ∀ p v, p ∈ precedence dir' home' pwd' d → ¬ sets fs' p f v) →
  ∀ f, val (load_config tilde (env_given yint (to_env c)) fs' dir' home' pwd' uid ask' d) f = val c f.
Proof. exact (cfg_daemon tilde yint env fs dir home pwd uid ask d fs' dir' home' pwd' ask'). Qed.
Print Assumptions C77_daemon_partial.
(** A parser for numbers as they are printed, for the cases. *)
Fixpoint digits (acc : Z) (s : string) : option Z :=
  match s with
  | EmptyString => Some acc
  | String a s' => let n := Z.of_N (N_of_ascii a) - 48 in if (0 <=? n) && (n <=? 9) then digits (10 * acc + n) s' else None
  end.
Definition yint1 (s : string) : option Z :=
  match s with
  | EmptyString => None
  | String a s' => match digits 0 s with Some n => Some n | None => if Ascii.eqb a "-" then Z.opp <$> digits 0 s' else None end
  end.
Lemma digits_go s n : digits 0 (pretty_N_go n s) = digits (Z.of_N n) s.
Proof.
  revert s. induction (N.lt_wf_0 n) as [n _ IH]. intros s. destruct (decide (n = 0%N)) as [->|Hn]; [done|].
  rewrite pretty_N_go_step by lia. rewrite IH by (apply N.div_lt; lia). cbn [digits].
  assert (Z.of_N (N_of_ascii (pretty_N_char (n `mod` 10)%N)) - 48 = Z.of_N (n `mod` 10)%N) as ->.
  { assert (n `mod` 10 < 10)%N as H by (by apply N.mod_lt). revert H. generalize (n `mod` 10)%N. intros m H.
    assert (m = 0 ∨ m = 1 ∨ m = 2 ∨ m = 3 ∨ m = 4 ∨ m = 5 ∨ m = 6 ∨ m = 7 ∨ m = 8 ∨ m = 9)%N as Hm by lia.
    by destruct Hm as [->|[->|[->|[->|[->|[->|[->|[->|[->| ->]]]]]]]]]. }
  assert (n `mod` 10 < 10)%N as H by (by apply N.mod_lt). pose proof (N.div_mod n 10 ltac:(done)) as E.
  assert ((0 <=? Z.of_N (n `mod` 10)) && (Z.of_N (n `mod` 10) <=? 9) = true) as ->.
  { apply andb_true_intro. split; apply Z.leb_le; clear -H; revert H; generalize (n `mod` 10)%N; intros m H; lia. }
  assert (10 * Z.of_N (n `div` 10)%N + Z.of_N (n `mod` 10)%N = Z.of_N n) as ->; [|done].
  clear -E. revert E. generalize (n `mod` 10)%N (n `div` 10)%N. intros m k E. lia.
Qed.
Lemma digits_pretty n : digits 0 (pretty n) = Some (Z.of_N n).
Proof. unfold pretty, pretty_N. destruct (decide _) as [->|H]; [done|]. by rewrite digits_go. Qed.
Lemma yint1_reads : reads_numbers yint1.
Proof.
  intros [|p|p].
  - done.
  - change (pretty (Z.pos p)) with (pretty (N.pos p)). pose proof (digits_pretty (N.pos p)) as E. pose proof (pretty_ne_empty (Z.pos p)) as H. change (pretty (Z.pos p)) with (pretty (N.pos p)) in H.
    revert E H. generalize (pretty (N.pos p)). intros s E H. unfold yint1. destruct s; [done|]. by rewrite E.
  - change (pretty (Z.neg p)) with (String "-" (pretty (N.pos p))). unfold yint1. change (digits 0 (String "-" (pretty (N.pos p)))) with (@None Z). cbn [Ascii.eqb Bool.eqb].
    by rewrite digits_pretty.
Qed.
(** The daemon runs in /, where there are no files, with the same home. *)
Definition daemon1 (c : config) (d : string) : config :=
  load_config tilde1 (env_given yint1 (to_env c)) (λ p, if String.eqb p "/home/u/.wr_config.yml" then Some home1 else None) "" "/home/u" "" 1000 7 d.
Lemma fs1_typed p file : fs1 p = Some file → typed file.
Proof.
  unfold fs1. destruct (String.eqb p _).
  - intros [= <-] f v. unfold home1. destruct (String.eqb f "CloudOS") eqn:E; [apply String.eqb_eq in E as ->; by intros [= <-]|].
    destruct (String.eqb f "CloudServers") eqn:E2; [apply String.eqb_eq in E2 as ->; by intros [= <-]|done].
  - destruct (String.eqb p _); [|done]. intros [= <-] f v. unfold pwd1. destruct (String.eqb f "CloudOS") eqn:E; [apply String.eqb_eq in E as ->; by intros [= <-]|done].
Qed.
Lemma env1_typed : typed env1.
Proof. intros f v. unfold env1. destruct (String.eqb f "CloudUser") eqn:E; [apply String.eqb_eq in E as ->; by intros [= <-]|done]. Qed.
Lemma sets1 p f v : sets fs1 p f v → f = "CloudOS"%string ∨ f = "CloudServers"%string.
Proof.
  intros (file&H1&H2). unfold fs1 in H1. destruct (String.eqb p _).
  - injection H1 as <-. unfold home1 in H2. destruct (String.eqb f "CloudOS") eqn:E; [left; by apply String.eqb_eq|].
    destruct (String.eqb f "CloudServers") eqn:E2; [right; by apply String.eqb_eq|done].
  - destruct (String.eqb p _); [|done]. injection H1 as <-. unfold pwd1 in H2. destruct (String.eqb f "CloudOS") eqn:E; [left; by apply String.eqb_eq|done].
Qed.
Lemma conf1_set : Forall (λ f, val (conf1 "development") f ≠ VS "") (["CloudOS"; "CloudServers"; "CloudUser"]%string ++ adjusted).
Proof. apply (bool_decide_unpack _). by vm_compute. Qed.
Lemma conf1_default f : f ∉ ["CloudOS"; "CloudServers"; "CloudUser"]%string ++ adjusted → val (conf1 "development") f = dflt f.
Proof.
  intros Hout. rewrite elem_of_app, !elem_of_cons in Hout. assert (f ∉ adjusted) as Ha by tauto.
  apply (C75_default tilde1 env1 fs1 "" "/home/u" "/w" 1000 0 "development" f Ha).
  - unfold env1. destruct (String.eqb f "CloudUser") eqn:E; [|done]. apply String.eqb_eq in E. tauto.
  - intros p v _ Hs. apply sets1 in Hs. tauto.
Qed.
Lemma conf1_empty f : val (conf1 "development") f = VS "" → f ∉ adjusted ∧ dflt f = VS "" ∧ f ≠ "CloudOS"%string ∧ f ≠ "CloudServers"%string.
Proof.
  intros H. destruct (decide (f ∈ ["CloudOS"; "CloudServers"; "CloudUser"]%string ++ adjusted)) as [Hin|Hout].
  { pose proof conf1_set as C. rewrite Forall_forall in C. by destruct (C f Hin). }
  rewrite conf1_default in H by exact Hout. rewrite elem_of_app, !elem_of_cons in Hout. tauto.
Qed.
(** In /, the file in the current directory is not seen; yet the daemon has what it set. *)
Example C77_case : reads_numbers yint1 ∧ (∀ s, is_abs s = true → tilde1 s = s) ∧ has_ports 1000 ∧ typed env1 ∧ (∀ p file, fs1 p = Some file → typed file) ∧
  (let c := conf1 "development" in is_abs (str c "ManagerDir") = true ∧ val c "ManagerUmask" ≠ VI 0 ∧
   (∀ f, val c f = VS "" → dflt f = VS "" ∧ ∀ p v, p ∈ precedence "" "/home/u" "" "development" → ¬ sets fs1 p f v)) ∧
  val (daemon1 (conf1 "development") "development") "CloudOS" = VS "jammy" ∧ val (daemon1 (conf1 "development") "development") "ManagerDBFile" = VS "/home/u/.wr_development/db" ∧
  val (daemon1 (conf1 "development") "development") "CloudServers" = VI 5.
Proof.
  split; [exact yint1_reads|]. split. { intros [|a s] H; [done|]. apply Ascii.eqb_eq in H as ->. done. }
  split; [unfold has_ports; lia|]. split; [exact env1_typed|]. split; [exact fs1_typed|]. split; [|by vm_compute].
  split; [by vm_compute|]. split; [by vm_compute|]. intros f H. destruct (conf1_empty f H) as (_&E&N1&N2). split; [exact E|]. intros p v _ Hs. apply sets1 in Hs as [Hs|Hs]; [exact (N1 Hs)|exact (N2 Hs)].
Qed.
(** With a relative directory the daemon looks for its files in another one, *)
Theorem C77_relative_refuted : ∃ env d, typed env ∧
  let c := load_config tilde1 env (λ _, None) "" "/home/u" "/w" 1000 0 d in
  let c' := load_config tilde1 (env_given yint1 (to_env c)) (λ _, None) "" "/home/u" "" 1000 0 d in
  val c "ManagerPidFile" = VS "data_production/pid" ∧ val c' "ManagerPidFile" = VS "data_production/data_production/pid".
Proof.
  exists (λ f, if String.eqb f "ManagerDir" then Some (VS "data") else None), "production"%string. split; [|by vm_compute].
  intros f v. destruct (String.eqb f "ManagerDir") eqn:E; [apply String.eqb_eq in E as ->; by intros [= <-]|done].
Qed.
Print Assumptions C77_relative_refuted.
(** a umask of 0 is not passed on, *)
Theorem C77_umask_refuted : ∃ fs, (∀ p file, fs p = Some file → typed file) ∧
  let c := load_config tilde1 (λ _, None) fs "" "/home/u" "/w" 1000 0 "production" in
  let c' := load_config tilde1 (env_given yint1 (to_env c)) fs "" "/home/u" "" 1000 0 "production" in
  val c "ManagerUmask" = VI 0 ∧ val c' "ManagerUmask" = VI 7.
Proof.
  exists (λ p, if String.eqb p "/w/.wr_config.yml" then Some (λ f, if String.eqb f "ManagerUmask" then Some (VI 0) else None) else None). split; [|by vm_compute].
  intros p file. destruct (String.eqb p _); [|done]. intros [= <-] f v. destruct (String.eqb f "ManagerUmask") eqn:E; [apply String.eqb_eq in E as ->; by intros [= <-]|done].
Qed.
Print Assumptions C77_umask_refuted.
(** nor is an empty setting. *)
Theorem C77_empty_refuted : ∃ fs, (∀ p file, fs p = Some file → typed file) ∧
  let c := load_config tilde1 (λ _, None) fs "" "/home/u" "/w" 1000 0 "production" in
  let c' := load_config tilde1 (env_given yint1 (to_env c)) fs "" "/home/u" "" 1000 0 "production" in
  val c "CloudFlavor" = VS "" ∧ val c' "CloudFlavor" = VS "m1.*".
Proof.
  exists (λ p, if String.eqb p "/w/.wr_config.yml" then Some (λ f, if String.eqb f "CloudFlavor" then Some (VS "") else None) else
            if String.eqb p "/home/u/.wr_config.yml" then Some (λ f, if String.eqb f "CloudFlavor" then Some (VS "m1.*") else None) else None). split; [|by vm_compute].
  intros p file. destruct (String.eqb p _); [|destruct (String.eqb p _); [|done]]; intros [= <-] f v; (destruct (String.eqb f "CloudFlavor") eqn:E; [apply String.eqb_eq in E as ->; by intros [= <-]|done]).
Qed.
Print Assumptions C77_empty_refuted.
