(** Model of the configuration of wr: internal/config.go.

    Simplifications: what the configor library (v1.2.2) does is taken from its
    documentation: in a struct, fields that have their zero value get their default, then
    those in the file are set, then those with an environment variable that is not empty.
    Files and environment variables are given as what is parsed from them; what cannot be
    parsed ends wr. filepath.Join is taken not to clean up paths. *)
From Coq Require Import ZArith String Ascii.
From stdpp Require Import base option strings list pretty.
From RecordUpdate Require Import RecordSet.
Import RecordSetNotations.
Open Scope Z_scope.

(** the kinds of fields in config.go:93-134 *)
Inductive value := VS (s : string) | VI (n : Z) | VB (b : bool).
#[export] Instance value_eq_dec : EqDecision value.
Proof. solve_decision. Defined.
(** config.go:93-134 Go's zero value of the same kind *)
Definition zero_of (v : value) : value := match v with VS _ => VS "" | VI _ => VI 0 | VB _ => VB false end.
(** config.go:93-134 the fields and their defaults. "007" is 7. *)
Definition fields : list (string * value) :=
  [("ManagerPort", VS ""); ("ManagerWeb", VS ""); ("ManagerHost", VS "localhost"); ("ManagerDir", VS "~/.wr");
   ("ManagerPidFile", VS "pid"); ("ManagerLogFile", VS "log"); ("ManagerDBFile", VS "db"); ("ManagerDBBkFile", VS "db_bk");
   ("ManagerTokenFile", VS "client.token"); ("ManagerUploadDir", VS "uploads"); ("ManagerUmask", VI 7);
   ("ManagerScheduler", VS "local"); ("ManagerCAFile", VS "ca.pem"); ("ManagerCertFile", VS "cert.pem");
   ("ManagerKeyFile", VS "key.pem"); ("ManagerCertDomain", VS "localhost"); ("ManagerSetDomainIP", VB false);
   ("RunnerExecShell", VS "bash"); ("PrivateKeyPath", VS "~/.ssh/id_rsa"); ("Deployment", VS "production");
   ("CloudFlavor", VS ""); ("CloudFlavorManager", VS ""); ("CloudFlavorSets", VS ""); ("CloudKeepAlive", VI 120);
   ("CloudServers", VI (-1)); ("CloudCIDR", VS "192.168.64.0/18"); ("CloudGateway", VS "192.168.64.1");
   ("CloudDNS", VS "8.8.4.4,8.8.8.8"); ("CloudOS", VS "bionic-server"); ("ContainerImage", VS "ubuntu:latest");
   ("CloudUser", VS "ubuntu"); ("CloudRAM", VI 2048); ("CloudDisk", VI 1); ("CloudScript", VS "");
   ("CloudDestroyScript", VS ""); ("CloudConfigFiles", VS "~/.s3cfg,~/.aws/credentials,~/.aws/config");
   ("CloudSpawns", VI 10); ("CloudAutoConfirmDead", VI 30); ("DeploySuccessScript", VS "")]%string.
(** config.go:93-134: looks up the default of a field; "" for a name that is none *)
Fixpoint assoc (f : string) (l : list (string * value)) : value :=
  match l with [] => VS "" | (g, v) :: l => if String.eqb f g then v else assoc f l end.
(** config.go:93-134 the default of a field *)
Definition dflt (f : string) : value := assoc f fields.
(** config.go:93-134 the zero value of a field *)
Definition zero (f : string) : value := zero_of (dflt f).

(** config.go:382, 320 what configor finds for some fields, in a file or the environment *)
Notation given := (string → option value).
(** config.go:93-134 the values, and where they were set *)
Record config := Config { val : string → value; srcs : string → option string }.
(** config.go:148-159 Source *)
Definition source (c : config) (f : string) : string := default "default"%string (srcs c f).
(** config.go:320, 384 configor.Load of a file (or none), with the environment *)
Definition load (env file : given) (v : string → value) (f : string) : value :=
  let x := if bool_decide (v f = zero f) then dflt f else v f in
  default (default x (file f)) (env f).
(** config.go:330-352 merge *)
Definition merge (new : string → value) (src : string) (c : config) : config :=
  Config new (λ f, if bool_decide (new f = val c f) then srcs c f else Some src).
(** config.go:274-293, 309-325 the defaults, with the environment *)
Definition merge_env (env : given) : config :=
  merge (load env (λ _, None) zero) "env var" (Config dflt (λ _, None)).
(** config.go:377-389 configLoadFromFile; the clone has the same values. None: no such file *)
Definition load_file (env : given) (fs : string → option given) (c : config) (path : string) : config :=
  match fs path with None => c | Some file => merge (load env file (val c)) path c end.
(** config.go:360-369, 467 filepath.Join of a directory and a name, not cleaned up *)
Definition join (dir name : string) : string := (dir +:+ "/" +:+ name)%string.
(** config.go:356-371 the files, in order; dir is WR_CONFIG_DIR *)
Definition config_paths (dir home pwd deployment : string) : list string :=
  let common := ".wr_config.yml"%string in
  let special := (".wr_config." +:+ deployment +:+ ".yml")%string in
  (if String.eqb dir "" then [] else [join dir common; join dir special]) ++
  [join home common; join home special; join pwd common; join pwd special].
(** config.go:356-371 mergeAllConfigFiles before the adjustment *)
Definition merge_files (env : given) (fs : string → option given) (paths : list string) (c : config) : config :=
  fold_left (load_file env fs) paths c.

(** ** The environment *)
(** config.go:302 strings.TrimLeft(s, "0") *)
Fixpoint trim_zeros (s : string) : string :=
  match s with String a s' => if Ascii.eqb a "0" then trim_zeros s' else s | EmptyString => "" end.
(** config.go:299-305 fixEnvManagerUmask, the variable after it *)
Definition fix_umask (s : string) : string := trim_zeros s.
(** config.go:320, 384 configor: the field from its environment variable. yint is the parser
    for numbers of YAML; None: not set, or what cannot be parsed. Of the ways to write false,
    which are compared in lower case, only the usual ones are there. *)
Definition env_value (yint : string → option Z) (f s : string) : option value :=
  if String.eqb s "" then None
  else match dflt f with
       | VS _ => Some (VS s)
       | VI _ => VI <$> yint s
       | VB _ => Some (VB (negb (bool_decide (s ∈ ["0"; "f"; "F"; "false"; "False"; "FALSE"]%string))))
       end.
(** the environment variables for each field (their names are config.go:211 "WR_" and the
    name in upper case) as seen by configor; config.go:277 the umask is fixed first *)
Definition env_given (yint : string → option Z) (vars : string → string) (f : string) : option value :=
  env_value yint f (if String.eqb f "ManagerUmask" then fix_umask (vars f) else vars f).

(** ** Adjustment *)
(** config.go:93-134 the string in a field; fields of other kinds are not asked for *)
Definition str (c : config) (f : string) : string := match val c f with VS s => s | _ => "" end.
(** config.go:435-503: an assignment to a field *)
Definition set_val (f : string) (v : value) (c : config) : config :=
  Config (λ g, if String.eqb g f then v else val c g) (srcs c).
(** config.go:466 filepath.IsAbs *)
Definition is_abs (s : string) : bool := match s with String a _ => Ascii.eqb a "/" | _ => false end.
(** config.go:634-644 InS3, IsRemote *)
Definition is_remote (s : string) : bool := String.prefix "s3://" s.
(** config.go:465-469 *)
Definition to_abs (f : string) (c : config) : config :=
  if is_abs (str c f) then c else set_val f (VS (join (str c "ManagerDir") (str c f))) c.
(** config.go:447-461 *)
Definition to_abs_all (c : config) : config :=
  let c := fold_left (λ c f, to_abs f c)
    ["ManagerPidFile"; "ManagerLogFile"; "ManagerUploadDir"; "ManagerCAFile"; "ManagerCertFile"; "ManagerKeyFile"; "ManagerTokenFile"; "ManagerDBFile"]%string c in
  if is_remote (str c "ManagerDBBkFile") then c else to_abs "ManagerDBBkFile" c.
(** config.go:510-523 getMinPort; [ask]: the first of the ports that findPorts (539-561)
    found and the user agreed to, 0 if not *)
Definition min_port (uid ask : Z) : Z :=
  let pn := 1021 + uid * 4 in if bool_decide (pn + 4 - 1 > 65535) then ask else pn.
(** config.go:485-503 calculatePort for "cli": the port, and what ManagerWeb becomes *)
Definition cli_port (deployment : string) (uid ask : Z) : string * option string :=
  let pn := min_port uid ask in
  if bool_decide (pn = 0) then ("", None)
  else let pn := if String.eqb deployment "development" then pn + 2 else pn in (pretty pn, Some (pretty (pn + 1))).
(** config.go:485-503 calculatePort for "webi" *)
Definition web_port (deployment : string) (uid ask : Z) : string :=
  let pn := min_port uid ask in
  if bool_decide (pn = 0) then ""
  else let pn := if String.eqb deployment "development" then pn + 2 else pn in pretty (pn + 1).
(** config.go:472-480 setManagerPort *)
Definition set_ports (uid ask : Z) (c : config) : config :=
  let c := if String.eqb (str c "ManagerPort") "" then
      let '(p, w) := cli_port (str c "Deployment") uid ask in
      (* 492-500: ManagerWeb is set first *)
      set_val "ManagerPort" (VS p) (match w with Some w => set_val "ManagerWeb" (VS w) c | None => c end)
    else c in
  if String.eqb (str c "ManagerWeb") "" then set_val "ManagerWeb" (VS (web_port (str c "Deployment") uid ask)) c else c.
(** config.go:435-443 adjustConfigProperties; tilde is TildaToHome of another package *)
Definition adjust (tilde : string → string) (uid ask : Z) (deployment : string) (c : config) : config :=
  let c := set_val "Deployment" (VS deployment) c in
  let c := set_val "ManagerDir" (VS (tilde (str c "ManagerDir") +:+ "_" +:+ deployment)%string) c in
  set_ports uid ask (to_abs_all c).
(** config.go:241-251 mergeAllConfigs, once the deployment is known *)
Definition load_config (tilde : string → string) (env : given) (fs : string → option given) (dir home pwd : string) (uid ask : Z) (deployment : string) : config :=
  adjust tilde uid ask deployment (merge_files env fs (config_paths dir home pwd deployment) (merge_env env)).

(** config.go:254-271 DefaultDeployment; in_repo: there is a file jobqueue/server.go *)
Definition default_deployment (var : string) (in_repo : bool) : string :=
  if String.eqb var "development" || String.eqb var "production" then var
  else if in_repo then "development" else "production".
(** config.go:241-244 *)
Definition deployment_used (asked var : string) (in_repo : bool) : string :=
  if String.eqb asked "development" || String.eqb asked "production" then asked else default_deployment var in_repo.

(** ** Export *)
(** config.go:208 strings.TrimSuffix *)
Definition trim_suffix (s suf : string) : string :=
  let n := String.length s in let m := String.length suf in
  if (m <=? n)%nat && String.eqb (String.substring (n - m) m s) suf then String.substring 0 (n - m) s else s.
(** config.go:206 fmt.Sprintf %v of a value *)
Definition print_value (v : value) : string :=
  match v with VS s => s | VI n => pretty n | VB b => if b then "true" else "false" end.
(** config.go:196-213 ToEnv: the variables that are set *)
Definition to_env (c : config) (f : string) : string :=
  if String.eqb f "ManagerDir" then trim_suffix (print_value (val c f)) ("_" +:+ str c "Deployment") else print_value (val c f).
