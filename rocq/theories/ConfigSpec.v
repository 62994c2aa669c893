(** What the theorems on the configuration speak of. *)
From Coq Require Import ZArith String Ascii.
From stdpp Require Import base option strings list pretty.
From Verif Require Import ConfigModel.
Open Scope Z_scope.

(** The fields that are worked on after files and environment were read. *)
Definition adjusted : list string :=
  ["Deployment"; "ManagerDir"; "ManagerPidFile"; "ManagerLogFile"; "ManagerUploadDir"; "ManagerCAFile"; "ManagerCertFile"; "ManagerKeyFile";
   "ManagerTokenFile"; "ManagerDBFile"; "ManagerDBBkFile"; "ManagerPort"; "ManagerWeb"]%string.
(** Those that are files of the manager. *)
Definition manager_files : list string :=
  ["ManagerPidFile"; "ManagerLogFile"; "ManagerUploadDir"; "ManagerCAFile"; "ManagerCertFile"; "ManagerKeyFile"; "ManagerTokenFile"; "ManagerDBFile"; "ManagerDBBkFile"]%string.
(** The file [p] is there and sets [f] to [v]. *)
Definition sets (fs : string → option given) (p f : string) (v : value) : Prop := ∃ file, fs p = Some file ∧ file f = Some v.
(** The user [uid] has four ports of their own. *)
Definition has_ports (uid : Z) : Prop := 0 ≤ uid ∧ 1021 + 4 * uid + 3 ≤ 65535.
(** The two deployments. *)
Definition a_deployment (d : string) : Prop := d = "production"%string ∨ d = "development"%string.
#[export] Instance a_deployment_dec d : Decision (a_deployment d).
Proof. unfold a_deployment. apply _. Defined.
(** What is given has the kinds of values that the fields have, as configor parses them. *)
Definition typed (g : given) : Prop := ∀ f v, g f = Some v → zero_of v = zero f.
(** The parser for numbers reads them as they are printed. *)
Definition reads_numbers (yint : string → option Z) : Prop := ∀ n, yint (pretty n) = Some n.
(** The files that may set something, those that count most first: in the current
    directory, the home directory and that of WR_CONFIG_DIR if set; those for the deployment
    before those for all. *)
Definition precedence (dir home pwd d : string) : list string :=
  [pwd +:+ "/.wr_config." +:+ d +:+ ".yml"; pwd +:+ "/.wr_config.yml"; home +:+ "/.wr_config." +:+ d +:+ ".yml"; home +:+ "/.wr_config.yml"]%string ++
  (if decide (dir = ""%string) then [] else [dir +:+ "/.wr_config." +:+ d +:+ ".yml"; dir +:+ "/.wr_config.yml"]%string).
