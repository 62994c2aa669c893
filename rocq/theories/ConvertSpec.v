(** What the statements about posted jobs speak of. *)
From Coq Require Import ZArith String Ascii.
From stdpp Require Import base option strings gmap list pretty.
From Verif Require Import GoHeap QueueModel ServerModel BehaveModel ConvertModel.
Open Scope Z_scope.

(** [got] is the job's own value if it has one, otherwise the default if there is one,
    otherwise [last]. *)
Definition chosen {A} (own dflt : option A) (last got : A) : Prop :=
  (∀ v, own = Some v → got = v) ∧
  (own = None → (∀ v, dflt = Some v → got = v) ∧ (dflt = None → got = last)).
(** an empty string or list, and for some numbers 0, is no value *)
Definition text (s : string) : option string := if decide (s = ""%string) then None else Some s.
Definition entries {A} (l : list A) : option (list A) := match l with [] => None | _ => Some l end.
Definition nonzero (n : Z) : option Z := if decide (n = 0) then None else Some n.

(** texts: the job's own, the default, what is taken if both are missing, and the
    result *)
Definition text_settings (j : jvj) (d : jdefs) (c : cjob) : list (string * string * string * string) :=
  [(v_repgrp j, d_repgrp d, "", c_repgroup c); (v_cwd j, d_cwd d, "/tmp", c_cwd c);
   (v_group j, d_group d, "", c_group c); (v_monitor j, d_monitor d, "", c_monitor c);
   (v_docker j, d_docker d, "", c_docker c); (v_singularity j, d_singularity d, "", c_singularity c);
   (v_cmounts j, d_cmounts d, "", c_cmounts c); (v_bsub j, d_bsub d, "", c_bsub c)]%string.
(** lists *)
Definition list_settings (j : jvj) (d : jdefs) (c : cjob) : list (list string * list string * list string) :=
  [(v_limits j, d_limits d, c_limits c); (v_modules j, d_modules d, c_modules c);
   (v_depgrps j, d_depgrps d, c_depgroups c); (v_mounts j, d_mounts d, c_mounts c)].
(** numbers of which 0 is one *)
Definition num_settings (j : jvj) (d : jdefs) (c : cjob) : list (option Z * Z * Z) :=
  [(v_override j, d_override d, c_override c); (v_priority j, d_priority d, c_priority c);
   (v_retries j, d_retries d, c_retries c); (v_disk j, d_disk d, c_disk c)].
(** options of the scheduler: their names, the job's own value and the default *)
Definition other_settings (content : string → option string) (j : jvj) (d : jdefs) : list (string * option string * option string) :=
  [("cloud_os", text (v_os j), text (d_os d)); ("cloud_user", text (v_user j), text (d_user d));
   ("cloud_flavor", text (v_flavor j), text (d_flavor d));
   ("cloud_script", text (v_script j) ≫= content, text (d_script d) ≫= content);
   ("cloud_config_files", text (v_config j), text (d_config d));
   ("cloud_os_ram", pretty <$> v_osram j, pretty <$> nonzero (d_osram d));
   ("cloud_shared", if v_shared j then Some "true" else None, if d_shared d then Some "true" else None);
   ("scheduler_queue", text (v_queue j), text (d_queue d)); ("scheduler_queues_avoid", text (v_avoid j), text (d_avoid d));
   ("scheduler_misc", text (v_misc j), text (d_misc d));
   ("rtimeout", pretty <$> v_rtimeout j, pretty <$> nonzero (d_rtimeout d))]%string.

(** the job named by a request, none of whose numbers is out of range *)
Definition within (lo hi : Z) (own : option Z) (dflt : Z) : Prop := lo ≤ default dflt own ≤ hi.
(** Everything the job says, or the request where it says nothing, can be used. *)
Definition usable (to_mb to_duration : string → option Z) (content : string → option string) (j : jvj) (d : jdefs) : Prop :=
  v_cmd j ≠ ""%string ∧
  (v_memory j ≠ ""%string → is_Some (to_mb (v_memory j))) ∧
  (v_time j ≠ ""%string → is_Some (to_duration (v_time j))) ∧
  (v_noretry j ≠ ""%string → is_Some (to_duration (v_noretry j))) ∧
  within 0 2 (v_override j) (d_override d) ∧ within 0 255 (v_priority j) (d_priority d) ∧ within 0 255 (v_retries j) (d_retries d) ∧
  (v_script j ≠ ""%string → is_Some (content (v_script j))) ∧
  (v_script j = ""%string → d_script d ≠ ""%string → is_Some (content (d_script d))).
(** [l] is what parameter [k] decodes to; without a value it is empty *)
Definition decoded {A} (dec : string → option (list A)) (f : gmap string string) (k : string) (l : list A) : Prop :=
  match f !! k ≫= text with Some v => dec v = Some l | None => l = [] end.
(** parameters of the request and what each becomes *)
Definition param_texts (d : jdefs) : list (string * string) :=
  [("cwd", d_cwd d); ("req_grp", d_reqgrp d); ("env", d_env d); ("monitor_docker", d_monitor d); ("with_docker", d_docker d);
   ("with_singularity", d_singularity d); ("container_mounts", d_cmounts d); ("bsub_mode", d_bsub d); ("cloud_os", d_os d);
   ("cloud_username", d_user d); ("cloud_script", d_script d); ("cloud_flavor", d_flavor d)]%string.
Definition param_numbers (d : jdefs) : list (string * Z) :=
  [("disk", d_disk d); ("override", d_override d); ("priority", d_priority d); ("retries", d_retries d); ("cloud_ram", d_osram d)]%string.
Definition param_flags (d : jdefs) : list (string * bool) :=
  [("cwd_matters", d_cwdmatters d); ("change_home", d_changehome d); ("cloud_shared", d_shared d)]%string.
(** the parameters that are checked, and whether a text can be used for them *)
Definition param_checks (to_mb to_duration : string → option Z) (json_behaviours : string → option (list bvj)) (json_mounts : string → option (list string))
  : list (string * (string → Prop)) :=
  [("memory", λ v, is_Some (to_mb v)); ("time", λ v, is_Some (to_duration v)); ("no_retry_over_walltime", λ v, is_Some (to_duration v));
   ("on_failure", λ v, is_Some (json_behaviours v)); ("on_success", λ v, is_Some (json_behaviours v)); ("on_exit", λ v, is_Some (json_behaviours v));
   ("mounts", λ v, is_Some (json_mounts v))]%string.
