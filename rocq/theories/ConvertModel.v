(** Model of jobs posted to the REST interface: JobViaJSON.Convert with JobDefaults
    (jobqueue/serverREST.go:58-546), also used by "wr add" (cmd/add.go), and
    restJobsAdd (serverREST.go:729-881). *)
From Coq Require Import ZArith String Ascii.
From stdpp Require Import base option strings gmap list pretty.
From RecordUpdate Require Import RecordSet.
From Verif Require Import GoHeap QueueModel ServerModel UtilModel BehaveModel.
Import RecordSetNotations.
Open Scope Z_scope.

(** Cores are thousandths, memory megabytes, times nanoseconds. *)

(** serverREST.go:58-103 JobViaJSON, as decoded. Mount configurations are named by
    strings. *)
Record jvj := Jvj {
  v_cmd : string; v_cwd : string; v_repgrp : string; v_reqgrp : string; v_group : string;
  v_memory : string; v_time : string; v_noretry : string;
  v_monitor : string; v_docker : string; v_singularity : string; v_cmounts : string; v_bsub : string;
  v_os : string; v_user : string; v_script : string; v_config : string; v_flavor : string;
  v_queue : string; v_avoid : string; v_misc : string;
  v_cpus : option Z; v_disk : option Z; v_override : option Z; v_priority : option Z; v_retries : option Z;
  v_osram : option Z; v_rtimeout : option Z;
  v_cwdmatters : bool; v_changehome : bool; v_shared : bool;
  v_limits : list string; v_modules : list string; v_depgrps : list string; v_deps : list string;
  v_cmddeps : list dependency; v_env : list string; v_mounts : list string;
  v_failure : list bvj; v_success : list bvj; v_exit : list bvj }.
Global Instance eta_jvj : Settable _ := settable! Jvj <v_cmd; v_cwd; v_repgrp; v_reqgrp; v_group; v_memory; v_time; v_noretry;
  v_monitor; v_docker; v_singularity; v_cmounts; v_bsub; v_os; v_user; v_script; v_config; v_flavor; v_queue; v_avoid; v_misc;
  v_cpus; v_disk; v_override; v_priority; v_retries; v_osram; v_rtimeout; v_cwdmatters; v_changehome; v_shared;
  v_limits; v_modules; v_depgrps; v_deps; v_cmddeps; v_env; v_mounts; v_failure; v_success; v_exit>.

(** serverREST.go:107-162 JobDefaults, without its caches *)
Record jdefs := Jdefs {
  d_cwd : string; d_repgrp : string; d_reqgrp : string; d_group : string; d_env : string;
  d_monitor : string; d_docker : string; d_singularity : string; d_cmounts : string; d_bsub : string;
  d_os : string; d_user : string; d_script : string; d_config : string; d_flavor : string;
  d_queue : string; d_avoid : string; d_misc : string;
  d_cpus : Z; d_memory : Z; d_time : Z; d_disk : Z; d_override : Z; d_priority : Z; d_retries : Z; d_noretry : Z;
  d_osram : Z; d_rtimeout : Z;
  d_cwdmatters : bool; d_changehome : bool; d_shared : bool; d_diskset : bool;
  d_limits : list string; d_modules : list string; d_depgrps : list string; d_deps : list dependency;
  d_mounts : list string; d_failure : list beh; d_success : list beh; d_exit : list beh }.
Global Instance eta_jdefs : Settable _ := settable! Jdefs <d_cwd; d_repgrp; d_reqgrp; d_group; d_env;
  d_monitor; d_docker; d_singularity; d_cmounts; d_bsub; d_os; d_user; d_script; d_config; d_flavor; d_queue; d_avoid; d_misc;
  d_cpus; d_memory; d_time; d_disk; d_override; d_priority; d_retries; d_noretry; d_osram; d_rtimeout;
  d_cwdmatters; d_changehome; d_shared; d_diskset; d_limits; d_modules; d_depgrps; d_deps; d_mounts; d_failure; d_success; d_exit>.

(** job.go:102-345 Job, the fields Convert fills in (serverREST.go:520-545). Override,
    Priority and Retries are uint8. [c_env] is what EnvOverride decodes to, [None] for
    none. *)
Record cjob := Cjob {
  c_repgroup : string; c_cmd : string; c_cwd : string; c_cwdmatters : bool; c_changehome : bool;
  c_reqgroup : string; c_group : string;
  c_ram : Z; c_time : Z; c_cores : Z; c_disk : Z; c_diskset : bool; c_other : gmap string string;
  c_override : Z; c_priority : Z; c_retries : Z; c_noretry : Z;
  c_limits : list string; c_modules : list string; c_depgroups : list string; c_deps : list dependency;
  c_env : option (list string); c_behaviours : list beh; c_mounts : list string;
  c_monitor : string; c_docker : string; c_singularity : string; c_cmounts : string; c_bsub : string }.

(** serverREST.go:166-171 DefaultCwd *)
Definition default_cwd (d : jdefs) : string := if String.eqb (d_cwd d) "" then "/tmp" else d_cwd d.
(** serverREST.go:174-179 DefaultCPUs *)
Definition default_cpus (d : jdefs) : Z := if d_cpus d <? 0 then 0 else d_cpus d.
(** serverREST.go:182-187 DefaultMemory *)
Definition default_memory (d : jdefs) : Z := if d_memory d <? 1 then 1000 else d_memory d.
(** serverREST.go:190-195 DefaultTime *)
Definition default_time (d : jdefs) : Z := if d_time d =? 0 then 3600 * 1000000000 else d_time d.
(** serverREST.go:208-217 DefaultCloudOSRam *)
Definition default_os_ram (d : jdefs) : string := pretty (if d_osram d =? 0 then 1000 else d_osram d).

(** filepath.Base: trailing slashes are cut, then all up to the last slash *)
Fixpoint drop_slashes (l : list ascii) : list ascii :=
  match l with c :: l' => if Ascii.eqb c "/" then drop_slashes l' else l | [] => [] end.
(** the reverse of the last element (path/filepath.Base) *)
Fixpoint until_slash (l : list ascii) : list ascii :=
  match l with c :: l' => if Ascii.eqb c "/" then [] else c :: until_slash l' | [] => [] end.
(** path/filepath.Base, called at serverREST.go:269 *)
Definition path_base (p : string) : string :=
  if String.eqb p "" then "." else
  match until_slash (drop_slashes (rev (String.list_ascii_of_string p))) with
  | [] => "/"
  | l => String.string_of_list_ascii (rev l)
  end%string.
(** serverREST.go:268-269 *)
Definition exe_of (cmd : string) : string := path_base (default "" (split " " cmd !! 0%nat)).

(** one value or the other: the many blocks of the kind of serverREST.go:237-241 *)
Definition str_or (own dflt : string) : string := if String.eqb own "" then dflt else own.
(** serverREST.go:351-355 and others *)
Definition list_or {A} (own dflt : list A) : list A := match own with [] => dflt | _ => own end.
(** serverREST.go:306-310 and others *)
Definition num_or (own : option Z) (dflt : Z) : Z := default dflt own.
(** an entry of the map of scheduler options, if there is a value
    (serverREST.go:446-450 and others) *)
Definition put (k v : string) (m : gmap string string) : gmap string string := if String.eqb v "" then m else <[k := v]> m.

(** the errors of Convert: serverREST.go:245, 291, 302, 312, 329, 338, 347 and 473 *)
Inductive cerr := ENoCmd | EMemory | ETime | EOverride | EPriority | ERetries | EScript.

Section convert.
(** bytefmt.ToMegabytes, time.ParseDuration and internal.PathToContent ([None] is an
    error) *)
Variable to_mb : string → option Z.
Variable to_duration : string → option Z.
Variable content : string → option string.

(** serverREST.go:445-518 *)
Definition convert_other (j : jvj) (d : jdefs) : option (gmap string string) :=
  let m := put "cloud_os" (str_or (v_os j) (d_os d)) ∅ in
  let m := put "cloud_user" (str_or (v_user j) (d_user d)) m in
  let m := put "cloud_flavor" (str_or (v_flavor j) (d_flavor d)) m in
  let path := str_or (v_script j) (d_script d) in
  m ← (if String.eqb path "" then Some m else c ← content path; Some (<["cloud_script"%string := c]> m));
  let m := put "cloud_config_files" (str_or (v_config j) (d_config d)) m in
  let m := match v_osram j with
           | Some n => <["cloud_os_ram"%string := pretty n]> m
           | None => if d_osram d =? 0 then m else <["cloud_os_ram"%string := default_os_ram d]> m
           end in
  let m := if v_shared j || d_shared d then <["cloud_shared"%string := "true"%string]> m else m in
  let m := put "scheduler_queue" (str_or (v_queue j) (d_queue d)) m in
  let m := put "scheduler_queues_avoid" (str_or (v_avoid j) (d_avoid d)) m in
  let m := put "scheduler_misc" (str_or (v_misc j) (d_misc d)) m in
  Some (match v_rtimeout j with
        | Some n => <["rtimeout"%string := pretty n]> m
        | None => if d_rtimeout d =? 0 then m else <["rtimeout"%string := pretty (d_rtimeout d)]> m
        end).

(** serverREST.go:222-546 Convert. Errors of compressing the environment are left out. *)
Definition convert (d : jdefs) (j : jvj) : cerr + cjob :=
  if String.eqb (v_cmd j) "" then inl ENoCmd else
  let mb := if String.eqb (v_memory j) "" then Some (default_memory d) else to_mb (v_memory j) in
  match mb with None => inl EMemory | Some mb =>
  let dur := if String.eqb (v_time j) "" then Some (default_time d) else to_duration (v_time j) in
  match dur with None => inl ETime | Some dur =>
  let override := num_or (v_override j) (d_override d) in
  if (override <? 0) || (2 <? override) then inl EOverride else
  let disk := num_or (v_disk j) (d_disk d) in
  let diskset := match v_disk j with None => d_diskset d | Some _ => true end in
  let priority := num_or (v_priority j) (d_priority d) in
  if (priority <? 0) || (255 <? priority) then inl EPriority else
  let retries := num_or (v_retries j) (d_retries d) in
  if (retries <? 0) || (255 <? retries) then inl ERetries else
  let noretry := if String.eqb (v_noretry j) "" then Some (d_noretry d) else to_duration (v_noretry j) in
  match noretry with None => inl ETime | Some noretry =>
  let deps := match v_deps j, v_cmddeps j with
              | [], [] => d_deps d
              | _, _ => v_cmddeps j ++ (DGroup <$> v_deps j)
              end in
  let env := match v_env j with
             | [] => if String.eqb (d_env d) "" then None else Some (split "," (d_env d))
             | e => Some e
             end in
  match convert_other j d with None => inl EScript | Some other =>
  inr (Cjob (str_or (v_repgrp j) (d_repgrp d)) (v_cmd j) (str_or (v_cwd j) (default_cwd d))
        (v_cwdmatters j || d_cwdmatters d) (v_changehome j || d_changehome d)
        (str_or (v_reqgrp j) (str_or (d_reqgrp d) (exe_of (v_cmd j)))) (str_or (v_group j) (d_group d))
        mb dur (num_or (v_cpus j) (default_cpus d)) disk diskset other
        (override mod 256) (priority mod 256) (retries mod 256) noretry
        (list_or (v_limits j) (d_limits d)) (list_or (v_modules j) (d_modules d)) (list_or (v_depgrps j) (d_depgrps d)) deps
        env (job_behaviours (v_failure j) (v_success j) (v_exit j) (d_failure d) (d_success d) (d_exit d))
        (list_or (v_mounts j) (d_mounts d))
        (str_or (v_monitor j) (d_monitor d)) (str_or (v_docker j) (d_docker d)) (str_or (v_singularity j) (d_singularity d))
        (str_or (v_cmounts j) (d_cmounts d)) (str_or (v_bsub j) (d_bsub d)))
  end end end end.

(** ** The request's parameters *)
(** strconv.Atoi and strconv.ParseFloat ([None] is an error), and the decoding of the
    JSON in a parameter: url.QueryUnescape and json.Unmarshal *)
Variable atoi : string → option Z.
Variable parse_float : string → option Z.
Variable json_behaviours : string → option (list bvj).
Variable json_mounts : string → option (list string).

(** serverREST.go:1122-1131 urlStringToInt *)
Definition url_int (v : string) : Z := if String.eqb v "" then 0 else default 0 (atoi v).
(** serverREST.go:1136-1145 *)
Definition url_float (v : string) : Z := if String.eqb v "" then 0 else default 0 (parse_float v).
(** serverREST.go:1150-1155 *)
Definition url_slice (v : string) : list string := if String.eqb v "" then [] else split "," v.
(** a parameter that must be well-formed if given (serverREST.go:778-848) *)
Definition checked {A} (f : string → option A) (none : A) (v : string) : option A :=
  if String.eqb v "" then Some none else f v.
(** http.Request.Form: the first value of each parameter *)
Notation form := (gmap string string).
(** url.Values.Get *)
Definition get (f : form) (k : string) : string := default ""%string (f !! k).
(** serverREST.go:741-848 *)
Definition form_defaults (f : form) : option jdefs :=
  let g := get f in
  let flag k := String.eqb (g k) "true" in
  mb ← checked to_mb 0 (g "memory");
  dur ← checked to_duration 0 (g "time");
  noretry ← checked to_duration 0 (g "no_retry_over_walltime");
  bf ← checked json_behaviours [] (g "on_failure");
  bs ← checked json_behaviours [] (g "on_success");
  be ← checked json_behaviours [] (g "on_exit");
  ms ← checked json_mounts [] (g "mounts");
  Some {| d_cwd := g "cwd"; d_repgrp := str_or (g "rep_grp") "manually_added"; d_reqgrp := g "req_grp"; d_group := "";
          d_env := g "env"; d_monitor := g "monitor_docker"; d_docker := g "with_docker";
          d_singularity := g "with_singularity"; d_cmounts := g "container_mounts"; d_bsub := g "bsub_mode";
          d_os := g "cloud_os"; d_user := g "cloud_username"; d_script := g "cloud_script"; d_config := "";
          d_flavor := g "cloud_flavor"; d_queue := ""; d_avoid := ""; d_misc := "";
          d_cpus := url_float (g "cpus"); d_memory := mb; d_time := dur; d_disk := url_int (g "disk");
          d_override := url_int (g "override"); d_priority := url_int (g "priority"); d_retries := url_int (g "retries");
          d_noretry := noretry; d_osram := url_int (g "cloud_ram"); d_rtimeout := 0;
          d_cwdmatters := flag "cwd_matters"; d_changehome := flag "change_home"; d_shared := flag "cloud_shared";
          d_diskset := bool_decide (is_Some (f !! "disk"%string));
          d_limits := url_slice (g "limit_grps"); d_modules := []; d_depgrps := url_slice (g "dep_grps");
          d_deps := DGroup <$> url_slice (g "deps"); d_mounts := ms;
          d_failure := of_bvjs OnFailure bf; d_success := of_bvjs OnSuccess bs; d_exit := of_bvjs OnExit be |}%string.

(** serverREST.go:857-865: the jobs are converted in order; a null among them is a
    nil pointer (the [None] outside: a panic) *)
Fixpoint convert_jobs (d : jdefs) (l : list (option jvj)) : option (cerr + list cjob) :=
  match l with
  | [] => Some (inr [])
  | None :: _ => None
  | Some j :: l =>
      match convert d j with
      | inl e => Some (inl e)
      | inr c => r ← convert_jobs d l; Some (match r with inl e => inl e | inr cs => inr (c :: cs) end)
      end
  end.

(** how a converted job looks to the server; its key is a hash of some fields (C45) *)
Variable as_job : cjob → job.
(** The answer of restJobsAdd: 400, 500, or 201 with the jobs (serverREST.go:739, 850-880) *)
Inductive padd := ABad | AFailed | ACreated (ks : list key).
(** server.go:2149-2165 inputToQueuedJobs *)
Definition in_queue (s : sstate) (ks : list key) : list key := filter (λ k, is_Some (find_job k s)) ks.
(** serverREST.go:739-881 restJobsAdd; [body] is what the body decodes to, [None] if it
    is not a JSON list of jobs. That the environment is stored first (867-870) is left
    out. *)
Definition rest_add (now : Z) (f : form) (body : option (list (option jvj))) (s : sstate) : option (sstate * padd) :=
  match form_defaults f with
  | None => Some (s, ABad)
  | Some d =>
      match body with
      | None => Some (s, ABad)
      | Some l =>
          r ← convert_jobs d l;
          match r with
          | inl _ => Some (s, ABad)
          | inr cs =>
              let js := as_job <$> cs in
              '(s, a, _) ← s_add now js (negb (String.eqb (get f "rerun") "true")) s;
              match a with
              | SErr _ => Some (s, AFailed)
              | _ => Some (s, ACreated (in_queue s (jkey <$> js)))
              end
          end
      end
  end.
End convert.
