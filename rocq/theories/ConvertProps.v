(** Jobs posted to the REST interface (C96, C97, C98). *)
From Coq Require Import ZArith Lia String Ascii.
From stdpp Require Import base option strings gmap list pretty.
From RecordUpdate Require Import RecordSet.
From Verif Require Import GoHeap QueueModel ServerModel ServerSpec ServerKey ServerDep ServerWait ServerDemo UtilModel UtilSpec BehaveModel BehaveSpec ConvertModel ConvertSpec ConvertProofs ConvertProofs2.
Import RecordSetNotations.
Open Scope Z_scope.
Open Scope string_scope.

Section claims.
Variable to_mb : string → option Z.
Variable to_duration : string → option Z.
Variable content : string → option string.
Variable atoi : string → option Z.
Variable parse_float : string → option Z.
Variable json_behaviours : string → option (list bvj).
Variable json_mounts : string → option (list string).
Variable as_job : cjob → job.
Notation convert := (convert to_mb to_duration content).
Notation form_defaults := (form_defaults to_mb to_duration atoi parse_float json_behaviours json_mounts).
Notation rest_add := (rest_add to_mb to_duration content atoi parse_float json_behaviours json_mounts as_job).

(** ** C96 A job is made of its own settings, and of the defaults where it has none. *)
(** Texts; a job without a command is not made. *)
Theorem C96_texts d j c : convert d j = inr c → c_cmd c = v_cmd j ∧ v_cmd j ≠ "" ∧
  Forall (λ '(own, dflt, last, got), chosen (text own) (text dflt) last got) (text_settings j d c).
Proof. exact (conv_texts to_mb to_duration content d j c). Qed.
(** Lists; a job that has dependencies of one kind has no default ones of the other. *)
Theorem C96_lists d j c : convert d j = inr c →
  Forall (λ '(own, dflt, got), chosen (entries own) (entries dflt) [] got) (list_settings j d c) ∧
  (v_deps j = [] → v_cmddeps j = [] → c_deps c = d_deps d) ∧
  (v_deps j ≠ [] ∨ v_cmddeps j ≠ [] → ∀ x, x ∈ c_deps c ↔ x ∈ v_cmddeps j ∨ ∃ g, g ∈ v_deps j ∧ x = DGroup g) ∧
  (v_env j ≠ [] → c_env c = Some (v_env j)) ∧
  (v_env j = [] → c_env c = split "," <$> text (d_env d)).
Proof. exact (conv_lists to_mb to_duration content d j c). Qed.
(** Numbers. Override, priority and retries are in their ranges. *)
Theorem C96_numbers d j c : convert d j = inr c →
  Forall (λ '(own, dflt, got), chosen own (Some dflt) 0 got) (num_settings j d c) ∧
  0 ≤ c_override c ≤ 2 ∧ 0 ≤ c_priority c ≤ 255 ∧ 0 ≤ c_retries c ≤ 255 ∧
  (c_diskset c = true ↔ is_Some (v_disk j) ∨ d_diskset d = true) ∧
  chosen (v_cpus j) (Some (Z.max 0 (d_cpus d))) 0 (c_cores c) ∧
  (v_memory j = "" → c_ram c = if decide (1 ≤ d_memory d) then d_memory d else 1000) ∧
  (v_memory j ≠ "" → to_mb (v_memory j) = Some (c_ram c)) ∧
  (v_time j = "" → chosen None (nonzero (d_time d)) (3600 * 1000000000) (c_time c)) ∧
  (v_time j ≠ "" → to_duration (v_time j) = Some (c_time c)) ∧
  (v_noretry j = "" → c_noretry c = d_noretry d) ∧
  (v_noretry j ≠ "" → to_duration (v_noretry j) = Some (c_noretry c)).
Proof. exact (conv_numbers to_mb to_duration content d j c). Qed.
(** Flags: on if they are on in either. *)
Theorem C96_flags d j c : convert d j = inr c →
  (c_cwdmatters c = true ↔ v_cwdmatters j = true ∨ d_cwdmatters d = true) ∧
  (c_changehome c = true ↔ v_changehome j = true ∨ d_changehome d = true).
Proof. exact (conv_flags to_mb to_duration content d j c). Qed.
(** The requirements group is the name of the program if none is given, without its
    directory. *)
Theorem C96_req_group d j c : convert d j = inr c →
  chosen (text (v_reqgrp j)) (text (d_reqgrp d)) (c_reqgroup c) (c_reqgroup c) ∧
  (v_reqgrp j = "" → d_reqgrp d = "" → ∀ dir exe args,
     v_cmd j = ((match dir with Some p => p ++ "/" | None => "" end) ++ exe ++ (match args with Some a => " " ++ a | None => "" end))%string →
     (∀ p, dir = Some p → " "%char ∉ chars p) → exe ≠ "" → "/"%char ∉ chars exe → " "%char ∉ chars exe → c_reqgroup c = exe).
Proof. exact (conv_req_group to_mb to_duration content d j c). Qed.
(** Scheduler options: the job's own, otherwise the default; there are no others. *)
Theorem C96_options d j c : convert d j = inr c →
  (∀ k own dflt, (k, own, dflt) ∈ other_settings content j d →
     c_other c !! k = match own with Some v => Some v | None => dflt end) ∧
  (∀ k, is_Some (c_other c !! k) → k ∈ (other_settings content j d).*1.*1).
Proof. exact (conv_other to_mb to_duration content d j c). Qed.
(** The parameters of a request are the defaults of its jobs. *)
Theorem C96_parameters f d : form_defaults f = Some d →
  Forall (λ '(name, got), got = default "" (f !! name)) (param_texts d) ∧
  chosen (text (default "" (f !! "rep_grp"))) None "manually_added" (d_repgrp d) ∧
  Forall (λ '(name, got), ∀ v n, f !! name = Some v → v ≠ "" → atoi v = Some n → got = n) (param_numbers d) ∧
  (∀ v n, f !! "cpus" = Some v → v ≠ "" → parse_float v = Some n → d_cpus d = n) ∧
  (∀ v n, f !! "memory" = Some v → v ≠ "" → to_mb v = Some n → d_memory d = n) ∧
  (∀ v n, f !! "time" = Some v → v ≠ "" → to_duration v = Some n → d_time d = n) ∧
  (∀ v n, f !! "no_retry_over_walltime" = Some v → v ≠ "" → to_duration v = Some n → d_noretry d = n) ∧
  Forall (λ '(name, got), got = true ↔ f !! name = Some "true") (param_flags d) ∧
  (d_diskset d = true ↔ is_Some (f !! "disk")) ∧
  (∀ v, f !! "limit_grps" = Some v → v ≠ "" → d_limits d = split "," v) ∧
  (∀ v, f !! "dep_grps" = Some v → v ≠ "" → d_depgrps d = split "," v) ∧
  (∀ v, f !! "deps" = Some v → v ≠ "" → d_deps d = DGroup <$> split "," v) ∧
  (∀ v ms, f !! "mounts" = Some v → v ≠ "" → json_mounts v = Some ms → d_mounts d = ms) ∧
  (f !! "limit_grps" = None → d_limits d = []) ∧ (f !! "dep_grps" = None → d_depgrps d = []) ∧
  (f !! "deps" = None → d_deps d = []) ∧ (f !! "mounts" = None → d_mounts d = []) ∧ (f !! "cpus" = None → d_cpus d = 0) ∧
  (f !! "memory" = None → d_memory d = 0) ∧ (f !! "time" = None → d_time d = 0) ∧ (f !! "no_retry_over_walltime" = None → d_noretry d = 0) ∧
  Forall (λ '(name, got), f !! name = None → got = 0) (param_numbers d).
Proof. exact (form_params to_mb to_duration atoi parse_float json_behaviours json_mounts f d). Qed.

(** What a posted job does when it ends: for each kind of end what its own list asks for,
    or what the parameter of the request does where it has none. *)
Theorem C96_behaviours f d j c : form_defaults f = Some d → convert d j = inr c →
  ∃ df ds de, decoded json_behaviours f "on_failure" df ∧ decoded json_behaviours f "on_success" ds ∧ decoded json_behaviours f "on_exit" de ∧
    ∀ fl su ex, ask_all (if decide (v_failure j = []) then df else v_failure j) fl →
      ask_all (if decide (v_success j = []) then ds else v_success j) su → ask_all (if decide (v_exit j = []) then de else v_exit j) ex →
      performs true (c_behaviours c) = (su ++ ex)%list ∧ performs false (c_behaviours c) = (fl ++ ex)%list.
Proof. exact (post_behaviours to_mb to_duration content atoi parse_float json_behaviours json_mounts f d j c). Qed.

(** ** C97 A request is taken as a whole or not at all. *)
(** Exactly the jobs all of whose settings can be used are taken. *)
Theorem C97_usable d j : (∃ c, convert d j = inr c) ↔ usable to_mb to_duration content j d.
Proof. exact (conv_usable to_mb to_duration content d j). Qed.
(** If a checked parameter cannot be used, or the body is not a list of jobs, or one of
    the jobs cannot be used, the answer is 400 and nothing has changed. Missing: null
    among the jobs (C97_null_refuted) and malformed numbers (C97_malformed_refuted). *)
Theorem C97_refused_partial now f (body : option (list jvj)) s :
  (∃ k ok v, (k, ok) ∈ param_checks to_mb to_duration json_behaviours json_mounts ∧ f !! k = Some v ∧ v ≠ "" ∧ ¬ ok v) ∨ body = None ∨
  (∃ js d j, body = Some js ∧ form_defaults f = Some d ∧ j ∈ js ∧ ¬ usable to_mb to_duration content j d) →
  rest_add now f (match body with Some js => Some (Some <$> js) | None => None end) s = Some (s, ABad).
Proof. exact (post_bad to_mb to_duration content atoi parse_float json_behaviours json_mounts as_job now f body s). Qed.
(** Otherwise all of the jobs are given to the server at once. *)
Theorem C97_taken now f d (js : list jvj) s : form_defaults f = Some d → Forall (λ j, usable to_mb to_duration content j d) js →
  ∃ cs, Forall2 (λ j c, convert d j = inr c) js cs ∧
    ∀ s' r l, s_add now (as_job <$> cs) (negb (bool_decide (f !! "rerun" = Some "true"))) s = Some (s', r, l) →
      ∃ a, rest_add now f (Some (Some <$> js)) s = Some (s', a) ∧ a ≠ ABad ∧ (a = AFailed ↔ ∃ e, r = SErr e).
Proof. exact (post_taken to_mb to_duration content atoi parse_float json_behaviours json_mounts as_job now f d js s). Qed.

(** ** C98 The answer to a request has the jobs of the request that are in the queue
    then, in their order. Those are all of them, except complete ones if the request
    does not say rerun. Jobs that were in the queue still are. *)
Theorem C98_answer_partial gr dp es s now f d js cs s' a (ignore := negb (String.eqb (get f "rerun") "true")) (posted := jkey <$> (as_job <$> cs)) :
  reachable (depending gr dp) es s → form_defaults f = Some d → Forall2 (λ j c, convert d j = inr c) js cs →
  depending gr dp s (AAdd now (as_job <$> cs) ignore) →
  rest_add now f (Some (Some <$> js)) s = Some (s', a) →
  ∃ ks, a = ACreated ks ∧ sublist ks posted ∧ (∀ k, k ∈ ks ↔ k ∈ posted ∧ is_Some (seen s' k)) ∧
    (∀ k, k ∈ posted → k ∈ ks ∨ f !! "rerun" ≠ Some "true" ∧ seen s k = None ∧ is_Some (complete (sdb s) !! k)) ∧
    (∀ k, is_Some (seen s k) → is_Some (seen s' k)).
Proof.
  intros Hr. destruct (wi_reach gr dp es s Hr) as [HG HW].
  exact (post_answer to_mb to_duration content atoi parse_float json_behaviours json_mounts as_job gr dp s now f d js cs s' a HG HW).
Qed.
End claims.
Print Assumptions C96_texts.
Print Assumptions C96_lists.
Print Assumptions C96_numbers.
Print Assumptions C96_flags.
Print Assumptions C96_req_group.
Print Assumptions C96_options.
Print Assumptions C96_parameters.
Print Assumptions C96_behaviours.
Print Assumptions C97_usable.
Print Assumptions C97_refused_partial.
Print Assumptions C97_taken.
Print Assumptions C98_answer_partial.

(** *** The cases *)
(** some texts that can be read *)
Definition mb0 (s : string) : option Z := if String.eqb s "2G" then Some 2048 else if String.eqb s "500M" then Some 500 else None.
Definition dur0 (s : string) : option Z := if String.eqb s "10m" then Some (600 * 1000000000) else if String.eqb s "-1h" then Some (-3600 * 1000000000) else None.
Definition content0 (p : string) : option string := if String.eqb p "/s.sh" then Some "echo" else None.
Definition num0 (s : string) : option Z := if String.eqb s "7" then Some 7 else if String.eqb s "300" then Some 300 else None.
Definition float0 (s : string) : option Z := if String.eqb s "1.5" then Some 1500 else None.
Definition behs0 (s : string) : option (list bvj) := None.
Definition mounts0 (s : string) : option (list string) := if String.eqb s "[m]" then Some ["m"] else None.
Definition convert0 := ConvertModel.convert mb0 dur0 content0.
Definition defaults0 := ConvertModel.form_defaults mb0 dur0 num0 float0 behs0 mounts0.
Definition as_job0 (c : cjob) : job := plain_job (c_cmd c) (Z.to_N (c_retries c)) [] [] [] "r".
Definition post0 := ConvertModel.rest_add mb0 dur0 content0 num0 float0 behs0 mounts0 as_job0.
Definition of_cmd (cmd : string) : jvj :=
  Jvj cmd "" "" "" "" "" "" "" "" "" "" "" "" "" "" "" "" "" "" "" "" None None None None None None None false false false [] [] [] [] [] [] [] [] [] [].
(** parameters of a request *)
Definition params0 : gmap string string :=
  list_to_map [("cpus", "1.5"); ("priority", "7"); ("memory", "2G"); ("cloud_os", "ubuntu"); ("limit_grps", "l,m"); ("cwd_matters", "true");
               ("cloud_script", "/s.sh"); ("deps", "g"); ("env", "A=1,B=2"); ("disk", "")].
(** a job with settings of its own *)
Definition own0 : jvj := of_cmd "/usr/bin/sort -n file" <| v_memory := "500M" |> <| v_time := "10m" |> <| v_priority := Some 0 |>
  <| v_os := "debian" |> <| v_osram := Some 0 |> <| v_limits := ["x"] |> <| v_cmddeps := [DJob "K"] |> <| v_changehome := true |>.
Definition made0 : option cjob := d ← defaults0 params0; match convert0 d own0 with inr c => Some c | inl _ => None end.
Example C96_case : ∃ d c, defaults0 params0 = Some d ∧ convert0 d own0 = inr c ∧
  c_reqgroup c = "sort" ∧ c_repgroup c = "manually_added" ∧ c_cwd c = "/tmp" ∧ c_cwdmatters c = true ∧ c_changehome c = true ∧
  c_ram c = 500 ∧ c_time c = 600 * 1000000000 ∧ c_cores c = 1500 ∧ c_priority c = 0 ∧ c_diskset c = true ∧
  c_limits c = ["x"] ∧ c_deps c = [DJob "K"] ∧ c_env c = Some ["A=1"; "B=2"] ∧
  c_other c !! "cloud_os" = Some "debian" ∧ c_other c !! "cloud_os_ram" = Some "0" ∧ c_other c !! "cloud_script" = Some "echo" ∧ c_other c !! "cloud_user" = None.
Proof.
  destruct (defaults0 params0) as [d|] eqn:Hd; [|by vm_compute in Hd].
  destruct (convert0 d own0) as [e|c] eqn:Hc.
  { exfalso. assert (made0 = None) by (unfold made0; rewrite Hd; cbn [mbind option_bind]; by rewrite Hc). by vm_compute in H. }
  assert (Hm : made0 = Some c) by (unfold made0; rewrite Hd; cbn [mbind option_bind]; by rewrite Hc).
  exists d, c. split; [done|]. split; [done|].
  assert (∀ (A : Type) (g : cjob → A) v, g <$> made0 = Some v → g c = v) as Hg by (intros A g v H; rewrite Hm in H; by injection H).
  split_and!; match goal with |- ?g = ?v => let h := eval pattern c in g in match h with ?h' c => apply (Hg _ h' v) end end; by vm_compute.
Qed.
(** The request asks for a command after failure and cleaning up after any end, the job
    for another after failure. *)
Definition behs1 (s : string) : option (list bvj) :=
  if String.eqb s "[r]" then Some [Bvj "r" [] false false false false] else if String.eqb s "[c]" then Some [Bvj "" [] true false false false] else None.
Definition defaults1 := ConvertModel.form_defaults mb0 dur0 num0 float0 behs1 mounts0.
Example C96_behaviours_case : ∃ d c, defaults1 (list_to_map [("on_failure", "[r]"); ("on_exit", "[c]")]) = Some d ∧
  convert0 d (of_cmd "a" <| v_failure := [Bvj "own" [] false false false false] |>) = inr c ∧
  performs true (c_behaviours c) = [DCleanup] ∧ performs false (c_behaviours c) = [DRun "own"; DCleanup] ∧
  ask_all [Bvj "own" [] false false false false] [DRun "own"] ∧ ask_all [Bvj "" [] true false false false] [DCleanup].
Proof.
  destruct (defaults1 _) as [d|] eqn:Hd; [|by vm_compute in Hd]. vm_compute in Hd. injection Hd as <-.
  do 2 eexists. split; [reflexivity|]. split; [reflexivity|]. split; [by vm_compute|]. split; [by vm_compute|].
  split; [exact (ask_cons _ [] _ [] (asks_run "own" ltac:(done)) ask_nil)|exact (ask_cons _ [] _ [] asks_cleanup ask_nil)].
Qed.
(** The default memory of the operating system, said to be 1000 (serverREST.go:206-207),
    is never used. *)
Theorem C96_os_ram_refuted : ∃ d j c, convert0 d j = inr c ∧ v_osram j = None ∧ d_osram d = 0 ∧ default_os_ram d = "1000" ∧ c_other c !! "cloud_os_ram" = None.
Proof.
  destruct (defaults0 ∅) as [d|] eqn:Hd; [|by vm_compute in Hd]. exists d, (of_cmd "a").
  vm_compute in Hd. injection Hd as <-. eexists. split; [reflexivity|]. by vm_compute.
Qed.
Print Assumptions C96_os_ram_refuted.

(** Jobs that cannot be used. *)
Example C97_case d : defaults0 params0 = Some d →
  usable mb0 dur0 content0 own0 d ∧ ¬ usable mb0 dur0 content0 (own0 <| v_retries := Some 256 |>) d ∧
  ¬ usable mb0 dur0 content0 (own0 <| v_memory := "2 G" |>) d ∧ ¬ usable mb0 dur0 content0 (of_cmd "") d.
Proof.
  intros Hd. vm_compute in Hd. injection Hd as <-. split_and!.
  - apply C97_usable. eexists. reflexivity.
  - intros H%C97_usable. destruct H as [c H]. by vm_compute in H.
  - intros H%C97_usable. destruct H as [c H]. by vm_compute in H.
  - intros H%C97_usable. destruct H as [c H]. by vm_compute in H.
Qed.
Example C97_refused_case : (∃ k ok v, (k, ok) ∈ param_checks mb0 dur0 behs0 mounts0 ∧ (<["time" := "soon"]> params0) !! k = Some v ∧ v ≠ "" ∧ ¬ ok v) ∧
  ∀ now s, post0 now (<["time" := "soon"]> params0) (Some [Some own0]) s = Some (s, ABad) ∧
    post0 now params0 (Some [Some own0; Some (own0 <| v_retries := Some 256 |>)]) s = Some (s, ABad).
Proof.
  split.
  - exists "time", (λ v, is_Some (dur0 v)), "soon". split; [unfold param_checks; set_solver|]. split; [by rewrite lookup_insert|].
    split; [done|]. intros [x H]. by vm_compute in H.
  - intros now s. split; reflexivity.
Qed.
(** A null among the jobs makes the server panic. *)
Theorem C97_null_refuted : ∃ j, ∀ now s, post0 now ∅ (Some [Some j; None]) s = None.
Proof. exists own0. intros now s. reflexivity. Qed.
Print Assumptions C97_null_refuted.
(** Numbers among the parameters that cannot be read are 0: the request is taken. *)
Theorem C97_malformed_refuted : ∃ (f : gmap string string) d, f !! "priority" = Some "high" ∧ num0 "high" = None ∧ f !! "cpus" = Some "two" ∧
  float0 "two" = None ∧ defaults0 f = Some d ∧ d_priority d = 0 ∧ d_cpus d = 0.
Proof. exists (list_to_map [("priority", "high"); ("cpus", "two")]). eexists. split_and!; try reflexivity. Qed.
Print Assumptions C97_malformed_refuted.
(** Cores, time and disk of a job can be negative. *)
Theorem C97_negative_refuted : ∃ d j c, defaults0 ∅ = Some d ∧ convert0 d j = inr c ∧ c_cores c < 0 ∧ c_time c < 0 ∧ c_disk c < 0.
Proof.
  set (j := of_cmd "a" <| v_cpus := Some (-1000) |> <| v_time := "-1h" |> <| v_disk := Some (-5) |>).
  assert (H : match defaults0 ∅ with
    | Some d => match convert0 d j with inr c => ((c_cores c <? 0) && (c_time c <? 0) && (c_disk c <? 0))%Z | inl _ => false end
    | None => false end = true) by by vm_compute.
  destruct (defaults0 ∅) as [d|] eqn:Hd; [|done]. destruct (convert0 d j) as [e|c] eqn:Hc; [done|].
  exists d, j, c. split; [done|]. split; [done|]. apply andb_true_iff in H as [[H1 H2]%andb_true_iff H3].
  by rewrite !Z.ltb_lt in H1, H2, H3.
Qed.
Print Assumptions C97_negative_refuted.

(** A is complete, B is queued, C is new. *)
Definition before_post : list sop :=
  [AAdd (sec 1) [plain_job "A" 0 [] [] [] "r"] false; AReserve (sec 2) 1 "r" true 0; AStart (sec 2) 1 "A" true; AArchive 1 "A" (ended 0 3) [];
   AAdd (sec 4) [plain_job "B" 0 [] [] [] "r"] false].
Definition no_links : key → list string := λ _, [].
Definition no_deps : key → list dependency := λ _, [].
Definition posted0 (rerun : bool) : gmap string string := if rerun then {["rerun" := "true"]} else ∅.
Definition job_list : list jvj := [of_cmd "A"; of_cmd "B"; of_cmd "C"].
Definition post_test (_ : list entry) (s : sstate) : bool :=
  forallb (λ rerun, depending_b no_links no_deps s (AAdd (sec 5) [plain_job "A" 0 [] [] [] "r"; plain_job "B" 0 [] [] [] "r"; plain_job "C" 0 [] [] [] "r"] (negb rerun)) &&
    match post0 (sec 5) (posted0 rerun) (Some (Some <$> job_list)) s with
    | Some (s', ACreated ks) => bool_decide (ks = if rerun then ["A"; "B"; "C"] else ["B"; "C"])
    | _ => false
    end) [true; false] && bool_decide (is_Some (complete (sdb s) !! "A")).
Definition made (cmd : string) : option cjob := d ← defaults0 ∅; match convert0 d (of_cmd cmd) with inr c => Some c | inl _ => None end.
Example C98_case : ∃ es s, reachable (depending no_links no_deps) es s ∧ is_Some (complete (sdb s) !! "A") ∧
  ∀ rerun, ∃ d cs s' ks, defaults0 (posted0 rerun) = Some d ∧ Forall2 (λ j c, convert0 d j = inr c) job_list cs ∧
    depending no_links no_deps s (AAdd (sec 5) (as_job0 <$> cs) (negb (String.eqb (get (posted0 rerun) "rerun") "true"))) ∧
    post0 (sec 5) (posted0 rerun) (Some (Some <$> job_list)) s = Some (s', ACreated ks) ∧ ks = if rerun then ["A"; "B"; "C"] else ["B"; "C"].
Proof.
  destruct (shown_hist (depending no_links no_deps) (depending_b no_links no_deps) (s_new (sec 1)) before_post post_test
    (depending_b_ok no_links no_deps) ltac:(by vm_compute)) as (es & s & Hh & Hf).
  exists es, s. unfold post_test in Hf. apply andb_true_iff in Hf as [Hf Hc%bool_decide_eq_true]. split; [by exists (sec 1)|]. split; [done|].
  intros rerun. rewrite forallb_forall in Hf. specialize (Hf rerun ltac:(by destruct rerun; [left|right; left])).
  apply andb_true_iff in Hf as [Hdep%depending_b_ok Hp].
  destruct (post0 (sec 5) (posted0 rerun) _ s) as [[s' [| |ks]]|] eqn:E; try discriminate Hp. apply bool_decide_eq_true in Hp.
  destruct rerun.
  - destruct (defaults0 (posted0 true)) as [d|] eqn:Hd; [|by vm_compute in Hd]. vm_compute in Hd. injection Hd as <-.
    eexists _, _, s', ks. split; [reflexivity|]. split; [repeat (constructor; [reflexivity|]); constructor|]. split; [exact Hdep|]. by split.
  - destruct (defaults0 (posted0 false)) as [d|] eqn:Hd; [|by vm_compute in Hd]. vm_compute in Hd. injection Hd as <-.
    eexists _, _, s', ks. split; [reflexivity|]. split; [repeat (constructor; [reflexivity|]); constructor|]. split; [exact Hdep|]. by split.
Qed.
