(** Proofs about posted jobs. *)
From Coq Require Import ZArith Lia String Ascii.
From stdpp Require Import base option strings gmap list pretty.
From Verif Require Import GoHeap QueueModel ServerModel UtilModel UtilSpec UtilProofs UtilProofs2 BehaveModel ConvertModel ConvertSpec.
Local Open Scope Z_scope.

Section convert.
Variable to_mb : string → option Z.
Variable to_duration : string → option Z.
Variable content : string → option string.
Notation convert := (convert to_mb to_duration content).
Notation convert_other := (convert_other content).

Lemma convert_inv d j c : convert d j = inr c →
  ∃ mb dur noretry other,
    v_cmd j ≠ ""%string ∧
    (if String.eqb (v_memory j) "" then Some (default_memory d) else to_mb (v_memory j)) = Some mb ∧
    (if String.eqb (v_time j) "" then Some (default_time d) else to_duration (v_time j)) = Some dur ∧
    (if String.eqb (v_noretry j) "" then Some (d_noretry d) else to_duration (v_noretry j)) = Some noretry ∧
    convert_other j d = Some other ∧
    within 0 2 (v_override j) (d_override d) ∧ within 0 255 (v_priority j) (d_priority d) ∧ within 0 255 (v_retries j) (d_retries d) ∧
    c = Cjob (str_or (v_repgrp j) (d_repgrp d)) (v_cmd j) (str_or (v_cwd j) (default_cwd d))
        (v_cwdmatters j || d_cwdmatters d) (v_changehome j || d_changehome d)
        (str_or (v_reqgrp j) (str_or (d_reqgrp d) (exe_of (v_cmd j)))) (str_or (v_group j) (d_group d))
        mb dur (num_or (v_cpus j) (default_cpus d)) (num_or (v_disk j) (d_disk d)) (match v_disk j with None => d_diskset d | Some _ => true end) other
        (num_or (v_override j) (d_override d)) (num_or (v_priority j) (d_priority d)) (num_or (v_retries j) (d_retries d)) noretry
        (list_or (v_limits j) (d_limits d)) (list_or (v_modules j) (d_modules d)) (list_or (v_depgrps j) (d_depgrps d))
        (match v_deps j, v_cmddeps j with [], [] => d_deps d | _, _ => v_cmddeps j ++ (DGroup <$> v_deps j) end)
        (match v_env j with [] => if String.eqb (d_env d) "" then None else Some (split "," (d_env d)) | e => Some e end)
        (job_behaviours (v_failure j) (v_success j) (v_exit j) (d_failure d) (d_success d) (d_exit d))
        (list_or (v_mounts j) (d_mounts d))
        (str_or (v_monitor j) (d_monitor d)) (str_or (v_docker j) (d_docker d)) (str_or (v_singularity j) (d_singularity d))
        (str_or (v_cmounts j) (d_cmounts d)) (str_or (v_bsub j) (d_bsub d)).
Proof.
  unfold ConvertModel.convert. destruct (String.eqb_spec (v_cmd j) ""); [done|].
  destruct (if String.eqb (v_memory j) "" then _ else _) as [mb|]; [|done].
  destruct (if String.eqb (v_time j) "" then _ else _) as [dur|]; [|done].
  destruct ((num_or (v_override j) (d_override d) <? 0) || (2 <? num_or (v_override j) (d_override d))) eqn:E1; [done|].
  destruct ((num_or (v_priority j) (d_priority d) <? 0) || (255 <? num_or (v_priority j) (d_priority d))) eqn:E2; [done|].
  destruct ((num_or (v_retries j) (d_retries d) <? 0) || (255 <? num_or (v_retries j) (d_retries d))) eqn:E3; [done|].
  destruct (if String.eqb (v_noretry j) "" then _ else _) as [noretry|]; [|done].
  destruct (convert_other j d) as [other|]; [|done].
  apply orb_false_iff in E1 as [A1 B1]. apply orb_false_iff in E2 as [A2 B2]. apply orb_false_iff in E3 as [A3 B3].
  apply Z.ltb_ge in A1, A2, A3, B1, B2, B3. intros [= <-]. exists mb, dur, noretry, other.
  unfold within. unfold num_or in *. split_and!; try done. rewrite !Z.mod_small by lia. done.
Qed.

Lemma str_or_chosen own dflt last : chosen (text own) (text dflt) last (str_or own (str_or dflt last)).
Proof.
  unfold chosen, text, str_or. destruct (decide (own = ""%string)) as [->|Ho].
  - split; [done|]. intros _. destruct (decide (dflt = ""%string)) as [->|Hd]; [done|]. split; [|done].
    intros v [= ->]. apply String.eqb_neq in Hd. cbn. by rewrite Hd.
  - split; [|done]. intros v [= ->]. apply String.eqb_neq in Ho. by rewrite Ho.
Qed.
Lemma str_or_empty own dflt : chosen (text own) (text dflt) ""%string (str_or own dflt).
Proof.
  pose proof (str_or_chosen own dflt "") as H. unfold str_or in *. destruct (String.eqb_spec dflt ""); subst; done.
Qed.
Lemma list_or_chosen {A} (own dflt : list A) : chosen (entries own) (entries dflt) [] (list_or own dflt).
Proof. unfold chosen, entries, list_or. destruct own as [|a own]; [|split; [by intros v [= <-]|done]]. split; [done|]. intros _. destruct dflt; split; congruence. Qed.
Lemma num_or_chosen own dflt : chosen own (Some dflt) 0 (num_or own dflt).
Proof. unfold chosen, num_or. destruct own; cbn; split; try congruence. intros _. split; congruence. Qed.

Lemma conv_texts d j c : convert d j = inr c → c_cmd c = v_cmd j ∧ v_cmd j ≠ ""%string ∧
  Forall (λ '(own, dflt, last, got), chosen (text own) (text dflt) last got) (text_settings j d c).
Proof.
  intros (mb & dur & nr & ot & H0 & _ & _ & _ & _ & _ & _ & _ & ->)%convert_inv. cbn [c_cmd]. split; [done|]. split; [done|].
  unfold text_settings. cbn.
  repeat (apply Forall_cons; split; [try apply str_or_empty|]); [|constructor].
  unfold default_cwd. apply str_or_chosen.
Qed.
Lemma conv_lists d j c : convert d j = inr c →
  Forall (λ '(own, dflt, got), chosen (entries own) (entries dflt) [] got) (list_settings j d c) ∧
  (v_deps j = [] → v_cmddeps j = [] → c_deps c = d_deps d) ∧
  (v_deps j ≠ [] ∨ v_cmddeps j ≠ [] → ∀ x, x ∈ c_deps c ↔ x ∈ v_cmddeps j ∨ ∃ g, g ∈ v_deps j ∧ x = DGroup g) ∧
  (v_env j ≠ [] → c_env c = Some (v_env j)) ∧
  (v_env j = [] → c_env c = split "," <$> text (d_env d)).
Proof.
  intros (mb & dur & nr & ot & H0 & _ & _ & _ & _ & _ & _ & _ & ->)%convert_inv. cbn. split_and!.
  - unfold list_settings. cbn. repeat (apply Forall_cons; split; [try apply list_or_chosen|]). constructor.
  - by intros -> ->.
  - intros H x. assert (E : (match v_deps j, v_cmddeps j with [], [] => d_deps d | _, _ => v_cmddeps j ++ (DGroup <$> v_deps j) end)
                            = v_cmddeps j ++ (DGroup <$> v_deps j)).
    { destruct (v_deps j), (v_cmddeps j); try done. by destruct H. }
    rewrite E, elem_of_app. rewrite elem_of_list_fmap. naive_solver.
  - by destruct (v_env j).
  - intros ->. unfold text. destruct (String.eqb_spec (d_env d) ""), (decide (d_env d = ""%string)); try done.
Qed.
Lemma conv_numbers d j c : convert d j = inr c →
  Forall (λ '(own, dflt, got), chosen own (Some dflt) 0 got) (num_settings j d c) ∧
  0 ≤ c_override c ≤ 2 ∧ 0 ≤ c_priority c ≤ 255 ∧ 0 ≤ c_retries c ≤ 255 ∧
  (c_diskset c = true ↔ is_Some (v_disk j) ∨ d_diskset d = true) ∧
  chosen (v_cpus j) (Some (Z.max 0 (d_cpus d))) 0 (c_cores c) ∧
  (v_memory j = ""%string → c_ram c = if decide (1 ≤ d_memory d) then d_memory d else 1000) ∧
  (v_memory j ≠ ""%string → to_mb (v_memory j) = Some (c_ram c)) ∧
  (v_time j = ""%string → chosen None (nonzero (d_time d)) (3600 * 1000000000) (c_time c)) ∧
  (v_time j ≠ ""%string → to_duration (v_time j) = Some (c_time c)) ∧
  (v_noretry j = ""%string → c_noretry c = d_noretry d) ∧
  (v_noretry j ≠ ""%string → to_duration (v_noretry j) = Some (c_noretry c)).
Proof.
  intros (mb & dur & nr & ot & H0 & Hm & Ht & Hn & _ & H1 & H2 & H3 & ->)%convert_inv. unfold within in *.
  cbn [c_override c_priority c_retries c_diskset c_cores c_ram c_time c_noretry]. split_and!.
  - unfold num_settings. cbn. repeat (apply Forall_cons; split; [try apply num_or_chosen|]). constructor.
  - apply H1.
  - apply H1.
  - apply H2.
  - apply H2.
  - apply H3.
  - apply H3.
  - destruct (v_disk j); split; eauto. by intros [[? ?]|?].
  - unfold default_cpus. replace (if d_cpus d <? 0 then 0 else d_cpus d) with (Z.max 0 (d_cpus d)); [apply num_or_chosen|].
    destruct (Z.ltb_spec (d_cpus d) 0); lia.
  - intros E. rewrite E in Hm. cbn in Hm. injection Hm as <-. unfold default_memory.
    destruct (Z.ltb_spec (d_memory d) 1), (decide (1 ≤ d_memory d)); lia.
  - intros E. apply String.eqb_neq in E. by rewrite E in Hm.
  - intros E. rewrite E in Ht. cbn in Ht. injection Ht as <-. unfold default_time, chosen, nonzero.
    split; [done|]. intros _. destruct (Z.eqb_spec (d_time d) 0), (decide (d_time d = 0)); try done; split; congruence.
  - intros E. apply String.eqb_neq in E. by rewrite E in Ht.
  - intros E. rewrite E in Hn. cbn in Hn. congruence.
  - intros E. apply String.eqb_neq in E. by rewrite E in Hn.
Qed.
Lemma conv_flags d j c : convert d j = inr c →
  (c_cwdmatters c = true ↔ v_cwdmatters j = true ∨ d_cwdmatters d = true) ∧
  (c_changehome c = true ↔ v_changehome j = true ∨ d_changehome d = true).
Proof.
  intros (mb & dur & nr & ot & H0 & _ & _ & _ & _ & _ & _ & _ & ->)%convert_inv. cbn. by rewrite !orb_true_iff.
Qed.

(** *** The name of the program *)
Lemma until_slash_app a b : "/"%char ∉ a → until_slash (a ++ "/"%char :: b) = a.
Proof.
  induction a as [|x a IH]; cbn; [done|]. rewrite not_elem_of_cons. intros [H1 H2].
  destruct (Ascii.eqb_spec x "/"); [congruence|]. by rewrite IH.
Qed.
Lemma until_slash_none a : "/"%char ∉ a → until_slash a = a.
Proof.
  induction a as [|x a IH]; cbn; [done|]. rewrite not_elem_of_cons. intros [H1 H2].
  destruct (Ascii.eqb_spec x "/"); [congruence|]. by rewrite IH.
Qed.
Lemma chars_app' a b : chars (a ++ b)%string = chars a ++ chars b.
Proof. induction a as [|x a IH]; [done|]. change (x :: chars (a ++ b)%string = x :: (chars a ++ chars b)). by rewrite IH. Qed.
Lemma base_of (dir : option string) exe : exe ≠ ""%string → "/"%char ∉ chars exe →
  path_base (match dir with Some p => p ++ "/" ++ exe | None => exe end)%string = exe.
Proof.
  intros Hne Hs. unfold path_base.
  set (p := match dir with Some p => _ | None => _ end). assert (Hp : p ≠ ""%string).
  { subst p. destruct dir as [[|]|]; [done|done|done]. }
  apply String.eqb_neq in Hp. rewrite Hp.
  assert (Hr : "/"%char ∉ rev (chars exe)). { intros H. apply elem_of_list_In, in_rev, elem_of_list_In in H. done. }
  assert (Hrn : rev (chars exe) ≠ []).
  { intros H. apply (f_equal (@rev _)) in H. rewrite rev_involutive in H. cbn in H. by destruct exe. }
  assert (E : until_slash (drop_slashes (rev (chars p))) = rev (chars exe)).
  { subst p. assert (Hd : ∀ t, drop_slashes (rev (chars exe) ++ t) = rev (chars exe) ++ t).
    { intros t. destruct (rev (chars exe)) as [|x l]; [done|]. cbn. rewrite not_elem_of_cons in Hr.
      destruct (Ascii.eqb_spec x "/"); [|done]. by destruct Hr. }
    destruct dir as [p|].
    - rewrite chars_app', chars_app', rev_app_distr, rev_app_distr. cbn. rewrite <-app_assoc, Hd. cbn. by apply until_slash_app.
    - rewrite <-(app_nil_r (rev _)), Hd, app_nil_r. by apply until_slash_none. }
  rewrite E. destruct (rev (chars exe)) as [|x l] eqn:El; [done|]. rewrite <-El, rev_involutive. apply String.string_of_list_ascii_of_string.
Qed.
Lemma conv_req_group d j c : convert d j = inr c →
  chosen (text (v_reqgrp j)) (text (d_reqgrp d)) (c_reqgroup c) (c_reqgroup c) ∧
  (v_reqgrp j = ""%string → d_reqgrp d = ""%string → ∀ dir exe args,
     v_cmd j = ((match dir with Some p => p ++ "/" | None => "" end) ++ exe ++ (match args with Some a => " " ++ a | None => "" end))%string →
     (∀ p, dir = Some p → " "%char ∉ chars p) → exe ≠ ""%string → "/"%char ∉ chars exe → " "%char ∉ chars exe → c_reqgroup c = exe).
Proof.
  intros (mb & dur & nr & ot & H0 & _ & _ & _ & _ & _ & _ & _ & ->)%convert_inv. cbn [c_reqgroup]. split.
  - pose proof (str_or_chosen (v_reqgrp j) (d_reqgrp d) (exe_of (v_cmd j))) as [H1 H2].
    split; [done|]. intros E. specialize (H2 E) as [H2 _]. split; [done|]. done.
  - intros -> -> dir exe args -> Hd Hne Hs Hsp. cbn [str_or String.eqb]. unfold exe_of.
    assert (Hsplit : split " " ((match dir with Some p => p ++ "/" | None => "" end) ++ exe ++ (match args with Some a => " " ++ a | None => "" end))%string !! 0%nat
            = Some (match dir with Some p => p ++ "/" ++ exe | None => exe end)%string).
    { set (w := match dir with Some p => (p ++ "/" ++ exe)%string | None => exe end).
      assert (Hw : " "%char ∉ chars w).
      { subst w. destruct dir as [p|]; [|done]. rewrite !chars_app', !not_elem_of_app. split_and!; [by apply Hd|apply (bool_decide_unpack _); by vm_compute|done]. }
      assert (Ew : ((match dir with Some p => p ++ "/" | None => "" end) ++ exe ++ (match args with Some a => " " ++ a | None => "" end))%string
                   = (w ++ (match args with Some a => String " " a | None => "" end))%string).
      { subst w. destruct dir as [p|], args as [a|]; rewrite ?app_assoc_str; done. }
      rewrite Ew. destruct args as [a|].
      - by rewrite split_at.
      - rewrite app_nil_r_str. by rewrite split_lacks. }
    rewrite Hsplit. cbn [default]. by apply base_of.
Qed.

(** *** Scheduler options *)
Lemma put_same k v m : m !! k = None → put k v m !! k = text v.
Proof. intros H. unfold put, text. destruct (String.eqb_spec v ""), (decide (v = ""%string)); try done. by rewrite lookup_insert. Qed.
Lemma put_other k k' v m : k ≠ k' → put k v m !! k' = m !! k'.
Proof. intros H. unfold put. destruct (String.eqb v ""); [done|]. by rewrite lookup_insert_ne. Qed.
Lemma text_or own dflt : text (str_or own dflt) = match text own with Some v => Some v | None => text dflt end.
Proof. unfold text, str_or. destruct (String.eqb_spec own ""), (decide (own = ""%string)); try done. Qed.
Definition first_some {A} (a b : option A) : option A := match a with Some v => Some v | None => b end.
(** one more entry, in whatever way *)
Definition put_opt (k : string) (v : option string) (m : gmap string string) : gmap string string :=
  match v with Some v => <[k := v]> m | None => m end.
Lemma put_is k v m : put k v m = put_opt k (text v) m.
Proof. unfold put, put_opt, text. by destruct (String.eqb_spec v ""), (decide (v = ""%string)). Qed.
Lemma put_opt_same k v m : m !! k = None → put_opt k v m !! k = v.
Proof. destruct v; cbn; [by rewrite lookup_insert|done]. Qed.
Lemma put_opt_other k k' v m : k ≠ k' → put_opt k v m !! k' = m !! k'.
Proof. destruct v; cbn; [by intros; rewrite lookup_insert_ne|done]. Qed.
Lemma other_shape j d ot : convert_other j d = Some ot →
  (v_script j ≠ ""%string → is_Some (content (v_script j))) ∧
  (v_script j = ""%string → d_script d ≠ ""%string → is_Some (content (d_script d))) ∧
  ot = foldl (λ m '(k, own, dflt), put_opt k (first_some own dflt) m) ∅ (other_settings content j d).
Proof.
  unfold ConvertModel.convert_other.
  destruct (String.eqb_spec (str_or (v_script j) (d_script d)) "") as [Es|Es].
  - cbn [mbind option_bind]. intros [= <-].
    assert (v_script j = ""%string ∧ d_script d = ""%string) as [E1 E2].
    { unfold str_or in Es. by destruct (String.eqb_spec (v_script j) ""). }
    split; [done|]. split; [done|]. unfold other_settings. cbn [foldl]. rewrite E1, E2. cbn [text].
    rewrite !put_is, !text_or. unfold nonzero, default_os_ram.
    destruct (v_osram j), (v_rtimeout j), (v_shared j), (d_shared d), (Z.eqb_spec (d_osram d) 0), (decide (d_osram d = 0)), (Z.eqb_spec (d_rtimeout d) 0), (decide (d_rtimeout d = 0)); try done.
  - destruct (content (str_or (v_script j) (d_script d))) as [c|] eqn:Ec; [|done]. cbn [mbind option_bind]. intros [= <-].
    assert (Hc : first_some (text (v_script j) ≫= content) (text (d_script d) ≫= content) = Some c).
    { unfold str_or, text in *. destruct (String.eqb_spec (v_script j) "") as [E|E], (decide (v_script j = ""%string)); try done; cbn; [|by rewrite Ec].
      destruct (decide (d_script d = ""%string)); [done|]. cbn. done. }
    split. { intros H. unfold str_or in Ec. apply String.eqb_neq in H. rewrite H in Ec. by eexists. }
    split. { intros H _. unfold str_or in Ec. rewrite H in Ec. cbn in Ec. by eexists. }
    unfold other_settings. cbn [foldl]. rewrite Hc. cbn [put_opt].
    rewrite !put_is, !text_or. unfold nonzero, default_os_ram.
    destruct (v_osram j), (v_rtimeout j), (v_shared j), (d_shared d), (Z.eqb_spec (d_osram d) 0), (decide (d_osram d = 0)), (Z.eqb_spec (d_rtimeout d) 0), (decide (d_rtimeout d = 0)); try done.
Qed.
Lemma fold_put (l : list (string * option string * option string)) : ∀ m k own dflt, NoDup (l.*1.*1) → (∀ x, x ∈ l.*1.*1 → m !! x = None) →
  (k, own, dflt) ∈ l → foldl (λ m '(k, own, dflt), put_opt k (first_some own dflt) m) m l !! k = first_some own dflt.
Proof.
  assert (Hkeep : ∀ l m k, k ∉ l.*1.*1 → foldl (λ m '(k, own, dflt), put_opt k (first_some (A:=string) own dflt) m) m l !! k = m !! k).
  { clear l. induction l as [|[[k0 o0] d0] l IH]; intros m k Hk; [done|]. cbn in Hk. apply not_elem_of_cons in Hk as [H1 H2].
    cbn [foldl]. rewrite IH by done. by rewrite put_opt_other. }
  induction l as [|[[k0 o0] d0] l IH]; intros m k own dflt Hn Hm Hin; [by apply elem_of_nil in Hin|].
  cbn in Hn. apply NoDup_cons in Hn as [Hn0 Hn]. cbn [foldl]. apply elem_of_cons in Hin as [[= -> -> ->]|Hin].
  - rewrite Hkeep by done. apply put_opt_same, Hm. left.
  - apply IH; [done| |done]. intros x Hx. rewrite put_opt_other by (intros ->; done). apply Hm. by right.
Qed.
Lemma fold_put_none (l : list (string * option string * option string)) k : ∀ m, k ∉ l.*1.*1 →
  foldl (λ m '(k, own, dflt), put_opt k (first_some own dflt) m) m l !! k = m !! k.
Proof.
  induction l as [|[[k0 o0] d0] l IH]; intros m Hk; [done|]. cbn in Hk. apply not_elem_of_cons in Hk as [H1 H2].
  cbn [foldl]. rewrite IH by done. by rewrite put_opt_other.
Qed.
Lemma other_names j d : NoDup ((other_settings content j d).*1.*1).
Proof. unfold other_settings. cbn. apply (bool_decide_unpack _). by vm_compute. Qed.
Lemma conv_other d j c : convert d j = inr c →
  (∀ k own dflt, (k, own, dflt) ∈ other_settings content j d →
     c_other c !! k = match own with Some v => Some v | None => dflt end) ∧
  (∀ k, is_Some (c_other c !! k) → k ∈ (other_settings content j d).*1.*1).
Proof.
  intros (mb & dur & nr & ot & H0 & _ & _ & _ & Ho & _ & _ & _ & ->)%convert_inv. cbn [c_other].
  apply other_shape in Ho as (_ & _ & ->). split.
  - intros k own dflt Hin. rewrite (fold_put _ ∅ k own dflt); [done|apply other_names|intros; apply lookup_empty|done].
  - intros k Hs. destruct (decide (k ∈ (other_settings content j d).*1.*1)) as [|Hn]; [done|].
    rewrite fold_put_none in Hs by done. rewrite lookup_empty in Hs. by destruct Hs.
Qed.

(** *** Which jobs are taken *)
Lemma other_some j d : (v_script j ≠ ""%string → is_Some (content (v_script j))) →
  (v_script j = ""%string → d_script d ≠ ""%string → is_Some (content (d_script d))) → is_Some (convert_other j d).
Proof.
  intros H1 H2. unfold ConvertModel.convert_other.
  destruct (String.eqb_spec (str_or (v_script j) (d_script d)) "") as [Es|Es]; cbn [mbind option_bind]; [by eexists|].
  assert (is_Some (content (str_or (v_script j) (d_script d)))) as [c ->]; [|by eexists].
  unfold str_or in *. destruct (String.eqb_spec (v_script j) ""); auto.
Qed.
Lemma conv_usable d j : (∃ c, convert d j = inr c) ↔ usable to_mb to_duration content j d.
Proof.
  split.
  - intros (c & (mb & dur & nr & ot & H0 & Hm & Ht & Hn & Ho & H1 & H2 & H3 & _)%convert_inv).
    apply other_shape in Ho as (S1 & S2 & _). unfold usable. split_and!; try done; try (apply H1); try apply H2; try apply H3.
    + intros E%String.eqb_neq. rewrite E in Hm. by eexists.
    + intros E%String.eqb_neq. rewrite E in Ht. by eexists.
    + intros E%String.eqb_neq. rewrite E in Hn. by eexists.
  - intros (H0 & Hm & Ht & Hn & H1 & H2 & H3 & S1 & S2).
    destruct (other_some j d S1 S2) as [ot Ho]. unfold within in *. unfold ConvertModel.convert. apply String.eqb_neq in H0. rewrite H0.
    assert (is_Some (if String.eqb (v_memory j) "" then Some (default_memory d) else to_mb (v_memory j))) as [mb ->].
    { destruct (String.eqb_spec (v_memory j) ""); [by eexists|auto]. }
    assert (is_Some (if String.eqb (v_time j) "" then Some (default_time d) else to_duration (v_time j))) as [dur ->].
    { destruct (String.eqb_spec (v_time j) ""); [by eexists|auto]. }
    assert (is_Some (if String.eqb (v_noretry j) "" then Some (d_noretry d) else to_duration (v_noretry j))) as [nr ->].
    { destruct (String.eqb_spec (v_noretry j) ""); [by eexists|auto]. }
    unfold num_or. rewrite !(proj2 (Z.ltb_ge _ _)) by lia. cbn [orb]. rewrite Ho. by eexists.
Qed.
End convert.
