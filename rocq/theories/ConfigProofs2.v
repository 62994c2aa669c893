(** Proofs on the configuration: directories, ports, export. *)
From Coq Require Import ZArith String Ascii Lia.
From stdpp Require Import base option strings list pretty.
From Verif Require Import ConfigModel ConfigSpec ConfigProofs.
Open Scope Z_scope.

Lemma val_set f v c g : val (set_val f v c) g = if String.eqb g f then v else val c g.
Proof. done. Qed.
Lemma str_set f s c g : str (set_val f (VS s) c) g = if String.eqb g f then s else str c g.
Proof. unfold str. rewrite val_set. by destruct (String.eqb g f). Qed.
Lemma eqb_ne s t : s ≠ t → String.eqb s t = false.
Proof. apply String.eqb_neq. Qed.

(** ** What is adjusted *)
Lemma to_abs_other f g c : g ≠ f → val (to_abs f c) g = val c g.
Proof. intros H. unfold to_abs. destruct (is_abs _); [done|]. by rewrite val_set, eqb_ne. Qed.
Lemma to_abs_same f c : f ≠ "ManagerDir"%string → str (to_abs f c) f = if is_abs (str c f) then str c f else join (str c "ManagerDir") (str c f).
Proof. intros H. unfold to_abs. destruct (is_abs _) eqn:E; [done|]. by rewrite str_set, String.eqb_refl. Qed.
Lemma fold_abs_other l g c : g ∉ l → val (fold_left (λ c f, to_abs f c) l c) g = val c g.
Proof.
  revert c. induction l as [|f l IH]; intros c H; [done|]. apply not_elem_of_cons in H as [H1 H2]. cbn [fold_left].
  rewrite IH by done. by apply to_abs_other.
Qed.
Lemma str_val c1 c2 f : val c1 f = val c2 f → str c1 f = str c2 f.
Proof. intros H. unfold str. by rewrite H. Qed.
Lemma fold_abs_same l f c : NoDup l → "ManagerDir"%string ∉ l → f ∈ l →
  str (fold_left (λ c f, to_abs f c) l c) f = if is_abs (str c f) then str c f else join (str c "ManagerDir") (str c f).
Proof.
  revert c. induction l as [|g l IH]; intros c Hn Hd Hf; [by apply elem_of_nil in Hf|]. apply NoDup_cons in Hn as [Hg Hn]. apply not_elem_of_cons in Hd as [Hd1 Hd2].
  cbn [fold_left]. apply elem_of_cons in Hf as [->|Hf].
  - rewrite (str_val _ (to_abs g c)) by (by apply fold_abs_other). apply to_abs_same. congruence.
  - rewrite IH by done. assert (g ≠ f) by congruence. rewrite (str_val _ c f), (str_val _ c "ManagerDir"); [done|by apply to_abs_other..].
Qed.
Definition eight : list string :=
  ["ManagerPidFile"; "ManagerLogFile"; "ManagerUploadDir"; "ManagerCAFile"; "ManagerCertFile"; "ManagerKeyFile"; "ManagerTokenFile"; "ManagerDBFile"]%string.
Lemma eight_nodup : NoDup eight.
Proof. apply (bool_decide_unpack _). by vm_compute. Qed.
Lemma not_in (x : string) (l : list string) : bool_decide (x ∈ l) = false → x ∉ l.
Proof. apply bool_decide_eq_false_1. Qed.
Local Ltac notin := apply not_in; by vm_compute.
Lemma all_abs_other c g : g ∉ manager_files → val (to_abs_all c) g = val c g.
Proof.
  intros H. unfold to_abs_all. fold eight.
  assert (g ∉ eight ∧ g ≠ "ManagerDBBkFile"%string) as [H1 H2].
  { unfold manager_files in H. split; intros E; apply H; [|subst; apply (bool_decide_unpack _); by vm_compute].
    unfold eight in E. repeat (apply elem_of_cons in E as [->|E]; [apply (bool_decide_unpack _); by vm_compute|]). by apply elem_of_nil in E. }
  destruct (is_remote _); [|rewrite to_abs_other by done]; by apply fold_abs_other.
Qed.
(** the path of a file of the manager *)
Definition path_in (dir f s : string) : string :=
  if is_abs s || (String.eqb f "ManagerDBBkFile" && is_remote s) then s else join dir s.
Lemma all_abs_same c f : f ∈ manager_files → str (to_abs_all c) f = path_in (str c "ManagerDir") f (str c f).
Proof.
  intros H. unfold to_abs_all, path_in. fold eight. set (c1 := fold_left _ eight c).
  assert (f ∈ eight ∨ f = "ManagerDBBkFile"%string) as [Hf| ->].
  { unfold manager_files in H. repeat (apply elem_of_cons in H as [->|H]; [first [by right|left; apply (bool_decide_unpack _); by vm_compute]|]). by apply elem_of_nil in H. }
  - assert (f ≠ "ManagerDBBkFile"%string) as Hne. { intros ->. revert Hf. notin. }
    rewrite (eqb_ne f) by done. cbn [andb]. rewrite orb_false_r.
    rewrite (str_val _ c1) by (destruct (is_remote _); [done|by apply to_abs_other]).
    apply fold_abs_same; [exact eight_nodup|notin|done].
  - assert (str c1 "ManagerDBBkFile" = str c "ManagerDBBkFile") as E1 by (apply str_val, fold_abs_other; notin).
    assert (str c1 "ManagerDir" = str c "ManagerDir") as E2 by (apply str_val, fold_abs_other; notin).
    change (String.eqb "ManagerDBBkFile" "ManagerDBBkFile") with true. cbn [andb]. rewrite E1.
    destruct (is_remote (str c "ManagerDBBkFile")); [rewrite orb_true_r; done|]. rewrite orb_false_r.
    rewrite to_abs_same by done. by rewrite E1, E2.
Qed.
Lemma set_ports_other uid ask c g : g ≠ "ManagerPort"%string → g ≠ "ManagerWeb"%string → val (set_ports uid ask c) g = val c g.
Proof.
  intros H1 H2. unfold set_ports.
  assert (∀ c1, val (if String.eqb (str c1 "ManagerWeb") "" then set_val "ManagerWeb" (VS (web_port (str c1 "Deployment") uid ask)) c1 else c1) g = val c1 g) as E.
  { intros c1. destruct (String.eqb _ _); [|done]. by rewrite val_set, eqb_ne. }
  rewrite E. destruct (String.eqb _ _); [|done]. destruct (cli_port _ _ _) as [p [w|]]; rewrite !val_set, !(eqb_ne g) by done; done.
Qed.
Section adjusting.
Context (tilde : string → string) (uid ask : Z) (d : string) (c : config).
Let c1 := set_val "ManagerDir" (VS (tilde (str c "ManagerDir") +:+ "_" +:+ d)%string) (set_val "Deployment" (VS d) c).
Lemma adjust_unfold : adjust tilde uid ask d c = set_ports uid ask (to_abs_all c1).
Proof. unfold adjust, c1. by rewrite (str_set "Deployment"). Qed.
Lemma adjust_other g : g ∉ adjusted → val (adjust tilde uid ask d c) g = val c g.
Proof.
  intros H. rewrite adjust_unfold.
  assert (∀ x, x ∈ adjusted → g ≠ x) as Hx by (intros x Hx ->; done).
  rewrite set_ports_other by (apply Hx; apply (bool_decide_unpack _); by vm_compute).
  rewrite all_abs_other.
  - unfold c1. rewrite !val_set, !(eqb_ne g) by (apply Hx; apply (bool_decide_unpack _); by vm_compute). done.
  - intros E. unfold manager_files in E. repeat (apply elem_of_cons in E as [E|E]; [revert E; apply Hx; apply (bool_decide_unpack _); by vm_compute|]). by apply elem_of_nil in E.
Qed.
Lemma adjust_dir : val (adjust tilde uid ask d c) "ManagerDir" = VS (tilde (str c "ManagerDir") +:+ "_" +:+ d)%string.
Proof. rewrite adjust_unfold, set_ports_other, all_abs_other; [done|notin|done|done]. Qed.
Lemma adjust_deployment : val (adjust tilde uid ask d c) "Deployment" = VS d.
Proof. rewrite adjust_unfold, set_ports_other, all_abs_other; [done|notin|done|done]. Qed.
Lemma adjust_file f : f ∈ manager_files → str (adjust tilde uid ask d c) f = path_in (tilde (str c "ManagerDir") +:+ "_" +:+ d)%string f (str c f).
Proof.
  intros H. rewrite adjust_unfold. rewrite (str_val _ (to_abs_all c1)).
  - rewrite all_abs_same by done. assert (str c1 "ManagerDir" = (tilde (str c "ManagerDir") +:+ "_" +:+ d)%string) as -> by done. f_equal. unfold c1.
    rewrite !str_set. unfold manager_files in H. repeat (apply elem_of_cons in H as [->|H]; [done|]). by apply elem_of_nil in H.
  - unfold manager_files in H. repeat (apply elem_of_cons in H as [->|H]; [by apply set_ports_other|]). by apply elem_of_nil in H.
Qed.
Lemma ports_before f : f = "ManagerPort"%string ∨ f = "ManagerWeb"%string → val (to_abs_all c1) f = val c f.
Proof. intros [-> | ->]; (rewrite all_abs_other; [done|notin]). Qed.
(** the ports *)
Definition the_ports (mp mw : string) : string * string :=
  if String.eqb mp "" then
    let '(p, w) := cli_port d uid ask in
    let mw := default mw w in (p, if String.eqb mw "" then web_port d uid ask else mw)
  else (mp, if String.eqb mw "" then web_port d uid ask else mw).
Lemma adjust_ports : (str (adjust tilde uid ask d c) "ManagerPort", str (adjust tilde uid ask d c) "ManagerWeb") = the_ports (str c "ManagerPort") (str c "ManagerWeb").
Proof.
  rewrite adjust_unfold. unfold set_ports, the_ports.
  rewrite (str_val (to_abs_all c1) c "ManagerPort") by (apply ports_before; by left).
  assert (str (to_abs_all c1) "Deployment" = d) as Ed.
  { rewrite (str_val _ c1); [done|]. apply all_abs_other. notin. }
  rewrite Ed.
  assert (str (to_abs_all c1) "ManagerWeb" = str c "ManagerWeb") as Ew by (apply str_val, ports_before; by right).
  assert (str (to_abs_all c1) "ManagerPort" = str c "ManagerPort") as Ep by (apply str_val, ports_before; by left).
  destruct (String.eqb (str c "ManagerPort") "") eqn:E0.
  - destruct (cli_port d uid ask) as [p [w|]].
    + rewrite !str_set. cbn [String.eqb Ascii.eqb Bool.eqb]. change (String.eqb "ManagerWeb" "ManagerPort") with false. change (String.eqb "ManagerWeb" "ManagerWeb") with true.
      change (String.eqb "Deployment" "ManagerPort") with false. change (String.eqb "Deployment" "ManagerWeb") with false. cbv iota. rewrite Ed. unfold default, from_option, id.
      destruct (String.eqb w ""); rewrite !str_set; done.
    + rewrite !str_set. change (String.eqb "ManagerWeb" "ManagerPort") with false. change (String.eqb "Deployment" "ManagerPort") with false. cbv iota. rewrite Ed, Ew. unfold default, from_option, id.
      destruct (String.eqb (str c "ManagerWeb") "") eqn:E1; rewrite !str_set; [done|]. change (String.eqb "ManagerWeb" "ManagerPort") with false. cbv iota. by rewrite Ew.
  - rewrite Ew, Ed. destruct (String.eqb (str c "ManagerWeb") "") eqn:E1; rewrite ?str_set.
    + change (String.eqb "ManagerPort" "ManagerWeb") with false. change (String.eqb "ManagerWeb" "ManagerWeb") with true. cbv iota. by rewrite Ep.
    + by rewrite Ew, Ep.
Qed.
End adjusting.
Lemma adjust_srcs tilde uid ask d c f : srcs (adjust tilde uid ask d c) f = srcs c f.
Proof.
  assert (∀ g x, srcs (to_abs g x) = srcs x) as E1. { intros g x. unfold to_abs. by destruct (is_abs _). }
  assert (∀ l x, srcs (fold_left (λ c f, to_abs f c) l x) = srcs x) as E2. { intros l. induction l as [|g l IH]; intros x; [done|]. cbn [fold_left]. by rewrite IH, E1. }
  assert (∀ x, srcs (to_abs_all x) = srcs x) as E3. { intros x. unfold to_abs_all. destruct (is_remote _); rewrite ?E1; apply E2. }
  assert (∀ g v x, srcs (set_val g v x) = srcs x) as E4 by done.
  assert (∀ x, srcs (set_ports uid ask x) = srcs x) as E5.
  { intros x. unfold set_ports. set (y := if String.eqb (str x "ManagerPort") "" then _ else x).
    assert (srcs y = srcs x) as <-. { unfold y. destruct (String.eqb _ ""); [|done]. by destruct (cli_port _ _ _) as [p [w|]]. }
    clearbody y. by destruct (String.eqb (str y _) ""). }
  unfold adjust. by rewrite E5, E3, !E4.
Qed.

(** ** Ports *)
Lemma pretty_ne_empty (n : Z) : pretty n ≠ ""%string.
Proof.
  intros H. assert (∀ x s, s ≠ ""%string → pretty_N_go x s ≠ ""%string) as G.
  { intros x. induction (N.lt_wf_0 x) as [x _ IH]; intros s Hs. assert (x = 0 ∨ 0 < x)%N as [->|Hx] by lia; [done|].
    rewrite pretty_N_go_step by done. apply IH; [by apply N.div_lt|done]. }
  destruct n as [|p|p]; [done| |done]. unfold pretty, pretty_Z, pretty, pretty_positive, pretty, pretty_N in H. destruct (decide _); [done|].
  rewrite pretty_N_go_step in H by lia. by apply G in H.
Qed.
Definition nth_port (d : string) (uid : Z) : Z := 1021 + 4 * uid + (if String.eqb d "development" then 2 else 0).
Lemma ports_unset d uid ask mw : has_ports uid → the_ports uid ask d "" mw = (pretty (nth_port d uid), pretty (nth_port d uid + 1)).
Proof.
  intros [H1 H2]. unfold the_ports, cli_port, min_port. cbn [String.eqb].
  rewrite (bool_decide_false (_ > 65535)) by lia. rewrite bool_decide_false by lia.
  unfold nth_port. replace (1021 + uid * 4) with (1021 + 4 * uid) by lia. unfold default, from_option, id.
  destruct (String.eqb d "development"); rewrite (proj2 (String.eqb_neq _ _)) by apply pretty_ne_empty; f_equal; f_equal; lia.
Qed.
Lemma ports_web d uid ask mp : has_ports uid → mp ≠ ""%string → the_ports uid ask d mp "" = (mp, pretty (nth_port d uid + 1)).
Proof.
  intros [H1 H2] Hp. unfold the_ports, web_port, min_port. rewrite (eqb_ne mp) by done. cbn [String.eqb].
  rewrite (bool_decide_false (_ > 65535)) by lia. rewrite bool_decide_false by lia.
  unfold nth_port. replace (1021 + uid * 4) with (1021 + 4 * uid) by lia.
  destruct (String.eqb d "development"); do 2 f_equal; lia.
Qed.
Lemma ports_set d uid ask mp mw : mp ≠ ""%string → mw ≠ ""%string → the_ports uid ask d mp mw = (mp, mw).
Proof. intros H1 H2. unfold the_ports. by rewrite !eqb_ne. Qed.
Lemma ports_apart d1 d2 u1 u2 : a_deployment d1 → a_deployment d2 → has_ports u1 → has_ports u2 → (u1, d1) ≠ (u2, d2) →
  NoDup (map (pretty (A:=Z)) [nth_port d1 u1; nth_port d1 u1 + 1; nth_port d2 u2; nth_port d2 u2 + 1]).
Proof.
  intros H1 H2 [U1 _] [U2 _] Hne. change (NoDup (pretty <$> [nth_port d1 u1; nth_port d1 u1 + 1; nth_port d2 u2; nth_port d2 u2 + 1])).
  apply (NoDup_fmap_2 _). unfold nth_port.
  destruct H1 as [-> | ->], H2 as [-> | ->]; cbn [String.eqb Ascii.eqb Bool.eqb];
  repeat (apply NoDup_cons; split); try (apply NoDup_nil; done);
  rewrite ?not_elem_of_cons; split_and?; try (apply not_elem_of_nil);
  try (intros E; assert (u1 = u2) by lia; congruence); lia.
Qed.
