(** Proofs on behaviours. *)
From Coq Require Import NArith String Lia.
From stdpp Require Import base option strings list sets.
From RecordUpdate Require Import RecordSet.
From Verif Require Import BehaveModel BehaveSpec.
Import RecordSetNotations.
Open Scope N_scope.

Local Ltac bd := repeat match goal with |- context [bool_decide ?P] => first [rewrite (bool_decide_true P) by done | rewrite (bool_decide_false P) by done] end.
Definition FS : N := N.lor OnFailure OnSuccess.
Definition sel (w : N) (bs : list beh) : list bvj := omap bvj_of (those_for w bs).

Lemma those_cons w b bs : those_for w (b :: bs) = if bool_decide (bwhen b = w) then b :: those_for w bs else those_for w bs.
Proof. unfold those_for. rewrite filter_cons. destruct (decide (bwhen b = w)); case_bool_decide; done. Qed.
Lemma those_app w b1 b2 : those_for w (b1 ++ b2) = those_for w b1 ++ those_for w b2.
Proof. apply filter_app. Qed.
Lemma sel_cons w b bs : sel w (b :: bs) = (if bool_decide (bwhen b = w) then match bvj_of b with Some j => [j] | None => [] end else []) ++ sel w bs.
Proof.
  unfold sel. rewrite those_cons. case_bool_decide; [|done].
  change (omap bvj_of (b :: those_for w bs)) with (match bvj_of b with Some y => y :: omap bvj_of (those_for w bs) | None => omap bvj_of (those_for w bs) end).
  by destruct (bvj_of b).
Qed.
Lemma shown_gen bs m : fold_left fill_bvjm bs m =
  Bvjm (on_failure m ++ sel OnFailure bs) (on_success m ++ sel OnSuccess bs) (on_fs m ++ sel FS bs) (on_exit m ++ sel OnExit bs).
Proof.
  revert m. induction bs as [|b bs IH]; intros [f s fs e].
  { cbn. by rewrite !app_nil_r. }
  cbn [fold_left]. rewrite IH, !sel_cons. unfold fill_bvjm.
  destruct (bvj_of b) as [j|]; [|by repeat case_bool_decide].
  unfold FS. destruct b as [w d a]. cbn [bwhen].
  destruct (decide (w = OnFailure)) as [H1|H1]; [|destruct (decide (w = OnSuccess)) as [H2|H2]; [|destruct (decide (w = N.lor OnFailure OnSuccess)) as [H3|H3]; [|destruct (decide (w = OnExit)) as [H4|H4]]]];
  repeat first [rewrite (bool_decide_true (w = OnFailure)) by done | rewrite (bool_decide_true (w = OnSuccess)) by done | rewrite (bool_decide_true (w = OnExit)) by done
    | rewrite (bool_decide_true (w = N.lor OnFailure OnSuccess)) by done | rewrite (bool_decide_false (w = OnFailure)) by (subst; done) | rewrite (bool_decide_false (w = OnSuccess)) by (subst; done)
    | rewrite (bool_decide_false (w = OnExit)) by (subst; done) | rewrite (bool_decide_false (w = N.lor OnFailure OnSuccess)) by (subst; done)];
  cbn; rewrite <-?app_assoc; done.
Qed.
Lemma shown_eq bs : shown bs = Bvjm (sel OnFailure bs) (sel OnSuccess bs) (sel FS bs) (sel OnExit bs).
Proof. unfold shown. by rewrite shown_gen. Qed.

Lemma of_bvj_of b : documented_do b → ∃ j, bvj_of b = Some j ∧ of_bvj (bwhen b) j = b.
Proof.
  destruct b as [w d a]. intros [[Hd [s [Hs Ha]]]|[[Hd [l [Hl Ha]]]|[Hd Ha]]]; cbn [bdo barg_of bwhen] in *; subst.
  - exists (Bvj s [] false false false false). split; [done|]. unfold of_bvj. cbn [jrun].
    apply String.eqb_neq in Hs. by rewrite Hs.
  - exists (Bvj "" l false false false false). split; [done|]. unfold of_bvj. cbn [jrun jcopy].
    change (String.eqb "" "") with true. cbn [negb]. by rewrite bool_decide_true.
  - repeat (apply elem_of_cons in Hd as [->|Hd]; [eexists; split; done|]). by apply elem_of_nil in Hd.
Qed.
Lemma of_sel w bs : Forall documented_do bs → of_bvjs w (sel w bs) = those_for w bs.
Proof.
  induction 1 as [|b bs Hb _ IH]; [done|]. rewrite sel_cons, those_cons. unfold of_bvjs in *.
  rewrite map_app, IH. destruct (of_bvj_of b Hb) as (j&Hj&Hj2). case_bool_decide as Hw; [|done].
  rewrite Hj. cbn [map]. by rewrite <-Hw, Hj2.
Qed.
Lemma read_shown bs : Forall documented_do bs →
  read_back (shown bs) = those_for OnFailure bs ++ those_for OnSuccess bs ++ those_for FS bs ++ those_for OnExit bs.
Proof. intros H. rewrite shown_eq. unfold read_back. cbn [on_failure on_success on_fs on_exit]. fold FS. by rewrite !of_sel. Qed.

Lemma those_perm bs : Forall documented_when bs → those_for OnFailure bs ++ those_for OnSuccess bs ++ those_for FS bs ++ those_for OnExit bs ≡ₚ bs.
Proof.
  induction 1 as [|b bs Hb _ IH]; [done|]. rewrite !those_cons.
  trans (b :: (those_for OnFailure bs ++ those_for OnSuccess bs ++ those_for FS bs ++ those_for OnExit bs)); [|by apply perm_skip].
  unfold FS. destruct Hb as [Hb|[Hb|[Hb|Hb]]]; rewrite !Hb; bd.
  - done.
  - cbn [app]. symmetry. apply Permutation_middle.
  - cbn [app]. rewrite !(app_assoc (those_for OnFailure bs)). symmetry. apply Permutation_middle.
  - cbn [app]. rewrite !(app_assoc (those_for OnFailure bs)), !(app_assoc (_ ++ _) (those_for _ bs)). symmetry. apply Permutation_middle.
Qed.
Lemma those_those w v bs : those_for w (those_for v bs) = if bool_decide (w = v) then those_for w bs else [].
Proof.
  induction bs as [|b bs IH]; [by case_bool_decide|]. rewrite (those_cons v).
  destruct (decide (bwhen b = v)) as [Hb|Hb].
  - rewrite (bool_decide_true (bwhen b = v)) by done. rewrite !those_cons, IH.
    destruct (decide (bwhen b = w)) as [Hw|Hw].
    + assert (w = v) as -> by congruence. by rewrite !bool_decide_true.
    + rewrite (bool_decide_false (bwhen b = w)) by done. done.
  - rewrite (bool_decide_false (bwhen b = v)) by done. rewrite IH, those_cons. case_bool_decide as Hw; [|done].
    subst. by rewrite bool_decide_false.
Qed.
Lemma documented_split bs : Forall documented bs → Forall documented_when bs ∧ Forall documented_do bs.
Proof. intros H. split; (eapply Forall_impl; [exact H|]); by intros ? [??]. Qed.
Lemma none_for w bs : Forall documented_when bs → w ≠ OnFailure → w ≠ OnSuccess → w ≠ FS → w ≠ OnExit → those_for w bs = [].
Proof.
  intros H ????. induction H as [|b bs Hb _ IH]; [done|]. rewrite those_cons, IH. case_bool_decide as Hw; [|done].
  destruct Hb as [Hb|[Hb|[Hb|Hb]]]; subst; done.
Qed.
Lemma roundtrip bs : Forall documented bs → read_back (shown bs) ≡ₚ bs ∧ ∀ w, those_for w (read_back (shown bs)) = those_for w bs.
Proof.
  intros H. apply documented_split in H as [Hw Hd]. rewrite read_shown by done. split; [by apply those_perm|].
  intros w. rewrite !those_app, !those_those.
  destruct (decide (w = OnFailure)) as [->|H1]. { bd. cbn. by rewrite ?app_nil_r. }
  destruct (decide (w = OnSuccess)) as [->|H2]. { bd. cbn. by rewrite ?app_nil_r. }
  destruct (decide (w = FS)) as [->|H3]. { bd. cbn. by rewrite ?app_nil_r. }
  destruct (decide (w = OnExit)) as [->|H4]. { by bd. }
  rewrite !bool_decide_false by done. symmetry. by apply none_for.
Qed.

(** ** What is done *)
Lemma perform_other st bs v : (∀ b, b ∈ bs → bwhen b = v) → N.land v st = 0 → flat_map (b_perform st) bs = [].
Proof.
  intros H Hv. induction bs as [|b bs IH]; [done|]. cbn [flat_map]. rewrite IH by (intros; apply H; by right).
  unfold b_perform at 1. rewrite bool_decide_true; [done|]. rewrite (H b); [done|by left].
Qed.
Lemma those_when w bs b : b ∈ those_for w bs → bwhen b = w.
Proof. intros H. by apply elem_of_list_filter in H as [? _]. Qed.
Lemma flat_those st w bs : N.land w st ≠ 0 → (∀ b, b ∈ bs → bwhen b ≠ w → N.land (bwhen b) st = 0) →
  flat_map (b_perform st) (those_for w bs) = flat_map (b_perform st) bs.
Proof.
  intros Hw H. induction bs as [|b bs IH]; [done|]. rewrite those_cons. cbn [flat_map].
  rewrite <-IH by (intros b' Hb'; apply H; by right). case_bool_decide as Hb; [done|].
  unfold b_perform at 2. rewrite bool_decide_true; [done|]. apply H; [by left|done].
Qed.
Lemma flat_map_app' {A B} (f : A → list B) l1 l2 : flat_map f (l1 ++ l2) = flat_map f l1 ++ flat_map f l2.
Proof. induction l1 as [|x l1 IH]; [done|]. cbn. by rewrite IH, app_assoc. Qed.
Lemma same_deeds success bs : Forall documented bs → (∀ b, b ∈ bs → bwhen b ≠ N.lor OnFailure OnSuccess) →
  performs success (read_back (shown bs)) = performs success bs.
Proof.
  intros H Hfs. apply documented_split in H as [Hw Hd]. rewrite read_shown by done.
  assert (those_for FS bs = []) as Hn.
  { clear Hw Hd. induction bs as [|b bs IH]; [done|]. rewrite those_cons, bool_decide_false by (apply Hfs; by left). apply IH. intros; apply Hfs; by right. }
  rewrite Hn. cbn [app]. rewrite Forall_forall in Hw. unfold performs. rewrite !flat_map_app'.
  assert (∀ st w, st ∈ [OnFailure; OnSuccess; OnExit] → w ∈ [OnFailure; OnSuccess; OnExit] → flat_map (b_perform st) (those_for w bs) = if bool_decide (w = st) then flat_map (b_perform st) bs else []) as E.
  { intros st w Hst Hww. case_bool_decide as Heq.
    - subst w. apply flat_those.
      + repeat (apply elem_of_cons in Hst as [->|Hst]; [done|]). by apply elem_of_nil in Hst.
      + intros b Hb Hne. destruct (Hw b Hb) as [E|[E|[E|E]]]; [..|]; rewrite E in *; try (by destruct (Hfs b Hb));
        repeat (apply elem_of_cons in Hst as [->|Hst]; [done|]); by apply elem_of_nil in Hst.
    - apply (perform_other _ _ w); [apply those_when|].
      repeat (apply elem_of_cons in Hst as [->|Hst]; [repeat (apply elem_of_cons in Hww as [->|Hww]; [done|]); by apply elem_of_nil in Hww|]). by apply elem_of_nil in Hst. }
  rewrite !E by (destruct success; set_solver). destruct success; bd; cbn; by rewrite ?app_nil_r.
Qed.
Lemma deeds_perm success bs : Forall documented bs → performs success (read_back (shown bs)) ≡ₚ performs success bs.
Proof.
  intros H. destruct (roundtrip bs H) as [Hp _]. unfold performs. generalize dependent (read_back (shown bs)). intros l Hp.
  assert (∀ f : beh → list deed, flat_map f l ≡ₚ flat_map f bs) as E; [|by rewrite !E].
  intros f. clear H. induction Hp; cbn; [done|by apply Permutation_app_head|rewrite !app_assoc; apply Permutation_app_tail, Permutation_app_comm|by etransitivity].
Qed.

(** ** From JSON and back *)
Lemma of_bvj_when w j : bwhen (of_bvj w j) = w.
Proof. unfold of_bvj. destruct (negb _); [done|]. case_bool_decide; [done|]. by destruct (jcleanup j), (jcleanup_all j), (jremove j). Qed.
Lemma of_bvj_do w j : documented_do (of_bvj w j).
Proof.
  unfold of_bvj. destruct (negb _) eqn:E.
  { left. split; [done|]. exists (jrun j). split; [|done]. intros Hr. rewrite Hr in E. done. }
  case_bool_decide. { right; left. split; [done|]. by exists (jcopy j). }
  right; right. destruct (jcleanup j), (jcleanup_all j), (jremove j); cbn; split; try done; set_solver.
Qed.
Lemma of_bvjs_doc w js : (w = OnFailure ∨ w = OnSuccess ∨ w = FS ∨ w = OnExit) → Forall documented (of_bvjs w js).
Proof. intros Hw. apply Forall_forall. intros b Hb. unfold of_bvjs in Hb. apply elem_of_list_In, in_map_iff in Hb as (j&<-&_). split; [|apply of_bvj_do]. unfold documented_when. by rewrite of_bvj_when. Qed.
Lemma read_back_doc m : Forall documented (read_back m).
Proof. unfold read_back. rewrite !Forall_app. repeat split; apply of_bvjs_doc; unfold FS; tauto. Qed.
Lemma those_of_bvjs v w js : those_for v (of_bvjs w js) = if bool_decide (w = v) then of_bvjs w js else [].
Proof.
  induction js as [|j js IH]; [by case_bool_decide|]. unfold of_bvjs in *. cbn [map]. rewrite those_cons, IH, of_bvj_when. by case_bool_decide.
Qed.
Lemma read_shown_read m : read_back (shown (read_back m)) = read_back m.
Proof.
  destruct (documented_split _ (read_back_doc m)) as [_ Hd]. rewrite read_shown by done. unfold read_back. fold FS.
  rewrite !those_app, !those_of_bvjs. unfold FS. bd. cbn. by rewrite ?app_nil_r.
Qed.
Lemma asks_perform j d st w : asks j d → N.land w st ≠ 0 → b_perform st (of_bvj w j) = d.
Proof.
  intros Ha Hw. unfold b_perform. rewrite of_bvj_when, bool_decide_false by done. destruct Ha; unfold of_bvj; cbn [jrun jcopy jcleanup jcleanup_all jremove]; try done.
  - apply String.eqb_neq in H. by rewrite H.
  - change (String.eqb "" "") with true. cbn [negb]. by rewrite (bool_decide_true (l ≠ [])).
Qed.
Lemma ask_perform js ds st w : ask_all js ds → N.land w st ≠ 0 → flat_map (b_perform st) (of_bvjs w js) = ds.
Proof. intros H Hw. induction H as [|j js d ds Hj _ IH]; [done|]. cbn. unfold of_bvjs in IH. by rewrite IH, (asks_perform _ d). Qed.
Lemma of_bvjs_when w js b : b ∈ of_bvjs w js → bwhen b = w.
Proof. intros Hb. unfold of_bvjs in Hb. apply elem_of_list_In, in_map_iff in Hb as (j&<-&_). apply of_bvj_when. Qed.
Lemma shown_asked jf js je f s e : ask_all jf f → ask_all js s → ask_all je e →
  performs true (job_behaviours jf js je [] [] []) = s ++ e ∧ performs false (job_behaviours jf js je [] [] []) = f ++ e.
Proof.
  intros Hf Hs He. assert (∀ w l, given_or w l [] = of_bvjs w l) as E by (by intros ? []).
  unfold performs, job_behaviours. rewrite !E, !flat_map_app'.
  rewrite (ask_perform _ _ OnExit OnExit He) by done.
  rewrite (perform_other OnExit (of_bvjs OnFailure jf) OnFailure), (perform_other OnExit (of_bvjs OnSuccess js) OnSuccess) by (done || apply of_bvjs_when).
  split.
  - rewrite (ask_perform _ _ OnSuccess OnSuccess Hs) by done.
    rewrite (perform_other OnSuccess (of_bvjs OnFailure jf) OnFailure), (perform_other OnSuccess (of_bvjs OnExit je) OnExit) by (done || apply of_bvjs_when). by rewrite app_nil_r.
  - rewrite (ask_perform _ _ OnFailure OnFailure Hf) by done.
    rewrite (perform_other OnFailure (of_bvjs OnSuccess js) OnSuccess), (perform_other OnFailure (of_bvjs OnExit je) OnExit) by (done || apply of_bvjs_when). by rewrite app_nil_r.
Qed.

(** ** Modification *)
Lemma replace_spec new old l f : replace_first new old = (l, f) →
  if f then ∃ l1 b l2, old = l1 ++ b :: l2 ∧ l = l1 ++ new :: l2 ∧ bwhen b = bwhen new ∧ ∀ b', b' ∈ l1 → bwhen b' ≠ bwhen new
  else l = old ∧ ∀ b, b ∈ old → bwhen b ≠ bwhen new.
Proof.
  revert l f. induction old as [|b old IH]; intros l f H; cbn in H.
  { injection H as <- <-. split; [done|]. intros b Hb. by apply elem_of_nil in Hb. }
  case_bool_decide as Hb.
  { injection H as <- <-. exists [], b, old. repeat split; try done. intros b' Hb'. by apply elem_of_nil in Hb'. }
  destruct (replace_first new old) as [l' f']. injection H as <- <-. specialize (IH _ _ eq_refl). destruct f'.
  - destruct IH as (l1&c&l2&->&->&Hc&Hl1). exists (b :: l1), c, l2. repeat split; try done.
    intros b' [->|Hb']%elem_of_cons; [done|by apply Hl1].
  - destruct IH as [-> IH]. split; [done|]. intros b' [->|Hb']%elem_of_cons; [done|by apply IH].
Qed.
Lemma those_none w l : (∀ b, b ∈ l → bwhen b ≠ w) → those_for w l = [].
Proof. intros H. induction l as [|b l IH]; [done|]. rewrite those_cons, bool_decide_false by (apply H; by left). apply IH. intros; apply H; by right. Qed.
Lemma modify_one_same w new old : bwhen new = w → those_for w (modify_one old new) = new :: tail (those_for w old).
Proof.
  intros Hw. unfold modify_one. destruct (replace_first new old) as [l f] eqn:E. apply replace_spec in E. subst w. destruct f.
  - destruct E as (l1&b&l2&->&->&Hb&Hl1). rewrite !those_app, !those_cons, !bool_decide_true by done.
    by rewrite (those_none (bwhen new) l1).
  - destruct E as [-> E]. rewrite those_app, (those_none _ old) by done. rewrite those_cons, bool_decide_true by done. done.
Qed.
Lemma modify_one_other w new old : bwhen new ≠ w → those_for w (modify_one old new) = those_for w old.
Proof.
  intros Hw. unfold modify_one. destruct (replace_first new old) as [l f] eqn:E. apply replace_spec in E. destruct f.
  - destruct E as (l1&b&l2&->&->&Hb&Hl1). rewrite !those_app, !those_cons, !bool_decide_false by congruence. done.
  - destruct E as [-> E]. rewrite those_app, those_cons, bool_decide_false by done. by rewrite app_nil_r.
Qed.
Lemma modify_closed w new old : those_for w (modify_behaviours new old) =
  match last (those_for w new) with None => those_for w old | Some b => b :: tail (those_for w old) end.
Proof.
  unfold modify_behaviours. revert old. induction new as [|b new IH]; intros old; [done|].
  cbn [fold_left]. rewrite IH, those_cons. case_bool_decide as Hb.
  - rewrite modify_one_same by done. rewrite last_cons. by destruct (last (those_for w new)).
  - by rewrite modify_one_other.
Qed.
(** what is given, or else the default *)
Lemma given_eff w j d : given_or w j (of_bvjs w d) = given_or w (match j with [] => d | _ => j end) [].
Proof. destruct j; [|done]. by destruct d. Qed.
Lemma given_asked jf js je df ds de f s e :
  ask_all (match jf with [] => df | _ => jf end) f → ask_all (match js with [] => ds | _ => js end) s → ask_all (match je with [] => de | _ => je end) e →
  performs true (job_behaviours jf js je (of_bvjs OnFailure df) (of_bvjs OnSuccess ds) (of_bvjs OnExit de)) = s ++ e ∧
  performs false (job_behaviours jf js je (of_bvjs OnFailure df) (of_bvjs OnSuccess ds) (of_bvjs OnExit de)) = f ++ e.
Proof. intros Hf Hs He. unfold job_behaviours. rewrite !given_eff. by apply (shown_asked _ _ _ f s e). Qed.
Lemma those_short (w : N) new : NoDup (bwhen <$> new) → (length (those_for w new) ≤ 1)%nat.
Proof.
  induction new as [|b new IH]; intros H; [cbn; lia|]. rewrite fmap_cons in H. apply NoDup_cons in H as [Hb H]. rewrite those_cons. case_bool_decide as Hw; [|by apply IH].
  rewrite those_none; [cbn; lia|]. intros b' Hb' E. apply Hb. rewrite Hw, <-E. by apply elem_of_list_fmap_1.
Qed.
Lemma modify_exact w new old : NoDup (bwhen <$> new) → NoDup (bwhen <$> old) →
  those_for w (modify_behaviours new old) = if bool_decide (those_for w new = []) then those_for w old else those_for w new.
Proof.
  intros Hn Ho. rewrite modify_closed. pose proof (those_short w new Hn) as H1. pose proof (those_short w old Ho) as H2.
  destruct (those_for w new) as [|b [|]]; [| |cbn in H1; lia].
  - done.
  - rewrite bool_decide_false by done. cbn [last]. destruct (those_for w old) as [|? [|]]; [done|done|cbn in H2; lia].
Qed.
Lemma performs_split success bs :
  (∀ b, b ∈ bs → bwhen b = OnFailure ∨ bwhen b = OnSuccess ∨ bwhen b = OnExit) →
  performs success bs = flat_map (b_perform (if success then OnSuccess else OnFailure)) (those_for (if success then OnSuccess else OnFailure) bs) ++ flat_map (b_perform OnExit) (those_for OnExit bs).
Proof.
  intros H. unfold performs. rewrite !flat_those; try done; try (by destruct success).
  - intros b Hb Hne. destruct (H b Hb) as [E|[E|E]]; rewrite E in *; done.
  - intros b Hb Hne. destruct (H b Hb) as [E|[E|E]]; rewrite E in *; destruct success; done.
Qed.
