(** What the key says about mounts (C45). *)
From Coq Require Import ZArith Lia String Ascii.
From stdpp Require Import base option strings gmap list sorting.
From Verif Require Import UtilModel UtilSpec UtilProofs UtilProofs2.
Local Open Scope nat_scope.
Local Open Scope string_scope.

Lemma first_of c a b a' b' : c ∉ chars a → c ∉ chars a' → a ++ String c b = a' ++ String c b' → a = a' ∧ b = b'.
Proof.
  revert a'. induction a as [|x a IH]; intros [|y a'] Ha Ha'; cbn [String.append].
  - by intros [= ->].
  - intros [= -> _]. cbn in Ha'. apply not_elem_of_cons in Ha' as [? _]. done.
  - intros [= -> _]. cbn in Ha. apply not_elem_of_cons in Ha as [? _]. done.
  - intros H. change (String x (a ++ String c b) = String y (a' ++ String c b')) in H. injection H as -> H.
    cbn in Ha, Ha'. apply not_elem_of_cons in Ha as [_ Ha]. apply not_elem_of_cons in Ha' as [_ Ha'].
    destruct (IH _ Ha Ha' H) as [-> ->]. done.
Qed.
Lemma clash c d m a r x : c ≠ d → d ∉ chars m → c ∉ chars a → m ++ String c r = a ++ String d x → False.
Proof.
  intros Hcd. revert a. induction m as [|y m IH]; intros [|z a] Hm Ha H.
  - by injection H.
  - injection H as <- _. cbn in Ha. apply not_elem_of_cons in Ha as [? _]. done.
  - injection H as -> _. cbn in Hm. apply not_elem_of_cons in Hm as [? _]. done.
  - change (String y (m ++ String c r) = String z (a ++ String d x)) in H. injection H as -> H.
    cbn in Hm, Ha. apply not_elem_of_cons in Hm as [_ Hm]. apply not_elem_of_cons in Ha as [_ Ha]. eauto.
Qed.
Lemma chars_app a b : chars (a ++ b) = (chars a ++ chars b)%list.
Proof. induction a as [|x a IH]; [done|]. change (x :: chars (a ++ b) = x :: (chars a ++ chars b)%list). by rewrite IH. Qed.

(** the text of a list of targets and of mounts *)
Fixpoint ttext (ts : list target) : string := match ts with [] => "" | t :: ts => target_key t ++ ttext ts end.
Fixpoint mtext (ms : list mount) : string := match ms with [] => "" | m :: ms => mount_key m ++ mtext ms end.
Lemma concat_cons a l : String.concat "" (a :: l) = a ++ String.concat "" l.
Proof. destruct l; cbn [String.concat]; [by rewrite app_nil_r_str|done]. Qed.
Lemma ttext_concat ts : String.concat "" (target_key <$> ts) = ttext ts.
Proof. induction ts as [|t ts IH]; [done|]. cbn [fmap list_fmap ttext]. by rewrite concat_cons, IH. Qed.
Lemma mtext_concat ms : String.concat "" (mount_key <$> ms) = mtext ms.
Proof. induction ms as [|m ms IH]; [done|]. cbn [fmap list_fmap mtext]. by rewrite concat_cons, IH. Qed.

Lemma target_key_full t : target_key t = profile (full_target t) ++ String "-" (tpath t ++ String ";" "").
Proof. unfold target_key, full_target. cbn [profile]. case_bool_decide; destruct (decide _); done. Qed.
Lemma mount_key_full m : mount_key m = mnt (full m) ++ String ":" (ttext (targets m)).
Proof. unfold mount_key, full. cbn [mnt]. rewrite ttext_concat. case_bool_decide; destruct (decide _); done. Qed.
Lemma lacks_default bad s d : lacks bad s → lacks bad d → lacks bad (if decide (s = "") then d else s).
Proof. by destruct (decide _). Qed.
Lemma plain_profile t : plain_target t → lacks [":"; ";"; "-"]%char (profile (full_target t)) ∧ lacks [":"; ";"]%char (tpath t).
Proof.
  intros [H1 H2]. split; [|done]. apply lacks_default; [done|]. intros c Hc.
  repeat (apply elem_of_cons in Hc as [->|Hc]; [apply (bool_decide_unpack _); by vm_compute|]). by apply elem_of_nil in Hc.
Qed.
Lemma plain_mnt m : plain_mount m → lacks [":"; ";"]%char (mnt (full m)).
Proof.
  intros [H1 H2]. apply lacks_default; [done|]. intros c Hc.
  repeat (apply elem_of_cons in Hc as [->|Hc]; [apply (bool_decide_unpack _); by vm_compute|]). by apply elem_of_nil in Hc.
Qed.
(** what can follow the targets of a mount *)
Definition ends (r : string) : Prop := r = "" ∨ ∃ m r', r = m ++ String ":" r' ∧ ";"%char ∉ chars m.
Lemma target_not_end t x r : plain_target t → ends r → target_key t ++ x ≠ r.
Proof.
  intros [H1 H2]%plain_profile Hr H. rewrite target_key_full in H.
  assert (Ha : ":"%char ∉ chars (profile (full_target t) ++ String "-" (tpath t))).
  { rewrite chars_app. cbn. rewrite not_elem_of_app, not_elem_of_cons. split_and!; [|done|].
    - apply H1. by left.
    - apply H2. by left. }
  assert (E : (profile (full_target t) ++ String "-" (tpath t ++ String ";" "")) ++ x
            = (profile (full_target t) ++ String "-" (tpath t)) ++ String ";" x).
  { rewrite !app_assoc_str. f_equal. change (String "-" ((tpath t ++ String ";" "") ++ x) = String "-" (tpath t ++ String ";" x)). by rewrite app_assoc_str. }
  rewrite E in H. destruct Hr as [->|(m & r' & -> & Hm)].
  - apply (f_equal String.length) in H. rewrite str_app_len in H. cbn in H. lia.
  - eapply (clash ":" ";"); [done|exact Hm|exact Ha|symmetry; exact H].
Qed.
Lemma ttext_inj ts : ∀ us r r', Forall plain_target ts → Forall plain_target us → ends r → ends r' →
  ttext ts ++ r = ttext us ++ r' → full_target <$> ts = full_target <$> us ∧ r = r'.
Proof.
  induction ts as [|t ts IH]; intros [|u us] r r' Ht Hu Hr Hr' H; cbn [ttext] in H.
  - done.
  - apply Forall_cons in Hu as [Hu _]. rewrite app_assoc_str in H. symmetry in H. by apply target_not_end in H.
  - apply Forall_cons in Ht as [Ht _]. rewrite app_assoc_str in H. by apply target_not_end in H.
  - apply Forall_cons in Ht as [Ht Hts]. apply Forall_cons in Hu as [Hu Hus].
    apply plain_profile in Ht as [T1 T2]. apply plain_profile in Hu as [U1 U2].
    rewrite !target_key_full in H. rewrite !app_assoc_str in H.
    change (profile (full_target t) ++ String "-" ((tpath t ++ String ";" "") ++ (ttext ts ++ r)) =
            profile (full_target u) ++ String "-" ((tpath u ++ String ";" "") ++ (ttext us ++ r'))) in H.
    apply first_of in H as [E1 H]; [|apply T1; set_solver|apply U1; set_solver].
    rewrite !app_assoc_str in H. change (tpath t ++ String ";" (ttext ts ++ r) = tpath u ++ String ";" (ttext us ++ r')) in H.
    apply first_of in H as [E2 H]; [|apply T2; set_solver|apply U2; set_solver].
    destruct (IH us r r' Hts Hus Hr Hr' H) as [E3 ->]. split; [|done].
    cbn [fmap list_fmap]. f_equal; [|done]. unfold full_target in *. cbn [profile tpath] in *. congruence.
Qed.
Lemma mtext_ends ms : Forall plain_mount ms → ends (mtext ms).
Proof.
  intros H. destruct H as [|m ms Hm _]; [by left|]. right. cbn [mtext]. rewrite mount_key_full, app_assoc_str.
  eexists _, _. split; [reflexivity|]. apply (plain_mnt m Hm). set_solver.
Qed.
Lemma mtext_inj ms : ∀ ns, Forall plain_mount ms → Forall plain_mount ns → mtext ms = mtext ns → full <$> ms = full <$> ns.
Proof.
  assert (Hne : ∀ m ms, mtext (m :: ms) ≠ "").
  { intros m l H. cbn [mtext] in H. rewrite mount_key_full in H. apply (f_equal String.length) in H. rewrite !str_app_len in H. cbn in H. lia. }
  induction ms as [|m ms IH]; intros [|n ns] Hm Hn H.
  - done.
  - symmetry in H. by apply Hne in H.
  - by apply Hne in H.
  - apply Forall_cons in Hm as [Hm Hms]. apply Forall_cons in Hn as [Hn Hns].
    cbn [mtext] in H. rewrite !mount_key_full, !app_assoc_str in H.
    change (mnt (full m) ++ String ":" (ttext (targets m) ++ mtext ms) = mnt (full n) ++ String ":" (ttext (targets n) ++ mtext ns)) in H.
    apply first_of in H as [E1 H]; [|apply (plain_mnt m Hm); set_solver|apply (plain_mnt n Hn); set_solver].
    apply ttext_inj in H as [E2 H]; [|apply Hm|apply Hn|by apply mtext_ends..].
    cbn [fmap list_fmap]. f_equal; [|by apply IH]. unfold full in *. cbn [mnt] in E1. congruence.
Qed.
(** the key tells the mounts *)
Lemma mounts_tell ms ns : Forall plain_mount ms → Forall plain_mount ns → mounts_key ms = mounts_key ns → same_mounts ms ns.
Proof.
  intros Hm Hn H. unfold mounts_key in H. rewrite !mtext_concat in H. apply mtext_inj in H.
  - unfold same_mounts. rewrite <-(merge_sort_Permutation mount_le ms), <-(merge_sort_Permutation mount_le ns), H. done.
  - by rewrite merge_sort_Permutation.
  - by rewrite merge_sort_Permutation.
Qed.
(** and the other way round *)
Lemma full_mnt m : mnt m ≠ "" → mnt (full m) = mnt m.
Proof. intros H. unfold full. cbn. by destruct (decide _). Qed.
Lemma mount_key_again m : mount_key (full m) = mount_key m.
Proof.
  rewrite !mount_key_full. f_equal.
  - unfold full. cbn [mnt]. destruct (decide (mnt m = "")); destruct (decide _); try done.
  - f_equal. unfold full. cbn [targets]. induction (targets m) as [|t l IH]; [done|]. cbn [fmap list_fmap ttext]. rewrite IH. f_equal.
    rewrite !target_key_full. unfold full_target. cbn [profile tpath]. destruct (decide (profile t = "")); destruct (decide _); done.
Qed.
Lemma mounts_key_again ms : Forall (λ m, mnt m ≠ "") ms → NoDup (mnt <$> ms) → mounts_key (full <$> ms) = mounts_key ms.
Proof.
  intros Hne Hnd. unfold mounts_key. f_equal.
  assert (Hf : ∀ l, Forall (λ m, mnt m ≠ "") l → mnt <$> (full <$> l) = mnt <$> l).
  { intros l Hl. rewrite <-list_fmap_compose. induction Hl as [|m l Hm _ IH]; [done|]. cbn [fmap list_fmap compose]. by rewrite full_mnt, IH. }
  assert (Es : merge_sort mount_le (full <$> ms) = full <$> merge_sort mount_le ms).
  { apply sorted_unique_mounts.
    - apply (StronglySorted_merge_sort mount_le).
    - assert (Hs := StronglySorted_merge_sort mount_le ms).
      assert (Hl : Forall (λ m, mnt m ≠ "") (merge_sort mount_le ms)) by by rewrite merge_sort_Permutation.
      induction Hs as [|a l Hs IH Ha]; [constructor|]. apply Forall_cons in Hl as [Hal Hl]. cbn [fmap list_fmap]. constructor; [auto|].
      apply Forall_fmap. rewrite Forall_forall in *. intros b Hb. unfold mount_le, compose. rewrite !full_mnt by auto. by apply Ha.
    - rewrite merge_sort_Permutation, Hf; done.
    - by rewrite !merge_sort_Permutation. }
  rewrite Es, <-list_fmap_compose. apply list_fmap_ext. intros. apply mount_key_again.
Qed.
Lemma full_nodup ms : Forall (λ m, mnt m ≠ "") ms → mnt <$> (full <$> ms) = mnt <$> ms.
Proof. intros Hl. rewrite <-list_fmap_compose. induction Hl as [|m l Hm _ IH]; [done|]. cbn [fmap list_fmap compose]. by rewrite full_mnt, IH. Qed.
Lemma mounts_told ms ns : Forall (λ m, mnt m ≠ "") ms → Forall (λ m, mnt m ≠ "") ns → NoDup (mnt <$> ms) →
  same_mounts ms ns → mounts_key ms = mounts_key ns.
Proof.
  intros Hm Hn Hd H. unfold same_mounts in H.
  assert (Hd' : NoDup (mnt <$> ns)). { rewrite <-(full_nodup ns Hn), <-H, full_nodup; done. }
  rewrite <-(mounts_key_again ms), <-(mounts_key_again ns) by done. apply mounts_key_perm; [done|]. by rewrite full_nodup.
Qed.
