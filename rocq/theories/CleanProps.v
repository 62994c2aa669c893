(** C42: cleaning up working directories. *)
From Coq Require Import String.
From stdpp Require Import base option strings gmap list.
From Verif Require Import CleanModel CleanSpec CleanProofs.

(** a disk for the cases: a job's work space in /home/w with two mounts, m and a/b *)
Definition sp : path := ["home"; "w"; "ab"; "j1"].
Definition at_cwd (rel : path) : path := sp ++ ["cwd"] ++ rel.
Definition disk : files := list_to_map (
  ((λ p, (p, KDir)) <$> [[]; ["home"]; ["home"; "w"]; ["home"; "w"; "ab"]; sp; at_cwd []; at_cwd ["m"]; at_cwd ["m"; "d"]; at_cwd ["a"]; at_cwd ["a"; "b"]; at_cwd ["a"; "c"]; sp ++ [".muxfys1"]; sp ++ ["tmp"]]) ++
  ((λ p, (p, KFile)) <$> [at_cwd ["out"]; at_cwd ["m"; "f"]; at_cwd ["m"; "d"; "g"]; at_cwd ["a"; "x"]; at_cwd ["a"; "b"; "y"]; at_cwd ["a"; "c"; "z"]; sp ++ [".muxfys1"; "k"]; sp ++ ["tmp"; "t"]; ["home"; "w"; "mine"]])).
Definition disk_check (fs : files) : bool := forallb (λ qk, forallb (λ i, bool_decide (fs !! take i qk.1 = Some KDir)) (seq 0 (length qk.1))) (map_to_list fs).
Lemma disk_check_ok fs : disk_check fs = true → disk_ok fs.
Proof.
  intros H p q Hi [k Hq]. apply inside_inv in Hi as (r & Hr & ->). unfold disk_check in H. rewrite forallb_forall in H.
  specialize (H (p ++ r, k)). cbn in H. rewrite forallb_forall in H.
  assert (Hin : In (p ++ r, k) (map_to_list fs)) by (by apply elem_of_list_In, elem_of_map_to_list).
  specialize (H Hin (length p)). rewrite take_app in H. rewrite bool_decide_eq_true in H. apply H. apply in_seq. rewrite app_length. destruct r; cbn; [done|lia].
Qed.
Lemma disk_is_ok : disk_ok disk. Proof. apply disk_check_ok. vm_compute. reflexivity. Qed.

(** ** removeAllExcept: what is excepted, inside it or on the way to it stays; the rest goes.
    Missing for the full claim: an exception that is a file, or lies outside; both are refuted below. *)
Theorem C42_remove_all_except_partial : ∀ rd fs top es n,
  reads rd → disk_ok fs → fs !! top = Some KDir → Forall plain es → Forall (λ e, (length e < n)%nat) es → (0 < n)%nat →
  ∃ fs', remove_all_except n rd fs top es = (fs', ODone) ∧
    ∀ q, (¬ inside top q → fs' !! q = fs !! q) ∧
         (inside top q → kept fs top es q → fs' !! q = fs !! q) ∧
         (inside top q → ¬ kept fs top es q → fs' !! q = None).
Proof. exact remove_all_except_ok. Qed.
Print Assumptions C42_remove_all_except_partial.
Example C42_remove_all_except_partial_case : reads list_dir ∧ disk_ok disk ∧ disk !! at_cwd [] = Some KDir ∧ Forall plain [["m"]; ["a"; "b"]] ∧
  let fs' := (remove_all_except 3 list_dir disk (at_cwd []) [["m"]; ["a"; "b"]]).1 in
  fs' !! at_cwd ["m"; "d"; "g"] = Some KFile ∧ fs' !! at_cwd ["a"] = Some KDir ∧ fs' !! at_cwd ["a"; "b"; "y"] = Some KFile ∧
  fs' !! at_cwd ["a"; "x"] = None ∧ fs' !! at_cwd ["a"; "c"; "z"] = None ∧ fs' !! at_cwd ["out"] = None ∧ fs' !! (sp ++ ["tmp"; "t"]) = Some KFile.
Proof.
  split; [apply list_dir_reads|]. split; [apply disk_is_ok|]. split; [by vm_compute|]. split; [|vm_compute; by repeat split].
  repeat constructor; try done; apply (bool_decide_unpack _); by vm_compute.
Qed.
(** an exception that is not inside the directory is never got over: the loop over its
    parents does not end, however many rounds there are *)
Theorem C42_outside_never_ends_refuted : ∃ top es, ∀ n rd fs, remove_all_except n rd fs top es = (fs, OSteps).
Proof.
  exists (at_cwd []), [["."]]. intros n rd fs. unfold remove_all_except.
  rewrite (except_dirs_never n (at_cwd []) [["."]] ["."]); [done|done|by left|]. cbn. by intros [_ H].
Qed.
Print Assumptions C42_outside_never_ends_refuted.
(** so it is for every exception such as . or ../x *)
Theorem C42_outside_never_ends : ∀ rd fs top es e n, top ≠ [] → e ∈ es → ¬ inside top (join top e) →
  remove_all_except n rd fs top es = (fs, OSteps).
Proof. intros rd fs top es e n Ht He Hi. unfold remove_all_except. by rewrite (except_dirs_never n top es e). Qed.
Print Assumptions C42_outside_never_ends.
Example C42_outside_never_ends_case : join (at_cwd []) [".."; "data"] = sp ++ ["data"] ∧ ¬ inside (at_cwd []) (sp ++ ["data"]).
Proof. split; [by vm_compute|]. apply (bool_decide_unpack _). by vm_compute. Qed.
(** an excepted file is not kept *)
Theorem C42_excepted_file_refuted : ∃ fs top e, disk_ok fs ∧ fs !! (top ++ e) = Some KFile ∧ plain e ∧
  (remove_all_except 3 list_dir fs top [e]).1 !! (top ++ e) = None.
Proof.
  exists disk, (at_cwd []), ["out"]. split; [apply disk_is_ok|]. split; [by vm_compute|]. split; [|by vm_compute].
  split; [done|]. repeat constructor. apply (bool_decide_unpack _). by vm_compute.
Qed.
Print Assumptions C42_excepted_file_refuted.

(** ** rmEmptyDirs: only empty directories go, from the leaf up to below the base, and all
    that are empty then *)
Theorem C42_rm_empty_dirs : ∀ fs leaf base fs' o,
  inside base leaf → disk_ok fs → (∀ q, q `prefix_of` leaf → fs !! q ≠ Some KFile) → rm_empty_dirs fs leaf (Some base) = (fs', o) →
  o = ODone ∧
  (∀ q, fs' !! q = fs !! q ∨ (fs !! q = Some KDir ∧ fs' !! q = None ∧ inside base q ∧ q `prefix_of` leaf ∧ ∀ r, inside q r → fs' !! r = None)) ∧
  (∀ q, inside base q → q `prefix_of` leaf → fs !! dirname leaf = Some KDir → is_Some (fs' !! q) → ∃ r, inside q r ∧ is_Some (fs' !! r)).
Proof.
  intros fs leaf base fs' o Hb Hok Hnf H. destruct (rm_empty_final _ _ _ _ _ Hb Hok Hnf H) as [-> H1].
  destruct (rm_empty_ok _ _ _ _ _ Hb Hok Hnf H) as (_ & _ & _ & _ & H2). done.
Qed.
Print Assumptions C42_rm_empty_dirs.
Definition disk2 : files := list_to_map ((λ p, (p, KDir)) <$> [[]; ["home"]; ["home"; "w"]; ["home"; "w"; "ab"]; sp]).
Example C42_rm_empty_dirs_case : disk_ok disk2 ∧ inside ["home"; "w"] sp ∧ rm_empty_dirs disk2 sp (Some ["home"; "w"]) =
  (delete ["home"; "w"; "ab"] (delete sp disk2), ODone) ∧ rm_empty_dirs disk sp (Some ["home"; "w"]) = (disk, ODone).
Proof.
  split; [apply disk_check_ok; vm_compute; reflexivity|]. split; [apply (bool_decide_unpack _); by vm_compute|].
  split; (apply pair_equal_spec; split; [apply (bool_decide_unpack _); by vm_compute|by vm_compute]).
Qed.
(** a base directory not written cleanly, such as with a slash at its end, is removed too *)
Theorem C42_unclean_base_refuted : ∃ fs leaf base, inside base leaf ∧ disk_ok fs ∧ fs !! base = Some KDir ∧ (rm_empty_dirs fs leaf None).1 !! base = None.
Proof.
  exists disk2, sp, ["home"; "w"]. split; [apply (bool_decide_unpack _); by vm_compute|]. split; [apply disk_check_ok; vm_compute; reflexivity|]. split; by vm_compute.
Qed.
Print Assumptions C42_unclean_base_refuted.

(** ** The clean-up of a job: mounts and their caches stay, the rest of its work space
    goes, and outside it only directories that are then empty, up to its Cwd *)
Theorem C42_cleanup : ∀ rd fs space base ms n,
  reads rd → disk_ok fs → inside base space → fs !! (space ++ ["cwd"]) = Some KDir → (0 < n)%nat →
  MNone ∈ ms ∨ (Forall plain (relative ms) ∧ Forall (λ e, (length e < n)%nat) (relative ms)) →
  ∃ fs', cleanup n rd fs (space ++ ["cwd"]) (Some base) ms = (fs', ODone) ∧
    (∀ q, inside space q → stays fs space ms q → fs' !! q = fs !! q) ∧
    (∀ q, inside space q → ¬ stays fs space ms q → fs' !! q = None) ∧
    (∀ q, ¬ inside space q → fs' !! q = fs !! q ∨
        (fs !! q = Some KDir ∧ fs' !! q = None ∧ inside base q ∧ q `prefix_of` space ∧ ∀ r, inside q r → fs' !! r = None)).
Proof. exact cleanup_ok. Qed.
Print Assumptions C42_cleanup.
Example C42_cleanup_case : inside ["home"; "w"] sp ∧ disk !! (sp ++ ["cwd"]) = Some KDir ∧
  Forall plain (relative [MRel ["m"]; MAbs ["mnt"]; MRel ["a"; "b"]]) ∧
  let fs' := (cleanup 3 list_dir disk (sp ++ ["cwd"]) (Some ["home"; "w"]) [MRel ["m"]; MAbs ["mnt"]; MRel ["a"; "b"]]).1 in
  fs' !! at_cwd ["a"; "b"; "y"] = Some KFile ∧ fs' !! at_cwd ["out"] = None ∧ fs' !! (sp ++ [".muxfys1"; "k"]) = Some KFile ∧ fs' !! (sp ++ ["tmp"]) = None ∧
  let fs2 := (cleanup 3 list_dir disk (sp ++ ["cwd"]) (Some ["home"; "w"]) []).1 in
  fs2 !! ["home"; "w"; "ab"] = None ∧ fs2 !! ["home"; "w"] = Some KDir ∧ fs2 !! ["home"; "w"; "mine"] = Some KFile.
Proof.
  split; [apply (bool_decide_unpack _); by vm_compute|]. split; [by vm_compute|]. split; [|vm_compute; by repeat split].
  repeat constructor; try done; apply (bool_decide_unpack _); by vm_compute.
Qed.
