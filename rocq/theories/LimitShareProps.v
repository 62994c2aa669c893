(** The properties about the lists of limit groups that jobs are given. *)
From Coq Require Import ZArith Lia String Ascii Sorting.Sorted.
From stdpp Require Import base option strings gmap list sorting.
From Verif Require Import LimiterModel LimitNameModel LimitNameSpec LimitNameProofs UtilModel UtilProofs
  LimitStoreModel LimitStoreProofs LimitShareModel LimitShareProofs.
Open Scope nat_scope.
Open Scope string_scope.

(** C89: every job ends up in exactly the groups it was given, without limits, in order and
    without duplicates, even if jobs share the slice they were given. *)
Theorem C89_names local h sls sls' h' lg i sl sl' raws :
  Forall (λ sl, ∃ raws, h !! sl.1 = Some raws ∧ sl.2 = length raws) sls → handle_all local h ∅ sls = (sls', h', lg) →
  sls !! i = Some sl → sls' !! i = Some sl' → h !! sl.1 = Some raws →
  StronglySorted (λ a b, String.compare a b = Lt) (read h' sl') ∧
  ∀ x, x ∈ read h' sl' ↔ ∃ raw, raw ∈ raws ∧ x = (name_to_group local raw).1.
Proof. exact (all_names local h sls sls' h' lg i sl sl' raws). Qed.
Print Assumptions C89_names.
(** The limits stored are the last specified, of all jobs in order, if no two jobs share a
    slice. Missing: shared ones (see below). *)
Theorem C89_last_limits_partial local h sls sls' h' lg :
  Forall (λ sl, ∃ raws, h !! sl.1 = Some raws ∧ sl.2 = length raws) sls → NoDup sls.*1 → handle_all local h ∅ sls = (sls', h', lg) →
  lg = collect local (concat ((λ sl, default [] (h !! sl.1)) <$> sls)).
Proof. intros H1 H2 H3. apply (all_limits local h h ∅ sls sls' h' lg (going_refl local h) H1 H2); done. Qed.
Print Assumptions C89_last_limits_partial.
(** Three jobs, two of them with the default groups c, b:1, a, b:2 and the other with b:5. *)
Definition sh_zone : zone := λ _, 0%Z.
Definition sh_h : heap := <[0 := ["c"; "b:1"; "a"; "b:2"]]> (<[1 := ["b:5"]]> ∅).
Example C89_case : Forall (λ sl, ∃ raws, sh_h !! sl.1 = Some raws ∧ sl.2 = length raws) [(0, 4); (1, 1); (0, 4)] ∧
  let '(sls', h', lg) := handle_all sh_zone sh_h ∅ [(0, 4); (1, 1); (0, 4)] in
  (read h' <$> sls') = [["a"; "b"; "c"]; ["b"]; ["a"; "b"; "c"]].
Proof.
  split; [|by vm_compute].
  constructor; [by exists ["c"; "b:1"; "a"; "b:2"]|]. constructor; [by exists ["b:5"]|]. constructor; [by exists ["c"; "b:1"; "a"; "b:2"]|]. constructor.
Qed.
Example C89_last_case : NoDup [(0, 4); (1, 1)].*1 ∧ (handle_all sh_zone sh_h ∅ [(0, 4); (1, 1)]).2 !! "b" = Some (GData MCount 5 0).
Proof. split; [apply (bool_decide_unpack _); by vm_compute|by vm_compute]. Qed.
(** The last job asks for a limit of 1, as the first did, whose slice it shares; the limit
    becomes 5. *)
Theorem C89_last_limit_refuted : ∃ local h sls sls' h' lg, handle_all local h ∅ sls = (sls', h', lg) ∧
  Forall (λ sl, ∃ raws, h !! sl.1 = Some raws ∧ sl.2 = length raws) sls ∧
  collect local (concat ((λ sl, default [] (h !! sl.1)) <$> sls)) !! "b" = Some (GData MCount 1 0) ∧ lg !! "b" = Some (GData MCount 5 0).
Proof.
  exists sh_zone, (<[0 := ["b:1"]]> (<[1 := ["b:5"]]> ∅)), [(0, 1); (1, 1); (0, 1)]. eexists _, _, _. split; [reflexivity|]. split; [|split; by vm_compute].
  constructor; [by exists ["b:1"]|]. constructor; [by exists ["b:5"]|]. constructor; [by exists ["b:1"]|]. constructor.
Qed.
Print Assumptions C89_last_limit_refuted.
