(** What the picking of flavors is claimed to do, in terms of the flavors and the regular
    expressions only. *)
From Coq Require Import ZArith String.
From stdpp Require Import base option strings list.
From Verif Require Import CloudModel FlavorModel.
Open Scope Z_scope.

(** cheaper or as cheap: fewer cores, then less memory, then less disk *)
Definition le_cost (f g : vflavor) : Prop :=
  v_cores f < v_cores g ∨
  v_cores f = v_cores g ∧ (v_ram f < v_ram g ∨ v_ram f = v_ram g ∧ v_disk f ≤ v_disk g).
(** one of the cheapest of those of which [P] holds *)
Definition cheapest (P : vflavor → Prop) (fl : list vflavor) (f : vflavor) : Prop :=
  f ∈ fl ∧ P f ∧ ∀ g, g ∈ fl → P g → le_cost f g.
Definition big_enough (cores ram : Z) (f : vflavor) : Prop := cores ≤ v_cores f ∧ ram ≤ v_ram f.

Section with_regexps.
Variable comp : string → option (string → bool).
(** the expression can be compiled; the name matches it (every name the empty one) *)
Definition valid (s : string) : Prop := s = ""%string ∨ is_Some (comp s).
Definition named (s name : string) : Prop := s = ""%string ∨ ∃ m, comp s = Some m ∧ m name = true.
(** flavors that may be used for a set *)
Definition usable (cores ram : Z) (regex : string) (set : list string) (f : vflavor) : Prop :=
  big_enough cores ram f ∧ named regex (v_name f) ∧ ∃ s, s ∈ set ∧ named s (v_name f).
(** names of sets that say something *)
Definition proper (sets : list (list string)) : Prop :=
  ∀ set, set ∈ sets → set ≠ [] ∧ ∀ s, s ∈ set → s ≠ ""%string ∧ is_Some (comp s).
(** flavors that may be used at all: any that matches if there are no sets *)
Definition allowed (o : ocfg) (f : vflavor) : Prop :=
  named (o_regex o) (v_name f) ∧
  (o_sets o = [] ∨ ∃ set s, set ∈ o_sets o ∧ s ∈ set ∧ named s (v_name f)).
(** the flavor of which a pass over the sets is to be made: for every set one of its
    cheapest flavors, or none if it has none that can be used *)
Definition picks (o : ocfg) (cores ram : Z) (fl : list vflavor) (ms : list (option vflavor)) : Prop :=
  match o_sets o with
  | [] => ∃ f, ms = [Some f] ∧ cheapest (λ f, big_enough cores ram f ∧ named (o_regex o) (v_name f)) fl f
  | sets => Forall2 (λ set m, match m with
                              | Some f => cheapest (usable cores ram (o_regex o) set) fl f
                              | None => ∀ g, g ∈ fl → ¬ usable cores ram (o_regex o) set g
                              end) sets ms
  end.
End with_regexps.

(** [f] is the pick of the first set whose pick has not failed; if all picks have failed,
    that of the first set that has one *)
Definition first_choice (failed : string → bool) (ms : list (option vflavor)) (f : vflavor) : Prop :=
  (∃ i, ms !! i = Some (Some f) ∧ failed (v_id f) = false ∧
        ∀ j g, (j < i)%nat → ms !! j = Some (Some g) → failed (v_id g) = true) ∨
  (∃ i, ms !! i = Some (Some f) ∧ (∀ j g, (j < i)%nat → ms !! j ≠ Some (Some g)) ∧
        ∀ j g, ms !! j = Some (Some g) → failed (v_id g) = true).

(** a flavor on which the job of requirements [q] can run: its cores and memory and those
    of the operating system, and for [q_flavor q] it must be that one *)
Definition can_run_on (o : ocfg) (q : reqs) (f : vflavor) : Prop :=
  q_cores q ≤ 1000 * v_cores f ∧ q_ram q ≤ v_ram f ∧
  (match q_os_ram q with Some (Some i) => i | _ => o_osram o end) ≤ v_ram f ∧
  match q_flavor q with Some name => v_id f = name ∨ v_name f = name | None => True end.
(** a server of it is within what there is at most *)
Definition within_maxima (o : ocfg) (f : vflavor) : Prop := v_cores f ≤ m_cores o ∧ v_ram f ≤ m_ram o.
(** different flavors have different IDs (they are the keys of a map) and cores and memory *)
Definition flavors_ok (fl : list vflavor) : Prop :=
  NoDup (map v_id fl) ∧ ∀ f, f ∈ fl → 0 < v_cores f ∧ 0 < v_ram f ∧ 0 ≤ v_disk f.
