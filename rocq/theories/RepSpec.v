(** What the lookups by rep group should give, in terms of the requests made. *)
From Coq Require Import ZArith String Ascii.
From stdpp Require Import base option strings gmap list sorting.
From Verif Require Import UtilModel LearnModel RepModel.
Open Scope Z_scope.

(** Keys are what byteKey makes. *)
Definition is_key (k : string) : Prop := ∃ l h : N, (l < 2 ^ 64)%N ∧ (h < 2 ^ 64)%N ∧ k = byte_key (l, h).
(** Every key a request brings is one. *)
Definition keyed (r : rreq) : Prop :=
  match r with
  | RAdd _ jobs _ => ∀ kj, kj ∈ jobs → is_key kj.1
  | RModify _ new => is_key new
  | _ => True
  end.

(** ** Which jobs were added under which rep groups *)
(** Pairs of a rep group and a key. An add notes its jobs, but with [ignore] not those that
    are live or complete, and nothing if a rep group is longer than can be stored with a key.
    A modification moves the notes of the old key: they go, and the job's present rep group
    is noted with the new key. *)
Definition notes (st : rstate) (P : gset (string * string)) (r : rreq) : gset (string * string) :=
  match r with
  | RAdd i jobs _ =>
      let new := if i then List.filter (λ kj, bool_decide (live st !! kj.1 = None ∧ comp st !! kj.1 = None)) jobs else jobs in
      if forallb (λ kj, bool_decide (String.length (j_rg kj.2) + 36 ≤ 2 ^ 15)%nat) new
      then P ∪ list_to_set ((λ kj, (j_rg kj.2, kj.1)) <$> new) else P
  | RModify o n =>
      match items st !! o with
      | Some j =>
          if bool_decide (o = n ∨ items st !! n = None) && bool_decide (0 < String.length (j_rg j) ∧ String.length (j_rg j) + 36 ≤ 2 ^ 15)%nat
          then {[(j_rg j, n)]} ∪ filter (λ p, p.2 ≠ o) P else P
      | None => P
      end
  | _ => P
  end.
Fixpoint noted (h : list rreq) (st : rstate) (P : gset (string * string)) : gset (string * string) :=
  match h with [] => P | r :: h' => noted h' (rstep st r) (notes st P r) end.

(** ** When jobs of rep groups completed *)
Definition completions (st : rstate) (L : list (string * Z)) (r : rreq) : list (string * Z) :=
  match r with
  | RArchive k _ e =>
      match items st !! k with
      | Some j => if bool_decide (0 < String.length (j_rg j) ≤ 2 ^ 15)%nat then (j_rg j, e) :: L else L
      | None => L
      end
  | _ => L
  end.
Fixpoint completed (h : list rreq) (st : rstate) (L : list (string * Z)) : list (string * Z) :=
  match h with [] => L | r :: h' => completed h' (rstep st r) (completions st L r) end.

(** ** Kinds of histories *)
(** a condition on each request and the state it meets *)
Fixpoint along (C : rstate → rreq → Prop) (h : list rreq) (st : rstate) : Prop :=
  match h with [] => True | r :: h' => C st r ∧ along C h' (rstep st r) end.
(** not blank, and short enough to be stored with a key *)
Definition ordinary (rg : string) : Prop := (0 < String.length rg ∧ String.length rg + 36 ≤ 2 ^ 15)%nat.
Definition ordinary_req (st : rstate) (r : rreq) : Prop :=
  keyed r ∧ match r with RAdd _ jobs _ => ∀ kj, kj ∈ jobs → ordinary (j_rg kj.2) | _ => True end.
(** No add both ignores jobs that were added before and brings complete dependants back. *)
Definition not_both (st : rstate) (r : rreq) : Prop :=
  match r with
  | RAdd true _ deps => ∀ k, k ∈ deps → comp st !! k = None ∨ is_Some (live st !! k)
  | _ => True
  end.
(** No job that has completed before is modified. *)
Definition fresh_mods (st : rstate) (r : rreq) : Prop :=
  match r with RModify o _ => comp st !! o = None | _ => True end.
(** No job is added under another rep group while it is in the queue. *)
Definition same_groups (st : rstate) (r : rreq) : Prop :=
  match r with
  | RAdd _ jobs _ => ∀ k j, (k, j) ∈ jobs →
      (∀ j', items st !! k = Some j' → j_rg j' = j_rg j) ∧ (∀ j', (k, j') ∈ jobs → j_rg j' = j_rg j)
  | _ => True
  end.

(** ** The kinds of matches *)
Definition matching (job_rg rg : string) (m : rmatch) : Prop :=
  match m with
  | MExact => job_rg = rg
  | MSub => ∃ a b, job_rg = a +:+ rg +:+ b
  | MPrefix => ∃ b, job_rg = rg +:+ b
  | MSuffix => ∃ a, job_rg = a +:+ rg
  end.
