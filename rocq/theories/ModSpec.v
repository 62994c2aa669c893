(** What C58 speaks of: the modification of jobs. *)
From Coq Require Import ZArith String.
From stdpp Require Import base option strings gmap list.
From Verif Require Import GoHeap QueueModel ServerModel ServerSpec ModModel.
Open Scope Z_scope.

(** [j'] is [j] under the key [new] with the values of [m]; everything else is as it was. *)
Definition with_values (m : modifier) (new : key) (j j' : job) : Prop :=
  jkey j' = new ∧
  jretries j' = match m_retries m with Some n => n | None => jretries j end ∧
  jprio j' = match m_prio m with Some n => n | None => jprio j end ∧
  jlimits j' = match m_limits m with Some l => l | None => jlimits j end ∧
  jdepgroups j' = match m_groups m with Some l => l | None => jdepgroups j end ∧
  jdeps j' = match m_deps m with Some l => l | None => jdeps j end ∧
  juntil j' = juntil j ∧ jreserved j' = jreserved j ∧ jstart j' = jstart j ∧ jend j' = jend j ∧
  jexited j' = jexited j ∧ jexit j' = jexit j ∧ jkilled j' = jkilled j ∧ jlost j' = jlost j ∧
  jst j' = jst j ∧ jattempts j' = jattempts j ∧ jsched j' = jsched j ∧ jincr j' = jincr j.
(** What is stored of a job: without the fields that the codec does not see. *)
Definition stored_as (j j' : job) : Prop :=
  jkey j' = jkey j ∧ jretries j' = jretries j ∧ juntil j' = juntil j ∧ jprio j' = jprio j ∧
  jlimits j' = jlimits j ∧ jdepgroups j' = jdepgroups j ∧ jdeps j' = jdeps j ∧ jst j' = jst j ∧
  jattempts j' = jattempts j ∧ jstart j' = jstart j ∧ jend j' = jend j ∧ jexited j' = jexited j ∧ jexit j' = jexit j.
(** The key a job has afterwards: [mp] has the pairs of new and old keys. *)
Fixpoint called (mp : list (key * key)) (k : key) : key :=
  match mp with [] => k | (new, old) :: mp => if decide (old = k) then new else called mp k end.
(** Setting the same values twice is setting them once. *)
Definition settled (m : modifier) : Prop := ∀ k, m_key m (m_key m k) = m_key m k.
(** A Go map is gone through in some order. *)
Definition reorders (f : list (key * key) → list (key * key)) : Prop := ∀ l, f l ≡ₚ l.
(** Neither the priority nor the dependencies are set. *)
Definition no_requeue (m : modifier) : Prop := m_prio m = None ∧ m_deps m = None.

(** What a request to modify the jobs [ks] does to the server. [mp] is what it answers. *)
Record Outcome (m : modifier) (ks : list key) (s s' : sstate) (mp : list (key * key)) : Prop := {
  (** no two jobs end with one key, and no job is answered twice *)
  oc_new : NoDup mp.*1;
  oc_old : NoDup mp.*2;
  (** a job that is answered was asked for, was not running, and now has the new values
      under its new key, in the same state, in memory and on disk; a new key was no
      job's; the old key is gone *)
  oc_mod new old : (new, old) ∈ mp → ∃ st j j', old ∈ ks ∧ seen s old = Some (st, j) ∧ st ≠ SRun ∧ new = m_key m old ∧
    with_values m new j j' ∧ seen s' new = Some (st, j') ∧
    (new ≠ old → seen s new = None ∧ complete (sdb s) !! new = None ∧ seen s' old = None) ∧
    (∃ i, live (sdb s') !! new = Some i ∧ stored_as j' i) ∧
    (new ≠ old → is_Some (live (sdb s) !! old) → live (sdb s') !! old = None);
  (** every other job is as it was *)
  oc_same k : k ∉ mp.*2 → k ∉ mp.*1 → seen s' k = seen s k ∧ (is_Some (live (sdb s) !! k) → live (sdb s') !! k = live (sdb s) !! k);
  (** a job that was asked for and is not running is left out only if another job has,
      or is given, the key it would get *)
  oc_not k st j : k ∈ ks → seen s k = Some (st, j) → st ≠ SRun → k ∉ mp.*2 →
    m_key m k ≠ k ∧ (is_Some (seen s (m_key m k)) ∨ is_Some (complete (sdb s) !! m_key m k) ∨ m_key m k ∈ mp.*1);
  (** jobs that waited for a job that got a new key wait for it under that key *)
  oc_waits k : is_Some (seen s k) → k ∉ waits_for s k → waits_for s' (called mp k) = set_map (called mp) (waits_for s k);
}.

(** A server that serves both kinds of requests; [None] if it panics. *)
Inductive mop := MServe (o : sop) | MModify (now : Z) (m : modifier) (ks : list key).
Fixpoint mrun (s : sstate) (ops : list mop) : option sstate :=
  match ops with
  | [] => Some s
  | MServe o :: ops => match sstep s o with Some (s', _, _) => mrun s' ops | None => None end
  | MModify now m ks :: ops => match s_modify now m ks id id s with Some (s', _) => mrun s' ops | None => None end
  end.
