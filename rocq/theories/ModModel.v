(** Model of the modification of jobs: jobqueue/serverCLI.go "jmod", jobqueue/job.go
    JobModifier.Modify and jobqueue/db.go modifyLiveJobs, on the server of
    ServerModel.v.

    Simplifications: a request is one step (the server is paused meanwhile,
    PauseModel.v); of the values that can be set, those are modelled that
    ServerModel.v keeps, and the new key; limit groups come sorted and without limits
    in their names (see DedupSortStrings and splitSuffixedLimitGroup in UtilModel.v);
    reading and writing the database does not fail. *)
From Coq Require Import ZArith String.
From stdpp Require Import base option strings gmap list.
From RecordUpdate Require Import RecordSet.
From Verif Require Import GoHeap QueueModel ServerModel.
Import RecordSetNotations.
Open Scope Z_scope.

(** jobqueue/job.go:1038-1082 JobModifier: the values to set, nil where none is. What the
    new command, cwd, mounts and containers make of the key of a job is a function of
    the key, as the key stands for what it is computed from (job.go:857-880). *)
Record modifier := Mod {
  m_key : key → key;
  m_prio : option N;
  m_retries : option N;
  m_limits : option (list string);
  m_groups : option (list string);
  m_deps : option (list dependency);
}.
(** job.go:1307-1418 the new values *)
Definition mod_job (m : modifier) (j : job) : job :=
  Job (m_key m (jkey j)) (default (jretries j) (m_retries m)) (juntil j) (jreserved j) (jstart j) (jend j)
    (jexited j) (jexit j) (jkilled j) (jlost j) (jst j) (jattempts j) (default (jprio j) (m_prio m))
    (default (jlimits j) (m_limits m)) (jsched j) (jincr j) (default (jdepgroups j) (m_groups m))
    (default (jdeps j) (m_deps m)).
(** jobqueue/server.go:2386-2400 checkJobByKey: queued or complete *)
Definition known_job (s : sstate) (k : key) : bool :=
  bool_decide (is_Some (items (sq s) !! k)) || bool_decide (is_Some (complete (sdb s) !! k)).
(** job.go:1257-1423 Modify: the jobs modified in place, and the map from new to old
    keys, as a list *)
Fixpoint modify (m : modifier) (known : key → bool) (ps : list N) (done : list (key * key)) (js : gmap N job)
  : gmap N job * list (key * key) :=
  match ps with
  | [] => (js, done)
  | p :: ps =>
      match js !! p with
      | None => modify m known ps done js
      | Some j =>
          let before := jkey j in
          let new := m_key m before in
          if bool_decide (new ∈ done.*1) then modify m known ps done js
          else if bool_decide (new ≠ before) && known new then modify m known ps done js
          else modify m known ps (done ++ [(new, before)]) (<[p := mod_job m j]> js)
      end
  end.

(** serverCLI.go:541-556 changed keys in the queue; failures are only logged *)
Definition change_keys (changes : list (key * key)) (s : sstate) : option sstate :=
  fold_left (λ s '(new, old), s ← s; if bool_decide (old = new) then Some s
                              else '(s, _) ← qdo (OChangeKey old new) s; Some s) changes (Some s).

(** db.go:1195-1318 modifyLiveJobs: one transaction. The lookups of rep groups and the
    stored std output are left out. *)
Definition db_modify (olds : list key) (js : list job) (d : db) : db :=
  let '(stored, _, _, _) := prepare js false d in
  let d' := d <| live ::= λ m, foldr delete m olds |>
              <| dtk ::= filter (λ gk, gk.2 ∉ olds) |> <| rdtk ::= filter (λ gk, gk.2 ∉ olds) |> in
  db_store stored (new_dtk js) (new_rdtk js) d'.

(** serverCLI.go:570-583 the new dependencies and priorities in the queue; failures are
    only logged *)
Definition requeue (now : Z) (ps : list N) (s : sstate) : option sstate :=
  fold_left (λ s p,
    s ← s; j ← sjobs s !! p;
    '(s, _) ← qdo (OUpdate now (jkey j) (jsched j) p (jprio j) 0 item_ttr (Some (incomplete_keys (sdb s) j))) s;
    Some s) ps (Some s).

(** serverCLI.go:470-601 "jmod", with the map from new to old keys that is answered.
    [ord1] and [ord2] are the orders in which that map is gone through. *)
Definition s_modify (now : Z) (m : modifier) (ks : list key) (ord1 ord2 : list (key * key) → list (key * key)) (s : sstate)
  : option (sstate * list (key * key)) :=
  let ps := omap (λ k, '(it, p, _) ← find_job k s; if decide (ist it = SRun) then None else Some p) ks in
  let '(js, modified) := modify m (known_job s) ps [] (sjobs s) in
  let chosen := omap (λ '(new, old), '(_, p, _) ← find_job old s; if decide (p ∈ ps) then Some (p, old) else None) (ord1 modified) in
  let s := s <| sjobs := js |> in
  s ← change_keys (ord2 modified) s;
  let js := omap (λ '(p, _), sjobs s !! p) chosen in
  let s := match chosen with [] => s | _ => s <| sdb ::= db_modify chosen.*2 js |> end in
  s ← match m_prio m, m_deps m with
      | None, None => Some s
      | _, _ => requeue now chosen.*1 s
      end;
  Some (s, modified).
