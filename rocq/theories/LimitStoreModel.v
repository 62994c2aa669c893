(** Model of the limits of limit groups as the server keeps them: in the database (jobqueue/db.go
    storeLimitGroups, retrieveLimitGroup) and in the limiter, whose model is LimiterModel.v.

    Simplifications: int64 and uint64 values are unbounded integers; names are parsed by
    LimitNameModel.v, which keeps limits within int64. A batch of bolt keeps all or, on an
    error, nothing (db.go:371). The order of ranging over a map of groups does not matter to
    the outcome; here it is that of map_to_list. *)
From Coq Require Import ZArith String.
From stdpp Require Import base option strings gmap list.
From RecordUpdate Require Import RecordSet.
From Verif Require Import LimiterModel LimitNameModel.
Import RecordSetNotations.
Open Scope Z_scope.

(** db.go:372 the bucket bucketLGs, and server.go:710 the limiter *)
Record lsrv := LSrv { lgs : gmap string Z; mem : lstate }.
#[export] Instance eta_lsrv : Settable _ := settable! LSrv <lgs; mem>.
(** a new server with an empty database *)
Definition srv0 : lsrv := LSrv ∅ l_new.

(** group.go:222-228 Limit *)
Definition limit_num (d : gdata) : Z := if is_count d then dlimit d else 2 ^ 63 - 1.
(** db.go:420-431 retrieveLimitGroup *)
Definition retrieve (local : zone) (m : gmap string Z) (name : string) : option gdata :=
  let stored := match m !! name with None => new_count (-1) | Some n => new_count n end in
  match (name_to_group local name).2 with
  | Some d => if is_valid (Some d) && negb (is_count d) then Some d else Some stored
  | None => Some stored
  end.
(** server.go:710: the limiter's callback *)
Definition srv_cb (local : zone) (m : gmap string Z) : callback := λ _, retrieve local m.

(** bolt's Bucket.Put (db.go:406) takes keys of 1 to 32768 bytes *)
Definition lg_storable (k : string) : bool := negb (Nat.eqb (String.length k) 0) && Nat.leb (String.length k) (Nat.pow 2 15).
(** db.go:374-410: the bucket, and the changed and removed groups; None: an error *)
Fixpoint db_store (m : gmap string Z) (l : list (string * gdata)) : option (gmap string Z * list string * list string) :=
  match l with
  | [] => Some (m, [], [])
  | (g, d) :: l =>
      if negb (is_count d) then '(m', c, r) ← db_store m l; Some (m', c, g :: r)
      else
        let n := limit_num d in
        match m !! g with
        | Some v =>
            if n <? 0 then '(m', c, r) ← db_store (delete g m) l; Some (m', c, g :: r)
            else if v =? n then db_store m l
            else if lg_storable g then '(m', c, r) ← db_store (<[g := n]> m) l; Some (m', g :: c, r)
            else None
        | None =>
            if n <? 0 then db_store m l
            else if lg_storable g then db_store (<[g := n]> m) l else None
        end
  end.
(** server.go:1972-1974 with the limiter's SetLimit *)
Definition set_changed (ds : gmap string gdata) (lm : lstate) (g : string) : lstate :=
  match ds !! g with Some d => (lstep lm (LSetLimit g d)).1 | None => lm end.
(** server.go:1975-1977, 3073-3075 *)
Definition remove_limit (lm : lstate) (g : string) : lstate := (lstep lm (LRemoveLimit g)).1.
(** server.go:1967-1979 storeLimitGroups; with whether it succeeded *)
Definition srv_store (ds : gmap string gdata) (s : lsrv) : lsrv * bool :=
  match db_store (lgs s) (map_to_list ds) with
  | None => (s, false)
  | Some (m, c, r) => (LSrv m (fold_left remove_limit r (fold_left (set_changed ds) c (mem s))), true)
  end.
(** server.go:1949-1956 the limits of the groups given, the last counts; what becomes of
    the names is in LimitShareModel.v *)
Definition collect (local : zone) (raws : list string) : gmap string gdata :=
  fold_left (λ m s, match name_to_group local s with (n, Some d) => <[n := d]> m | _ => m end) raws ∅.
(** server.go:3060-3083 getSetLimitGroup, and serverCLI.go:706-717: the reply; None: an error *)
Definition get_set (local : zone) (group : string) (s : lsrv) : lsrv * option Z :=
  if String.eqb group EmptyString then (s, None) else
  match name_to_group local group with
  | (name, Some d) =>
      match db_store (lgs s) [(name, d)] with
      | None => (s, None)
      | Some (m, _, r) =>
          let lm := if is_valid (Some d) then (lstep (mem s) (LSetLimit name d)).1 else mem s in
          (LSrv m (fold_left remove_limit r lm), Some (limit_num d))
      end
  | (name, None) =>
      match lstep (mem s) (LGetLimit (srv_cb local (lgs s)) name) with
      | (lm, RData d) => (s <| mem := lm |>, Some (limit_num d))
      | (lm, _) => (s <| mem := lm |>, None)
      end
  end.

(** What happens to the limits. QAdd: jobs with the given limit groups are added or modified
    (server.go:1885-1894, serverCLI.go:530-538); QGetSet: serverCLI.go:706; QLimits: 719;
    QTry: server.go:785 and serverCLI.go:906, the latter waiting, then QWake or QGiveUp;
    QDone: serverCLI.go:917 and job.go decrementLimitGroups; QCapacity: server.go:1490;
    QRestart: the manager starts with the same database, server.go:710. *)
Inductive lreq :=
| QAdd (raws : list string) | QGetSet (group : string) | QLimits
| QTry (clk : nat → clock) (names : list string) (wait : bool) | QWake (clk : nat → clock) (ch : nat) | QGiveUp (ch : nat)
| QDone (names : list string) | QCapacity (clk : nat → clock) (names : list string) | QRestart.
(** the replies *)
Inductive lreply := PStored (ok : bool) | PLimit (n : option Z) | PLim (r : lres) | PStarted.
(** the limiter's methods, called with the database as callback: server.go:710 *)
Definition on_lim (o : lop) (s : lsrv) : lsrv * lreply := let '(lm, r) := lstep (mem s) o in (s <| mem := lm |>, PLim r).
(** one of them *)
Definition lreq_step (local : zone) (s : lsrv) (r : lreq) : lsrv * lreply :=
  let cb := srv_cb local (lgs s) in
  match r with
  | QAdd raws => let '(s', ok) := srv_store (collect local raws) s in (s', PStored ok)
  | QGetSet g => let '(s', n) := get_set local g s in (s', PLimit n)
  | QLimits => on_lim LGetLimits s
  | QTry clk names wait => on_lim (LIncrement cb clk names wait) s
  | QWake clk ch => on_lim (LWake cb clk ch) s
  | QGiveUp ch => on_lim (LGiveUp ch) s
  | QDone names => on_lim (LDecrement names) s
  | QCapacity clk names => on_lim (LCapacity cb clk names) s
  | QRestart => (s <| mem := l_new |>, PStarted)
  end.
(** a history, by any number of clients *)
Fixpoint lreq_run (local : zone) (s : lsrv) (h : list lreq) : lsrv * list lreply :=
  match h with
  | [] => (s, [])
  | r :: h => let '(s, p) := lreq_step local s r in let '(s, ps) := lreq_run local s h in (s, p :: ps)
  end.
