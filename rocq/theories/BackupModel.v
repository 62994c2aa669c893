(** Model of the backups of the database: jobqueue/db.go backgroundBackup, backupToBackupFile
    and close, with all that may run at the same time, and the choice between database and
    backup in initDB.

    Simplifications: the database is its number of changes so far; a change is one step. A
    backup file is whole, with the number of changes in it, or still being written. The
    waiting for running transactions (db.wg) takes no step, as changes are single steps.
    Uploads to S3 replace the object at once or not at all, by the contract of S3. Times
    are in seconds. *)
From Coq Require Import ZArith.
From stdpp Require Import base option list.
From RecordUpdate Require Import RecordSet.
Import RecordSetNotations.
Open Scope Z_scope.

(** db.go:111-112 the content of the files at backupPath and backupPathTmp *)
Inductive bfile := Part | Whole (v : nat).
(** db.go:1638-1689 where a goroutine of backgroundBackup is: before the wait (1641), before
    the copy (1660), copying the given state (1708), before the move (1724), before it
    takes the lock (1664) *)
Inductive bpc := BWait | BCopy | BCopying (v : nat) | BPut | BEnd.
(** db.go:1638, 1689 one such goroutine: its arguments last+wait (None: last is zero) and
    doNotWait, and 1660 start *)
Record bgo := Bgo { g_pc : bpc; g_until : option Z; g_nowait : bool; g_start : Z }.
(** db.go:1572-1616 where close() is: not called, waiting for the notification (1584), past
    it (1597), in the final backup, before bolt.Close (1603), after it *)
Inductive cpc := CIdle | CNotif | CCheck | CCopy | CCopying (v : nat) | CPut | CShut | CDone.
(** db.go:105-130 the fields for backups, with the goroutines: [gap]: those that have
    unlocked at 1684 and are to call backgroundBackup; [notifying]: those at 1678 *)
Record bdb := Bdb {
  changes : nat; tmp : option bfile; bk : option bfile; now : Z;
  closed : bool; backing_up : bool; final : bool; queued : bool; enabled : bool; s3 : bool; stopped : bool;
  last : option Z; wait : Z; gos : list bgo; gap : nat; notifying : nat; closer : cpc }.
#[export] Instance eta_bgo : Settable _ := settable! Bgo <g_pc; g_until; g_nowait; g_start>.
#[export] Instance eta_bdb : Settable _ := settable! Bdb
  <changes; tmp; bk; now; closed; backing_up; final; queued; enabled; s3; stopped; last; wait; gos; gap; notifying; closer>.

(** db.go:57 minimumTimeBetweenBackups *)
Definition min_wait : Z := 30.
(** db.go:345-360 initDB, the new database with a backup file that may be there *)
Definition new_db (v : nat) (on is_s3 : bool) (old : option nat) : bdb :=
  Bdb v None (Whole <$> old) 0 false false false false on is_s3 false None min_wait [] 0 0 CIdle.

(** db.go:1625-1690 backgroundBackup up to starting the goroutine *)
Definition background (s : bdb) : bdb :=
  if closed s || negb (enabled s) then s
  else if backing_up s then s <| queued := true |>
  else s <| backing_up := true |>
         <| gos ::= λ l, l ++ [Bgo BWait ((λ t, t + wait s) <$> last s) (final s) 0] |>.
(** db.go:1664-1688 the end of a goroutine's backup; the list is without it *)
Definition finish (g : bgo) (s : bdb) : bdb :=
  let s := s <| backing_up := false |> <| last := Some (now s) |>
             <| wait ::= λ w, if bool_decide (now s - g_start g > min_wait) then now s - g_start g else w |> in
  if final s then s <| final := false |> <| stopped := false |> <| notifying ::= S |>
  else if queued s then s <| queued := false |> <| gap ::= S |>
  else s.
(** db.go:1705-1747 the end of backupToBackupFile: the move or upload, which may fail *)
Definition put (ok : bool) (s : bdb) : bdb :=
  match tmp s with
  | Some f => if s3 s then (if ok then s <| bk := Some f |> else s) <| tmp := None |>
              else if ok then s <| bk := Some f |> <| tmp := None |> else s
  | None => s
  end.

(** What may happen. EChange: a transaction commits; ERequest: some caller, after its
    changes, calls backgroundBackup (db.go:544, 762, 783, 1181, 1317); ETick: time passes;
    the steps of the [i]th goroutine; EGap: a goroutine at 1685; the steps of close(). *)
Inductive bevent :=
| EChange | ERequest | ETick (dt : Z)
| EGo (i : nat) | ECopied (i : nat) (ok : bool) | EPut (i : nat) (ok : bool) | EEnd (i : nat) | EGap
| EClose | ENotify | ECheck | ECStart | ECCopied (ok : bool) | ECPut (ok : bool) | EShut.
(** db.go:1640-1662, changes the [i]th goroutine *)
Definition set_go (i : nat) (g : bgo) (s : bdb) : bdb := s <| gos ::= <[i := g]> |>.
(** db.go:1572-1690 one step; None: it cannot be made now *)
Definition bstep (s : bdb) (e : bevent) : option bdb :=
  match e with
  | EChange => match closer s with CDone => None | _ => Some (s <| changes ::= S |>) end
  | ERequest => Some (background s)
  | ETick dt => if bool_decide (0 ≤ dt) then Some (s <| now ::= λ t, t + dt |>) else None
  | EGo i =>
      g ← gos s !! i;
      match g_pc g with
      | BWait => (* 1640-1653 *)
          if g_nowait g || stopped s || match g_until g with None => true | Some t => bool_decide (t ≤ now s) end
          then Some (set_go i (g <| g_pc := BCopy |> <| g_start := now s |>) s) else None
      | BCopy => (* 1708-1710: the copy begins *) Some (set_go i (g <| g_pc := BCopying (changes s) |>) s <| tmp := Some Part |>)
      | _ => None
      end
  | ECopied i ok =>
      g ← gos s !! i;
      match g_pc g with
      | BCopying v => if ok : bool then Some (set_go i (g <| g_pc := BPut |>) s <| tmp := Some (Whole v) |>)
                      else (* 1716-1723 *) Some (set_go i (g <| g_pc := BEnd |>) s <| tmp := None |>)
      | _ => None
      end
  | EPut i ok => g ← gos s !! i; match g_pc g with BPut => Some (put ok (set_go i (g <| g_pc := BEnd |>) s)) | _ => None end
  | EEnd i => g ← gos s !! i; match g_pc g with BEnd => Some (finish g (s <| gos ::= delete i |>)) | _ => None end
  | EGap => match gap s with O => None | S n => Some (background (s <| gap := n |>)) end
  | EClose => (* 1573-1583, 1590: once *)
      if closed s then None
      else if backing_up s then Some (s <| closed := true |> <| final := true |> <| stopped := true |> <| closer := CNotif |>)
      else Some (s <| closed := true |> <| closer := CCheck |>)
  | ENotify => match closer s, notifying s with CNotif, S n => Some (s <| notifying := n |> <| closer := CCheck |>) | _, _ => None end
  | ECheck => (* 1598 *) match closer s with CCheck => Some (s <| closer := if enabled s && queued s then CCopy else CShut |>) | _ => None end
  | ECStart => match closer s with CCopy => Some (s <| closer := CCopying (changes s) |> <| tmp := Some Part |>) | _ => None end
  | ECCopied ok => match closer s with
                   | CCopying v => if ok : bool then Some (s <| closer := CPut |> <| tmp := Some (Whole v) |>) else Some (s <| closer := CShut |> <| tmp := None |>)
                   | _ => None end
  | ECPut ok => match closer s with CPut => Some (put ok (s <| closer := CShut |>)) | _ => None end
  | EShut => match closer s with CShut => Some (s <| closer := CDone |>) | _ => None end
  end.
(** db.go:1572-1690 any interleaving *)
Fixpoint bsteps (s : bdb) (es : list bevent) : option bdb :=
  match es with [] => Some s | e :: es => s' ← bstep s e; bsteps s' es end.

(** ** Opening: db.go:143-280 initDB *)
(** a database file or backup: not there, not one that bolt can open, or one with changes *)
Inductive disk := Missing | Bad | Good (v : nat).
(** db.go:201-271 the result of bolt.Open (None: error), and the files after it; [dl]: a
    download from S3 works; [cp]: copying works. S3 objects have no copy at the same path on
    the local disk (219). With [dev] the files are removed first (197-212). *)
Definition init_db (dev is_s3 dl cp : bool) (db bkup : disk) : option nat * disk * disk :=
  let '(db, bkup) := if dev then (Missing, Missing) else (db, bkup) in
  let open_ d := match d with Good v => Some v | Missing => Some O | Bad => None end in
  let db := (* 187-193 *)
    if is_s3 && negb dev then match db, bkup with Missing, Bad | Missing, Good _ => if dl then bkup else db | _, _ => db end else db in
  match db with
  | Missing => (* 218-227 *)
      match (if is_s3 then Missing else bkup) with
      | Missing => (Some O, Good 0, bkup)
      | b => if cp then (open_ b, b, bkup) else (None, Bad, bkup)
      end
  | Good v => (Some v, db, bkup)
  | Bad => (* 229-270 *)
      if is_s3 && negb dl then (None, db, bkup)
      else match bkup with
           | Good v => if cp then (Some v, Good v, bkup) else (None, Bad, bkup)
           | _ => (None, db, bkup)
           end
  end.
