(** What the theorems on backups speak of. *)
From Coq Require Import ZArith.
From stdpp Require Import base option list.
From Verif Require Import BackupModel.
Open Scope Z_scope.

(** The backup file is whole and has at least the first [v] changes. *)
Definition backed_up (v : nat) (s : bdb) : Prop := ∃ w, bk s = Some (Whole w) ∧ (v ≤ w)%nat.
(** No backup is running or to come. *)
Definition quiet (s : bdb) : Prop := gos s = [] ∧ gap s = O ∧ queued s = false.
(** No copy, move or upload fails. *)
Definition works (es : list bevent) : Prop := ∀ e, e ∈ es → match e with ECopied _ ok | EPut _ ok | ECCopied ok | ECPut ok => ok = true | _ => True end.
(** A database opened with a backup that is no newer. *)
Definition opened (s : bdb) : Prop := ∃ v on is_s3 old, s = new_db v on is_s3 old ∧ (match old with Some w => w ≤ v | None => True end)%nat.
(** The steps that are not for users of the database or the clock. *)
Definition own (e : bevent) : bool := match e with EChange | ERequest | ETick _ | EClose => false | _ => true end.
(** How many goroutines, close() included, are writing the temporary file. *)
Definition writers (s : bdb) : nat :=
  (length (List.filter (λ g, match g_pc g with BCopying _ | BPut => true | _ => false end) (gos s)) + match closer s with CCopying _ | CPut => 1 | _ => 0 end)%nat.
(** What a new start finds of a backup file. *)
Definition on_disk (b : option bfile) : disk := match b with None => Missing | Some Part => Bad | Some (Whole v) => Good v end.
