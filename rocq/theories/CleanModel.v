(** Model of the cleaning up of working directories: jobqueue/utils.go removeAllExcept,
    removeWithExceptions and rmEmptyDirs, jobqueue/behaviours.go cleanup. *)
From Coq Require Import String.
From stdpp Require Import base option strings gmap list.

(** an absolute path as its parts; the root is the empty list *)
Notation path := (list string).
(** os.FileInfo: a directory, or anything else (a symbolic link is not followed) *)
Inductive kind := KFile | KDir.
Global Instance kind_eq_dec : EqDecision kind.
Proof. solve_decision. Defined.
(** what is there on the disk *)
Notation files := (gmap path kind).
(** filepath.Dir of a clean absolute path *)
Definition dirname (p : path) : path := removelast p.
(** filepath.Join of a clean absolute path and a relative one, given by its parts *)
Fixpoint join (p rel : path) : path :=
  match rel with
  | [] => p
  | x :: rel => join (if bool_decide (x = "" ∨ x = ".") then p else if bool_decide (x = "..") then dirname p else p ++ [x]) rel
  end.
(** [q] is inside [p] *)
Definition inside (p q : path) : Prop := p `prefix_of` q ∧ p ≠ q.
Global Instance inside_dec p q : Decision (inside p q).
Proof. unfold inside. apply _. Defined.
(** os.Remove: what it leaves, and why it failed. Only a missing file, something below
    a file, a directory that is not empty and the root are refused; permissions and the
    like are not modelled. *)
Inductive oserr := OOk | ONotExist | ONotEmpty | OOther.
Definition os_remove (fs : files) (p : path) : files * oserr :=
  match p, fs !! p with
  | [], _ => (fs, OOther)
  | _, None => if bool_decide (map_Forall (λ q k, k = KFile → ¬ inside q p) fs) then (fs, ONotExist) else (fs, OOther)
  | _, Some KFile => (delete p fs, OOk)
  | _, Some KDir => if bool_decide (map_Forall (λ q _, ¬ inside p q) fs) then (delete p fs, OOk) else (fs, ONotEmpty)
  end.
(** os.RemoveAll: all that is there or below; never fails here *)
Definition os_remove_all (fs : files) (p : path) : files := filter (λ qk, ¬ p `prefix_of` qk.1) fs.
(** The result of a function that may fail; OSteps: it was not done within the steps given *)
Inductive outcome := ODone | OFailed | OSteps.
(** os.ReadDir is an argument: it gives names and kinds of the entries in some order *)
Notation readdir := (files → path → list (string * kind)).

(** utils.go:558-566: the loop over the parents of one exception, [n] rounds at most *)
Fixpoint climb (n : nat) (top parent : path) : option (gset path) :=
  if bool_decide (parent = top) then Some ∅ else
  match n with O => None | S n => s ← climb n top (dirname parent); Some ({[parent]} ∪ s) end.
(** utils.go:552-567: keepDirs and checkDirs *)
Fixpoint except_dirs (n : nat) (top : path) (es : list path) : option (gset path * gset path) :=
  match es with
  | [] => Some (∅, ∅)
  | e :: es => s ← climb n top (dirname (join top e)); '(keep, check) ← except_dirs n top es; Some ({[join top e]} ∪ keep, s ∪ check)
  end.
(** utils.go:578-600: the loop over the entries of a directory; [rec] is the function itself *)
Fixpoint each_entry (rec : files → path → files * outcome) (keep check : gset path) (p : path) (entries : list (string * kind)) (fs : files) : files * outcome :=
  match entries with
  | [] => (fs, ODone)
  | (x, KFile) :: rest =>
      let '(fs, e) := os_remove fs (p ++ [x]) in
      match e with OOk => each_entry rec keep check p rest fs | _ => (fs, OFailed) end
  | (x, KDir) :: rest =>
      if bool_decide (p ++ [x] ∈ keep) then each_entry rec keep check p rest fs
      else if bool_decide (p ++ [x] ∈ check) then
        let '(fs, e) := rec fs (p ++ [x]) in
        match e with ODone => each_entry rec keep check p rest fs | e => (fs, e) end
      else each_entry rec keep check p rest (os_remove_all fs (p ++ [x]))
  end.
(** utils.go:573-602 removeWithExceptions, to a depth of [n] *)
Fixpoint remove_with (n : nat) (rd : readdir) (keep check : gset path) (fs : files) (p : path) : files * outcome :=
  match n with
  | O => (fs, OSteps)
  | S n => match fs !! p with
           | Some KDir => each_entry (remove_with n rd keep check) keep check p (rd fs p) fs
           | _ => (fs, OFailed)
           end
  end.
(** utils.go:551-570 removeAllExcept *)
Definition remove_all_except (n : nat) (rd : readdir) (fs : files) (p : path) (es : list path) : files * outcome :=
  match except_dirs n p es with
  | Some (keep, check) => remove_with n rd keep check fs p
  | None => (fs, OSteps)
  end.
(** utils.go:536-545: the loop over the parents. A base directory given by a text that is
    not clean (such as one with a slash at its end) is never equal to a parent: None. *)
Fixpoint climb_remove (n : nat) (fs : files) (parent : path) (base : option path) : files :=
  if bool_decide (Some parent = base) then fs else
  match n with
  | O => fs
  | S n => match os_remove fs parent with (fs, OOk) => climb_remove n fs (dirname parent) base | (fs, _) => fs end
  end.
(** utils.go:526-547 rmEmptyDirs. At the root os.Remove fails, so there are no more rounds
    than parts of the path. *)
Definition rm_empty_dirs (fs : files) (leaf : path) (base : option path) : files * outcome :=
  match os_remove fs leaf with
  | (fs, OOk) | (fs, ONotExist) => (climb_remove (S (length leaf)) fs (dirname leaf) base, ODone)
  | (fs, ONotEmpty) => (fs, ODone)
  | (fs, OOther) => (fs, OFailed)
  end.
(** the Mount of a MountConfig: not given, relative (its parts), absolute *)
Inductive mount := MNone | MRel (p : path) | MAbs (p : path).
(** behaviours.go:222-232: keepActualCwd (None) or keepDirs *)
Fixpoint keep_dirs (ms : list mount) : option (list path) :=
  match ms with
  | [] => Some []
  | MNone :: _ => None
  | MRel p :: ms => l ← keep_dirs ms; Some (p :: l)
  | MAbs _ :: ms => keep_dirs ms
  end.
(** behaviours.go:255-262: the entries of the work space, but for cwd and the cache dirs *)
Fixpoint clear_space (space : path) (entries : list (string * kind)) (fs : files) : files :=
  match entries with
  | [] => fs
  | (x, _) :: rest =>
      if bool_decide (x = "cwd") || String.prefix ".muxfys" x then clear_space space rest fs
      else clear_space space rest (os_remove_all fs (space ++ [x]))
  end.
(** behaviours.go:202-272 cleanup of a job with an ActualCwd *)
Definition cleanup (n : nat) (rd : readdir) (fs : files) (actual : path) (base : option path) (ms : list mount) : files * outcome :=
  let space := dirname actual in
  match ms with
  | [] => rm_empty_dirs (os_remove_all fs space) space base
  | _ :: _ =>
      let '(fs, e) := match keep_dirs ms with
                      | None => (fs, ODone)
                      | Some [] => (os_remove_all fs actual, ODone)
                      | Some es => remove_all_except n rd fs actual es
                      end in
      match e with
      | ODone => match fs !! space with
                 | Some KDir => rm_empty_dirs (clear_space space (rd fs space) fs) space base
                 | _ => (fs, OFailed)
                 end
      | e => (fs, e)
      end
  end.
