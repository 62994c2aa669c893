(** What cleaning up is to keep. *)
From Coq Require Import String.
From stdpp Require Import base option strings gmap list.
From Verif Require Import CleanModel.

(** a disk: whatever is in something is in a directory *)
Definition disk_ok (fs : files) : Prop := ∀ p q, inside p q → is_Some (fs !! q) → fs !! p = Some KDir.
(** a reading of directories: the entries of a directory with their kinds, each once *)
Definition reads (rd : readdir) : Prop := ∀ fs p, fs !! p = Some KDir →
  NoDup (rd fs p) ∧ ∀ x k, (x, k) ∈ rd fs p ↔ fs !! (p ++ [x]) = Some k.
(** an exception as one would write it: at least one part, no empty part, [.] or [..] *)
Definition plain (e : path) : Prop := e ≠ [] ∧ Forall (λ x, x ∉ ["" ; "."; ".."]) e.
(** [q], inside [top], is to be kept: it is an excepted directory, it is inside one, or
    it is a directory on the way to one *)
Definition kept (fs : files) (top : path) (es : list path) (q : path) : Prop :=
  ∃ e, e ∈ es ∧ ((top ++ e `prefix_of` q ∧ fs !! (top ++ e) = Some KDir) ∨ (fs !! q = Some KDir ∧ inside q (top ++ e))).
(** a reading of directories, for the cases *)
Definition list_dir : readdir := λ fs p,
  omap (λ qk : path * kind, match last qk.1 with Some x => if bool_decide (qk.1 = p ++ [x]) then Some (x, qk.2) else None | None => None end) (map_to_list fs).
(** the relative mounts *)
Definition relative (ms : list mount) : list path := omap (λ m, match m with MRel p => Some p | _ => None end) ms.
(** Inside a work space with a "cwd" and mounts there stays: cache directories; everything
    in cwd, if something is mounted there; cwd, relative mount points, what is inside them
    and on the way to them, if there are relative mounts. Without mounts nothing stays. *)
Definition stays (fs : files) (space : path) (ms : list mount) (q : path) : Prop :=
  ms ≠ [] ∧
  ((∃ x, String.prefix ".muxfys" x = true ∧ space ++ [x] `prefix_of` q) ∨
   (space ++ ["cwd"] `prefix_of` q ∧
    (MNone ∈ ms ∨ (relative ms ≠ [] ∧ (q = space ++ ["cwd"] ∨ kept fs (space ++ ["cwd"]) (relative ms) q))))).
