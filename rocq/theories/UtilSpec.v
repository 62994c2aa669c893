(** What the statements about the helpers speak of. *)
From Coq Require Import ZArith String Ascii.
From stdpp Require Import base option strings gmap list sorting.
From Verif Require Import UtilModel.

Notation chars := String.list_ascii_of_string (only parsing).

(** ** Environments *)
(** [e] is an entry for the variable [n]: "n=value", or just "n" *)
Definition named (n e : string) : Prop := "="%char ∉ chars n ∧ (e = n ∨ ∃ v, e = (n ++ "=" ++ v)%string).
(** there is one entry at most for each variable *)
Definition uniquely_named (env : list string) : Prop :=
  ∀ i j n x y, env !! i = Some x → env !! j = Some y → named n x → named n y → i = j.
(** [e] is the last entry for [n] in [l] *)
Definition last_for (n e : string) (l : list string) : Prop :=
  named n e ∧ ∃ before after, l = before ++ e :: after ∧ ∀ x, x ∈ after → ¬ named n x.
(** the order in which a range loop meets a map's values is some order *)
Definition some_order (order : gmap string string → list string) : Prop := ∀ m, order m ≡ₚ (map_to_list m).*2.
(** the environment a job starts from: the one stored for it, or the process' own *)
Definition base_env (os : list string) (j : jobenv) : list string :=
  match envc j with None => if retrieved j then os else [] | Some [] => os | Some env => env end.

(** ** Job identity *)
(** the working directory, if it matters *)
Definition cwd_of (j : jobkey) : option string := if kcwdmatters j then Some (kcwd j) else None.
(** the container image, if any: whether docker's, and its name *)
Definition image_of (j : jobkey) : option (bool * string) :=
  if decide (kdocker j = "") then if decide (ksingularity j = "") then None else Some (false, ksingularity j)
  else Some (true, kdocker j).
(** the mounts of the container, if there is one *)
Definition cmounts_of (j : jobkey) : option string := if decide (image_of j = None) then None else Some (kcmounts j).
Definition nodot (s : string) : Prop := "."%char ∉ chars s.
Definition injective (hash : string → string) : Prop := ∀ a b, hash a = hash b → a = b.
(** a mount with its defaults put in (mount.go:35-38, 68-71, 172-184) *)
Definition full_target (t : target) : target :=
  Target (if decide (profile t = "") then "default" else profile t)%string (tpath t).
Definition full (m : mount) : mount :=
  Mount (if decide (mnt m = "") then "mnt" else mnt m)%string (full_target <$> targets m).
(** the same mounts, in whatever order *)
Definition same_mounts (ms ns : list mount) : Prop := full <$> ms ≡ₚ full <$> ns.
(** none of the characters the key puts between the parts is in them *)
Definition lacks (bad : list ascii) (s : string) : Prop := ∀ c, c ∈ bad → c ∉ chars s.
Definition plain_target (t : target) : Prop := lacks [":"; ";"; "-"]%char (profile t) ∧ lacks [":"; ";"]%char (tpath t).
Definition plain_mount (m : mount) : Prop := lacks [":"; ";"]%char (mnt m) ∧ Forall plain_target (targets m).
