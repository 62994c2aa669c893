(** Model of cloud/server.go: how much of a server is used, how much more fits, and the
    destruction of a server that is idle, with the goroutines involved interleaved at the
    server's mutex and its cancelDestruction channel.

    Simplifications: cores are whole numbers of thousandths and computed with exactly
    (the functions of the math package, which is not part of the repository, are taken to
    compare, add and subtract); ssh, scripts and the cloud provider are left out, so that
    Destroy is one step up to where it sets destroyed. *)
From Coq Require Import ZArith.
From stdpp Require Import base option list.
From RecordUpdate Require Import RecordSet.
Import RecordSetNotations.
Open Scope Z_scope.

(** what a command needs: thousandths of cores, MB, GB *)
Record need := Need { n_cores : Z; n_ram : Z; n_disk : Z }.
(** cloud/server.go:66-72 Flavor: whole cores, MB, GB *)
Record flavor := Flavor { f_cores : Z; f_ram : Z; f_disk : Z }.
(** internal/utils.go:49 *)
Definition ZeroCoreMultiplier : Z := 2.
(** server.go:93-106, 491-504: no more than memory and disk allow *)
Definition at_most (can ram disk : Z) (n : need) : Z :=
  if 1 <? can then
    let can := if 0 <? n_ram n then if Z.quot ram (n_ram n) <? can then Z.quot ram (n_ram n) else can else can in
    if 0 <? n_disk n then if Z.quot disk (n_disk n) <? can then Z.quot disk (n_disk n) else can else can
  else can.
(** server.go:78-108 Flavor.HasSpaceFor *)
Definition flavor_space (f : flavor) (n : need) : Z :=
  if (1000 * f_cores f <? n_cores n) || (f_ram f <? n_ram n) || (f_disk f <? n_disk n) then 0
  else
    let can := if n_cores n =? 0 then f_cores f * ZeroCoreMultiplier else (1000 * f_cores f) / n_cores n in
    at_most can (f_ram f) (f_disk f) n.

(** Where a goroutine is. *)
Inductive phase :=
| GNew               (* started by Release, 396-399 *)
| GWait (c : nat)    (* on death row, waiting for the channel or the time, 415-420 *)
| GCancel            (* has received, about to lock, 431 *)
| GDrain (n : nat)   (* holding the mutex, that many more to receive, 432-434 *)
| GTime              (* its time has come, about to lock, 443 *)
| DNew               (* about to lock in Destroy, 1273 *)
| DSend (c : nat)    (* holding the mutex, sending to cancel the countdown, 1281 *)
| SNew               (* started by Allocate, about to read the channel, 355-357 *)
| SSend (c : nat)    (* sending on it *)
| GEnd.

(** server.go:111-153, the fields used here: the flavor, the disk, whether TTD is
    positive; what is used; destruction; the mutex, and the number of the channel in
    cancelDestruction (that of the next one is one more). *)
Record cserver := CServer {
  flav : flavor; cdisk : Z; ttd : bool;
  usedCores : Z; usedZeroCores : Z; usedRAM : Z; usedDisk : Z;
  onDeathrow : bool; cancels : nat; toBeDestroyed : bool; destroyed : bool;
  locked : bool; chan : nat; gor : list phase }.
Global Instance eta_cserver : Settable _ :=
  settable! CServer <flav; cdisk; ttd; usedCores; usedZeroCores; usedRAM; usedDisk;
                     onDeathrow; cancels; toBeDestroyed; destroyed; locked; chan; gor>.
(** a server of that flavor, as Spawn makes it *)
Definition c_new (f : flavor) (disk : Z) (t : bool) : cserver :=
  CServer f disk t 0 0 0 0 false 0 false false false 0 [].

(** server.go:466-506 checkSpace *)
Definition check_space (n : need) (s : cserver) : Z :=
  if destroyed s then 0
  else if (1000 * f_cores (flav s) - usedCores s <? n_cores n) || (f_ram (flav s) - usedRAM s <? n_ram n) || (cdisk s - usedDisk s <? n_disk n) then 0
  else
    let can :=
      if n_cores n =? 0 then
        if f_cores (flav s) =? 0 then ZeroCoreMultiplier * ZeroCoreMultiplier - usedZeroCores s
        else f_cores (flav s) * ZeroCoreMultiplier - usedZeroCores s
      else (1000 * f_cores (flav s) - usedCores s) / n_cores n in
    at_most can (f_ram (flav s) - usedRAM s) (cdisk s - usedDisk s) n.
(** server.go:329-360 Allocate *)
Definition allocate (n : need) (s : cserver) : cserver * bool :=
  if check_space n s =? 0 then (s, false)
  else
    let s := if n_cores n =? 0 then s <| usedZeroCores ::= λ z, z + 1 |> else s <| usedCores ::= λ c, c + n_cores n |> in
    let s := s <| usedRAM ::= λ r, r + n_ram n |> <| usedDisk ::= λ d, d + n_disk n |> in
    let s := if onDeathrow s then s <| cancels ::= S |> <| gor ::= λ g, g ++ [SNew] |> else s in
    (s, true).
(** server.go:380-396 Release, up to starting the goroutine *)
Definition release (n : need) (s : cserver) : cserver :=
  let s := if n_cores n =? 0 then s <| usedZeroCores ::= λ z, z - 1 |> else s <| usedCores ::= λ c, c - n_cores n |> in
  let s := s <| usedRAM ::= λ r, r - n_ram n |> <| usedDisk ::= λ d, d - n_disk n |> in
  if (usedCores s <=? 0) && (usedZeroCores s <=? 0) && (usedRAM s <=? 0) && ttd s then s <| gor ::= λ g, g ++ [GNew] |>
  else s.

Inductive clabel :=
| LAllocate (n : need)   (* a call of Allocate has the mutex *)
| LRelease (n : need)
| LDestroy               (* a call of Destroy *)
| LGo (i : nat)          (* the next step of a goroutine *)
| LTimer (i : nat)       (* 442: the time is up and this is what is selected *)
| LRecv (i j : nat).     (* [i] receives from [j] *)

Definition at_phase (i : nat) (p : phase) (s : cserver) : cserver := s <| gor ::= <[i := p]> |>.
(** 435-439: the countdown is over *)
Definition cancelled (s : cserver) : cserver := s <| cancels := 0%nat |> <| onDeathrow := false |> <| locked := false |>.
(** 1289-1290 *)
Definition dead (s : cserver) : cserver := s <| toBeDestroyed := false |> <| destroyed := true |> <| locked := false |>.

(** One step; None: not enabled. *)
Definition cstep (s : cserver) (l : clabel) : option cserver :=
  match l with
  | LAllocate n => if locked s then None else Some (allocate n s).1
  | LRelease n => if locked s then None else Some (release n s)
  | LDestroy => Some (s <| gor ::= λ g, g ++ [DNew] |>)
  | LGo i =>
      p ← gor s !! i;
      match p with
      | GNew => (* 401-413 *)
          if locked s then None
          else if onDeathrow s then Some (at_phase i GEnd s)
          else if (0 <? usedCores s) || (0 <? usedRAM s) then Some (at_phase i GEnd s)
          else Some (at_phase i (GWait (S (chan s))) s <| chan ::= S |> <| onDeathrow := true |>)
      | GCancel => (* 431-440 *)
          if locked s then None
          else match cancels s with
               | S (S n) => Some (at_phase i (GDrain (S n)) s <| locked := true |>)
               | _ => Some (cancelled (at_phase i GEnd s))
               end
      | GTime => (* 443-447 *)
          if locked s then None else Some (at_phase i DNew s <| onDeathrow := false |> <| toBeDestroyed := true |>)
      | DNew => (* 1273-1290 *)
          if locked s then None
          else if destroyed s then Some (at_phase i GEnd s)
          else if onDeathrow s then Some (at_phase i (DSend (chan s)) s <| locked := true |>)
          else Some (dead (at_phase i GEnd s))
      | SNew => Some (at_phase i (SSend (chan s)) s)
      | _ => None
      end
  | LTimer i => match gor s !! i with Some (GWait _) => Some (at_phase i GTime s) | _ => None end
  | LRecv i j =>
      p ← gor s !! i; q ← gor s !! j;
      let c := match q with SSend c | DSend c => Some c | _ => None end in
      c ← c;
      let sent := λ s, match q with DSend _ => dead (at_phase j GEnd s) | _ => at_phase j GEnd s end in
      match p with
      | GWait c' => if decide (c' = c) then Some (sent (at_phase i GCancel s)) else None
      | GDrain n =>
          if decide (chan s = c) then
            match n with
            | S (S n) => Some (sent (at_phase i (GDrain (S n)) s))
            | _ => Some (sent (cancelled (at_phase i GEnd s)))
            end
          else None
      | _ => None
      end
  end.
(** A schedule *)
Fixpoint crun (s : cserver) (ls : list clabel) : option cserver :=
  match ls with
  | [] => Some s
  | l :: ls => s ← cstep s l; crun s ls
  end.
