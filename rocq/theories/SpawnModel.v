(** Model of the creation of servers by the OpenStack scheduler
    (jobqueue/scheduler/openstack.go 625-710, 855-1050, 1218-1250) and of what of the quota
    is taken to be used meanwhile, with the goroutines that create servers interleaved with
    each other and with passes over the queue.

    Simplifications: one spawnMultiple is one step (it holds spawnMutex, and resourceMutex
    while it looks at the quota), in which the cloud is seen as it is at that moment; what
    others use of the quota does not change; the minimum disk of images (cloud/openstack.go:
    788-790) is left out; what is done with a server between its creation and its being
    ready is one step that works or fails. *)
From Coq Require Import ZArith String.
From stdpp Require Import base option strings list gmap.
From RecordUpdate Require Import RecordSet.
From Verif Require Import CloudModel FlavorModel.
Import RecordSetNotations.
Open Scope Z_scope.

(** Where the goroutine started at openstack.go:692 is. *)
Inductive sphase :=
| PNew         (* started, 692 *)
| PReserved    (* has reserved its share of the quota, 866-873 *)
| PRequested   (* has asked for the server, cloud/openstack.go:857 *)
| PEnded       (* spawn has returned, 695 *)
| PGone.       (* has been taken off spawningNow, 698-702 *)
Global Instance sphase_eq : EqDecision sphase.
Proof. solve_decision. Defined.
(** One such goroutine: its arguments (692-695), whether the quota it reserved is still
    counted as reserved, whether usingQuotaCB (882-891) is about to be called, and whether
    its server exists. *)
Record spawning := Spawning { g_cmd : string; g_flav : vflavor; g_disk : Z;
  g_phase : sphase; g_held : bool; g_cb : bool; g_exists : bool }.
Global Instance eta_spawning : Settable _ :=
  settable! Spawning <g_cmd; g_flav; g_disk; g_phase; g_held; g_cb; g_exists>.
(** openstack.go:60-100 opst: spawningNow, the reserved amounts, spawnedServers and servers
    (without the local machine), servers named by the number of their goroutine. *)
Record osys := OSys { y_spawns : list spawning; y_now : gmap string Z; y_res : quota;
  y_spawned : list nat; y_servers : list nat }.
Global Instance eta_osys : Settable _ := settable! OSys <y_spawns; y_now; y_res; y_spawned; y_servers>.
(** openstack.go:336-341: after initialize *)
Definition y_init : osys := OSys [] ∅ (Quota 0 0 0 0) [] [].

(** what a server of the flavor takes of the quota: 860, 867-872 *)
Definition share (f : vflavor) (disk : Z) : quota :=
  Quota 1 (v_cores f) (v_ram f) (if v_disk f <? disk then disk else 0).
(** amounts added and taken off: 867-872, 884-889 *)
Definition qadd (a b : quota) : quota :=
  Quota (k_inst a + k_inst b) (k_cores a + k_cores b) (k_ram a + k_ram b) (k_vol a + k_vol b).
Definition qsub (a b : quota) : quota :=
  Quota (k_inst a - k_inst b) (k_cores a - k_cores b) (k_ram a - k_ram b) (k_vol a - k_vol b).
(** cloud/openstack.go:739-768: what is used of the quota, all servers counted *)
Fixpoint used (others : quota) (l : list spawning) : quota :=
  match l with
  | [] => others
  | g :: l => if g_exists g then qadd (share (g_flav g) (g_disk g)) (used others l) else used others l
  end.

Inductive slabel :=
| YSpawn (cmd : string) (desired : Z) (q : reqs) (failed : string → bool) (order : nat → list vflavor)
| YReserve (i : nat)
| YEarly (i : nat)              (* Spawn returns an error before it asks for the server *)
| YCreate (i : nat) (ok : bool) (* the server is asked for *)
| YCallback (i : nat)
| YReady (i : nat) (ok : bool)  (* the server is ready, or failed and has been destroyed *)
| YEnd (i : nat)
| YUpdate                       (* stateUpdate *)
| YDestroy (i : nat).           (* a server is destroyed *)

Section spawns.
Variable comp : string → option (string → bool).
Variable o : ocfg.
Variables k others : quota.

(** change the i-th goroutine if it is as [p] says *)
Definition at_spawn (i : nat) (p : spawning → bool) (f : spawning → spawning) (s : osys) : option osys :=
  match y_spawns s !! i with
  | Some g => if p g then Some (s <| y_spawns ::= λ l, <[i := f g]> l |>) else None
  | None => None
  end.
(** not destroyed *)
Definition there (s : osys) (i : nat) : bool :=
  match y_spawns s !! i with Some g => g_exists g | None => false end.
(** where a goroutine is *)
Definition in_phase (p : sphase) (g : spawning) : bool := bool_decide (g_phase g = p).
(** one step *)
Definition ystep (s : osys) (l : slabel) : option osys :=
  match l with
  | YSpawn cmd desired q failed order =>
      let total := map_fold (λ _ n a, n + a) 0 (y_now s) in      (* 630-637 *)
      let mine := default 0 (y_now s !! cmd) in
      match to_spawn comp o failed order q desired total mine k (used others (y_spawns s)) (y_res s)
              (1 + Z.of_nat (length (y_servers s))) with
      | None => Some s
      | Some (n, f) =>                                           (* 690-692 *)
          let g := Spawning cmd f (q_disk (reqForSpawn o q)) PNew false false false in
          Some (s <| y_spawns ::= λ l, l ++ replicate (Z.to_nat n) g |>
                  <| y_now ::= λ m, if 0 <? n then <[cmd := mine + n]> m else m |>)
      end
  | YReserve i =>                                                (* 864-874 *)
      match y_spawns s !! i with
      | Some g => at_spawn i (in_phase PNew) (λ g, g <| g_phase := PReserved |> <| g_held := true |>)
                    (s <| y_res ::= λ r, qadd r (share (g_flav g) (g_disk g)) |>)
      | None => None
      end
  | YEarly i =>   (* cloud.go:683-686, cloud/openstack.go:776-784; openstack.go:1028-1032 *)
      at_spawn i (in_phase PReserved) (λ g, g <| g_phase := PEnded |>) s
  | YCreate i ok =>                                              (* cloud/openstack.go:827-857 *)
      at_spawn i (in_phase PReserved) (λ g, g <| g_phase := PRequested |> <| g_cb := true |> <| g_exists := ok |>) s
  | YCallback i =>                                               (* cloud.go:689-695, openstack.go:882-891 *)
      match y_spawns s !! i with
      | Some g => at_spawn i g_cb (λ g, g <| g_cb := false |> <| g_held := false |>)
                    (s <| y_res ::= λ r, qsub r (share (g_flav g) (g_disk g)) |>)
      | None => None
      end
  | YReady i ok =>                                               (* cloud/openstack.go:859-950, openstack.go:915-1048 *)
      match y_spawns s !! i with
      | Some g => at_spawn i (in_phase PRequested) (λ g, g <| g_phase := PEnded |> <| g_exists ::= andb ok |>)
                    (if ok && g_exists g then s <| y_spawned ::= λ l, l ++ [i] |> else s)
      | None => None
      end
  | YEnd i =>                                                    (* 697-702 *)
      match y_spawns s !! i with
      | Some g => at_spawn i (in_phase PEnded) (λ g, g <| g_phase := PGone |>)
                    (s <| y_now ::= λ m, let n := default 0 (m !! g_cmd g) - 1 in
                                         if n <=? 0 then delete (g_cmd g) m else <[g_cmd g := n]> m |>)
      | None => None
      end
  | YUpdate =>                                                   (* 1229-1249 *)
      Some (s <| y_servers ::= λ l, filter (λ i, there s i = true) (l ++ y_spawned s) |>
              <| y_spawned := [] |>)
  | YDestroy i =>                                                (* cloud/server.go:1271 Destroy *)
      at_spawn i (λ g, match g_phase g with PEnded | PGone => g_exists g | _ => false end)
        (λ g, g <| g_exists := false |>) s
  end.
Fixpoint yrun (s : osys) (ls : list slabel) : option osys :=
  match ls with
  | [] => Some s
  | l :: ls => match ystep s l with Some s' => yrun s' ls | None => None end
  end.
End spawns.
