(** What the creation of servers is claimed to do. *)
From Coq Require Import ZArith String.
From stdpp Require Import base option strings list gmap.
From Verif Require Import CloudModel FlavorModel FlavorSpec SpawnModel.
Open Scope Z_scope.

(** the things there is a quota of *)
Inductive dim := Instances | Cores | Memory | Volume.
Definition at_dim (d : dim) (q : quota) : Z :=
  match d with Instances => k_inst q | Cores => k_cores q | Memory => k_ram q | Volume => k_vol q end.
(** how much of it those creations take together of which [P] holds *)
Fixpoint amount (d : dim) (P : spawning → bool) (l : list spawning) : Z :=
  match l with
  | [] => 0
  | g :: l => (if P g then at_dim d (share (g_flav g) (g_disk g)) else 0) + amount d P l
  end.
(** still at it *)
Definition active (g : spawning) : bool := negb (bool_decide (g_phase g = PGone)).
Definition active_for (cmd : string) (g : spawning) : bool := bool_decide (g_cmd g = cmd) && active g.
Definition unreserved (g : spawning) : bool := bool_decide (g_phase g = PNew).
(** failed before it asked for a server *)
Definition failed_early (s : osys) (g : spawning) : Prop :=
  g_held g = true ∧ g_cb g = false ∧ (g_phase g = PEnded ∨ g_phase g = PGone).
(** the server is there, but not yet known to the scheduler *)
Definition booting (s : osys) : Prop := ∃ i g, y_spawns s !! i = Some g ∧ g_exists g = true ∧ i ∉ y_servers s.

Section runs.
Variable comp : string → option (string → bool).
Variable o : ocfg.
Variables k others : quota.
(** in every state in which a pass creates servers, [P] holds *)
Fixpoint when_spawning (P : osys → Prop) (s : osys) (ls : list slabel) : Prop :=
  match ls with
  | [] => True
  | l :: ls => match l with YSpawn _ _ _ _ _ => P s | _ => True end ∧
               match ystep comp o k others s l with Some s' => when_spawning P s' ls | None => True end
  end.
End runs.
(** the goroutines of earlier passes have all reserved their share *)
Definition reserved_first (s : osys) : Prop := ∀ g, g ∈ y_spawns s → unreserved g = false.
(** besides, all servers are ready and known *)
Definition settled (s : osys) : Prop := reserved_first s ∧ ¬ booting s.

(** labels that make sense: flavors are those of the cloud and as they should be, amounts
    are not negative *)
Definition sane (fl : list vflavor) (l : slabel) : Prop :=
  match l with
  | YSpawn _ desired q _ order =>
      0 ≤ desired ∧ 0 ≤ q_cores q ∧ 0 ≤ q_ram q ∧ 0 ≤ q_disk q ∧ ∀ j, order j ≡ₚ fl
  | _ => True
  end.
(** how many jobs of the requirements a server of the flavor holds, one beside the other *)
Definition holds (f : vflavor) (q : reqs) : Z :=
  flavor_space (Flavor (v_cores f) (v_ram f) (v_disk f)) (Need (q_cores q) (q_ram q) 0).
(** there is room for one more server of the flavor with the disk: within the quota (what
    there is no quota of is a million) and the configured maximum *)
Definition room (o : ocfg) (f : vflavor) (disk : Z) (k used reserved : quota) (servers : Z) : Prop :=
  (∀ d, let left := if decide (0 < at_dim d k) then at_dim d k - at_dim d used - at_dim d reserved else unquotadVal in
        at_dim d (share f disk) ≤ left) ∧
  disk ≤ unquotadVal ∧
  (-1 < m_inst o → m_inst o < k_inst k → servers + k_inst reserved + 1 ≤ m_inst o).
(** its server is there, or is going to be asked for *)
Definition wanted (g : spawning) : bool :=
  g_exists g || bool_decide (g_phase g = PNew) || bool_decide (g_phase g = PReserved).
(** [m] is how many jobs at most fit on a server of the flavor *)
Definition most (f : vflavor) (q : reqs) (m : Z) : Prop :=
  m * q_cores q ≤ 1000 * v_cores f ∧ m * q_ram q ≤ v_ram f ∧
  (1000 * v_cores f < (m + 1) * q_cores q ∨ v_ram f < (m + 1) * q_ram q).
