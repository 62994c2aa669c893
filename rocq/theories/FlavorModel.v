(** Model of how the OpenStack scheduler picks the flavor (the kind) of the servers it
    creates, refuses what cannot run, and reckons how many servers it may create:
    cloud/cloud.go 500-642 and jobqueue/scheduler/openstack.go 268-330, 398-530, 625-850.

    Simplifications: regular expressions are an argument [comp] saying for a string whether
    it compiles and then which names match; cores are thousandths computed with exactly;
    log messages and the messages to the user are left out; so is the cache of
    determineFlavor (openstack.go:459-463, 513-515), whose key is a random string made for
    every item of every pass (local.go:633) and looked up once for it. *)
From Coq Require Import ZArith String Ascii.
From stdpp Require Import base option strings list.
From Verif Require Import CloudModel UtilModel.
Open Scope Z_scope.

(** cloud/server.go:66-72 Flavor, with its identity *)
Record vflavor := VFlavor { v_id : string; v_name : string; v_cores : Z; v_ram : Z; v_disk : Z }.
Global Instance vflavor_eq : EqDecision vflavor.
Proof. solve_decision. Defined.
(** cloud.go:96-105, scheduler.go:68-69: the errors that can come of it *)
Inductive verr := ErrBadRegex | ErrNoFlavor | ErrNoSuchFlavor | ErrImpossible.
Global Instance verr_eq : EqDecision verr.
Proof. solve_decision. Defined.
(** what a Go function comes to: a value, an error, or a panic *)
Inductive res (A : Type) := Done (a : A) | Fail (e : verr) | Panics.
Arguments Done {A}. Arguments Fail {A}. Arguments Panics {A}.
(** regexp.Regexp, nil as [None] *)
Notation reg := (option (string → bool)).

Section flavors.
(** regexp.Compile: [None] is an error *)
Variable comp : string → option (string → bool).

(** cloud.go:516-525 regexStrToRegexp; [None] is the error ErrBadRegex *)
Definition regexStrToRegexp (s : string) : option reg :=
  if decide (s = ""%string) then Some None
  else match comp s with Some m => Some (Some m) | None => None end.

(** cloud.go:545-550: the loop over the subset. Matching with a nil Regexp panics ([None]). *)
Fixpoint any_match (subset : list reg) (name : string) : option bool :=
  match subset with
  | [] => Some false
  | None :: _ => None
  | Some r :: rest => if r name then Some true else any_match rest name
  end.
(** cloud.go:541-551 inSubset *)
Definition in_subset (subset : list reg) (name : string) : option bool :=
  match subset with [] => Some true | _ => any_match subset name end.
(** cloud.go:556-571: a flavor that is big enough replaces the one picked so far if it is
    the first or cheaper *)
Definition replace (cores ram : Z) (f : vflavor) (fr : option vflavor) : option vflavor :=
  if (cores <=? v_cores f) && (ram <=? v_ram f) then
    match fr with
    | Some r =>
        if v_cores f <? v_cores r then Some f
        else if v_cores f =? v_cores r then
          if v_ram f <? v_ram r then Some f
          else if (v_ram f =? v_ram r) && (v_disk f <? v_disk r) then Some f else fr
        else fr
    | None => Some f
    end
  else fr.
(** cloud.go:537-573: the loop of pickCheapestFlavorFromSubset over the flavors, in the
    order in which Go happens to go through the map. [None] is a panic. *)
Fixpoint pick_loop (cores ram : Z) (rx : reg) (subset : list reg) (fl : list vflavor) (fr : option vflavor)
    : option (option vflavor) :=
  match fl with
  | [] => Some fr
  | f :: fl =>
      if match rx with Some m => m (v_name f) | None => true end then
        match in_subset subset (v_name f) with
        | None => None
        | Some false => pick_loop cores ram rx subset fl fr
        | Some true => pick_loop cores ram rx subset fl (replace cores ram f fr)
        end
      else pick_loop cores ram rx subset fl fr
  end.
(** cloud.go:532-575 *)
Definition pickCheapestFlavorFromSubset cores ram rx subset fl := pick_loop cores ram rx subset fl None.

(** cloud.go:501-512 *)
Definition CheapestServerFlavor (cores ram : Z) (regex : string) (fl : list vflavor) : res vflavor :=
  match regexStrToRegexp regex with
  | None => Fail ErrBadRegex
  | Some r =>
      match pickCheapestFlavorFromSubset cores ram r [] fl with
      | None => Panics
      | Some None => Fail ErrNoFlavor
      | Some (Some f) => Done f
      end
  end.
(** cloud.go:608-615: compile the names of a set *)
Fixpoint compile_set (set : list string) : option (list reg) :=
  match set with
  | [] => Some []
  | s :: set => match regexStrToRegexp s with
                | None => None
                | Some r => match compile_set set with None => None | Some rs => Some (r :: rs) end
                end
  end.
(** cloud.go:607-619: the loop over the sets; the i-th set sees the flavors in order [order i] *)
Fixpoint sets_loop (cores ram : Z) (r : reg) (sets : list (list string)) (i : nat) (order : nat → list vflavor)
    : res (list (option vflavor)) :=
  match sets with
  | [] => Done []
  | set :: sets =>
      match compile_set set with
      | None => Fail ErrBadRegex
      | Some subset =>
          match pickCheapestFlavorFromSubset cores ram r subset (order i) with
          | None => Panics
          | Some m => match sets_loop cores ram r sets (S i) order with
                      | Done ms => Done (m :: ms)
                      | Fail e => Fail e
                      | Panics => Panics
                      end
          end
      end
  end.
(** cloud.go:590-622 CheapestServerFlavors. Without sets it returns CheapestServerFlavor's
    flavor in a list of one and its error; if that is not nil the only caller looks at
    nothing else (openstack.go:467-469). *)
Definition CheapestServerFlavors (cores ram : Z) (regex : string) (sets : list (list string))
    (order : nat → list vflavor) : res (list (option vflavor)) :=
  match sets with
  | [] => match CheapestServerFlavor cores ram regex (order 0%nat) with
          | Done f => Done [Some f]
          | Fail e => Fail e
          | Panics => Panics
          end
  | _ => match regexStrToRegexp regex with
         | None => Fail ErrBadRegex
         | Some r => sets_loop cores ram r sets 0 order
         end
  end.
(** cloud.go:625-642 GetServerFlavor: first by ID (the key of the map), then the first of
    that name *)
Definition GetServerFlavor (name : string) (fl : list vflavor) : res vflavor :=
  match list_find (λ f, v_id f = name) fl with
  | Some (_, f) => Done f
  | None => match list_find (λ f, v_name f = name) fl with
            | Some (_, f) => Done f
            | None => Fail ErrNoSuchFlavor
            end
  end.

(** scheduler.go:82-99 Requirements, as far as needed: thousandths of cores, MB, GB, and
    of Other the cloud_flavor and the cloud_os_ram (with what strconv.Atoi makes of it) *)
Record reqs := Reqs { q_cores : Z; q_ram : Z; q_disk : Z; q_flavor : option string; q_os_ram : option (option Z) }.
(** openstack.go:117-240 ConfigOpenStack and the maxima kept by opst, as far as needed.
    The maxima are those after initialize, 304-333. *)
Record ocfg := OCfg { o_regex : string; o_sets : list (list string); o_osram : Z; o_osdisk : Z;
  o_spawns : Z; m_inst : Z; m_cores : Z; m_ram : Z; m_vol : Z }.
(** cloud.go:240-252 Quota, volumes included *)
Record quota := Quota { k_inst : Z; k_cores : Z; k_ram : Z; k_vol : Z }.
(** openstack.go:44 *)
Definition unquotadVal : Z := 1000000.
(** openstack.go:304-327: 0 is unlimited *)
Definition or_unlimited (z : Z) : Z := if z =? 0 then unquotadVal else z.
(** openstack.go:268-275, 304-333, 371-377 initialize; [None] if FlavorSets is empty *)
Definition initialize (regex : string) (sets : option string) (osram osdisk spawns maxinst : Z) (in_cloud : bool)
    (k : quota) : ocfg :=
  let inst := or_unlimited (k_inst k) in
  OCfg regex (match sets with None => [] | Some s => map (split ","%char) (split ";"%char s) end)
    (if osram =? 0 then 2048 else osram) (if osdisk =? 0 then 1 else osdisk) spawns
    (if (-1 <? maxinst) && (maxinst <? inst) then if in_cloud then maxinst + 1 else maxinst else inst)
    (or_unlimited (k_cores k)) (or_unlimited (k_ram k)) (or_unlimited (k_vol k)).

(** math.Ceil of the cores *)
Definition ceil (c : Z) : Z := (c + 999) / 1000.
(** openstack.go:814-850 reqForSpawn *)
Definition reqForSpawn (o : ocfg) (q : reqs) : reqs :=
  let osram := match q_os_ram q with Some (Some i) => i | _ => o_osram o end in
  let ram := if q_ram q <? osram then osram else q_ram q in
  let disk := if q_disk q =? 0 then o_osdisk o else q_disk q in
  Reqs (q_cores q) ram (if q_disk q <? disk then disk else q_disk q) (q_flavor q) (q_os_ram q).
(** openstack.go:489-509: the first flavor that has not failed, otherwise the first *)
Fixpoint first_good (failed : string → bool) (fs : list (option vflavor)) (first : option vflavor) : option vflavor :=
  match fs with
  | [] => first
  | None :: fs => first_good failed fs first
  | Some f :: fs => if failed (v_id f) then first_good failed fs (match first with None => Some f | _ => first end)
                    else Some f
  end.
(** openstack.go:457-518 determineFlavor. The case 479-483 cannot come, since a non-nil
    error is returned before, at 467-469. *)
Definition determineFlavor (o : ocfg) (failed : string → bool) (order : nat → list vflavor) (q : reqs) : res vflavor :=
  match CheapestServerFlavors (ceil (q_cores q)) (q_ram q) (o_regex o) (o_sets o) order with
  | Panics => Panics
  | Fail e => Fail e
  | Done fs => match first_good failed fs None with
               | Some f => Done f
               | None => Fail ErrImpossible
               end
  end.
(** openstack.go:398-432 reqCheck. GetServerFlavor's error is never the one that getFlavor
    (528-536) translates, so it is passed on as it is. *)
Definition reqCheck (o : ocfg) (failed : string → bool) (order : nat → list vflavor) (q : reqs) : res unit :=
  let r := reqForSpawn o q in
  if (m_ram o <? q_ram r) || (m_cores o <? ceil (q_cores r)) || (m_vol o <? q_disk r) then Fail ErrImpossible
  else match q_flavor q with
       | Some name =>
           match GetServerFlavor name (order 0%nat) with
           | Panics => Panics
           | Fail e => Fail e
           | Done f => if (v_cores f <? ceil (q_cores r)) || (v_ram f <? q_ram r) then Fail ErrImpossible else Done tt
           end
       | None => match determineFlavor o failed order q with
                 | Panics => Panics
                 | Fail e => Fail e
                 | Done _ => Done tt
                 end
       end.

(** openstack.go:731-808: how many servers of that flavor with that disk can be created,
    given the quota [k], what is used of it, what is reserved and the number of servers
    known. (Go would panic dividing by a flavor without cores or memory; none is taken to
    exist.) *)
Definition spawnable (o : ocfg) (f : vflavor) (disk : Z) (k used reserved : quota) (servers : Z) : Z :=
  let inst := if 0 <? k_inst k then k_inst k - k_inst used - k_inst reserved else unquotadVal in
  let inst := if (0 <? inst) && (-1 <? m_inst o) && (m_inst o <? k_inst k) then
                let remaining := m_inst o - (servers + k_inst reserved) in
                if remaining <? inst then remaining else inst
              else inst in
  let ram := if 0 <? k_ram k then k_ram k - k_ram used - k_ram reserved else unquotadVal in
  let cores := if 0 <? k_cores k then k_cores k - k_cores used - k_cores reserved else unquotadVal in
  let check := v_disk f <? disk in
  let vol := if (0 <? k_vol k) && check then k_vol k - k_vol used - k_vol reserved else unquotadVal in
  if (inst <? 1) || (ram <? v_ram f) || (cores <? v_cores f) || (vol <? disk) then 0
  else if 1 <? inst then
    let n := if Z.quot ram (v_ram f) <? inst then Z.quot ram (v_ram f) else inst in
    let n := if Z.quot cores (v_cores f) <? n then Z.quot cores (v_cores f) else n in
    if check then if Z.quot vol disk <? n then Z.quot vol disk else n else n
  else inst.
(** openstack.go:711-727: the flavor; [None] if none could be determined *)
Definition spawn_flavor (o : ocfg) (failed : string → bool) (order : nat → list vflavor) (q : reqs) : res vflavor :=
  match q_flavor q with
  | Some name => GetServerFlavor name (order 0%nat)
  | None => determineFlavor o failed order (reqForSpawn o q)
  end.
(** openstack.go:625-688: the number of servers spawnMultiple starts to create, and their
    flavor; [total] and [mine] are spawningTotal and spawningCmd. *)
Definition to_spawn (o : ocfg) (failed : string → bool) (order : nat → list vflavor) (q : reqs) (desired total mine : Z)
    (k used reserved : quota) (servers : Z) : option (Z * vflavor) :=
  if (0 <? o_spawns o) && (o_spawns o <=? total) then None
  else match spawn_flavor o failed order q with
       | Done f =>
           let r := reqForSpawn o q in
           let can := spawnable o f (q_disk r) k used reserved servers in
           if can =? 0 then None
           else
             let per := flavor_space (Flavor (v_cores f) (v_ram f) (v_disk f)) (Need (q_cores r) (q_ram r) 0) in
             if per =? 0 then None
             else
               let needed := (desired + per - 1) / per - mine in
               if needed <=? 0 then None
               else
                 let todo := if can <? needed then can else needed in
                 Some (if (0 <? o_spawns o) && (o_spawns o - total <? todo) then o_spawns o - total else todo, f)
       | _ => None
       end.
End flavors.
