(** Model of behaviours as users give, see and change them: jobqueue/behaviours.go (what
    triggers, String, BehaviourViaJSON), the behaviours of jobqueue/serverREST.go Convert
    and of jobqueue/job.go Modify.

    Simplifications: what is done when a behaviour triggers is only named, with its
    argument; the JSON text itself is left out: what String encodes is taken to be decoded
    as the same struct, the library's doing (true for valid UTF-8). *)
From Coq Require Import NArith String.
From stdpp Require Import base option strings list.
From RecordUpdate Require Import RecordSet.
Import RecordSetNotations.
Open Scope N_scope.

(** behaviours.go:39-54, bits of a uint8 *)
Definition OnExit : N := 1.
Definition OnSuccess : N := 2.
Definition OnFailure : N := 4.
(** behaviours.go:61-101, uint8 *)
Definition CleanupAll : N := 1.
Definition Cleanup : N := 2.
Definition Run : N := 4.
Definition CopyToManager : N := 8.
Definition Nothing : N := 16.
Definition Remove : N := 32.
(** behaviours.go:107 Arg, an interface{}: nil, a string, a []string or something else *)
Inductive barg := ANil | AStr (s : string) | AList (l : list string) | AOther.
(** behaviours.go:104-108 *)
Record beh := Beh { bwhen : N; bdo : N; barg_of : barg }.

(** ** What triggers *)
(** What is carried out, or the error instead. behaviours.go:202-310: cleanup does the same
    in both cases, which is not seen here (CleanModel.v); copying is not implemented there. *)
Inductive deed := DCleanupAll | DCleanup | DRun (cmd : string) | DCopy (l : list string) | DBadArg | DInvalid.
(** behaviours.go:112-131 Trigger, 281-284 the argument of run, 304-307 of copyToManager *)
Definition b_perform (status : N) (b : beh) : list deed :=
  if bool_decide (N.land (bwhen b) status = 0) then []
  else if bool_decide (bdo b = CleanupAll) then [DCleanupAll]
  else if bool_decide (bdo b = Cleanup) then [DCleanup]
  else if bool_decide (bdo b = Run) then [match barg_of b with AStr s => DRun s | _ => DBadArg end]
  else if bool_decide (bdo b = CopyToManager) then [match barg_of b with AList l => DCopy l | _ => DBadArg end]
  else if bool_decide (bdo b = Remove ∨ bdo b = Nothing) then []
  else [DInvalid].
(** behaviours.go:317-347 Behaviours.Trigger *)
Definition performs (success : bool) (bs : list beh) : list deed :=
  flat_map (b_perform (if success then OnSuccess else OnFailure)) bs ++ flat_map (b_perform OnExit) bs.
(** behaviours.go:350-359; called for a job that has been buried, server.go:2266-2272 *)
Definition removal (bs : list beh) : bool := existsb (λ b, bool_decide (bdo b = Remove)) bs.

(** ** As JSON *)
(** behaviours.go:385-394 BehaviourViaJSON; nil and empty slices are the same *)
Record bvj := Bvj { jrun : string; jcopy : list string; jcleanup : bool; jcleanup_all : bool; jremove : bool; jnothing : bool }.
(** the zero BehaviourViaJSON, behaviours.go:385-394 *)
Definition bvj_zero : bvj := Bvj "" [] false false false false.
#[export] Instance eta_bvj : Settable _ := settable! Bvj <jrun; jcopy; jcleanup; jcleanup_all; jremove; jnothing>.
(** behaviours.go:439-445 bvjMapping *)
Record bvjm := Bvjm { on_failure : list bvj; on_success : list bvj; on_fs : list bvj; on_exit : list bvj }.
#[export] Instance eta_bvjm : Settable _ := settable! Bvjm <on_failure; on_success; on_fs; on_exit>.
(** behaviours.go:135-163 the value for JSON; none for an unknown action *)
Definition bvj_of (b : beh) : option bvj :=
  if bool_decide (bdo b = Run) then Some (bvj_zero <| jrun := match barg_of b with AStr s => s | _ => "!invalid!" end |>)
  else if bool_decide (bdo b = CopyToManager) then Some (bvj_zero <| jcopy := match barg_of b with AList l => l | _ => ["!invalid!"%string] end |>)
  else if bool_decide (bdo b = Cleanup) then Some (bvj_zero <| jcleanup := true |>)
  else if bool_decide (bdo b = CleanupAll) then Some (bvj_zero <| jcleanup_all := true |>)
  else if bool_decide (bdo b = Remove) then Some (bvj_zero <| jremove := true |>)
  else if bool_decide (bdo b = Nothing) then Some (bvj_zero <| jnothing := true |>)
  else None.
(** behaviours.go:132-177 fillBVJM *)
Definition fill_bvjm (m : bvjm) (b : beh) : bvjm :=
  match bvj_of b with
  | None => m
  | Some j =>
      if bool_decide (bwhen b = OnFailure) then m <| on_failure ::= λ l, l ++ [j] |>
      else if bool_decide (bwhen b = OnSuccess) then m <| on_success ::= λ l, l ++ [j] |>
      else if bool_decide (bwhen b = N.lor OnFailure OnSuccess) then m <| on_fs ::= λ l, l ++ [j] |>
      else if bool_decide (bwhen b = OnExit) then m <| on_exit ::= λ l, l ++ [j] |>
      else m
  end.
(** behaviours.go:361-383 Behaviours.String: what is encoded ("" for no behaviours is taken
    as the empty mapping) *)
Definition shown (bs : list beh) : bvjm := fold_left fill_bvjm bs (Bvjm [] [] [] []).
(** behaviours.go:396-423 BehaviourViaJSON.Behaviour *)
Definition of_bvj (w : N) (j : bvj) : beh :=
  if negb (String.eqb (jrun j) "") then Beh w Run (AStr (jrun j))
  else if bool_decide (jcopy j ≠ []) then Beh w CopyToManager (AList (jcopy j))
  else if jcleanup j then Beh w Cleanup ANil
  else if jcleanup_all j then Beh w CleanupAll ANil
  else if jremove j then Beh w Remove ANil
  else Beh w Nothing ANil.
(** behaviours.go:430-437 BehavioursViaJSON.Behaviours *)
Definition of_bvjs (w : N) (js : list bvj) : list beh := map (of_bvj w) js.
(** behaviours.go:361-365: "can be converted back to Behaviours using a BehavioursViaJSON for
    each key", in the order of the keys *)
Definition read_back (m : bvjm) : list beh :=
  of_bvjs OnFailure (on_failure m) ++ of_bvjs OnSuccess (on_success m) ++
  of_bvjs (N.lor OnFailure OnSuccess) (on_fs m) ++ of_bvjs OnExit (on_exit m).

(** ** Given with a job, and changed *)
(** serverREST.go:396-410 (one of three like blocks): those given, or the default ones *)
Definition given_or (w : N) (given : list bvj) (dflt : list beh) : list beh :=
  match given with [] => dflt | _ => of_bvjs w given end.
(** serverREST.go:396-410 Convert: jf, js, je are on_failure, on_success and on_exit of the
    job, df, ds, de those of the defaults *)
Definition job_behaviours (jf js je : list bvj) (df ds de : list beh) : list beh :=
  given_or OnFailure jf df ++ given_or OnSuccess js ds ++ given_or OnExit je de.
(** job.go:1387-1393 the first with the same When is replaced; false if there is none *)
Fixpoint replace_first (new : beh) (old : list beh) : list beh * bool :=
  match old with
  | [] => ([], false)
  | b :: old => if bool_decide (bwhen b = bwhen new) then (new :: old, true)
                else let '(l, found) := replace_first new old in (b :: l, found)
  end.
(** job.go:1384-1398 *)
Definition modify_one (old : list beh) (new : beh) : list beh :=
  let '(l, found) := replace_first new old in if found : bool then l else old ++ [new].
(** job.go:1384-1398 Modify: the behaviours of the modifier into those of the job *)
Definition modify_behaviours (new old : list beh) : list beh := fold_left modify_one new old.
