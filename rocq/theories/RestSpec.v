(** What the statements about the REST interface speak of. *)
From Coq Require Import ZArith String Ascii.
From stdpp Require Import base option strings gmap list.
From RecordUpdate Require Import RecordSet.
From Verif Require Import GoHeap QueueModel ServerModel ServerSpec ListModel ListSpec RestModel.
Import RecordSetNotations.
Open Scope Z_scope.

(** whatever the order of Go's range loops *)
Definition any_orders (od : orders) : Prop := any_order (o_groups od) ∧ ∀ l, o_jobs od l ≡ₚ l.
(** The request names the job: by no id at all, by its key or by its rep group. *)
Definition names (od : orders) (la : labels) (r : rest_request) (k : key) : Prop :=
  match r_ids r with
  | None => True
  | Some ids => ∃ id, id ∈ split_on "," ids ∧
      (id = k ∧ String.length k = 32%nat ∨ if r_search r then l_group la k ∈ o_search od id else l_group la k = id)
  end.
(** The job is in the state that the request is about: running and in touch, or
    running and lost. *)
Definition in_state (st : string) (s : sstate) (k : key) : Prop :=
  ∃ i j, seen s k = Some (i, j) ∧
    (st = "running"%string → i = SRun ∧ jlost j = false) ∧ (st = "lost"%string → i = SRun ∧ jlost j = true).
(** No id of the request is the key of a job. *)
Definition no_keys (r : rest_request) (s : sstate) : Prop :=
  ∀ ids id, r_ids r = Some ids → id ∈ split_on "," ids → String.length id = 32%nat →
    seen s id = None ∧ complete (sdb s) !! id = None.
(** Nothing about a job has changed. *)
Definition untouched (s s' : sstate) (k : key) : Prop :=
  seen s' k = seen s k ∧ waits_for s' k = waits_for s k ∧ live (sdb s') !! k = live (sdb s) !! k.
(** The request shows the token: in the form, or, if the form has none, in the header. *)
Definition shows_token (token : string) (h : http_request) : Prop :=
  h_form h = true ∧ (h_token h = token ∨ h_token h = ""%string ∧ h_auth h = ("Bearer " +:+ token)%string).
