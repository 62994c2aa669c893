(** C93, C94, C95: the REST interface. *)
From Coq Require Import ZArith Lia String Ascii.
From stdpp Require Import base option strings gmap list.
From RecordUpdate Require Import RecordSet.
From Verif Require Import GoHeap QueueModel ServerModel ServerSpec ServerLimSpec ServerKey ServerDemo ListModel ListSpec RestModel RestSpec RestProofs RestProofs2.
Import RecordSetNotations.
Open Scope Z_scope.
Open Scope string_scope.

(** *** The cases *)
Definition key1 : key := "00000000000000000000000000000001".
Definition key2 : key := "00000000000000000000000000000002".
Definition key3 : key := "00000000000000000000000000000003".
Definition od0 : orders := Orders (λ m, (map_to_list m).*2) (λ l, l) [] (λ _, []).
Definition la0 : labels := Labels (λ k, if bool_decide (k = key2) then "other" else "rg") (λ _, "").
Lemma od0_any : any_orders od0.
Proof. split; [by intros m|done]. Qed.
(** job 1 runs and job 3 was lost, both counted for limit lg; job 2 is ready *)
Definition two_running : list sop :=
  [AAdd (sec 1) [plain_job key1 1 ["lg"] [] [] "r~lg"; plain_job key2 0 [] [] [] "s"; plain_job key3 1 ["lg"] [] [] "t~lg"] false;
   AReserve (sec 2) 2 "t~lg" true 0; AStart (sec 3) 2 key3 true; AReserve (sec 190) 1 "r~lg" true 0; AStart (sec 191) 1 key1 true;
   ATickTTR (sec 200)].
Definition job_of (s : sstate) (k : key) (i : istate) (lost killed : bool) : bool :=
  match seen s k with Some (i', j) => bool_decide (i' = i) && Bool.eqb (jlost j) lost && Bool.eqb (jkilled j) killed | None => false end.
Lemma job_of_ok s k i lost killed : job_of s k i lost killed = true → ∃ j, seen s k = Some (i, j) ∧ jlost j = lost ∧ jkilled j = killed.
Proof.
  unfold job_of. destruct (seen s k) as [[i' j]|]; [|done]. intros [[->%bool_decide_eq_true H1%Bool.eqb_prop]%andb_true_iff H2%Bool.eqb_prop]%andb_true_iff. by exists j.
Qed.
Definition rest_case (r : rest_request) (f : sstate → sstate → rest_answer → bool) (s : sstate) : bool :=
  match rest_cancel (sec 300) od0 la0 r s with Some (s', a, l) => f s s' a | None => false end.
Definition handled (a : rest_answer) (h : list key) : bool := match a with RHandled h' => bool_decide (h' = h) | _ => false end.
Lemma handled_ok a h : handled a h = true → a = RHandled h.
Proof. destruct a; try done. cbn. by intros ->%bool_decide_eq_true. Qed.
Lemma rest_reach ops r f : shown serving_b (s_new (sec 1)) ops (λ _ s, rest_case r f s) = true →
  ∃ es s s' a l, reachable serving es s ∧ rest_cancel (sec 300) od0 la0 r s = Some (s', a, l) ∧ f s s' a = true.
Proof.
  intros H. destruct (shown_hist serving serving_b (s_new (sec 1)) ops _ serving_b_ok H) as (es & s & Hh & Hf).
  unfold rest_case in Hf. destruct (rest_cancel (sec 300) od0 la0 r s) as [[[s' a] l]|] eqn:E; [|done].
  exists es, s, s', a, l. split; [by exists (sec 1)|done].
Qed.

(** ** C93 *)
(** A DELETE request for "deletable" jobs is answered with the jobs it removed. It
    removes only jobs that it named, and whoever waited for a removed job has been
    removed as well. Everything else is as before. Missing: running jobs are to be
    spared, see the refutation. *)
Theorem C93_rest_delete_partial es s now od la r limit :
  reachable spares_busy es s → any_orders od → r_state r = "deletable" → r_limit r = Some limit →
  ∃ s' h, rest_cancel now od la r s = Some (s', RHandled h, []) ∧
    (∀ k, removed s s' k → names od la r k ∧ (∀ k', is_Some (seen s' k') → k ∉ waits_for s k') ∧ live (sdb s') !! k = None) ∧
    (∀ k, ¬ removed s s' k → untouched s s' k) ∧ complete (sdb s') = complete (sdb s) ∧ ∀ k, k ∈ h ↔ removed s s' k.
Proof. intros Hr. apply cancel_delete. by apply (reach_good spares_busy es). Qed.
Print Assumptions C93_rest_delete_partial.
(** Without a limit, jobs that were named all go if whoever waits for one of them is among them. *)
Theorem C93_rest_delete_all es s now od la r limit s' a l (rank : key → nat) (R : list key) :
  reachable spares_busy es s → any_orders od → r_state r = "deletable" → r_limit r = Some limit → limit ≤ 0 → no_keys r s →
  rest_cancel now od la r s = Some (s', a, l) → NoDup R → (∀ k, k ∈ R → is_Some (seen s k) ∧ names od la r k) →
  (∀ k k', k ∈ R → k ∈ waits_for s k' → k' ∈ R ∧ (rank k < rank k')%nat) →
  ∀ k, k ∈ R → seen s' k = None.
Proof. intros Hr. apply cancel_delete_all. by apply (reach_good spares_busy es). Qed.
Print Assumptions C93_rest_delete_all.
(** the ready jobs of rep group "other" are deleted, the others stay *)
Definition other_req : rest_request := RestRequest "deletable" false (Some 0) false (Some "other").
Example C93_case : ∃ es s s' l, reachable serving es s ∧ rest_cancel (sec 300) od0 la0 other_req s = Some (s', RHandled [key2], l) ∧
  seen s' key2 = None ∧ (∃ j, seen s' key1 = Some (SRun, j) ∧ jlost j = false ∧ jkilled j = false).
Proof.
  destruct (rest_reach two_running other_req
    (λ s s' a, handled a [key2] && match seen s' key2 with None => true | _ => false end && job_of s' key1 SRun false false)
    ltac:(by vm_compute)) as (es & s & s' & a & l & Hr & Hc & Hf).
  apply andb_true_iff in Hf as [[->%handled_ok H1]%andb_true_iff H2%job_of_ok]. exists es, s, s', l.
  split; [done|]. split; [done|]. split; [by destruct (seen s' key2)|done].
Qed.
(** A DELETE of the "deletable" jobs takes a running job, which is in touch and
    counted for a limit group, out of the queue and out of the database: whatever its
    client says from then on about the job is refused, nothing is ever given back to
    the limit group, and the job is not even recorded as complete. *)
Definition all_req : rest_request := RestRequest "deletable" false (Some 0) false None.
Lemma unknown_job s k c : find_job k s = None →
  (∀ jes ord, s_archive c k jes ord s = Some (s, SErr EBadJob, [])) ∧
  (∀ now jes force, s_release now c k jes force s = Some (s, SErr EBadJob, [])) ∧ (∀ now, s_touch now c k s = Some (s, SErr EBadJob, [])).
Proof. intros H. unfold s_archive, s_release, s_touch, getij. by rewrite H. Qed.
Definition running_gone (s s' : sstate) (a : rest_answer) : bool :=
  match seen s key1 with Some (SRun, j) => negb (jlost j) && negb (jstart j =? 0)%Z && bool_decide (jincr j = ["lg"]) | _ => false end &&
  match a with RHandled h => bool_decide (key1 ∈ h) | _ => false end &&
  match find_job key1 s' with None => true | _ => false end && match complete (sdb s') !! key1 with None => true | _ => false end.
Theorem C93_running_refuted : ∃ es s s' h j, reachable serving es s ∧ seen s key1 = Some (SRun, j) ∧ jlost j = false ∧ jstart j ≠ 0 ∧ jincr j = ["lg"] ∧
  rest_cancel (sec 300) od0 la0 all_req s = Some (s', RHandled h, []) ∧ key1 ∈ h ∧
  seen s' key1 = None ∧ live (sdb s') !! key1 = None ∧ complete (sdb s') !! key1 = None ∧
  (∀ c jes ord, s_archive c key1 jes ord s' = Some (s', SErr EBadJob, [])) ∧
  (∀ now c jes force, s_release now c key1 jes force s' = Some (s', SErr EBadJob, [])) ∧
  (∀ now c, s_touch now c key1 s' = Some (s', SErr EBadJob, [])).
Proof.
  destruct (rest_reach two_running all_req running_gone ltac:(by vm_compute)) as (es & s & s' & a & l & Hr & Hc & Hf). unfold running_gone in Hf.
  apply andb_true_iff in Hf as [[[H1 H2]%andb_true_iff H3]%andb_true_iff H4].
  destruct (seen s key1) as [[[] j]|] eqn:Hs; try discriminate H1.
  apply andb_true_iff in H1 as [[H1 H5]%andb_true_iff H6%bool_decide_eq_true].
  destruct a as [| |h]; try discriminate H2. apply bool_decide_eq_true in H2.
  destruct (find_job key1 s') as [?|] eqn:Hfj; [discriminate H3|]. destruct (complete (sdb s') !! key1) eqn:Hcp; [discriminate H4|].
  assert (HG : Good s) by (apply (reach_good serving es); [by intros ? ? [? _]|done]).
  destruct (cancel_delete (sec 300) od0 la0 all_req 0 s HG od0_any eq_refl eq_refl) as (s2 & h2 & Hc2 & Hrem & _ & _ & Hh).
  rewrite Hc in Hc2. injection Hc2 as <- <- ->. apply Hh in H2 as Hrm. destruct (Hrem _ Hrm) as (_ & _ & Hlv). destruct Hrm as [_ Hn].
  exists es, s, s', h, j. split; [done|]. split; [done|]. split; [by apply negb_true_iff in H1|]. split; [by apply negb_true_iff, Z.eqb_neq in H5|].
  split; [done|]. split; [done|]. split; [done|]. split; [done|]. split; [done|]. split; [done|].
  split; [|split]; intros; by apply (unknown_job s' key1).
Qed.
Print Assumptions C93_running_refuted.

(** ** C94 *)
(** A DELETE request for "running" or "lost" jobs that does not name jobs by their
    keys is answered with the jobs it acted on, which it named and which were in that
    state: running jobs are told to stop, and lost ones are running no more.
    Without a limit that is all of them. Nothing else changes. Missing: requests that name jobs by
    their keys, see the refutations. *)
Theorem C94_rest_kill_partial es s now od la r limit :
  reachable spares_busy es s → any_orders od → r_state r = "running" ∨ r_state r = "lost" → r_limit r = Some limit → no_keys r s →
  ∃ s' h l, rest_cancel now od la r s = Some (s', RHandled h, l) ∧
    live (sdb s') = live (sdb s) ∧ complete (sdb s') = complete (sdb s) ∧
    (∀ k, k ∉ h → seen s' k = seen s k) ∧
    (∀ k, k ∈ h → names od la r k ∧ ∃ j, seen s k = Some (SRun, j) ∧
       (r_state r = "running" → jlost j = false ∧ seen s' k = Some (SRun, j <| jkilled := true |>)) ∧
       (r_state r = "lost" → jlost j = true ∧ ∃ i j', seen s' k = Some (i, j') ∧ i ≠ SRun)) ∧
    (limit ≤ 0 → ∀ k, names od la r k → in_state (r_state r) s k → k ∈ h).
Proof. intros Hr. apply cancel_kill. by apply (reach_good spares_busy es). Qed.
Print Assumptions C94_rest_kill_partial.
(** Any other state, or a limit that is not a number, is refused and changes nothing. *)
Theorem C94_refused now od la r s : r_state r ∉ ["running"; "lost"; "deletable"] ∨ r_limit r = None →
  rest_cancel now od la r s = Some (s, RBad, []).
Proof. exact (cancel_refused now od la r s). Qed.
Print Assumptions C94_refused.
Definition lost_req (ids : string) : rest_request := RestRequest "lost" false (Some 0) false (Some ids).
Definition running_req (ids : string) : rest_request := RestRequest "running" false (Some 0) false (Some ids).
Example C94_case : (∀ s, no_keys (lost_req "rg") s) ∧
  ∃ es s s' l, reachable serving es s ∧ rest_cancel (sec 300) od0 la0 (lost_req "rg") s = Some (s', RHandled [key3], l) ∧
    (∃ j, seen s key3 = Some (SRun, j) ∧ jlost j = true ∧ jkilled j = false) ∧ (∃ j, seen s' key1 = Some (SRun, j) ∧ jlost j = false ∧ jkilled j = false).
Proof.
  split. { intros s ids id [= <-]. cbn. intros ->%elem_of_list_singleton. done. }
  destruct (rest_reach two_running (lost_req "rg")
    (λ s s' a, handled a [key3] && job_of s key3 SRun true false && job_of s' key1 SRun false false)
    ltac:(by vm_compute)) as (es & s & s' & a & l & Hr & Hc & Hf).
  apply andb_true_iff in Hf as [[->%handled_ok H1%job_of_ok]%andb_true_iff H2%job_of_ok]. by exists es, s, s', l.
Qed.
Example C94_running_case : ∃ es s s' l, reachable serving es s ∧ rest_cancel (sec 300) od0 la0 (running_req "rg") s = Some (s', RHandled [key1], l) ∧
    (∃ j, seen s' key3 = Some (SRun, j) ∧ jlost j = true ∧ jkilled j = false) ∧ (∃ j, seen s' key1 = Some (SRun, j) ∧ jlost j = false ∧ jkilled j = true).
Proof.
  destruct (rest_reach two_running (running_req "rg")
    (λ s s' a, handled a [key1] && job_of s' key3 SRun true false && job_of s' key1 SRun false true)
    ltac:(by vm_compute)) as (es & s & s' & a & l & Hr & Hc & Hf).
  apply andb_true_iff in Hf as [[->%handled_ok H1%job_of_ok]%andb_true_iff H2%job_of_ok]. by exists es, s, s', l.
Qed.
(** A job named by its key is acted on in whatever state: a request to confirm a lost
    job as dead kills the job if it is running and in touch, *)
Theorem C94_key_kills_refuted : ∃ es s s' l, reachable serving es s ∧ (∃ j, seen s key1 = Some (SRun, j) ∧ jlost j = false ∧ jkilled j = false) ∧
  rest_cancel (sec 300) od0 la0 (lost_req key1) s = Some (s', RHandled [key1], l) ∧ (∃ j, seen s' key1 = Some (SRun, j) ∧ jlost j = false ∧ jkilled j = true).
Proof.
  destruct (rest_reach two_running (lost_req key1)
    (λ s s' a, handled a [key1] && job_of s key1 SRun false false && job_of s' key1 SRun false true)
    ltac:(by vm_compute)) as (es & s & s' & a & l & Hr & Hc & Hf).
  apply andb_true_iff in Hf as [[->%handled_ok H1%job_of_ok]%andb_true_iff H2%job_of_ok]. by exists es, s, s', l.
Qed.
Print Assumptions C94_key_kills_refuted.
(** and a request to kill a running job declares it dead, so that it is started
    again, if it is lost. *)
Theorem C94_key_confirms_refuted : ∃ es s s' l, reachable serving es s ∧ (∃ j, seen s key3 = Some (SRun, j) ∧ jlost j = true ∧ jkilled j = false) ∧
  rest_cancel (sec 300) od0 la0 (running_req key3) s = Some (s', RHandled [key3], l) ∧ (∃ j, seen s' key3 = Some (SReady, j)).
Proof.
  destruct (rest_reach two_running (running_req key3)
    (λ s s' a, handled a [key3] && job_of s key3 SRun true false && match seen s' key3 with Some (SReady, _) => true | _ => false end)
    ltac:(by vm_compute)) as (es & s & s' & a & l & Hr & Hc & Hf).
  apply andb_true_iff in Hf as [[->%handled_ok H1%job_of_ok]%andb_true_iff H2]. exists es, s, s', l. split; [done|]. split; [done|]. split; [done|].
  destruct (seen s' key3) as [[[] j]|]; try discriminate H2. by exists j.
Qed.
Print Assumptions C94_key_confirms_refuted.
(** If a key names a job that is complete the request fails half way: the jobs named
    before it have been killed, those after it not, and the answer is an error. *)
Definition one_complete : list sop :=
  [AAdd (sec 1) [plain_job key1 1 [] [] [] "r"; plain_job key2 0 [] [] [] "s"; plain_job key3 1 [] [] [] "t"] false;
   AReserve (sec 2) 1 "r" true 0; AStart (sec 3) 1 key1 true; AReserve (sec 2) 3 "t" true 0; AStart (sec 3) 3 key3 true;
   AReserve (sec 4) 2 "s" true 0; AStart (sec 5) 2 key2 true; AArchive 2 key2 (ended 0 6) []].
Theorem C94_half_way_refuted : ∃ es s s' l, reachable serving es s ∧
  (∃ j, seen s key1 = Some (SRun, j) ∧ jlost j = false ∧ jkilled j = false) ∧ (∃ j, seen s key3 = Some (SRun, j) ∧ jlost j = false ∧ jkilled j = false) ∧
  rest_cancel (sec 300) od0 la0 (running_req (key1 +:+ "," +:+ key2 +:+ "," +:+ key3)) s = Some (s', RFailed, l) ∧
  (∃ j, seen s' key1 = Some (SRun, j) ∧ jlost j = false ∧ jkilled j = true) ∧ (∃ j, seen s' key3 = Some (SRun, j) ∧ jlost j = false ∧ jkilled j = false).
Proof.
  destruct (rest_reach one_complete (running_req (key1 +:+ "," +:+ key2 +:+ "," +:+ key3))
    (λ s s' a, match a with RFailed => true | _ => false end && job_of s key1 SRun false false && job_of s key3 SRun false false &&
               job_of s' key1 SRun false true && job_of s' key3 SRun false false)
    ltac:(by vm_compute)) as (es & s & s' & a & l & Hr & Hc & Hf).
  apply andb_true_iff in Hf as [[[[Ha H1%job_of_ok]%andb_true_iff H2%job_of_ok]%andb_true_iff H3%job_of_ok]%andb_true_iff H4%job_of_ok].
  destruct a; try discriminate Ha. by exists es, s, s', l.
Qed.
Print Assumptions C94_half_way_refuted.

(** ** C95 *)
(** A http request is let through by httpAuthorized if and only if it shows the token. *)
Theorem C95_authorized token h : token ≠ "" → http_authorized token h = AAllowed ↔ shows_token token h.
Proof. exact (authorized_iff token h). Qed.
Print Assumptions C95_authorized.
(** Whatever the handlers do: without the token, a request to any of them but the
    version's and those for static documents other than the status page changes
    nothing, and its answer is the same whatever the server's state is. *)
Theorem C95_without_token {S A} (act act' : endpoint → S → S * A) deny token e h s s' :
  token ≠ "" → ¬ shows_token token h → e ≠ EVersion → (∀ p, e = EPage p → p ∈ ["/"; "/status"; "/status.html"]) →
  fst (http_serve act deny token e h s) = s ∧ snd (http_serve act deny token e h s) = snd (http_serve act' deny token e h s').
Proof.
  intros Ht Hn He Hp. apply serve_denied; [done| |done]. destruct e as [p| | | | | | |]; try done.
  specialize (Hp p eq_refl). repeat (apply elem_of_cons in Hp as [->|Hp]; [by vm_compute|]). by apply elem_of_nil in Hp.
Qed.
Print Assumptions C95_without_token.
(** With it the request is carried out. *)
Theorem C95_with_token {S A} (act : endpoint → S → S * A) deny token e h s :
  token ≠ "" → shows_token token h → http_serve act deny token e h s = act e s.
Proof. exact (serve_allowed act deny token e h s). Qed.
Print Assumptions C95_with_token.
(** A request of the command line client is considered if and only if it has the token or is a ping. *)
Theorem C95_client token method given : String.length token = 43%nat →
  cli_allowed token method given = true ↔ given = token ∨ method = "ping".
Proof. exact (cli_iff token method given). Qed.
Print Assumptions C95_client.
Definition tok : string := "0123456789012345678901234567890123456789abc".
Example C95_case : String.length tok = 43%nat ∧ shows_token tok (HttpRequest true tok "Bearer x") ∧ shows_token tok (HttpRequest true "" ("Bearer " +:+ tok)) ∧
  ¬ shows_token tok (HttpRequest true "x" ("Bearer " +:+ tok)) ∧ ¬ shows_token tok (HttpRequest true "" ("Basic " +:+ tok)) ∧
  http_serve (λ _ n, (n + 1, n)) (λ _, 0) tok EJobs (HttpRequest true "x" ("Bearer " +:+ tok)) 5 = (5, 0) ∧
  http_serve (λ _ n, (n + 1, n)) (λ _, 0) tok EJobs (HttpRequest true "" ("Bearer " +:+ tok)) 5 = (6, 5).
Proof.
  split_and!; try done.
  - by split; [|left].
  - by split; [|right].
  - intros [_ [H|[H _]]]; discriminate H.
  - intros [_ [H|[_ H]]]; discriminate H.
Qed.
