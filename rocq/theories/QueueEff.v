(** What each call does to the items, keys and dependants, as one relation; the
    invariant holds along every history. *)
From Coq Require Import ZArith Lia String.
From stdpp Require Import base option strings gmap list.
From RecordUpdate Require Import RecordSet.
From Verif Require Import GoHeap GoHeapProofs QueueModel QueueCore QueueInv QueueInvAdd
  QueueInvUpd QueueInvRem QueueInvTick.
Import RecordSetNotations.
Open Scope Z_scope.

(** An Update that works as intended in state [s] (see good_update). *)
Definition good (b : bool) (s : qstate) (o : op) : Prop :=
  match o with
  | OUpdate now k g d prio delay ttr deps =>
      ∀ x it, items s !! k = Some x → objs s !! x = Some it → good_update b s it g prio delay deps
  | _ => True
  end.
Fixpoint good_run (b : bool) (s : qstate) (ops : list op) : Prop :=
  match ops with
  | [] => True
  | o :: ops => good b s o ∧ match step s o with Some (s', _, _) => good_run b s' ops | None => True end
  end.

Definition is_err (r : qres) : Prop :=
  match r with RErr _ | RErrItem _ _ => True | _ => False end.

Inductive eff (b : bool) (s : qstate) : op → qstate → qres → list event → Prop :=
| EffErr o s' r : objs s' = objs s → rest_eq s s' → is_err r → eff b s o s' r []
| EffGet k x : items s !! k = Some x → eff b s (OGet k) s (RItem x) []
| EffHas k : eff b s (OHasDependents k) s (RBool (bool_decide (is_Some (dependants s !! k)))) []
| EffAdd now k g d prio size delay ttr start deps s' it :
    it = added_item false now k g d prio size delay ttr start deps →
    items s !! k = None →
    objs s' = <[nextid s := it]> (objs s) → items s' = <[k := nextid s]> (items s) →
    nextid s' = S (nextid s) → closed s' = closed s →
    dependants s' = add_dependants k (nextid s) deps (dependants s) →
    eff b s (OAdd now k g d prio size delay ttr start deps) s' (RItem (nextid s))
        [ev s' QNew (sub_of (ist it)) [nextid s]]
| EffAddMany now ds s' :
    abs_of s' = abs_adds now ds (abs_of s) → closed s' = closed s →
    eff b s (OAddMany now ds) s'
        (RAdded (nextid s' - nextid s) (length ds - (nextid s' - nextid s)))
        (ev_if s' QReady (newly SReady s s') ++ ev_if s' QDelay (newly SDelay s s') ++
         ev_if s' QDep (newly SDep s s') ++ ev_if s' QRun (newly SRun s s') ++
         ev_if s' QBury (newly SBury s s'))
| EffUpdate now k g d prio delay ttr deps s' x it :
    items s !! k = Some x → objs s !! x = Some it → ikey it = k → ist it ≠ SRemoved →
    (deps = Some [] → iremain it ≠ ∅ → ist it = SDep) →
    objs s' = <[x := updated now g d prio delay ttr deps it]> (objs s) →
    items s' = items s → nextid s' = nextid s → closed s' = closed s →
    dependants s' = upd_dependants (items s) k x deps (it <| idata := d |>) (dependants s) →
    eff b s (OUpdate now k g d prio delay ttr deps) s' ROk
        (upd_events s' x (dep_part deps (it <| idata := d |>)))
| EffChangeKey old new s' x :
    items s !! new = None → items s !! old = Some x →
    objs s' = rekey old new <$> objs s →
    items s' = <[new := x]> (delete old (items s)) →
    dependants s' = rename_dependants old new (dependants s) →
    nextid s' = nextid s → closed s' = closed s →
    eff b s (OChangeKey old new) s' ROk []
| EffSetDelay now k delay s' x it :
    items s !! k = Some x → objs s !! x = Some it → ist it ≠ SRemoved →
    objs s' = alter (λ it, if idelay it =? delay then it
      else match ist it with
           | SDelay => restart now (it <| idelay := delay |>)
           | _ => it <| idelay := delay |>
           end) x (objs s) → rest_eq s s' →
    eff b s (OSetDelay now k delay) s' ROk []
| EffSetGroup k g s' x it :
    items s !! k = Some x → objs s !! x = Some it → ist it ≠ SRemoved →
    objs s' = alter (λ it, it <| igroup := g |>) x (objs s) → rest_eq s s' →
    eff b s (OSetGroup k g) s' ROk []
| EffReserve now g retry s' x it :
    objs s !! x = Some it → ist it = SReady → igroup it = g →
    (b = true → ∀ y it', objs s !! y = Some it' → ist it' = SReady → igroup it' = g →
                         item_before it' it = false) →
    objs s' = alter (λ it, switch_ready_run (touch now it)) x (objs s) → rest_eq s s' →
    eff b s (OReserve now g retry) s' (RItem x) [ev s' QReady QRun [x]]
| EffTouch now k s' x it :
    items s !! k = Some x → objs s !! x = Some it → ist it = SRun →
    objs s' = alter (touch now) x (objs s) → rest_eq s s' →
    eff b s (OTouch now k) s' ROk []
| EffRelease now k s' x it :
    items s !! k = Some x → objs s !! x = Some it → ist it = SRun →
    objs s' = alter (λ it, if idelay it =? 0 then switch_run_ready it
                           else switch_run_delay false (restart now it)) x (objs s) → rest_eq s s' →
    eff b s (ORelease now k) s' ROk [ev s' QRun (if idelay it =? 0 then QReady else QDelay) [x]]
| EffBury k s' x it :
    items s !! k = Some x → objs s !! x = Some it → ist it = SRun →
    objs s' = alter (switch_run_bury false) x (objs s) → rest_eq s s' →
    eff b s (OBury k) s' ROk [ev s' QRun QBury [x]]
| EffKick k s' x it :
    items s !! k = Some x → objs s !! x = Some it → ist it = SBury →
    objs s' = alter (if item_has_deps x s then switch_bury_dependent else switch_bury_ready) x (objs s) →
    rest_eq s s' →
    eff b s (OKick k) s' ROk [ev s' QBury (if item_has_deps x s then QDep else QReady) [x]]
| EffRemove k ord s' x it it' m added :
    items s !! k = Some x → objs s !! x = Some it → ikey it = k → ist it ≠ SRemoved →
    m = default ∅ (dependants s !! k) →
    it' = (if decide (x ∈ vals m) then resolve k it else it) →
    objs s' = alter removal_cleanup x (resolve_all k m (objs s)) →
    items s' = delete k (items s) → nextid s' = nextid s → closed s' = closed s →
    dependants s' = fold_left (forget_parent k) (ideps it) (delete k (dependants s)) →
    NoDup added →
    (∀ y, y ∈ added ↔ y ∈ vals m ∧ ∃ it, objs s !! y = Some it ∧ freed k it) →
    eff b s (ORemove k ord) s' ROk
        ([ev s' (sub_of (ist it')) QRemoved [x]] ++
         match added with [] => [] | _ => [ev s' QDep QReady added] end)
| EffDestroy s' :
    Dead s' → objs s' = objs s → nextid s' = nextid s → dependants s' = dependants s →
    eff b s ODestroy s' ROk []
| EffTickDelay now s' moved :
    rest_eq s s' → NoDup moved → (∀ y, y ∈ moved ↔ due now s y) →
    (∀ y, objs s' !! y = if decide (y ∈ moved) then switch_delay_ready <$> objs s !! y else objs s !! y) →
    eff b s (OTickDelay now) s' ROk
        (match moved with [] => [] | _ => [ev s' QDelay QReady moved] end)
| EffTickTTR now cb s' ord :
    rest_eq s s' → NoDup ord → (∀ y, y ∈ ord → overdue now s y) →
    (0 < now → rel_nz s → ∀ y, overdue now s y → y ∈ ord) →
    (∀ j y, ord !! j = Some y → objs s' !! y = ttr_apply now (cb j) <$> objs s !! y) →
    (∀ y, y ∉ ord → objs s' !! y = objs s !! y) →
    eff b s (OTickTTR now cb) s' ROk
        (ev_some s' QRun QDelay (picks ToDelay cb 0 ord) ++
         ev_some s' QRun QBury (picks ToBury cb 0 ord) ++
         ev_some s' QRun QReady (picks ToReady cb 0 ord)).

Lemma rest_eq_refl s : rest_eq s s.
Proof. by split_and!. Qed.

(** Errors of the keyed operations *)
Ltac keyed HI s k :=
  destruct (items s !! k) as [x|] eqn:Hk;
  [destruct (inv_get _ _ _ _ HI Hk) as (it & Hx & Hkey & Hr)|].

Lemma step_eff b s o s' r e :
  Inv b s → good b s o → step s o = Some (s', r, e) →
  eff b s o s' r e ∧ (Inv b s' ∨ (o = ODestroy ∧ Dead s')).
Proof.
  intros HI Hg. pose proof (i_open HI) as Hop. destruct o; simpl in Hg |- *.
  - destruct (items s !! k) as [x|] eqn:Hk.
    + unfold q_add. rewrite Hop, Hk. intros [= <- <- <-]. split; [|by left]. by constructor.
    + destruct (q_add_ok b now k g d prio size delay ttr start deps s HI Hk)
        as (s1 & -> & HI1 & Ho & Hi & Hn & Hcl & Hd).
      intros [= <- <- <-]. split; [|by left]. econstructor; try done. congruence.
  - destruct (q_add_many_ok b now defs s HI) as (s1 & -> & HI1 & Ha).
    intros [= <- <- <-]. split; [|by left]. constructor; try done. by rewrite (i_open HI1), Hop.
  - unfold q_get. rewrite Hop. destruct (items s !! k) as [x|] eqn:Hk; intros [= <- <- <-].
    + split; [by constructor|by left].
    + split; [by constructor|by left].
  - destruct (items s !! k) as [x|] eqn:Hk.
    + destruct (inv_get _ _ _ _ HI Hk) as (it & Hx & Hkey & Hr). intros Hu.
      destruct (q_update_ok b now k x it g d prio delay ttr deps s s' r e HI Hk Hx (Hg _ _ eq_refl Hx) Hu)
        as (-> & -> & HI1 & Ho & Hi & Hn & Hcl & Hd).
      split; [|by left]. econstructor; try done. by apply (Hg x it).
    + unfold q_update. rewrite Hop, Hk. intros [= <- <- <-]. split; [by constructor|by left].
  - destruct (items s !! new) as [y|] eqn:Hnew.
    + unfold q_change_key. rewrite Hop, Hnew. intros [= <- <- <-]. split; [by constructor|by left].
    + destruct (items s !! old) as [x|] eqn:Hold.
      * destruct (q_change_key_ok b old new x s HI Hnew Hold) as (s1 & -> & HI1 & Ho & Hi & Hd & Hn & Hcl).
        intros [= <- <- <-]. split; [|by left]. by econstructor.
      * unfold q_change_key. rewrite Hop, Hnew, Hold. intros [= <- <- <-]. split; [by constructor|by left].
  - keyed HI s k.
    + destruct (q_set_delay_ok b now k x it delay s HI Hk Hx) as (s1 & -> & HI1 & Ho & Hre).
      intros [= <- <- <-]. split; [|by left]. by econstructor.
    + unfold q_set_delay. rewrite Hop, Hk. intros [= <- <- <-]. split; [by constructor|by left].
  - keyed HI s k.
    + destruct (q_set_group_ok b k x it g s HI Hk Hx) as (s1 & -> & HI1 & Ho & Hre).
      intros [= <- <- <-]. split; [|by left]. by econstructor.
    + unfold q_set_reserve_group. rewrite Hop, Hk. intros [= <- <- <-]. split; [by constructor|by left].
  - destruct (q_reserve_ok b now g retry s HI)
      as [(s1 & -> & HI1 & Ho & Hre & _)|(s1 & x & it & -> & Hx & Hst & Hgr & Hbest & HI1 & Ho & Hre)];
      intros [= <- <- <-].
    + split; [by constructor|by left].
    + split; [|by left]. by econstructor.
  - keyed HI s k.
    + destruct (decide (ist it = SRun)) as [Hst|Hst].
      * destruct (q_touch_ok b now k x it s HI Hk Hx Hst) as (s1 & -> & HI1 & Ho & Hre).
        intros [= <- <- <-]. split; [|by left]. by econstructor.
      * unfold q_touch. rewrite Hop, Hk, Hx. simpl.
        destruct (ist it); try done; intros [= <- <- <-]; (split; [by constructor|by left]).
    + unfold q_touch. rewrite Hop, Hk. intros [= <- <- <-]. split; [by constructor|by left].
  - keyed HI s k.
    + destruct (decide (ist it = SRun)) as [Hst|Hst].
      * destruct (q_release_ok b now k x it s HI Hk Hx Hst) as (s1 & -> & HI1 & Ho & Hre).
        intros [= <- <- <-]. split; [|by left]. by econstructor.
      * unfold q_release. rewrite Hop, Hk, Hx. simpl.
        destruct (ist it); try done; intros [= <- <- <-]; (split; [by constructor|by left]).
    + unfold q_release. rewrite Hop, Hk. intros [= <- <- <-]. split; [by constructor|by left].
  - keyed HI s k.
    + destruct (decide (ist it = SRun)) as [Hst|Hst].
      * destruct (q_bury_ok b k x it s HI Hk Hx Hst) as (s1 & -> & HI1 & Ho & Hre).
        intros [= <- <- <-]. split; [|by left]. by econstructor.
      * unfold q_bury. rewrite Hop, Hk, Hx. simpl.
        destruct (ist it); try done; intros [= <- <- <-]; (split; [by constructor|by left]).
    + unfold q_bury. rewrite Hop, Hk. intros [= <- <- <-]. split; [by constructor|by left].
  - keyed HI s k.
    + destruct (decide (ist it = SBury)) as [Hst|Hst].
      * destruct (q_kick_ok b k x it s HI Hk Hx Hst) as (s1 & -> & HI1 & Ho & Hre).
        intros [= <- <- <-]. split; [|by left]. by econstructor.
      * unfold q_kick. rewrite Hop, Hk, Hx. simpl.
        destruct (ist it); try done; intros [= <- <- <-]; (split; [by constructor|by left]).
    + unfold q_kick. rewrite Hop, Hk. intros [= <- <- <-]. split; [by constructor|by left].
  - keyed HI s k.
    + destruct (q_remove_ok b k x it ord s HI Hk Hx) as (s1 & added & -> & HI1 & Ho & Hi & Hn & Hcl & Hd & Hnd & Hin).
      intros [= <- <- <-]. split; [|by left]. by econstructor.
    + unfold q_remove. rewrite Hop, Hk. intros [= <- <- <-]. split; [by constructor|by left].
  - unfold q_has_dependents. rewrite Hop. intros [= <- <- <-]. split; [by constructor|by left].
  - destruct (q_destroy_ok b s HI) as (s1 & -> & Hd & Ho & Hn & Hdp).
    intros [= <- <- <-]. split; [by constructor|by right].
  - destruct (q_tick_delay_ok b now s HI) as (s1 & moved & -> & HI1 & Hre & Hnd & Hin & Ho).
    intros [= <- <- <-]. split; [by constructor|by left].
  - destruct (q_tick_ttr_ok b now cb s HI) as (s1 & ord & -> & HI1 & Hre & Hnd & H1 & H2 & H3 & H4).
    intros [= <- <- <-]. split; [by constructor|by left].
Qed.

(** No operation panics, Update being used as intended. *)
Lemma step_total b s o : Inv b s → good true s o → is_Some (step s o).
Proof.
  intros HI Hg. pose proof (i_open HI) as Hop. destruct o; simpl in Hg |- *.
  - destruct (items s !! k) as [x|] eqn:Hk.
    + unfold q_add. rewrite Hop, Hk. by eexists.
    + destruct (q_add_ok b now k g d prio size delay ttr start deps s HI Hk) as (s1 & -> & _). by eexists.
  - destruct (q_add_many_ok b now defs s HI) as (s1 & -> & _). by eexists.
  - unfold q_get. rewrite Hop. destruct (items s !! k); by eexists.
  - keyed HI s k.
    + eapply q_update_total; try done. by apply (Hg x it).
    + unfold q_update. rewrite Hop, Hk. by eexists.
  - unfold q_change_key. rewrite Hop. destruct (items s !! new), (items s !! old); by eexists.
  - keyed HI s k.
    + destruct (q_set_delay_ok b now k x it delay s HI Hk Hx) as (s1 & -> & _). by eexists.
    + unfold q_set_delay. rewrite Hop, Hk. by eexists.
  - keyed HI s k.
    + destruct (q_set_group_ok b k x it g s HI Hk Hx) as (s1 & -> & _). by eexists.
    + unfold q_set_reserve_group. rewrite Hop, Hk. by eexists.
  - destruct (q_reserve_ok b now g retry s HI) as [(s1 & -> & _)|(s1 & x & it & -> & _)]; by eexists.
  - keyed HI s k.
    + destruct (decide (ist it = SRun)) as [Hst|Hst].
      * destruct (q_touch_ok b now k x it s HI Hk Hx Hst) as (s1 & -> & _). by eexists.
      * unfold q_touch. rewrite Hop, Hk, Hx. simpl. destruct (ist it); try done; by eexists.
    + unfold q_touch. rewrite Hop, Hk. by eexists.
  - keyed HI s k.
    + destruct (decide (ist it = SRun)) as [Hst|Hst].
      * destruct (q_release_ok b now k x it s HI Hk Hx Hst) as (s1 & -> & _). by eexists.
      * unfold q_release. rewrite Hop, Hk, Hx. simpl. destruct (ist it); try done; by eexists.
    + unfold q_release. rewrite Hop, Hk. by eexists.
  - keyed HI s k.
    + destruct (decide (ist it = SRun)) as [Hst|Hst].
      * destruct (q_bury_ok b k x it s HI Hk Hx Hst) as (s1 & -> & _). by eexists.
      * unfold q_bury. rewrite Hop, Hk, Hx. simpl. destruct (ist it); try done; by eexists.
    + unfold q_bury. rewrite Hop, Hk. by eexists.
  - keyed HI s k.
    + destruct (decide (ist it = SBury)) as [Hst|Hst].
      * destruct (q_kick_ok b k x it s HI Hk Hx Hst) as (s1 & -> & _). by eexists.
      * unfold q_kick. rewrite Hop, Hk, Hx. simpl. destruct (ist it); try done; by eexists.
    + unfold q_kick. rewrite Hop, Hk. by eexists.
  - keyed HI s k.
    + destruct (q_remove_ok b k x it ord s HI Hk Hx) as (s1 & added & -> & _). by eexists.
    + unfold q_remove. rewrite Hop, Hk. by eexists.
  - unfold q_has_dependents. rewrite Hop. by eexists.
  - destruct (q_destroy_ok b s HI) as (s1 & -> & _). by eexists.
  - destruct (q_tick_delay_ok b now s HI) as (s1 & moved & -> & _). by eexists.
  - destruct (q_tick_ttr_ok b now cb s HI) as (s1 & ord & -> & _). by eexists.
Qed.

(** A destroyed queue *)
Definition dead_answer (o : op) : qres :=
  match o with
  | OReserve _ _ true => RErr ENothingReady
  | OTickDelay _ | OTickTTR _ _ => ROk
  | _ => RErr EClosed
  end.
Lemma dead_step s o :
  Dead s → ∃ s', step s o = Some (s', dead_answer o, []) ∧ Dead s' ∧ objs s' = objs s ∧ rest_eq s s'.
Proof.
  intros HD. pose proof (dd_closed _ HD) as Hcl.
  assert (Hgen : ∀ r : qres, ∃ s', Some (s, r, @nil event) = Some (s', r, []) ∧ Dead s' ∧ objs s' = objs s ∧ rest_eq s s').
  { intros r. eexists. split; [done|]. split; [done|]. split; [done|apply rest_eq_refl]. }
  destruct o; simpl; try (unfold q_add, q_add_many, q_get, q_update, q_change_key, q_set_delay,
    q_set_reserve_group, q_touch, q_release, q_bury, q_kick, q_remove, q_has_dependents, q_destroy;
    rewrite Hcl; apply Hgen).
  - unfold q_reserve. rewrite Hcl. destruct retry; simpl; [|apply Hgen].
    unfold ready_pop. rewrite (dd_ready _ HD), lookup_empty. simpl. apply Hgen.
  - unfold q_tick_delay. rewrite (dd_delay _ HD). simpl. unfold delay_loop_top. rewrite (dd_delay _ HD). simpl.
    eexists. split; [done|]. split; [by destruct HD|]. split; [done|by split_and!].
  - unfold q_tick_ttr. rewrite (dd_run _ HD). simpl. unfold ttr_loop_top. simpl. rewrite (dd_run _ HD). simpl.
    eexists. split; [done|]. split; [by destruct HD|]. split; [done|by split_and!].
Qed.

Lemma inv_new b t : Inv b (q_new t).
Proof.
  assert (Hgr : ∀ g, rget (readyQ (q_new t)) g = ArrQ [] ∅).
  { intros g. unfold rget. simpl. by rewrite lookup_empty. }
  split; simpl; try done.
  - unfold locs. rewrite omap_empty. split.
    + intros []; simpl; try apply wf_empty.
    + intros l x. rewrite lookup_empty. destruct l; simpl; try (rewrite elem_of_nil; done).
    + intros l _. assert (arr (cont (q_new t) l) = []) as ->.
      { by destruct l. }
      intros c H1 H2. simpl in *. lia.
  - intros k x. rewrite lookup_empty. split; [done|]. intros (it & Hx & _). by rewrite lookup_empty in Hx.
  - intros x. rewrite lookup_empty. split; [by intros [? ?]|lia].
Qed.

Lemma run_inv b ops s s' l :
  Inv b s ∨ Dead s → good_run b s ops → run s ops = Some (s', l) → Inv b s' ∨ Dead s'.
Proof.
  revert s l. induction ops as [|o ops IH]; intros s l HI Hg; simpl.
  { intros [= <- <-]. done. }
  destruct Hg as [Hg1 Hg2]. destruct (step s o) as [[[s1 r] e]|] eqn:Hs; [|done]. simpl.
  destruct (run s1 ops) as [[s2 l2]|] eqn:Hr; [|done]. simpl. intros [= <- <-].
  eapply IH; [|done|done]. destruct HI as [HI|HD].
  - destruct (step_eff b s o s1 r e HI Hg1 Hs) as [_ [H|[_ H]]]; auto.
  - right. destruct (dead_step s o HD) as (s3 & Hs3 & HD3 & _). rewrite Hs in Hs3. by injection Hs3 as <- _ _.
Qed.

Lemma run_total ops s :
  Inv true s ∨ Dead s → good_run true s ops → is_Some (run s ops).
Proof.
  revert s. induction ops as [|o ops IH]; intros s HI Hg; simpl; [by eexists|].
  destruct Hg as [Hg1 Hg2].
  assert (∃ s1 r e, step s o = Some (s1, r, e) ∧ (Inv true s1 ∨ Dead s1)) as (s1 & r & e & Hs & HI1).
  { destruct HI as [HI|HD].
    - destruct (step_total true s o HI Hg1) as [[[s1 r] e] Hs]. exists s1, r, e. split; [done|].
      destruct (step_eff true s o s1 r e HI Hg1 Hs) as [_ [H|[_ H]]]; auto.
    - destruct (dead_step s o HD) as (s3 & Hs3 & HD3 & _). eauto 10. }
  rewrite Hs in Hg2 |- *. simpl. destruct (IH s1 HI1 Hg2) as [[s2 l] ->]. by eexists.
Qed.
