(** What each server step does, key by key *)
From Coq Require Import ZArith Lia String.
From stdpp Require Import base option strings gmap list.
From RecordUpdate Require Import RecordSet.
From Verif Require Import GoHeap QueueModel QueueCore QueueInv QueueInvAdd QueueInvUpd QueueInvRem
  QueueInvTick QueueEff ServerModel ServerCore ServerTick.
Import RecordSetNotations.
Open Scope Z_scope.

(** What the codec has been through *)
Definition plain (k : key) (j : job) : Prop := jkey j = k ∧ jincr j = [] ∧ jkilled j = false.
Record DInv (s : sstate) : Prop := {
  di_live k j : live (sdb s) !! k = Some j → plain k j;
  di_comp k j : complete (sdb s) !! k = Some j → plain k j;
  di_pend k j : (k, j) ∈ pend (sdb s) → plain k j;
  di_in k : is_Some (live (sdb s) !! k) → is_Some (find_job k s);
}.
Arguments di_live {_} _ _ _ _.
Arguments di_comp {_} _ _ _ _.
Arguments di_pend {_} _ _ _ _.
Arguments di_in {_} _ _ _.

Lemma plain_encode j : plain (jkey j) (encode j).
Proof. done. Qed.

(** the job after releaseJob, and the limiter calls *)
Definition after_rel (jes : option endstate) (force : bool) (j : job) : job * list lcall :=
  let '(j, l) := update_after_exit jes j in
  let j := if force then j <| juntil := 0%N |>
           else if jstart j =? 0 then j
           else j <| juntil ::= λ n, ((n + 255) mod 256)%N |> in
  (j <| jst := if (juntil j =? 0)%N then JBuried else JDelayed |>, l).
Definition will_bury (force : bool) (j : job) : bool := force || (negb (jstart j =? 0) && (juntil j =? 1)%N).

Lemma update_after_exit_key jes j : jkey (update_after_exit jes j).1 = jkey j.
Proof. unfold update_after_exit, decrement_limits. repeat case_match; simplify_eq; done. Qed.
Lemma after_rel_key jes force j : jkey (after_rel jes force j).1 = jkey j.
Proof.
  unfold after_rel. pose proof (update_after_exit_key jes j). destruct (update_after_exit jes j) as [j1 l].
  cbn. destruct force; [done|]. destruct (jstart j1 =? 0); done.
Qed.
Lemma after_release_eq p jes force s j : sjobs s !! p = Some j →
  after_release p jes force s =
  let '(j', l) := after_rel jes force j in
  Some (write_behind (jkey j) j' (set_job p (λ _, j') s), SOk, l).
Proof.
  intros Hj. unfold after_release. rewrite Hj. cbn beta iota zeta delta [mbind option_bind].
  pose proof (after_rel_key jes force j) as Hk. unfold after_rel in *.
  destruct (update_after_exit jes j) as [j1 l]. cbn in *. by rewrite Hk.
Qed.

(** keys other than [k] are as before *)
Definition others (s s' : sstate) (k : key) : Prop := ∀ k', k' ≠ k → find_job k' s' = find_job k' s.
Definition put_pend (k : key) (j : job) (d : db) : db := d <| pend ::= λ l, l ++ [(k, encode j)] |>.

(** a job released or buried *)
Definition rel_eff (s : sstate) (k : key) (jes : option endstate) (force : bool) (s' : sstate) (l : list lcall) : Prop :=
  ∃ st j st', look s k = Some (st, j) ∧
    let '(j', l') := after_rel jes force j in
    look s' k = Some (st', j') ∧ l = l' ∧ others s s' k ∧ sdb s' = put_pend k j' (sdb s) ∧
    ((st = SRun ∧ (if will_bury force j then st' = SBury else st' = SReady ∨ st' = SDelay)) ∨
     (st' = st ∧ (if will_bury force j then st = SBury ∧ jst j ≠ JBuried else st = SDelay ∧ jst j ≠ JDelayed))).
(** fields no request by name of the job decides on *)
Definition tweaks (f : job → job) : Prop :=
  ∀ j, jkey (f j) = jkey j ∧ jretries (f j) = jretries j ∧ juntil (f j) = juntil j ∧ jreserved (f j) = jreserved j ∧
    jstart (f j) = jstart j ∧ jexited (f j) = jexited j ∧ jexit (f j) = jexit j ∧ jst (f j) = jst j ∧
    jincr (f j) = jincr j ∧ jlimits (f j) = jlimits j ∧ jdeps (f j) = jdeps j ∧ jdepgroups (f j) = jdepgroups j.
Definition stays (o : sop) (r : sres) (l : list lcall) : Prop :=
  match o, r with
  | AReserve _ _ _ _ _, SReserved _ => False
  | AStart _ _ _ _, SOk => False
  | AArchive _ _ _ _, SOk => False
  | AAdd _ _ _, _ => False
  | AKick _, _ => False
  | ADelete _ _, _ => False
  | ALand _, _ => False
  | ATickDelay _, _ => False
  | ATickTTR _, _ => False
  | ACrash _ _ _, _ => False
  | _, _ => True
  end ∧ match o with AReserve _ _ g _ _ => l = [] ∨ l = [CInc (sched_limits g); CDec (sched_limits g)] | _ => l = [] end.
Definition inc_of (g : group) : list lcall := match sched_limits g with [] => [] | gs => [CInc gs] end.
Definition reserved_job (c : N) (g : group) (j : job) : job :=
  reserve_for c (match sched_limits g with [] => j | gs => j <| jincr := gs |> end).
Definition started_job (now : Z) (j : job) : job :=
  j <| jstart := now |> <| jend := 0 |> <| jattempts ::= N.succ |> <| jkilled := false |>
    <| jlost := false |> <| jst := JRunning |>.
Definition archivable (j : job) : Prop := jexited j = true ∧ jexit j = 0 ∧ jstart j ≠ 0 ∧ jend j ≠ 0.
Definition kicked_job (j : job) : job := j <| juntil := ((jretries j + 1) mod 256)%N |> <| jst := JReady |>.
(** an item freed by the removal of others *)
Definition same_or_freed (s s' : sstate) (k : key) : Prop :=
  look s' k = look s k ∨ ∃ j, look s k = Some (SDep, j) ∧ look s' k = Some (SReady, j).
Definition recovered_state (d : db) (j : job) : istate :=
  match incomplete_keys d j with
  | _ :: _ => SDep
  | [] => match jst j with JRunning => SRun | JBuried => SBury | _ => SReady end
  end.

Inductive seff (s : sstate) : sop → sstate → sres → list lcall → Prop :=
| SeStay o s' r l : (∀ k, look s' k = look s k) → sdb s' = sdb s → stays o r l → seff s o s' r l
| SeReserve now c g granted delay s' k j :
    look s k = Some (SReady, j) → c ≠ 0%N → look s' k = Some (SRun, reserved_job c g j) →
    (∀ k', k' ≠ k → look s' k' = look s k') → sdb s' = sdb s → (sched_limits g ≠ [] → granted = true) →
    seff s (AReserve now c g granted delay) s' (SReserved k) (inc_of g)
| SeStart now c k s' j :
    look s k = Some (SRun, j) → c = jreserved j → look s' k = Some (SRun, started_job now j) →
    (∀ k', k' ≠ k → look s' k' = look s k') → sdb s' = put_pend k (started_job now j) (sdb s) →
    seff s (AStart now c k true) s' SOk []
| SeTouch now c k s' b f j :
    look s k = Some (SRun, j) → c = jreserved j → look s' k = Some (SRun, f j) → tweaks f →
    (∀ k', k' ≠ k → look s' k' = look s k') → sdb s' = sdb s →
    seff s (ATouch now c k) s' (SKillCalled b) []
| SeTweak o k s' r f st j :
    look s k = Some (st, j) → look s' k = Some (st, f j) → tweaks f →
    (∀ k', k' ≠ k → look s' k' = look s k') → sdb s' = sdb s →
    match o with AKill _ k' => k' = k | ARegroup k' _ => k' = k | _ => False end →
    seff s o s' r []
| SeRefused c k jes ord s' j :
    look s k = Some (SRun, j) → c = jreserved j → ¬ archivable (update_after_exit jes j).1 →
    look s' k = Some (SRun, (update_after_exit jes j).1) →
    (∀ k', k' ≠ k → look s' k' = look s k') → sdb s' = sdb s →
    seff s (AArchive c k jes ord) s' (SErr EBadRequest) (update_after_exit jes j).2
| SeArchive c k jes ord s' j :
    look s k = Some (SRun, j) → c = jreserved j → archivable (update_after_exit jes j).1 →
    look s' k = None → (∀ k', k' ≠ k → same_or_freed s s' k') →
    sdb s' = db_archive k ((update_after_exit jes j).1 <| jst := JComplete |>) (sdb s) →
    seff s (AArchive c k jes ord) s' SOk (update_after_exit jes j).2
| SeRelease now c k jes s' l st j :
    look s k = Some (st, j) → c = jreserved j → rel_eff s k jes false s' l →
    seff s (ARelease now c k jes) s' SOk l
| SeBury now c k jes s' l st j :
    look s k = Some (st, j) → c = jreserved j → rel_eff s k jes true s' l →
    seff s (ABury now c k jes) s' SOk l
| SeKill now k s' l j s1 :
    look s k = Some (SRun, j) → jlost j = true → look s1 k = Some (SRun, j <| jkilled := true |>) →
    others s s1 k → sdb s1 = sdb s → rel_eff s1 k (Some lost_end) false s' l →
    seff s (AKill now k) s' (SCount 1) l
| SeLost now k s' l st j :
    look s k = Some (st, j) → jlost j = true → jkilled j = true → rel_eff s k (Some lost_end) false s' l →
    seff s (ALostRelease now k) s' SOk l
| SeKick ks s' n kicked :
    NoDup kicked → kicked ⊆ ks →
    (∀ k, k ∈ kicked → ∃ st j, look s k = Some (SBury, j) ∧ look s' k = Some (st, kicked_job j) ∧ (st = SReady ∨ st = SDep)) →
    (∀ k, k ∉ kicked → look s' k = look s k) → n = length kicked →
    sdb s' = sdb s <| pend ::= λ l, l ++ (kicked ≫= λ k,
       match look s' k with Some (_, j) => [(k, encode j)] | None => [] end) |> →
    seff s (AKick ks) s' (SCount n) []
| SeDelete ks ord s' del :
    NoDup del → del ⊆ ks →
    (∀ k, k ∈ del → ∃ st j, look s k = Some (st, j) ∧ st ≠ SRun ∧ look s' k = None) →
    (∀ k, k ∉ del → same_or_freed s s' k) →
    sdb s' = sdb s <| live ::= λ m, foldr delete m del |> →
    seff s (ADelete ks ord) s' (SCount (length del)) []
| SeTickDelay now s' :
    (∀ k, look s' k = look s k ∨ ∃ j, look s k = Some (SDelay, j) ∧ look s' k = Some (SReady, j)) → sdb s' = sdb s →
    seff s (ATickDelay now) s' SOk []
| SeTickTTR now s' ks :
    NoDup ks → sdb s' = sdb s → (∀ k, k ∉ ks → look s' k = look s k) →
    (∀ k, k ∈ ks → ∃ j, look s k = Some (SRun, j) ∧
       look s' k = Some (match (ttr_callback now j).1.2 with ToRun => SRun | _ => SDelay end, (ttr_callback now j).1.1)) →
    seff s (ATickTTR now) s' SOk (ks ≫= ttr_calls now s)
| SeLand i s' : (∀ k, look s' k = look s k) →
    sdb s' = sdb (s_land i s) → seff s (ALand i) s' SOk []
| SeAdd now js ignore s' r stored toq upd already :
    prepare (init_job <$> js) ignore (sdb s) = (stored, toq, upd, already) →
    sdb s' = db_store stored (new_dtk (kept_of (init_job <$> js) ignore (sdb s)))
               (new_rdtk (kept_of (init_job <$> js) ignore (sdb s))) (sdb s) →
    (∃ a d, r = SAdded a d already) →
    (∀ k, find_job k s = None →
       match head (filter (λ j, jkey j = k) toq) with
       | Some j => ∃ it p, find_job k s' = Some (it, p, j) ∧
                     iremain it = list_to_set (incomplete_keys (sdb s') j) ∧
                     ist it = match incomplete_keys (sdb s') j with [] => SReady | _ => SDep end
       | None => find_job k s' = None
       end) →
    (∀ k it p j, find_job k s = Some (it, p, j) →
       (k ∉ jkey <$> upd ∧ find_job k s' = find_job k s) ∨
       ∃ it' p' j', find_job k s' = Some (it', p', j') ∧ j' ∈ upd ∧ jkey j' = k ∧
         iremain it' = list_to_set (incomplete_keys (sdb s') j') ∧
         ist it' = upd_state (incomplete_keys (sdb s') j') it) →
    seff s (AAdd now js ignore) s' r []
| SeCrash c now granted s' :
    sdb s' = cut_db s c <| pend := [] |> →
    (∀ k, look s' k = (λ j, (recovered_state (sdb s') j, (recover_limits granted j).1)) <$> live (sdb s') !! k) →
    seff s (ACrash c now granted) s' SOk (concat ((λ kj, (recover_limits granted kj.2).2) <$> map_to_list (live (sdb s')))).

Lemma others_look s s' k : others s s' k → ∀ k', k' ≠ k → look s' k' = look s k'.
Proof. intros H k' Hne. by apply find_look_eq, H. Qed.
Lemma others_dinv s s' k : DInv s → others s s' k → is_Some (find_job k s') → sdb s' = sdb s → DInv s'.
Proof.
  intros HD Ho Hk He. split; rewrite ?He.
  - apply (di_live HD).
  - apply (di_comp HD).
  - apply (di_pend HD).
  - intros k' H. destruct (decide (k' = k)) as [->|Hne]; [done|]. rewrite (Ho _ Hne). by apply (di_in HD).
Qed.
Lemma same_dinv s s' : DInv s → (∀ k, find_job k s' = find_job k s) → sdb s' = sdb s → DInv s'.
Proof.
  intros HD Ho He. split; rewrite ?He; [apply (di_live HD)|apply (di_comp HD)|apply (di_pend HD)|].
  intros k' H. rewrite Ho. by apply (di_in HD).
Qed.
Lemma pend_dinv s s' k j : DInv s → others s s' k → is_Some (find_job k s') → jkey j = k →
  sdb s' = put_pend k j (sdb s) → DInv s'.
Proof.
  intros HD Ho Hk Hj He. split; rewrite He; cbn.
  - apply (di_live HD).
  - apply (di_comp HD).
  - intros k' j' [H|H]%elem_of_app; [by apply (di_pend HD)|].
    apply elem_of_list_singleton in H as [= -> ->]. rewrite <- Hj. apply plain_encode.
  - intros k' H. destruct (decide (k' = k)) as [->|Hne]; [done|]. rewrite (Ho _ Hne). by apply (di_in HD).
Qed.
Lemma found_is_some s k x it j : Found s k x it j → is_Some (find_job k s).
Proof. intros HF. rewrite (found_find _ _ _ _ _ HF). by eexists. Qed.

Lemma others_refl s k : others s s k.
Proof. by intros k' _. Qed.
Lemma others_trans s1 s2 s3 k : others s1 s2 k → others s2 s3 k → others s1 s3 k.
Proof. intros H1 H2 k' Hne. by rewrite H2, H1. Qed.

Definition ok (s : sstate) (o : sop) (s' : sstate) (r : sres) (l : list lcall) : Prop :=
  seff s o s' r l ∧ SInv s' ∧ DInv s'.

Lemma reserve_ok now c g granted delay s s' r l : SInv s → DInv s →
  s_reserve now c g granted delay s = Some (s', r, l) → ok s (AReserve now c g granted delay) s' r l.
Proof.
  intros HS HD. unfold s_reserve. destruct (N.eqb_spec c 0) as [->|Hc].
  { intros [= <- <- <-]. split; [|done]. constructor; [done|done|split; [done|by left]]. }
  destruct (bool_decide (sched_limits g ≠ []) && negb granted) eqn:Hg.
  { intros [= <- <- <-]. split; [|done]. constructor; [done|done|split; [done|by left]]. }
  destruct (qdo (OReserve now g false) s) as [[s1 r1]|] eqn:Hq; [|done].
  cbn beta iota zeta delta [mbind option_bind].
  destruct (qdo_reserve s HS _ _ _ _ _ Hq) as [(k & x & it & j & -> & HF & Hone & Hst & _)|(Herr & Hnone)].
  - destruct Hone as (x' & it' & j' & HF' & HS1 & HF1 & Ho1 & Hdb1 & _).
    assert (x' = x) as -> by (pose proof (f_item HF); pose proof (f_item HF'); congruence).
    assert (it' = it) as -> by (pose proof (f_obj HF); pose proof (f_obj HF'); congruence).
    assert (j' = j) as -> by (pose proof (f_job HF); pose proof (f_job HF'); congruence).
    cbn beta in HF1. set (it1 := switch_ready_run (touch now it)) in *.
    rewrite (f_obj HF1). cbn beta iota zeta delta [mbind option_bind].
    set (s2 := match sched_limits g with [] => s1 | _ => set_job (idata it1) (λ j, j <| jincr := sched_limits g |>) s1 end).
    set (j2 := match sched_limits g with [] => j | gs => j <| jincr := gs |> end).
    assert (H2 : SInv s2 ∧ Found s2 k x it1 j2 ∧ others s1 s2 k ∧ sdb s2 = sdb s1).
    { unfold s2, j2. destruct (sched_limits g) eqn:E; [done|]. rewrite <- E. split; [by apply set_job_inv|].
      split; [by apply set_job_found with (f := λ j, j <| jincr := sched_limits g |>)|]. split; [|done].
      intros k' Hne. by eapply set_job_other. }
    destruct H2 as (HS2 & HF2 & Ho2 & Hdb2).
    set (s3 := set_job (idata it1) (reserve_for c) s2).
    assert (HS3 : SInv s3) by (by apply set_job_inv).
    assert (HF3 : Found s3 k x it1 (reserve_for c j2)) by (by apply (set_job_found s2)).
    assert (Ho3 : others s2 s3 k) by (intros k' Hne; by eapply set_job_other).
    destruct (qdo (OSetDelay now (ikey it1) delay) s3) as [[s4 r4]|] eqn:Hq4; [|done].
    cbn beta iota zeta delta [mbind option_bind]. rewrite (f_key HF3) in *. intros [= <- <- <-].
    assert (H4 : SInv s4 ∧ (∃ it4, Found s4 k x it4 (reserve_for c j2) ∧ ist it4 = SRun) ∧ others s3 s4 k ∧ sdb s4 = sdb s3).
    { destruct (qdo_setdelay s3 HS3 _ _ _ _ _ Hq4) as [(-> & F & HF0 & x' & it' & j' & G1 & G2 & G3 & G4 & G5 & _)|(_ & G1 & G2 & G3 & _ & _ & G4 & G5)].
      - assert (x' = x) as -> by (pose proof (f_item HF3); pose proof (f_item G1); congruence).
        assert (it' = it1) as -> by (pose proof (f_obj HF3); pose proof (f_obj G1); congruence).
        assert (j' = reserve_for c j2) as -> by (pose proof (f_job HF3); pose proof (f_job G1); congruence).
        split; [done|]. split; [|done]. exists (F it1). split; [done|]. by rewrite HF0.
      - split; [done|]. split; [|split; [by intros k' _|done]].
        destruct (items_found s4 k x G1) as (it4 & j4 & HF4).
        { destruct G4 as [-> _]. apply HF3. }
        pose proof (G2 k) as He. rewrite (found_find _ _ _ _ _ HF3), (found_find _ _ _ _ _ HF4) in He.
        injection He as -> _ ->. exists it1. done. }
    destruct H4 as (HS4 & (it4 & HF4 & Hst4) & Ho4 & Hdb4).
    assert (Hoth : others s s4 k) by (repeat (eapply others_trans; [eassumption|]); apply others_refl).
    assert (Hdb : sdb s4 = sdb s) by (rewrite Hdb4; cbn; by rewrite Hdb2).
    split; [|split; [done|]].
    + change (match sched_limits g with [] => [] | _ => [CInc (sched_limits g)] end) with
        (match sched_limits g with [] => [] | _ => [CInc (sched_limits g)] end).
      assert (match sched_limits g with [] => [] | _ => [CInc (sched_limits g)] end = inc_of g) as ->.
      { unfold inc_of. by destruct (sched_limits g). }
      eapply SeReserve; try done.
      * rewrite (found_look _ _ _ _ _ HF). by rewrite Hst.
      * rewrite (found_look _ _ _ _ _ HF4), Hst4. unfold reserved_job. done.
      * by apply others_look.
      * intros Hl. rewrite bool_decide_true in Hg by done. by destruct granted.
    + eapply others_dinv; try done. by eapply found_is_some.
  - destruct Hnone as (HS1 & Hl1 & Hdb1 & _).
    assert (Hl : ∀ k, look s1 k = look s k) by (intros k; by apply find_look_eq).
    assert (HD1 : DInv s1) by (by apply same_dinv with s).
    intros Hout.
    assert (s' = s1 ∧ l = match sched_limits g with [] => [] | _ => [CInc (sched_limits g)] end ++
       match sched_limits g with [] => [] | _ => [CDec (sched_limits g)] end ∧ ∀ k, r ≠ SReserved k) as (-> & -> & Hr).
    { destruct r1; try done. all: try (by destruct Herr). all: repeat case_match; injection Hout as <- <- <-; done. }
    split; [|done]. constructor; [done|done|].
    split; [by destruct r; try done; eapply Hr|]. destruct (sched_limits g); [by left|by right].
Qed.
