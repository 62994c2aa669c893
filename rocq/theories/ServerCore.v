(** Foundations for the server proofs: what a request handler sees of a key, the
    invariant tying queue items to the jobs they point to, and how each queue
    call changes both. *)
From Coq Require Import ZArith Lia String.
From stdpp Require Import base option strings gmap list.
From RecordUpdate Require Import RecordSet.
From Verif Require Import GoHeap QueueModel QueueCore QueueInv QueueInvAdd QueueInvUpd QueueInvRem
  QueueInvTick QueueEff ServerModel.
Import RecordSetNotations.
Open Scope Z_scope.

(** The item state and the job known by a key *)
Definition look (s : sstate) (k : key) : option (istate * job) :=
  '(it, _, j) ← find_job k s; Some (ist it, j).

Record SInv (s : sstate) : Prop := {
  si_q : Inv false (sq s);
  si_ptr x it : objs (sq s) !! x = Some it → ist it ≠ SRemoved →
    ∃ j, sjobs s !! idata it = Some j ∧ jkey j = ikey it;
  si_inj x y itx ity : objs (sq s) !! x = Some itx → objs (sq s) !! y = Some ity →
    ist itx ≠ SRemoved → ist ity ≠ SRemoved → idata itx = idata ity → x = y;
  si_next p : is_Some (sjobs s !! p) → (p < snext s)%N;
}.
Arguments si_q {_} _.
Arguments si_ptr {_} _ _ _ _ _.
Arguments si_inj {_} _ _ _ _ _ _ _ _ _ _.
Arguments si_next {_} _ _ _.

Lemma find_ext s s' k : items (sq s') !! k = items (sq s) !! k →
  (∀ x, items (sq s) !! k = Some x → objs (sq s') !! x = objs (sq s) !! x) →
  (∀ x it, items (sq s) !! k = Some x → objs (sq s) !! x = Some it → sjobs s' !! idata it = sjobs s !! idata it) →
  find_job k s' = find_job k s.
Proof.
  unfold find_job. intros -> Ho Hj. destruct (items (sq s) !! k) as [x|] eqn:Hk; [|done].
  cbn. rewrite (Ho _ eq_refl). destruct (objs (sq s) !! x) as [it|] eqn:Hx; [|done]. cbn.
  by rewrite (Hj _ _ eq_refl Hx).
Qed.

Lemma find_look_eq s s' k : find_job k s' = find_job k s → look s' k = look s k.
Proof. unfold look. by intros ->. Qed.
Lemma find_look s k it p j : find_job k s = Some (it, p, j) → look s k = Some (ist it, j).
Proof. unfold look. by intros ->. Qed.
Lemma look_None s k : SInv s → look s k = None ↔ items (sq s) !! k = None.
Proof.
  intros HS. unfold look, find_job. destruct (items (sq s) !! k) as [x|] eqn:Hk; [|done]. cbn.
  destruct (inv_get _ _ _ _ (si_q HS) Hk) as (it & Hx & Hkey & Hr). rewrite Hx. cbn.
  destruct (si_ptr HS _ _ Hx Hr) as (j & -> & Hj). cbn. done.
Qed.
(** all there is to know of a key in the queue *)
Record Found (s : sstate) (k : key) (x : nat) (it : item) (j : job) : Prop := {
  f_item : items (sq s) !! k = Some x;
  f_obj : objs (sq s) !! x = Some it;
  f_key : ikey it = k;
  f_live : ist it ≠ SRemoved;
  f_job : sjobs s !! idata it = Some j;
  f_jkey : jkey j = k;
}.
Arguments f_item {_ _ _ _ _} _.
Arguments f_obj {_ _ _ _ _} _.
Arguments f_key {_ _ _ _ _} _.
Arguments f_live {_ _ _ _ _} _.
Arguments f_job {_ _ _ _ _} _.
Arguments f_jkey {_ _ _ _ _} _.

Lemma found_look s k x it j : Found s k x it j → look s k = Some (ist it, j).
Proof. intros [H1 H2 _ _ H5 _]. unfold look, find_job. rewrite H1. cbn. rewrite H2. cbn. by rewrite H5. Qed.
Lemma found_find s k x it j : Found s k x it j → find_job k s = Some (it, idata it, j).
Proof. intros [H1 H2 _ _ H5 _]. unfold find_job. rewrite H1. cbn. rewrite H2. cbn. by rewrite H5. Qed.
Lemma items_found s k x : SInv s → items (sq s) !! k = Some x → ∃ it j, Found s k x it j.
Proof.
  intros HS Hk. destruct (inv_get _ _ _ _ (si_q HS) Hk) as (it & Hx & Hkey & Hr).
  destruct (si_ptr HS _ _ Hx Hr) as (j & Hj & Hjk). exists it, j. split; try done. congruence.
Qed.
Lemma find_found s k it p j : SInv s → find_job k s = Some (it, p, j) → p = idata it ∧ ∃ x, Found s k x it j.
Proof.
  intros HS Hf. destruct (items (sq s) !! k) as [x|] eqn:Hk.
  - destruct (items_found _ _ _ HS Hk) as (it' & j' & HF). rewrite (found_find _ _ _ _ _ HF) in Hf.
    injection Hf as <- <- <-. split; [done|]. by exists x.
  - unfold find_job in Hf. by rewrite Hk in Hf.
Qed.
Lemma look_found s k st j : SInv s → look s k = Some (st, j) → ∃ x it, Found s k x it j ∧ ist it = st.
Proof.
  intros HS Hl. destruct (items (sq s) !! k) as [x|] eqn:Hk.
  - destruct (items_found _ _ _ HS Hk) as (it & j' & HF). rewrite (found_look _ _ _ _ _ HF) in Hl.
    injection Hl as <- <-. by exists x, it.
  - apply (look_None s k HS) in Hk. congruence.
Qed.
Lemma obj_found s x it : SInv s → objs (sq s) !! x = Some it → ist it ≠ SRemoved → ∃ j, Found s (ikey it) x it j.
Proof.
  intros HS Hx Hr. destruct (si_ptr HS _ _ Hx Hr) as (j & Hj & Hjk). exists j. split; try done.
  apply (i_items (si_q HS)). eauto.
Qed.

(** ** Mutating a job *)
Lemma set_job_inv s p f : SInv s → (∀ j, jkey (f j) = jkey j) → SInv (set_job p f s).
Proof.
  intros HS Hf. split; cbn [set_job sq sjobs snext set].
  - apply (si_q HS).
  - intros x it Hx Hr. cbn in Hx. destruct (si_ptr HS _ _ Hx Hr) as (j & Hj & Hk). simpl.
    destruct (decide (idata it = p)) as [e|e].
    + subst p. exists (f j). split; [|by rewrite Hf]. by rewrite lookup_alter, Hj.
    + exists j. split; [|done]. by rewrite lookup_alter_ne.
  - apply (si_inj HS).
  - intros q [j Hj]. simpl in *. apply (si_next HS). destruct (decide (p = q)) as [->|e].
    + rewrite lookup_alter in Hj. destruct (sjobs s !! q); [by eexists|done].
    + rewrite lookup_alter_ne in Hj by done. by eexists.
Qed.
Lemma set_job_found s k x it j f :
  SInv s → Found s k x it j → (∀ j, jkey (f j) = jkey j) → Found (set_job (idata it) f s) k x it (f j).
Proof.
  intros HS HF Hf. destruct HF as [H1 H2 H3 H4 H5 H6]. split; try done.
  - simpl. by rewrite lookup_alter, H5.
  - by rewrite Hf.
Qed.
Lemma set_job_other s k x it j f k' :
  SInv s → Found s k x it j → k' ≠ k → find_job k' (set_job (idata it) f s) = find_job k' s.
Proof.
  intros HS HF Hne. apply find_ext; [done|done|]. intros y ity Hy Hoy. simpl.
  apply lookup_alter_ne. intros He.
  destruct (items_found _ _ _ HS Hy) as (it' & j' & HF'). rewrite (f_obj HF') in Hoy. injection Hoy as ->.
  assert (x = y) as -> by exact (si_inj HS _ _ _ _ (f_obj HF) (f_obj HF') (f_live HF) (f_live HF') He).
  apply Hne. rewrite <- (f_key HF), <- (f_key HF'). pose proof (f_obj HF). pose proof (f_obj HF'). congruence.
Qed.
Lemma set_job_sq p f s : sq (set_job p f s) = sq s. Proof. done. Qed.
Lemma set_job_sdb p f s : sdb (set_job p f s) = sdb s. Proof. done. Qed.

Lemma write_behind_inv k j s : SInv s → SInv (write_behind k j s).
Proof. intros HS. split; [apply (si_q HS)|apply (si_ptr HS)|apply (si_inj HS)|apply (si_next HS)]. Qed.
Lemma sdb_inv f s : SInv s → SInv (s <| sdb ::= f |>).
Proof. intros HS. split; [apply (si_q HS)|apply (si_ptr HS)|apply (si_inj HS)|apply (si_next HS)]. Qed.
Lemma sdb_find f s k : find_job k (s <| sdb ::= f |>) = find_job k s. Proof. done. Qed.
Lemma write_behind_find k j s k' : find_job k' (write_behind k j s) = find_job k' s. Proof. done. Qed.

(** ** Calling the queue *)
Lemma qdo_inv o s s' r : qdo o s = Some (s', r) →
  ∃ q e, step (sq s) o = Some (q, r, e) ∧ s' = s <| sq := q |>.
Proof.
  unfold qdo. destruct (step (sq s) o) as [[[q r'] e]|] eqn:Hs; [|done]. cbn. intros [= <- <-]. eauto.
Qed.
Lemma qdo_eff o s s' r : SInv s → qdo o s = Some (s', r) → good false (sq s) o → o ≠ ODestroy →
  ∃ q e, s' = s <| sq := q |> ∧ eff false (sq s) o q r e ∧ Inv false q.
Proof.
  intros HS Hq Hg Hd. destruct (qdo_inv _ _ _ _ Hq) as (q & e & Hs & ->).
  destruct (step_eff _ _ _ _ _ _ (si_q HS) Hg Hs) as [He [Hi|[? _]]]; [|done]. eauto 10.
Qed.

(** a queue call that leaves keys and data of the items alone *)
Lemma queue_inv s q : SInv s → Inv false q →
  (∀ y it', objs q !! y = Some it' → ist it' ≠ SRemoved →
     ∃ it, objs (sq s) !! y = Some it ∧ ist it ≠ SRemoved ∧ idata it' = idata it ∧ ikey it' = ikey it) →
  SInv (s <| sq := q |>).
Proof.
  intros HS HI Hold. split; simpl.
  - done.
  - intros x it' Hx Hr. destruct (Hold _ _ Hx Hr) as (it & H1 & H2 & -> & ->). by apply (si_ptr HS x).
  - intros x y itx ity Hx Hy Hrx Hry He.
    destruct (Hold _ _ Hx Hrx) as (? & ? & ? & ? & ?). destruct (Hold _ _ Hy Hry) as (? & ? & ? & ? & ?).
    eapply (si_inj HS); eauto. congruence.
  - apply (si_next HS).
Qed.

(** one item changed *)
Lemma alter_look s q x it j k F :
  SInv s → Inv false q → Found s k x it j →
  objs q = alter F x (objs (sq s)) → rest_eq (sq s) q →
  ikey (F it) = ikey it → idata (F it) = idata it → ist (F it) ≠ SRemoved →
  SInv (s <| sq := q |>) ∧ Found (s <| sq := q |>) k x (F it) j ∧
  (∀ k', k' ≠ k → find_job k' (s <| sq := q |>) = find_job k' s) ∧ idata (F it) = idata it.
Proof.
  intros HS HI HF Ho (Hi & _ & _ & _) Hk Hd Hr. split_and!; [..|done].
  - apply queue_inv; [done|done|]. intros y it' Hy Hr'. rewrite Ho in Hy.
    destruct (decide (y = x)) as [->|Hne].
    + rewrite lookup_alter, (f_obj HF) in Hy. injection Hy as <-. exists it. split_and!; try done; apply HF.
    + rewrite lookup_alter_ne in Hy by done. eauto.
  - split; simpl.
    + rewrite Hi. apply HF.
    + by rewrite Ho, lookup_alter, (f_obj HF).
    + rewrite Hk. apply HF.
    + done.
    + rewrite Hd. apply HF.
    + apply HF.
  - intros k' Hne. apply find_ext; simpl.
    + by rewrite Hi.
    + intros y Hy. rewrite Ho. apply lookup_alter_ne. intros <-. apply Hne.
      destruct (items_found _ _ _ HS Hy) as (it' & j' & HF'). rewrite <- (f_key HF), <- (f_key HF').
      pose proof (f_obj HF). pose proof (f_obj HF'). congruence.
    + done.
Qed.
(** nothing changed *)
Lemma same_look s q : SInv s → Inv false q → objs q = objs (sq s) → rest_eq (sq s) q →
  SInv (s <| sq := q |>) ∧ ∀ k, find_job k (s <| sq := q |>) = find_job k s.
Proof.
  intros HS HI Ho (Hi & _ & _ & _). split.
  - apply queue_inv; [done|done|]. intros y it. rewrite Ho. eauto.
  - intros k. apply find_ext; simpl; [by rewrite Hi|by rewrite Ho|done].
Qed.

(** ** The operations, one by one *)

Section ops.
Context (s : sstate) (HS : SInv s).
Notation upd q := (s <| sq := q |>).

(** the outcome of a call on one key *)
Definition one (k : key) (F : item → item) (s' : sstate) : Prop :=
  ∃ x it j, Found s k x it j ∧ SInv s' ∧ Found s' k x (F it) j ∧ (∀ k', k' ≠ k → find_job k' s' = find_job k' s) ∧
    sdb s' = sdb s ∧ sjobs s' = sjobs s ∧ snext s' = snext s ∧ idata (F it) = idata it.
Definition none (s' : sstate) : Prop :=
  SInv s' ∧ (∀ k, find_job k s' = find_job k s) ∧ sdb s' = sdb s ∧ sjobs s' = sjobs s ∧ snext s' = snext s ∧
  rest_eq (sq s) (sq s') ∧ objs (sq s') = objs (sq s).

Lemma none_same q : objs q = objs (sq s) → rest_eq (sq s) q → Inv false q → none (upd q).
Proof.
  intros Ho Hre HI. destruct (same_look s q HS HI Ho Hre) as [H1 H2]. by split_and!.
Qed.

Ltac one_case q HI :=
  match goal with
  | Hi : items (sq s) !! ?k = Some ?x, Hx : objs (sq s) !! ?x = Some ?it,
    Ho : objs q = alter ?F ?x _, Hr : rest_eq _ q |- _ =>
      let it' := fresh "it" in let j := fresh "j" in let HF := fresh "HF" in let Hx' := fresh "Hx" in
      destruct (items_found _ _ _ HS Hi) as (it' & j & HF);
      pose proof (f_obj HF) as Hx'; rewrite Hx in Hx'; injection Hx' as <-;
      assert (one k F (upd q)) by
        (destruct (alter_look s q x it j k F HS HI HF Ho Hr) as (? & ? & ? & ?);
         [cbn; repeat case_match; try done; unfold restart; cbn; congruence ..|by exists x, it, j]);
      pose proof (found_look _ _ _ _ _ HF)
  end.

Lemma qdo_release now k s' r : qdo (ORelease now k) s = Some (s', r) →
  (r = ROk ∧ one k (λ it, if idelay it =? 0 then switch_run_ready it else switch_run_delay false (restart now it)) s' ∧
   ∃ j, look s k = Some (SRun, j)) ∨ (is_err r ∧ none s').
Proof.
  intros Hq. destruct (qdo_eff _ _ _ _ HS Hq I ltac:(done)) as (q & e & -> & He & HI).
  inversion He; subst; clear He.
  - right. split; [done|]. by apply none_same.
  - left. split; [done|]. one_case q HI. split; [done|]. exists j. congruence.
Qed.
Lemma qdo_bury k s' r : qdo (OBury k) s = Some (s', r) →
  (r = ROk ∧ one k (switch_run_bury false) s' ∧ ∃ j, look s k = Some (SRun, j)) ∨ (is_err r ∧ none s').
Proof.
  intros Hq. destruct (qdo_eff _ _ _ _ HS Hq I ltac:(done)) as (q & e & -> & He & HI).
  inversion He; subst; clear He.
  - right. split; [done|]. by apply none_same.
  - left. split; [done|]. one_case q HI. split; [done|]. exists j. congruence.
Qed.
Lemma qdo_touch now k s' r : qdo (OTouch now k) s = Some (s', r) →
  (r = ROk ∧ one k (touch now) s' ∧ ∃ j, look s k = Some (SRun, j)) ∨ (is_err r ∧ none s').
Proof.
  intros Hq. destruct (qdo_eff _ _ _ _ HS Hq I ltac:(done)) as (q & e & -> & He & HI).
  inversion He; subst; clear He.
  - right. split; [done|]. by apply none_same.
  - left. split; [done|]. one_case q HI. split; [done|]. exists j. congruence.
Qed.
Lemma qdo_setdelay now k d s' r : qdo (OSetDelay now k d) s = Some (s', r) →
  (r = ROk ∧ ∃ F, (∀ it, ist (F it) = ist it) ∧ one k F s') ∨ (is_err r ∧ none s').
Proof.
  intros Hq. destruct (qdo_eff _ _ _ _ HS Hq I ltac:(done)) as (q & e & -> & He & HI).
  inversion He; subst; clear He.
  - right. split; [done|]. by apply none_same.
  - left. split; [done|]. one_case q HI. eexists. split; [|done].
    intros i. cbn. repeat case_match; done.
Qed.
Lemma qdo_setgroup k g s' r : qdo (OSetGroup k g) s = Some (s', r) →
  (r = ROk ∧ one k (λ it, it <| igroup := g |>) s') ∨ (is_err r ∧ none s').
Proof.
  intros Hq. destruct (qdo_eff _ _ _ _ HS Hq I ltac:(done)) as (q & e & -> & He & HI).
  inversion He; subst; clear He.
  - right. split; [done|]. by apply none_same.
  - left. split; [done|]. one_case q HI. done.
Qed.
Lemma qdo_kick k s' r : qdo (OKick k) s = Some (s', r) →
  (r = ROk ∧ ∃ F, (∀ it, ist (F it) = SReady ∨ ist (F it) = SDep) ∧ one k F s' ∧ ∃ j, look s k = Some (SBury, j)) ∨
  (is_err r ∧ none s').
Proof.
  intros Hq. destruct (qdo_eff _ _ _ _ HS Hq I ltac:(done)) as (q & e & -> & He & HI).
  inversion He; subst; clear He.
  - right. split; [done|]. by apply none_same.
  - left. split; [done|]. one_case q HI. eexists. split; [|split; [done|exists j; congruence]].
    intros i. destruct (item_has_deps x (sq s)); cbn; tauto.
Qed.
Lemma qdo_reserve now g b s' r : qdo (OReserve now g b) s = Some (s', r) →
  (∃ k x it j, r = RItem x ∧ Found s k x it j ∧ one k (λ it, switch_ready_run (touch now it)) s' ∧
     ist it = SReady ∧ igroup it = g) ∨
  (is_err r ∧ none s').
Proof.
  intros Hq. destruct (qdo_eff _ _ _ _ HS Hq I ltac:(done)) as (q & e & -> & He & HI).
  inversion He; subst; clear He.
  - right. split; [done|]. by apply none_same.
  - left. destruct (obj_found s x it HS) as (j & HF); [done|congruence|].
    exists (ikey it), x, it, j. split; [done|]. split; [done|]. split; [|done].
    match goal with Ho : objs q = _, Hr : rest_eq _ q |- _ =>
      destruct (alter_look s q x it j (ikey it) _ HS HI HF Ho Hr) as (? & ? & ? & ?); [done|done|done|] end.
    by exists x, it, j.
Qed.
Lemma qdo_hasdeps k s' r : qdo (OHasDependents k) s = Some (s', r) →
  s' = s ∧ r = RBool (bool_decide (is_Some (dependants (sq s) !! k))).
Proof.
  intros Hq. destruct (qdo_inv _ _ _ _ Hq) as (q & e & Hs & ->). cbn in Hs. unfold q_has_dependents in Hs.
  rewrite (i_open (si_q HS)) in Hs. injection Hs as <- <- <-. split; [by destruct s|done].
Qed.

(** a key removed: its dependants may have become ready *)
Definition dropped (k : key) (s' : sstate) : Prop :=
  SInv s' ∧ find_job k s' = None ∧ sdb s' = sdb s ∧ sjobs s' = sjobs s ∧ snext s' = snext s ∧
  (∀ k', k' ≠ k → find_job k' s' = find_job k' s ∨
     ∃ it p j, find_job k' s = Some (it, p, j) ∧ find_job k' s' = Some (resolve k it, p, j)).
Lemma qdo_remove k ord s' r : qdo (ORemove k ord) s = Some (s', r) →
  (r = ROk ∧ ∃ x it j, Found s k x it j ∧ dropped k s') ∨ (is_err r ∧ none s' ∧ find_job k s = None).
Proof.
  intros Hq. pose proof Hq as Hq'. destruct (qdo_eff _ _ _ _ HS Hq I ltac:(done)) as (q & e & -> & He & HI).
  inversion He; subst; clear He.
  - right. split; [done|]. split; [by apply none_same|].
    unfold find_job. destruct (items (sq s) !! k) as [x|] eqn:Hk; [|done].
    destruct (inv_get _ _ _ _ (si_q HS) Hk) as (it & Hx & Hkey & Hr).
    destruct (q_remove_ok false k x it ord (sq s) (si_q HS) Hk Hx) as (q' & added & Hrm & _).
    destruct (qdo_inv _ _ _ _ Hq') as (q1 & e1 & Hs & _). cbn in Hs. rewrite Hrm in Hs.
    injection Hs as <- <- <-. done.
  - left. split; [done|]. set (k := ikey it) in *.
    match goal with Hi : items (sq s) !! k = Some x |- _ => destruct (items_found _ _ _ HS Hi) as (it' & j & HF) end.
    exists x, it', j. split; [done|].
    match goal with H1 : objs q = _, H2 : items q = _ |- _ => rename H1 into Ho; rename H2 into Hi end.
    set (m := default ∅ (dependants (sq s) !! k)) in *.
    assert (Hobj : ∀ y, y ≠ x → objs q !! y = if decide (y ∈ vals m) then resolve k <$> objs (sq s) !! y else objs (sq s) !! y).
    { intros y Hy. rewrite Ho, lookup_alter_ne by done. apply resolve_all_lookup. }
    split_and!; try done.
    + apply queue_inv; [done|done|]. intros y it1 Hy Hr. destruct (decide (y = x)) as [->|Hne].
      * rewrite Ho, lookup_alter in Hy. destruct (resolve_all _ _ _ !! x); [|done].
        injection Hy as <-. done.
      * rewrite (Hobj y Hne) in Hy. destruct (decide (y ∈ vals m)); [|by eauto].
        destruct (objs (sq s) !! y) as [it2|]; [|done]. injection Hy as <-. exists it2.
        split; [done|]. rewrite resolve_cases in *. split; [|done]. intros Hr2. apply Hr. cbn.
        rewrite decide_False; [done|]. unfold freed. intros [? _]. congruence.
    + unfold find_job. cbn. by rewrite Hi, lookup_delete.
    + intros k' Hne. unfold find_job. cbn. rewrite Hi, lookup_delete_ne by done.
      destruct (items (sq s) !! k') as [y|] eqn:Hk'; [|by left]. cbn.
      destruct (items_found _ _ _ HS Hk') as (ity & jy & HFy).
      rewrite Hobj.
      2: { intros ->. apply Hne. rewrite <- (f_key HF), <- (f_key HFy).
           pose proof (f_obj HF). pose proof (f_obj HFy). congruence. }
      rewrite (f_obj HFy). cbn. rewrite (f_job HFy). cbn.
      destruct (decide (y ∈ vals m)); cbn; [|by rewrite (f_job HFy); left].
      rewrite resolve_data, (f_job HFy). cbn. right. eauto 10.
Qed.

Lemma qdo_tickdelay now s' r : qdo (OTickDelay now) s = Some (s', r) →
  SInv s' ∧ sdb s' = sdb s ∧ sjobs s' = sjobs s ∧ snext s' = snext s ∧
  ∀ k, find_job k s' = find_job k s ∨
    ∃ it p j, find_job k s = Some (it, p, j) ∧ ist it = SDelay ∧ find_job k s' = Some (switch_delay_ready it, p, j).
Proof.
  intros Hq. destruct (qdo_eff _ _ _ _ HS Hq I ltac:(done)) as (q & e & -> & He & HI).
  inversion He; subst; clear He.
  - destruct (none_same q) as (? & ? & _); [done..|]. split_and!; try done. intros k. by left.
  - match goal with H : rest_eq _ q |- _ => destruct H as (Hi & _) end.
    match goal with H : ∀ y, objs q !! y = _ |- _ => rename H into Hobj end.
    assert (Hdue : ∀ y it, y ∈ moved → objs (sq s) !! y = Some it → ist it = SDelay).
    { intros y it Hy Hoy. match goal with H : ∀ y, y ∈ moved ↔ _ |- _ => apply H in Hy end.
      destruct Hy as (it' & ? & ? & _). congruence. }
    split_and!; try done.
    + apply queue_inv; [done|done|]. intros y it'. rewrite Hobj. destruct (decide (y ∈ moved)) as [Hm|Hm]; [|by eauto].
      destruct (objs (sq s) !! y) as [it|] eqn:Hy; [|done]. intros [= <-] _. exists it. split; [done|].
      rewrite (Hdue _ _ Hm Hy). done.
    + intros k. unfold find_job. cbn. rewrite Hi. destruct (items (sq s) !! k) as [y|] eqn:Hk; [|by left]. cbn.
      destruct (items_found _ _ _ HS Hk) as (it & j & HF). rewrite Hobj, (f_obj HF). cbn. rewrite (f_job HF). cbn.
      destruct (decide (y ∈ moved)) as [Hm|Hm]; cbn; rewrite (f_job HF); cbn; [|by left].
      right. exists it, (idata it), j. split_and!; try done. eapply Hdue; [done|apply HF].
Qed.

(** the state of an item after Update with new dependencies *)
Definition upd_state (deps : list key) (it : item) : istate :=
  if bool_decide (list_to_set deps = iremain it) then ist it
  else match deps, ist it with
       | [], _ => SReady
       | _, SBury => SBury
       | _, _ => SDep
       end.
End ops.

Lemma deps_diff_acc (ds : list key) (old : gset key) (n : nat) : NoDup ds →
  let r := fold_left (λ '(o, n) d, (o ∖ {[d]}, if decide (d ∈ o) then n else S n)) ds (old, n) in
  r.1 = old ∖ list_to_set ds ∧ (n ≤ r.2)%nat ∧ (r.2 = n ↔ ∀ d, d ∈ ds → d ∈ old).
Proof.
  intros Hnd. revert old n. induction Hnd as [|d ds Hd Hnd IH]; intros old n; cbn [fold_left].
  - cbn. split_and!; [set_solver|lia|]. split; [set_solver|done].
  - destruct (IH (old ∖ {[d]}) (if decide (d ∈ old) then n else S n)) as (H1 & H2 & H3). split_and!.
    + rewrite H1. cbn. set_solver.
    + destruct (decide (d ∈ old)); lia.
    + destruct (decide (d ∈ old)) as [Hi|Hi].
      * rewrite H3. set_solver.
      * split; [lia|]. intros Hall. exfalso. apply Hi. apply Hall. set_solver.
Qed.
Lemma deps_diff_none (ds : list key) (old : gset key) : NoDup ds →
  bool_decide ((deps_diff old ds).1 = ∅) && ((deps_diff old ds).2 =? 0)%nat = bool_decide (list_to_set ds = old).
Proof.
  intros Hnd. unfold deps_diff. destruct (deps_diff_acc ds old 0 Hnd) as (H1 & _ & H3).
  apply eq_bool_prop_intro. rewrite andb_True, !bool_decide_spec, H1. split.
  - intros [He Hn]. apply sets.set_eq. intros d. apply Is_true_true, Nat.eqb_eq in Hn.
    pose proof (proj1 H3 Hn) as Hin. clear H1 H3 Hn Hnd. rewrite elem_of_list_to_set. split; [by apply Hin|].
    intros Hd. destruct (decide (d ∈ ds)) as [Hds|Hds]; [done|]. exfalso.
    assert (d ∈ (∅ : gset key)) as Hf by (rewrite <- He; apply elem_of_difference; by rewrite elem_of_list_to_set).
    by apply elem_of_empty in Hf.
  - intros <-. split.
    + apply difference_diag_L.
    + apply Is_true_true, Nat.eqb_eq. refine (proj2 H3 _). intros d. by rewrite elem_of_list_to_set.
Qed.

Lemma prop_change_facts now g prio delay ttr a it :
  let it' := prop_change now g prio delay ttr a it in
  ikey it' = ikey it ∧ idata it' = idata it ∧ ist it' = ist it ∧ ideps it' = ideps it ∧ iremain it' = iremain it.
Proof. unfold prop_change, restart, touch. repeat case_match; cbn; done. Qed.

Lemma updated_facts now g d prio delay ttr deps it : NoDup deps →
  (deps = [] → iremain it ≠ ∅ → ist it = SDep) → ist it ≠ SRemoved →
  let it' := updated now g d prio delay ttr (Some deps) it in
  ikey it' = ikey it ∧ idata it' = d ∧ ist it' = upd_state deps it ∧ iremain it' = list_to_set deps.
Proof.
  intros Hnd Hg Hr it'. unfold it', updated, dep_part.
  assert (dep_changed deps (it <| idata := d |>) = negb (bool_decide (list_to_set deps = iremain it))) as ->.
  { unfold dep_changed. cbn [iremain set]. by rewrite <- (deps_diff_none deps (iremain it)). }
  unfold upd_state. destruct (bool_decide_reflect (list_to_set deps = iremain it)) as [He|He]; cbn [negb].
  - destruct (prop_change_facts now g prio delay ttr false (it <| idata := d |>)) as (H1 & H2 & H3 & H4 & H5).
    split_and!; try done. rewrite H5. cbn. by rewrite He.
  - destruct (prop_change_facts now g prio delay ttr (match deps with [] => true | _ => false end)
      (dep_change deps (it <| idata := d |>))) as (H1 & H2 & H3 & H4 & H5).
    rewrite H1, H2, H3, H5. unfold dep_change. cbn [ist set].
    destruct deps as [|d0 deps]; [done|]. destruct (ist it) eqn:Hst; cbn; rewrite ?Hst; by split_and!.
Qed.

(** Update with a pointer to a new job *)
Lemma qdo_update now k g p prio delay ttr deps s s' r j' :
  SInv s → NoDup deps →
  (∀ it q j, find_job k s = Some (it, q, j) → deps = [] → iremain it ≠ ∅ → ist it = SDep) →
  sjobs s !! p = Some j' → jkey j' = k →
  (∀ x it, objs (sq s) !! x = Some it → ist it ≠ SRemoved → idata it ≠ p) →
  qdo (OUpdate now k g p prio delay ttr (Some deps)) s = Some (s', r) →
  (r = ROk ∧ ∃ x it j it', Found s k x it j ∧ Found s' k x it' j' ∧ SInv s' ∧ ist it' = upd_state deps it ∧
     iremain it' = list_to_set deps ∧ idata it' = p ∧
     (∀ k', k' ≠ k → find_job k' s' = find_job k' s) ∧ sdb s' = sdb s ∧ sjobs s' = sjobs s ∧ snext s' = snext s) ∨
  (is_err r ∧ none s s' ∧ find_job k s = None).
Proof.
  intros HS Hnd Hgood Hp Hjk Hfresh Hq.
  assert (Hg : good false (sq s) (OUpdate now k g p prio delay ttr (Some deps))).
  { intros x it Hx Hit. split; [|done]. intros [= ->]. 
    destruct (items_found _ _ _ HS Hx) as (it0 & j & HF). rewrite (f_obj HF) in Hit. injection Hit as ->.
    by apply (Hgood it (idata it) j); [apply found_find with x|]. }
  pose proof Hq as Hq'. destruct (qdo_eff _ _ _ _ HS Hq Hg ltac:(done)) as (q & e & -> & He & HI).
  inversion He; subst; clear He.
  - right. split; [done|]. split; [by apply none_same|].
    set (k := jkey j') in *.
    unfold find_job. destruct (items (sq s) !! k) as [x|] eqn:Hk; [|done]. exfalso.
    destruct (items_found _ _ _ HS Hk) as (it & j & HF).
    destruct (qdo_inv _ _ _ _ Hq') as (q1 & e1 & Hs & _). cbn [step] in Hs.
    destruct (q_update_ok false now k x it g p prio delay ttr (Some deps) (sq s) q1 r e1
      (si_q HS) Hk (f_obj HF) (Hg x it Hk (f_obj HF)) Hs) as (-> & _). done.
  - left. split; [done|].
    match goal with H : ikey it = jkey j' |- _ => rename H into Hkey end.
    match goal with H : items (sq s) !! _ = Some x |- _ => rename H into Hx end.
    destruct (items_found _ _ _ HS Hx) as (it0 & j & HF). pose proof (f_obj HF) as Hxo.
    match goal with H : objs (sq s) !! x = Some it |- _ => rewrite H in Hxo; injection Hxo as <- end.
    destruct (updated_facts now g p prio delay ttr deps it Hnd) as (F1 & F2 & F3 & F4).
    { intros He Hre. apply (Hgood it (idata it) j); [by apply found_find with x|done..]. }
    { apply HF. }
    match goal with H1 : objs q = _, H2 : items q = _ |- _ => rename H1 into Ho; rename H2 into Hi end.
    assert (Hsi : SInv (s <| sq := q |>)).
    { split; cbn.
      - done.
      - intros y ity. rewrite Ho. destruct (decide (y = x)) as [->|Hne].
        + rewrite lookup_insert. intros [= <-] _. rewrite F2, F1. exists j'. split; [done|congruence].
        + rewrite lookup_insert_ne by done. apply (si_ptr HS).
      - intros y z ity itz. rewrite Ho.
        destruct (decide (y = x)) as [->|Hy], (decide (z = x)) as [->|Hz]; [done|..];
          rewrite ?lookup_insert, ?lookup_insert_ne by done.
        + intros [= <-] Hz' _ Hr. rewrite F2. intros He. exfalso. by apply (Hfresh z itz).
        + intros Hy' [= <-] Hr _. rewrite F2. intros He. exfalso. by apply (Hfresh y ity).
        + apply (si_inj HS).
      - apply (si_next HS). }
    eexists x, it, j, _. split; [done|]. split_and!; try done.
    + split; cbn.
      * by rewrite Hi.
      * rewrite Ho. apply lookup_insert.
      * congruence.
      * rewrite F3. unfold upd_state. pose proof (f_live HF). repeat case_match; done.
      * by rewrite F2.
      * done.
    + intros k' Hne. apply find_ext; cbn.
      * by rewrite Hi.
      * intros y Hy. rewrite Ho. apply lookup_insert_ne. intros <-. apply Hne.
        destruct (items_found _ _ _ HS Hy) as (it' & j2 & HF'). rewrite <- (f_key HF), <- (f_key HF').
        pose proof (f_obj HF). pose proof (f_obj HF'). congruence.
      * done.
Qed.

(** ** AddMany *)
Definition first_def (k : key) (ds : list itemdef) : option itemdef :=
  head (filter (λ d, d_key d = k) ds).
Lemma first_def_cons k d ds :
  first_def k (d :: ds) = if decide (d_key d = k) then Some d else first_def k ds.
Proof. unfold first_def. rewrite filter_cons. by destruct (decide (d_key d = k)). Qed.
Lemma first_def_Some k ds d : first_def k ds = Some d → d ∈ ds ∧ d_key d = k.
Proof.
  unfold first_def. intros H. apply head_Some_elem_of in H. apply elem_of_list_filter in H. tauto.
Qed.
Lemma first_def_None k ds : first_def k ds = None ↔ ∀ d, d ∈ ds → d_key d ≠ k.
Proof.
  induction ds as [|d ds IH]; [split; [by intros _ d ?%elem_of_nil|done]|].
  rewrite first_def_cons. destruct (decide (d_key d = k)) as [He|He].
  - split; [done|]. intros H. exfalso. eapply H; [left|done].
  - rewrite IH. split.
    + intros H d' [->|Hd]%elem_of_cons; [done|by apply H].
    + intros H d' Hd. apply H. by right.
Qed.

Lemma abs_adds_facts now ds o its dp n o' its' dp' n' :
  abs_adds now ds (o, its, dp, n) = (o', its', dp', n') →
  (n ≤ n')%nat ∧
  (∀ y, (y < n)%nat → o' !! y = o !! y) ∧
  (∀ k x, its !! k = Some x → its' !! k = Some x) ∧
  (∀ k, its !! k = None → match first_def k ds with
     | None => its' !! k = None
     | Some d => ∃ x, (n ≤ x < n')%nat ∧ its' !! k = Some x ∧ o' !! x = Some (added_def now d)
     end) ∧
  (∀ y, (n ≤ y)%nat → o' !! y = o !! y ∨
     ∃ d, d ∈ ds ∧ o' !! y = Some (added_def now d) ∧ its' !! d_key d = Some y).
Proof.
  unfold abs_adds. revert o its dp n. induction ds as [|d ds IH]; intros o its dp n; cbn [fold_left].
  { intros [= <- <- <- <-]. split_and!; try done. intros y _. by left. }
  unfold abs_add at 2. destruct (its !! d_key d) as [x|] eqn:Hd.
  - intros H. destruct (IH _ _ _ _ H) as (H0 & H1 & H2 & H3 & H4). split_and!; try done.
    + intros k Hk. rewrite first_def_cons. destruct (decide (d_key d = k)) as [<-|]; [congruence|]. by apply H3.
    + intros y Hy. destruct (H4 y Hy) as [?|(d' & ? & ?)]; [by left|]. right. exists d'. split; [by right|done].
  - intros H. destruct (IH _ _ _ _ H) as (H0 & H1 & H2 & H3 & H4).
    assert (Hn : o' !! n = Some (added_def now d)).
    { rewrite H1 by lia. apply lookup_insert. }
    assert (Hi : its' !! d_key d = Some n) by (apply H2; apply lookup_insert).
    split_and!.
    + lia.
    + intros y Hy. rewrite H1 by lia. apply lookup_insert_ne. lia.
    + intros k x Hk. apply H2. rewrite lookup_insert_ne; [done|congruence].
    + intros k Hk. rewrite first_def_cons. destruct (decide (d_key d = k)) as [<-|Hne].
      * exists n. split_and!; [lia|lia|done|done].
      * assert (Hk' : <[d_key d:=n]> its !! k = None) by (by rewrite lookup_insert_ne).
        specialize (H3 k Hk'). destruct (first_def k ds); [|done].
        destruct H3 as (x & Hx & ?). exists x. split; [lia|done].
    + intros y Hy. destruct (decide (y = n)) as [->|Hne].
      * right. exists d. split; [left|done].
      * destruct (H4 y) as [He|(d' & ? & ?)]; [lia|..].
        -- left. rewrite He. by apply lookup_insert_ne.
        -- right. exists d'. split; [by right|done].
Qed.

Lemma added_def_facts now d :
  let it := added_def now d in
  ikey it = d_key d ∧ idata it = d_data d ∧ ist it ≠ SRemoved ∧ iremain it = list_to_set (d_deps d) ∧
  ist it = match d_deps d with
           | _ :: _ => SDep
           | [] => match d_start d with
                   | StartRun => SRun | StartBury => SBury
                   | StartDefault => if d_delay d =? 0 then SReady else SDelay
                   end
           end.
Proof.
  unfold added_def, added_item. destruct (d_deps d); cbn; [|done].
  destruct (d_start d); cbn; [|done..]. by destruct (d_delay d =? 0).
Qed.

Lemma qdo_addmany now ds s s' r :
  SInv s →
  (∀ d, d ∈ ds → ∃ j, sjobs s !! d_data d = Some j ∧ jkey j = d_key d) →
  NoDup (d_data <$> ds) →
  (∀ x it, objs (sq s) !! x = Some it → ist it ≠ SRemoved → idata it ∉ d_data <$> ds) →
  qdo (OAddMany now ds) s = Some (s', r) →
  SInv s' ∧ sdb s' = sdb s ∧ sjobs s' = sjobs s ∧ snext s' = snext s ∧ (∃ a b, r = RAdded a b) ∧
  (∀ k, is_Some (find_job k s) → find_job k s' = find_job k s) ∧
  (∀ k, find_job k s = None → match first_def k ds with
     | None => find_job k s' = None
     | Some d => ∃ j, sjobs s !! d_data d = Some j ∧ find_job k s' = Some (added_def now d, d_data d, j)
     end).
Proof.
  intros HS Hds Hnd Hfr Hq. destruct (qdo_eff _ _ _ _ HS Hq I ltac:(done)) as (q & e & -> & He & HI).
  destruct (qdo_inv _ _ _ _ Hq) as (q1 & e1 & Hs & Hq1). injection Hq1 as <-.
  destruct (q_add_many_ok false now ds (sq s) (si_q HS)) as (q2 & Hs2 & _ & Habs).
  cbn [step] in Hs. rewrite Hs2 in Hs. injection Hs as -> <- _. clear He.
  unfold abs_of in Habs. symmetry in Habs.
  destruct (abs_adds_facts _ _ _ _ _ _ _ _ _ _ Habs) as (H0 & H1 & H2 & H3 & H4).
  assert (Hbig : ∀ y, (nextid (sq s) ≤ y)%nat → objs (sq s) !! y = None).
  { intros y Hy. apply eq_None_not_Some. intros Hy'. apply (i_ids (si_q HS)) in Hy'. lia. }
  assert (Hold : ∀ y, is_Some (objs (sq s) !! y) → objs q !! y = objs (sq s) !! y).
  { intros y Hy. apply H1. by apply (i_ids (si_q HS)). }
  assert (Hcase : ∀ y it, objs q !! y = Some it → objs (sq s) !! y = Some it ∨
     ∃ d, d ∈ ds ∧ it = added_def now d ∧ items q !! d_key d = Some y).
  { intros y it Hy. destruct (decide (y < nextid (sq s))%nat) as [Hlt|Hge].
    - left. by rewrite <- H1.
    - destruct (H4 y) as [He|(d & Hd & Hit & Hi)]; [lia|left; congruence|]. right. exists d. split_and!; [done|congruence|done]. }
  split_and!; try done.
  - split; cbn.
    + done.
    + intros y it Hy Hr. destruct (Hcase _ _ Hy) as [Ho|(d & Hd & -> & _)]; [by eapply (si_ptr HS)|].
      destruct (added_def_facts now d) as (-> & -> & _). by apply Hds.
    + intros y z ity itz Hy Hz Hry Hrz He.
      destruct (Hcase _ _ Hy) as [Hoy|(dy & Hdy & -> & Hiy)], (Hcase _ _ Hz) as [Hoz|(dz & Hdz & -> & Hiz)].
      * by eapply (si_inj HS).
      * exfalso. apply (Hfr y ity Hoy Hry). rewrite He. apply elem_of_list_fmap. exists dz.
        split; [apply added_def_facts|done].
      * exfalso. apply (Hfr z itz Hoz Hrz). rewrite <- He. apply elem_of_list_fmap. exists dy.
        split; [apply added_def_facts|done].
      * destruct (added_def_facts now dy) as (_ & Ey & _). destruct (added_def_facts now dz) as (_ & Ez & _).
        rewrite Ey, Ez in He.
        assert (dy = dz) as ->; [|congruence].
        apply elem_of_list_lookup in Hdy as [i Hi]. apply elem_of_list_lookup in Hdz as [i' Hi'].
        assert (i = i') as ->; [|congruence].
        eapply NoDup_lookup; [exact Hnd|..]; rewrite list_lookup_fmap.
        -- by rewrite Hi.
        -- rewrite Hi'. cbn. by rewrite He.
    + apply (si_next HS).
  - eauto.
  - intros k [v Hv]. unfold find_job in Hv. destruct (items (sq s) !! k) as [x|] eqn:Hk; [|done].
    apply find_ext; cbn; [by rewrite (H2 _ _ Hk)| |done].
    intros y Hy. apply Hold. destruct (items_found _ _ _ HS Hy) as (? & ? & HF). eexists; apply HF.
  - intros k Hk. assert (Hk' : items (sq s) !! k = None).
    { destruct (items (sq s) !! k) as [x|] eqn:Hx; [|done].
      destruct (items_found _ _ _ HS Hx) as (? & ? & HF). rewrite (found_find _ _ _ _ _ HF) in Hk. done. }
    specialize (H3 _ Hk'). destruct (first_def k ds) as [d|] eqn:Hd.
    + destruct H3 as (x & _ & Hx & Hox). destruct (first_def_Some _ _ _ Hd) as [Hin _].
      destruct (Hds _ Hin) as (j & Hj & Hjk). exists j. split; [done|].
      unfold find_job. cbn. rewrite Hx. cbn. rewrite Hox. cbn.
      destruct (added_def_facts now d) as (_ & -> & _). by rewrite Hj.
    + unfold find_job. cbn. by rewrite H3.
Qed.

(** the item definitions of jobs: pointers to new jobs *)
Lemma new_job_inv j s : SInv s → SInv (new_job j s).2.
Proof.
  intros HS. assert (Hf : sjobs s !! snext s = None).
  { apply eq_None_not_Some. intros H. apply (si_next HS) in H. lia. }
  split; cbn.
  - apply (si_q HS).
  - intros x it Hx Hr. destruct (si_ptr HS _ _ Hx Hr) as (j' & Hj & Hk). exists j'. split; [|done].
    rewrite lookup_insert_ne; [done|]. intros He. congruence.
  - apply (si_inj HS).
  - intros p [j' Hp]. destruct (decide (p = snext s)) as [->|Hne]; [lia|].
    rewrite lookup_insert_ne in Hp by done. pose proof (si_next HS p (mk_is_Some _ _ Hp)). lia.
Qed.
Lemma new_job_find j s k : SInv s → find_job k (new_job j s).2 = find_job k s.
Proof.
  intros HS. apply find_ext; [done|done|]. intros x it Hk Hx. cbn. apply lookup_insert_ne. intros He.
  destruct (items_found _ _ _ HS Hk) as (it' & j' & HF). rewrite (f_obj HF) in Hx. injection Hx as ->.
  pose proof (si_next HS _ (mk_is_Some _ _ (f_job HF))). lia.
Qed.

Lemma itemdefs_facts start js s ds s' : itemdefs start js s = (ds, s') → SInv s →
  SInv s' ∧ sdb s' = sdb s ∧ sq s' = sq s ∧ (snext s ≤ snext s')%N ∧
  (∀ k, find_job k s' = find_job k s) ∧
  (∀ p, (p < snext s)%N → sjobs s' !! p = sjobs s !! p) ∧
  Forall2 (λ j d, d_key d = jkey j ∧ d_group d = jsched j ∧ d_start d = start j ∧ d_prio d = jprio j ∧
     d_delay d = 0 ∧ d_deps d = incomplete_keys (sdb s) j ∧ sjobs s' !! d_data d = Some j ∧
     (snext s ≤ d_data d < snext s')%N) js ds ∧
  NoDup (d_data <$> ds).
Proof.
  revert s ds. induction js as [|j js IH]; intros s ds; cbn [itemdefs].
  { intros [= <- <-] HS. split_and!; try done; constructor. }
  destruct (new_job j s) as [p s1] eqn:Hn. destruct (itemdefs start js s1) as [ds1 s2] eqn:Hd.
  intros [= <- <-] HS.
  assert (HS1 : SInv s1) by (replace s1 with (new_job j s).2 by (by rewrite Hn); by apply new_job_inv).
  destruct (IH _ _ Hd HS1) as (I1 & I2 & I3 & I4 & I5 & I6 & I7 & I8).
  unfold new_job in Hn. injection Hn as <- Hs1.
  assert (E1 : sdb s1 = sdb s) by (by rewrite <- Hs1).
  assert (E2 : sq s1 = sq s) by (by rewrite <- Hs1).
  assert (E3 : snext s1 = N.succ (snext s)) by (by rewrite <- Hs1).
  assert (E4 : sjobs s1 = <[snext s := j]> (sjobs s)) by (by rewrite <- Hs1).
  rewrite E1, E2, E3 in *. split_and!; try done.
  - lia.
  - intros k. rewrite I5. replace s1 with (new_job j s).2 by (by rewrite <- Hs1). by apply new_job_find.
  - intros p Hp. rewrite I6 by lia. rewrite E4. apply lookup_insert_ne. lia.
  - constructor.
    + cbn. split_and!; try done; try lia. rewrite I6 by lia. rewrite E4. apply lookup_insert.
    + eapply Forall2_impl; [exact I7|]. cbn. intros j' d (? & ? & ? & ? & ? & ? & ? & ? & ?).
      split_and!; try done. lia.
  - cbn. constructor; [|done]. intros (d & Hd1 & Hd2)%elem_of_list_fmap.
    apply elem_of_list_lookup in Hd2 as [i Hi].
    destruct (Forall2_lookup_r _ _ _ _ _ I7 Hi) as (j' & _ & _ & _ & _ & _ & _ & _ & _ & Hlt). lia.
Qed.
