(** The servers the scheduler knows of (C68). *)
From Coq Require Import ZArith Lia String.
From stdpp Require Import base option strings gmap list sorting.
From RecordUpdate Require Import RecordSet.
From Verif Require Import CloudModel FlavorModel FlavorSpec FlavorProofs SpawnModel SpawnSpec SpawnProofs SpawnInv.
Import RecordSetNotations.
Open Scope Z_scope.

(** ready once *)
Definition booted (g : spawning) : Prop := g_phase g = PEnded ∨ g_phase g = PGone.
Record Known (s : osys) : Prop := mkKnown {
  w_nodup : NoDup (y_servers s ++ y_spawned s);
  w_booted : ∀ i, i ∈ y_servers s ++ y_spawned s → ∃ g, y_spawns s !! i = Some g ∧ booted g;
  w_all : ∀ i g, y_spawns s !! i = Some g → g_exists g = true → booted g → i ∈ y_servers s ++ y_spawned s;
  w_early : ∀ i g, y_spawns s !! i = Some g → g_phase g = PNew ∨ g_phase g = PReserved → g_exists g = false }.

Lemma known_init : Known y_init.
Proof. constructor; cbn; [constructor|intros i Hi; by apply elem_of_nil in Hi|done|done]. Qed.

(** one goroutine changes, the known servers stay *)
Lemma known_set s s' i g g' : Known s → y_spawns s !! i = Some g →
  y_spawns s' = <[i := g']> (y_spawns s) → y_servers s' = y_servers s → y_spawned s' = y_spawned s →
  (booted g → booted g') → (g_exists g' = true → booted g' → booted g ∧ g_exists g = true) →
  (g_phase g' = PNew ∨ g_phase g' = PReserved → g_exists g' = false) → Known s'.
Proof.
  intros [K1 K2 K3 K4] Hi E1 E2 E3 H1 H2 H3.
  constructor; rewrite ?E1, ?E2, ?E3; [done| | |].
  - intros j Hj. destruct (K2 j Hj) as (h & Hh & Hb). destruct (decide (i = j)) as [<-|Hne].
    + exists g'. rewrite list_lookup_insert by by eapply lookup_lt_Some. simplify_eq. auto.
    + exists h. by rewrite list_lookup_insert_ne.
  - intros j h. destruct (decide (i = j)) as [<-|Hne].
    + rewrite list_lookup_insert by by eapply lookup_lt_Some. intros [= <-] He Hb.
      destruct (H2 He Hb). eauto.
    + rewrite list_lookup_insert_ne by done. eauto.
  - intros j h. destruct (decide (i = j)) as [<-|Hne].
    + rewrite list_lookup_insert by by eapply lookup_lt_Some. intros [= <-]. done.
    + rewrite list_lookup_insert_ne by done. eauto.
Qed.

Lemma known_step comp o k others s l s' : Known s → ystep comp o k others s l = Some s' → Known s'.
Proof.
  intros HK. pose proof HK as [K1 K2 K3 K4]. destruct l as [cmd desired q failed order|i|i|i ok|i|i ok|i| |i]; cbn [ystep].
  - destruct (to_spawn _ _ _ _ _ _ _ _ _ _ _ _) as [[n f]|]; intros [= <-]; [|done].
    constructor; cbn; [done| | |].
    + intros i Hi. destruct (K2 i Hi) as (g & Hg & Hb). exists g. split; [by apply lookup_app_l_Some|done].
    + intros i g [Hg|[_ Hg]]%lookup_app_Some He Hb; [by eapply K3|].
      apply lookup_replicate_1 in Hg as [-> _]. done.
    + intros i g [Hg|[_ Hg]]%lookup_app_Some Hb; [by eapply K4|].
      apply lookup_replicate_1 in Hg as [-> _]. done.
  - destruct (y_spawns s !! i) as [g0|] eqn:E0; [|done].
    intros (g & Hg & Hp & ->)%at_spawn_some. cbn in Hg. unfold in_phase in Hp. apply bool_decide_eq_true in Hp.
    pose proof (K4 _ _ Hg (or_introl Hp)) as Hx. destruct s; destruct g; cbn in *. subst.
    eapply (known_set _ _ i _ _ HK Hg); cbn; try reflexivity; unfold booted; cbn; intuition congruence.
  - intros (g & Hg & Hp & ->)%at_spawn_some. cbn in Hg. unfold in_phase in Hp. apply bool_decide_eq_true in Hp.
    pose proof (K4 _ _ Hg (or_intror Hp)) as Hx. destruct s; destruct g; cbn in *. subst.
    eapply (known_set _ _ i _ _ HK Hg); cbn; try reflexivity; unfold booted; cbn; intuition congruence.
  - intros (g & Hg & Hp & ->)%at_spawn_some. cbn in Hg. unfold in_phase in Hp. apply bool_decide_eq_true in Hp.
    pose proof (K4 _ _ Hg (or_intror Hp)) as Hx. destruct s; destruct g; cbn in *. subst.
    eapply (known_set _ _ i _ _ HK Hg); cbn; try reflexivity; unfold booted; cbn; intuition congruence.
  - destruct (y_spawns s !! i) as [g0|] eqn:E0; [|done].
    intros (g & Hg & Hp & ->)%at_spawn_some. cbn in Hg.
    pose proof (K4 _ _ Hg) as Hx. destruct s; destruct g; cbn in *. subst.
    eapply (known_set _ _ i _ _ HK Hg); cbn; try reflexivity; unfold booted; cbn; intuition congruence.
  - destruct (y_spawns s !! i) as [g|] eqn:E0; [|done]. unfold at_spawn.
    assert (E1 : y_spawns (if ok && g_exists g then s <| y_spawned ::= λ l, l ++ [i] |> else s) = y_spawns s)
      by (by destruct (ok && g_exists g)).
    rewrite E1, E0. destruct (in_phase PRequested g) eqn:Hp; [|done]. intros [= <-].
    unfold in_phase in Hp. apply bool_decide_eq_true in Hp.
    assert (Hnot : i ∉ y_servers s ++ y_spawned s).
    { intros Hi. destruct (K2 i Hi) as (h & Hh & Hb). rewrite E0 in Hh. injection Hh as <-. unfold booted in Hb.
      rewrite Hp in Hb. by destruct Hb. }
    destruct (ok && g_exists g) eqn:Hok.
    + apply andb_true_iff in Hok as [-> Hge].
      destruct s as [sp nw rs sd sv]; destruct g; cbn in *. subst. constructor; cbn.
      * rewrite app_assoc. apply NoDup_app. split_and!; [done| |by apply NoDup_singleton].
        intros j Hj ->%elem_of_list_singleton. done.
      * intros j. rewrite app_assoc. intros [Hj| ->%elem_of_list_singleton]%elem_of_app.
        -- destruct (K2 j Hj) as (h & Hh & Hb). exists h. rewrite list_lookup_insert_ne by (intros ->; done). done.
        -- eexists. rewrite list_lookup_insert by by eapply lookup_lt_Some. split; [done|]. by left.
      * intros j h. rewrite app_assoc. destruct (decide (i = j)) as [<-|Hne].
        -- intros _ _ _. apply elem_of_app. right. by apply elem_of_list_singleton.
        -- rewrite list_lookup_insert_ne by done. intros. apply elem_of_app. left. by eapply K3.
      * intros j h. destruct (decide (i = j)) as [<-|Hne].
        -- rewrite list_lookup_insert by by eapply lookup_lt_Some. intros [= <-] [?|?]; done.
        -- rewrite list_lookup_insert_ne by done. by apply K4.
    + destruct s as [sp nw rs sd sv]; destruct g as [gc gf gd gp gh gb ge]; cbn in *. subst.
      eapply (known_set _ _ i _ _ HK E0); cbn; try reflexivity; unfold booted; cbn.
      * by left.
      * rewrite Hok. done.
      * intros [?|?]; done.
  - destruct (y_spawns s !! i) as [g0|] eqn:E0; [|done].
    intros (g & Hg & Hp & ->)%at_spawn_some. cbn in Hg. unfold in_phase in Hp. apply bool_decide_eq_true in Hp.
    destruct s; destruct g; cbn in *. subst.
    eapply (known_set _ _ i _ _ HK Hg); cbn; try reflexivity; unfold booted; cbn; intuition congruence.
  - intros [= <-]. destruct s as [sp nw rs sd sv]; cbn in *. constructor; cbn; rewrite ?app_nil_r.
    + by apply NoDup_filter.
    + intros i [_ Hi]%elem_of_list_filter. by apply K2.
    + intros i g Hg He Hb. apply elem_of_list_filter. split; [unfold there; cbn; by rewrite Hg|by eapply K3].
    + done.
  - intros (g & Hg & Hp & ->)%at_spawn_some. cbn in Hg.
    pose proof (K4 _ _ Hg) as Hx. destruct s; destruct g; cbn in *.
    eapply (known_set _ _ i _ _ HK Hg); cbn; try reflexivity; unfold booted; cbn; intuition congruence.
Qed.
Lemma known_run comp o k others ls s s' : Known s → yrun comp o k others s ls = Some s' → Known s'.
Proof.
  revert s. induction ls as [|l ls IH]; intros s HK; cbn [yrun]; [by intros [= <-]|].
  destruct (ystep _ _ _ _ s l) as [s1|] eqn:E; [|done]. apply IH. by eapply known_step.
Qed.

(** after an update *)
Lemma known_update comp o k others ls s s' : yrun comp o k others y_init ls = Some s →
  ystep comp o k others s YUpdate = Some s' →
  NoDup (y_servers s') ∧ ∀ i, i ∈ y_servers s' ↔ ∃ g, y_spawns s' !! i = Some g ∧ g_exists g = true ∧ (g_phase g = PEnded ∨ g_phase g = PGone).
Proof.
  intros H Hu. pose proof (known_run _ _ _ _ _ _ _ known_init H) as HK.
  pose proof (known_step _ _ _ _ _ _ _ HK Hu) as [N1 N2 N3 _].
  cbn [ystep] in Hu. injection Hu as <-. destruct s as [sp nw rs sd sv]; cbn in *. rewrite app_nil_r in *.
  split; [done|]. intros i. split.
  - intros Hi. pose proof Hi as [Ht _]%elem_of_list_filter. destruct (N2 i Hi) as (g & Hg & Hb).
    exists g. unfold there in Ht; cbn in Ht. rewrite Hg in Ht. done.
  - intros (g & Hg & He & Hb). by eapply N3.
Qed.
