(** Invariants of SpawnModel *)
From Coq Require Import ZArith Lia String.
From stdpp Require Import base option strings list gmap.
From RecordUpdate Require Import RecordSet.
From Verif Require Import CloudModel FlavorModel FlavorSpec FlavorProofs SpawnModel SpawnSpec SpawnProofs.
Import RecordSetNotations.
Open Scope Z_scope.

(** ** Sums *)
Definition weight (d : dim) (P : spawning → bool) (g : spawning) : Z :=
  if P g then at_dim d (share (g_flav g) (g_disk g)) else 0.
Lemma amount_app d P l l' : amount d P (l ++ l') = amount d P l + amount d P l'.
Proof. induction l as [|g l IH]; cbn [amount app]; lia. Qed.
Lemma amount_insert d P l i g g' : l !! i = Some g →
  amount d P (<[i:=g']> l) = amount d P l - weight d P g + weight d P g'.
Proof.
  revert i. induction l as [|h l IH]; intros [|i]; cbn [lookup list_lookup]; [done|done| |].
  - intros [= ->]. cbn. unfold weight. lia.
  - intros H. change (<[S i:=g']> (h :: l)) with (h :: <[i:=g']> l). cbn [amount]. rewrite (IH i H). lia.
Qed.
Lemma amount_replicate d P n g : amount d P (replicate n g) = Z.of_nat n * weight d P g.
Proof. induction n as [|n IH]; cbn [replicate amount]; [lia|]. rewrite IH. unfold weight. lia. Qed.
Lemma amount_le d (P Q : spawning → bool) l :
  (∀ g, g ∈ l → P g = true → Q g = true) →
  (∀ g, g ∈ l → 0 ≤ at_dim d (share (g_flav g) (g_disk g))) → amount d P l ≤ amount d Q l.
Proof.
  induction l as [|g l IH]; cbn [amount]; [lia|]. intros HPQ H0.
  specialize (IH ltac:(intros; apply HPQ; [by right|done]) ltac:(intros; apply H0; by right)).
  pose proof (HPQ g ltac:(by left)). pose proof (H0 g ltac:(by left)). destruct (P g), (Q g); try lia; exfalso; naive_solver.
Qed.
Lemma amount_zero d (P : spawning → bool) l : (∀ g, g ∈ l → P g = false) → amount d P l = 0.
Proof.
  induction l as [|g l IH]; cbn [amount]; [done|]. intros H. rewrite (H g) by (by left).
  rewrite IH; [done|]. intros; apply H. by right.
Qed.
Lemma amount_or d (P Q R : spawning → bool) l :
  (∀ g, g ∈ l → P g = true → Q g = true ∨ R g = true) →
  (∀ g, g ∈ l → 0 ≤ at_dim d (share (g_flav g) (g_disk g))) → amount d P l ≤ amount d Q l + amount d R l.
Proof.
  induction l as [|g l IH]; cbn [amount]; [lia|]. intros HPQ H0.
  specialize (IH ltac:(intros; apply HPQ; [by right|done]) ltac:(intros; apply H0; by right)).
  pose proof (HPQ g ltac:(by left)). pose proof (H0 g ltac:(by left)). destruct (P g), (Q g), (R g); try lia; exfalso; naive_solver.
Qed.
Lemma at_dim_add d a b : at_dim d (qadd a b) = at_dim d a + at_dim d b.
Proof. by destruct d. Qed.
Lemma at_dim_sub d a b : at_dim d (qsub a b) = at_dim d a - at_dim d b.
Proof. by destruct d. Qed.
Lemma used_amount d others l : at_dim d (used others l) = at_dim d others + amount d g_exists l.
Proof.
  induction l as [|g l IH]; cbn [used amount]; [lia|]. destruct (g_exists g); [rewrite at_dim_add|]; lia.
Qed.

Notation msum m := (map_fold (λ _ (n a : Z), n + a) 0 m).
Lemma msum_insert (m : gmap string Z) c v : m !! c = None → msum (<[c:=v]> m) = v + msum m.
Proof. intros H. apply (map_fold_insert_L (λ _ (n a : Z), n + a)); [|done]. intros. lia. Qed.
Lemma msum_delete (m : gmap string Z) c : msum m = default 0 (m !! c) + msum (delete c m).
Proof.
  destruct (m !! c) as [v|] eqn:H; cbn.
  - rewrite <-(insert_delete m c v) at 1 by done. apply msum_insert. apply lookup_delete.
  - by rewrite delete_notin.
Qed.
Lemma msum_set (m : gmap string Z) c v : msum (<[c:=v]> m) = msum m - default 0 (m !! c) + v.
Proof.
  rewrite <-insert_delete_insert. rewrite msum_insert by apply lookup_delete. rewrite (msum_delete m c). lia.
Qed.

Lemma active_phase g : active g = match g_phase g with PGone => false | _ => true end.
Proof. unfold active. by destruct (g_phase g). Qed.

Section inv.
Context (comp : string → option (string → bool)) (o : ocfg) (k others : quota) (fl : list vflavor).
Context (Hv : valid comp (o_regex o)) (Hp : proper comp (o_sets o)) (Hfl : flavors_ok fl).

Definition counted (g : spawning) : bool := unreserved g || g_held g || g_exists g.
(** a goroutine whose fields go together *)
Definition whole (g : spawning) : Prop :=
  g_flav g ∈ fl ∧
  match g_phase g with
  | PNew => g_held g = false ∧ g_cb g = false ∧ g_exists g = false
  | PReserved => g_held g = true ∧ g_cb g = false ∧ g_exists g = false
  | _ => g_cb g = true → g_held g = true
  end.
Record Inv (s : osys) : Prop := mkInv {
  i_whole : ∀ g, g ∈ y_spawns s → whole g;
  i_now : ∀ c, default 0 (y_now s !! c) = amount Instances (active_for c) (y_spawns s);
  i_total : msum (y_now s) = amount Instances active (y_spawns s);
  i_res : ∀ d, at_dim d (y_res s) = amount d g_held (y_spawns s);
  i_max : 0 < o_spawns o → amount Instances active (y_spawns s) ≤ o_spawns o }.
Lemma inv_init : Inv y_init.
Proof.
  constructor; cbn; try done; try lia.
  - intros g Hg. by apply elem_of_nil in Hg.
  - by destruct d.
Qed.

Lemma at_spawn_some i p f s s' : at_spawn i p f s = Some s' →
  ∃ g, y_spawns s !! i = Some g ∧ p g = true ∧ s' = s <| y_spawns ::= λ l, <[i := f g]> l |>.
Proof.
  unfold at_spawn. destruct (y_spawns s !! i) as [g|] eqn:Hi; [|done]. destruct (p g) eqn:Hpg; [|done]. intros [= <-]. eauto.
Qed.
Lemma share_nonneg g : whole g → ∀ d, 0 ≤ at_dim d (share (g_flav g) (g_disk g)).
Proof.
  intros [Hin _] d. destruct (proj2 Hfl _ Hin) as (?&?&?). destruct d; cbn; try lia.
  destruct (Z.ltb_spec (v_disk (g_flav g)) (g_disk g)); lia.
Qed.

(** the spawn step *)
Lemma spawn_step s cmd desired q failed order s' :
  sane fl (YSpawn cmd desired q failed order) →
  ystep comp o k others s (YSpawn cmd desired q failed order) = Some s' →
  s' = s ∨ ∃ n f, 0 < n ∧ f ∈ fl ∧
    n ≤ spawnable o f (q_disk (reqForSpawn o q)) k (used others (y_spawns s)) (y_res s) (1 + Z.of_nat (length (y_servers s))) ∧
    n + default 0 (y_now s !! cmd) ≤ (desired + holds f (reqForSpawn o q) - 1) / holds f (reqForSpawn o q) ∧
    (0 < o_spawns o → msum (y_now s) + n ≤ o_spawns o) ∧
    spawn_flavor comp o failed order q = Done f ∧
    s' = s <| y_spawns ::= λ l, l ++ replicate (Z.to_nat n) (Spawning cmd f (q_disk (reqForSpawn o q)) PNew false false false) |>
           <| y_now ::= λ m, <[cmd := default 0 (y_now s !! cmd) + n]> m |>.
Proof.
  intros (Hd & Hqc & Hqr & Hqd & Ho). cbn [ystep].
  destruct (to_spawn _ _ _ _ _ _ _ _ _ _ _ _) as [[n f]|] eqn:H; [|intros [= <-]; by left].
  apply to_spawn_some in H as (Hf & Hle & Hne & Hper & Hneed & Hmax & Hpos).
  pose proof (spawn_flavor_in _ _ _ _ _ _ _ Ho Hv Hp Hf) as Hin. destruct (proj2 Hfl _ Hin) as (Hc & Hr & Hdk).
  destruct (spawnable_ok o f (q_disk (reqForSpawn o q)) k (used others (y_spawns s)) (y_res s) (1 + Z.of_nat (length (y_servers s))) _ Hc Hr Hdk eq_refl) as [H0 _].
  specialize (Hpos ltac:(lia)). rewrite (proj2 (Z.ltb_lt 0 n)) by lia. intros [= <-]. right. exists n, f. split_and!; done.
Qed.

Lemma inv_step s l s' : Inv s → sane fl l → ystep comp o k others s l = Some s' → Inv s'.
Proof.
  intros [Iw In It Ir Im] Hs H. destruct l as [cmd desired q failed order|i|i|i ok|i|i ok|i| |i].
  - destruct (spawn_step _ _ _ _ _ _ _ Hs H) as [->|(n & f & Hn & Hin & Hle & Hneed & Hmax & Hf & ->)]; [done|].
    set (g := Spawning cmd f _ PNew false false false).
    assert (Hw : whole g) by (split; [done|]; cbn; done).
    assert (Ha : ∀ P, amount Instances P (y_spawns s ++ replicate (Z.to_nat n) g) = amount Instances P (y_spawns s) + n * weight Instances P g).
    { intros P. rewrite amount_app, amount_replicate. rewrite Z2Nat.id by lia. done. }
    constructor; cbn.
    + intros h [Hh|Hh]%elem_of_app; [by apply Iw|]. apply elem_of_replicate in Hh as [-> _]. done.
    + intros c. rewrite Ha. destruct (decide (c = cmd)) as [->|Hne].
      * rewrite lookup_insert. cbn. rewrite <-In. unfold weight, active_for. cbn. rewrite bool_decide_true by done. change (active g) with true. cbn. lia.
      * rewrite lookup_insert_ne by done. rewrite <-In. unfold weight, active_for. cbn. rewrite bool_decide_false by done. cbn. lia.
    + rewrite Ha, msum_set, It. unfold weight. change (active g) with true. cbn. lia.
    + intros d. rewrite amount_app, amount_replicate, Ir. unfold weight. cbn. lia.
    + intros Hpos. rewrite Ha. specialize (Hmax Hpos). rewrite It in Hmax. unfold weight. change (active g) with true. cbn. lia.
  - cbn [ystep] in H. destruct (y_spawns s !! i) as [g0|] eqn:Hi; [|done].
    apply at_spawn_some in H as (g & Hg & Hph & ->). cbn in Hg. assert (g0 = g) as -> by congruence. clear Hi.
    apply bool_decide_eq_true in Hph. destruct (Iw g (elem_of_list_lookup_2 _ _ _ Hg)) as [Hin Hw]. rewrite Hph in Hw.
    destruct Hw as (Hh & Hcb & He). constructor; cbn.
    + intros h Hh'. apply elem_of_list_lookup in Hh' as [j Hj]. destruct (decide (j = i)) as [->|Hne].
      * rewrite list_lookup_insert in Hj by (by eapply lookup_lt_Some). injection Hj as <-. split; [done|]. cbn. done.
      * rewrite list_lookup_insert_ne in Hj by done. apply Iw. by eapply elem_of_list_lookup_2.
    + intros c. rewrite (amount_insert _ _ _ _ _ _ Hg), <-In. unfold weight, active_for. rewrite !active_phase. cbn. rewrite Hph. cbn. destruct (bool_decide (g_cmd g = c)); cbn; lia.
    + rewrite (amount_insert _ _ _ _ _ _ Hg), <-It. unfold weight. rewrite !active_phase. cbn. rewrite Hph. cbn. lia.
    + intros d. rewrite (amount_insert _ _ _ _ _ _ Hg), at_dim_add, Ir. unfold weight. cbn. rewrite Hh. lia.
    + intros Hpos. specialize (Im Hpos). rewrite (amount_insert _ _ _ _ _ _ Hg). unfold weight. rewrite !active_phase. cbn. rewrite Hph. cbn. lia.
  - cbn [ystep] in H. apply at_spawn_some in H as (g & Hg & Hph & ->).
    apply bool_decide_eq_true in Hph. destruct (Iw g (elem_of_list_lookup_2 _ _ _ Hg)) as [Hin Hw]. rewrite Hph in Hw.
    destruct Hw as (Hh & Hcb & He). constructor; cbn.
    + intros h Hh'. apply elem_of_list_lookup in Hh' as [j Hj]. destruct (decide (j = i)) as [->|Hne].
      * rewrite list_lookup_insert in Hj by (by eapply lookup_lt_Some). injection Hj as <-. split; [done|]. cbn. congruence.
      * rewrite list_lookup_insert_ne in Hj by done. apply Iw. by eapply elem_of_list_lookup_2.
    + intros c. rewrite (amount_insert _ _ _ _ _ _ Hg), <-In. unfold weight, active_for. rewrite !active_phase. cbn. rewrite Hph. cbn. destruct (bool_decide (g_cmd g = c)); cbn; lia.
    + rewrite (amount_insert _ _ _ _ _ _ Hg), <-It. unfold weight. rewrite !active_phase. cbn. rewrite Hph. cbn. lia.
    + intros d. rewrite (amount_insert _ _ _ _ _ _ Hg), Ir. unfold weight. cbn. lia.
    + intros Hpos. specialize (Im Hpos). rewrite (amount_insert _ _ _ _ _ _ Hg). unfold weight. rewrite !active_phase. cbn. rewrite Hph. cbn. lia.
  - cbn [ystep] in H. apply at_spawn_some in H as (g & Hg & Hph & ->).
    apply bool_decide_eq_true in Hph. destruct (Iw g (elem_of_list_lookup_2 _ _ _ Hg)) as [Hin Hw]. rewrite Hph in Hw.
    destruct Hw as (Hh & Hcb & He). constructor; cbn.
    + intros h Hh'. apply elem_of_list_lookup in Hh' as [j Hj]. destruct (decide (j = i)) as [->|Hne].
      * rewrite list_lookup_insert in Hj by (by eapply lookup_lt_Some). injection Hj as <-. split; [done|]. cbn. done.
      * rewrite list_lookup_insert_ne in Hj by done. apply Iw. by eapply elem_of_list_lookup_2.
    + intros c. rewrite (amount_insert _ _ _ _ _ _ Hg), <-In. unfold weight, active_for. rewrite !active_phase. cbn. rewrite Hph. cbn. destruct (bool_decide (g_cmd g = c)); cbn; lia.
    + rewrite (amount_insert _ _ _ _ _ _ Hg), <-It. unfold weight. rewrite !active_phase. cbn. rewrite Hph. cbn. lia.
    + intros d. rewrite (amount_insert _ _ _ _ _ _ Hg), Ir. unfold weight. cbn. lia.
    + intros Hpos. specialize (Im Hpos). rewrite (amount_insert _ _ _ _ _ _ Hg). unfold weight. rewrite !active_phase. cbn. rewrite Hph. cbn. lia.
  - cbn [ystep] in H. destruct (y_spawns s !! i) as [g0|] eqn:Hi; [|done].
    apply at_spawn_some in H as (g & Hg & Hcb & ->). cbn in Hg. assert (g0 = g) as -> by congruence. clear Hi.
    destruct (Iw g (elem_of_list_lookup_2 _ _ _ Hg)) as [Hin Hw].
    assert (Hh : g_held g = true) by (destruct (g_phase g); naive_solver congruence). constructor; cbn.
    + intros h Hh'. apply elem_of_list_lookup in Hh' as [j Hj]. destruct (decide (j = i)) as [->|Hne].
      * rewrite list_lookup_insert in Hj by (by eapply lookup_lt_Some). injection Hj as <-. split; [done|]. cbn.
        destruct (g_phase g); naive_solver congruence.
      * rewrite list_lookup_insert_ne in Hj by done. apply Iw. by eapply elem_of_list_lookup_2.
    + intros c. rewrite (amount_insert _ _ _ _ _ _ Hg), <-In. unfold weight, active_for. rewrite !active_phase. cbn. lia.
    + rewrite (amount_insert _ _ _ _ _ _ Hg), <-It. unfold weight. rewrite !active_phase. cbn. lia.
    + intros d. rewrite (amount_insert _ _ _ _ _ _ Hg), at_dim_sub, Ir. unfold weight. cbn. rewrite Hh. lia.
    + intros Hpos. specialize (Im Hpos). rewrite (amount_insert _ _ _ _ _ _ Hg). unfold weight. rewrite !active_phase. cbn. lia.
  - cbn [ystep] in H. destruct (y_spawns s !! i) as [g0|] eqn:Hi; [|done].
    apply at_spawn_some in H as (g & Hg & Hph & ->).
    assert (y_spawns s !! i = Some g ∧ y_now (if ok && g_exists g0 then s <| y_spawned ::= λ l, l ++ [i] |> else s) = y_now s ∧
            y_res (if ok && g_exists g0 then s <| y_spawned ::= λ l, l ++ [i] |> else s) = y_res s ∧
            y_spawns (if ok && g_exists g0 then s <| y_spawned ::= λ l, l ++ [i] |> else s) = y_spawns s) as (Hg' & Hn1 & Hr1 & Hs1).
    { destruct (ok && g_exists g0); done. }
    set (s1 := if ok && g_exists g0 then _ else _) in *. clearbody s1. clear Hg Hi. rename Hg' into Hg.
    apply bool_decide_eq_true in Hph. destruct (Iw g (elem_of_list_lookup_2 _ _ _ Hg)) as [Hin Hw]. rewrite Hph in Hw.
    constructor; cbn; rewrite ?Hn1, ?Hr1, ?Hs1.
    + intros h Hh'. apply elem_of_list_lookup in Hh' as [j Hj]. destruct (decide (j = i)) as [->|Hne].
      * rewrite list_lookup_insert in Hj by (by eapply lookup_lt_Some). injection Hj as <-. split; [done|]. cbn. done.
      * rewrite list_lookup_insert_ne in Hj by done. apply Iw. by eapply elem_of_list_lookup_2.
    + intros c. rewrite (amount_insert _ _ _ _ _ _ Hg), <-In. unfold weight, active_for. rewrite !active_phase. cbn. rewrite Hph. cbn. destruct (bool_decide (g_cmd g = c)); cbn; lia.
    + rewrite (amount_insert _ _ _ _ _ _ Hg), <-It. unfold weight. rewrite !active_phase. cbn. rewrite Hph. cbn. lia.
    + intros d. rewrite (amount_insert _ _ _ _ _ _ Hg), Ir. unfold weight. cbn. lia.
    + intros Hpos. specialize (Im Hpos). rewrite (amount_insert _ _ _ _ _ _ Hg). unfold weight. rewrite !active_phase. cbn. rewrite Hph. cbn. lia.
  - cbn [ystep] in H. destruct (y_spawns s !! i) as [g0|] eqn:Hi; [|done].
    apply at_spawn_some in H as (g & Hg & Hph & ->). cbn in Hg. assert (g0 = g) as -> by congruence. clear Hi.
    apply bool_decide_eq_true in Hph. destruct (Iw g (elem_of_list_lookup_2 _ _ _ Hg)) as [Hin Hw]. rewrite Hph in Hw.
    assert (Hone : 1 ≤ default 0 (y_now s !! g_cmd g)).
    { rewrite In. destruct (elem_of_list_split_length _ _ _ Hg) as (l1 & l2 & -> & _). rewrite amount_app. cbn [amount].
      assert (∀ l, 0 ≤ amount Instances (active_for (g_cmd g)) l) as H0.
      { intros l. induction l as [|x l IH]; cbn [amount at_dim share k_inst]; [lia|]. destruct (active_for (g_cmd g) x); lia. }
      pose proof (H0 l1). pose proof (H0 l2). unfold active_for at 2. rewrite bool_decide_true by done. rewrite active_phase, Hph. cbn. lia. }
    constructor; cbn.
    + intros h Hh'. apply elem_of_list_lookup in Hh' as [j Hj]. destruct (decide (j = i)) as [->|Hne].
      * rewrite list_lookup_insert in Hj by (by eapply lookup_lt_Some). injection Hj as <-. split; [done|]. cbn. done.
      * rewrite list_lookup_insert_ne in Hj by done. apply Iw. by eapply elem_of_list_lookup_2.
    + intros c. rewrite (amount_insert _ _ _ _ _ _ Hg), <-In. unfold weight, active_for. rewrite !active_phase. cbn. rewrite Hph. cbn. rewrite andb_false_r, andb_true_r.
      destruct (decide (g_cmd g = c)) as [<-|Hne].
      * rewrite bool_decide_true by done. destruct (Z.leb_spec (default 0 (y_now s !! g_cmd g) - 1) 0).
        -- rewrite lookup_delete. cbn. lia.
        -- rewrite lookup_insert. cbn. lia.
      * rewrite bool_decide_false by done. destruct (default 0 (y_now s !! g_cmd g) - 1 <=? 0).
        -- rewrite lookup_delete_ne by done. lia.
        -- rewrite lookup_insert_ne by done. lia.
    + rewrite (amount_insert _ _ _ _ _ _ Hg), <-It. unfold weight. rewrite !active_phase. cbn. rewrite Hph. cbn.
      destruct (Z.leb_spec (default 0 (y_now s !! g_cmd g) - 1) 0).
      * rewrite (msum_delete (y_now s) (g_cmd g)). lia.
      * rewrite msum_set. lia.
    + intros d. rewrite (amount_insert _ _ _ _ _ _ Hg), Ir. unfold weight. cbn. lia.
    + intros Hpos. specialize (Im Hpos). rewrite (amount_insert _ _ _ _ _ _ Hg). unfold weight. rewrite !active_phase. cbn. rewrite Hph. cbn. lia.
  - injection H as <-. constructor; done.
  - cbn [ystep] in H. apply at_spawn_some in H as (g & Hg & Hph & ->).
    destruct (Iw g (elem_of_list_lookup_2 _ _ _ Hg)) as [Hin Hw]. constructor; cbn.
    + intros h Hh'. apply elem_of_list_lookup in Hh' as [j Hj]. destruct (decide (j = i)) as [->|Hne].
      * rewrite list_lookup_insert in Hj by (by eapply lookup_lt_Some). injection Hj as <-. split; [done|]. cbn.
        destruct (g_phase g); done.
      * rewrite list_lookup_insert_ne in Hj by done. apply Iw. by eapply elem_of_list_lookup_2.
    + intros c. rewrite (amount_insert _ _ _ _ _ _ Hg), <-In. unfold weight, active_for. rewrite !active_phase. cbn. lia.
    + rewrite (amount_insert _ _ _ _ _ _ Hg), <-It. unfold weight. rewrite !active_phase. cbn. lia.
    + intros d. rewrite (amount_insert _ _ _ _ _ _ Hg), Ir. unfold weight. cbn. lia.
    + intros Hpos. specialize (Im Hpos). rewrite (amount_insert _ _ _ _ _ _ Hg). unfold weight. rewrite !active_phase. cbn. lia.
Qed.
Lemma inv_run ls s s' : Inv s → Forall (sane fl) ls → yrun comp o k others s ls = Some s' → Inv s'.
Proof.
  revert s. induction ls as [|l ls IH]; intros s HI Hs; cbn [yrun]; [by intros [= ->]|].
  apply Forall_cons in Hs as [Hl Hs]. destruct (ystep comp o k others s l) as [s1|] eqn:H1; [|done].
  apply IH; [|done]. by eapply inv_step.
Qed.
End inv.
