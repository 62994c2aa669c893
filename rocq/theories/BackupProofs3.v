(** Proofs on backups: the statements of BackupProps.v. *)
From Coq Require Import ZArith Lia.
From stdpp Require Import base option list.
From RecordUpdate Require Import RecordSet.
From Verif Require Import BackupModel BackupSpec BackupProofs BackupProofs2.
Import RecordSetNotations.
Open Scope Z_scope.

Lemma open_stays s e s' : bstep s e = Some s' → e ≠ EClose → closed s = false → closed s' = false.
Proof.
  intros H Hn Hc. assert (∀ x : bdb, closed x = false → closed (background x) = false) as B.
  { intros x Hx. unfold background. rewrite Hx. cbn. destruct (negb _); [done|]. by destruct (backing_up x). }
  destruct s as [ch t b n cl bu fi qu en s3' st la wa gs ga no co]. cbn in Hc. subst cl.
  destruct e; cbn in H; unfold set_go, finish, put in H; repeat (case_match; try done); simplify_eq; try done; cbn in *;
    repeat (match goal with H : mbind _ ?x = Some _ |- _ => destruct x; cbn in H; [|done] end); repeat (case_match; try done); simplify_eq; try done; by apply B.
Qed.
Lemma open_steps es s s' : bsteps s es = Some s' → EClose ∉ es → closed s = false → closed s' = false.
Proof.
  revert s. induction es as [|e es IH]; intros s H N Hc; cbn in H; [by injection H as <-|].
  destruct (bstep s e) as [s1|] eqn:E; [|done]. cbn in H. apply not_elem_of_cons in N as [N1 N2]. eapply IH; [exact H|done|]. by eapply open_stays.
Qed.
Lemma closed_steps es s s' : bsteps s es = Some s' → closed s = true → EClose ∉ es.
Proof.
  revert s. induction es as [|e es IH]; intros s H Hc; [by intros ?%elem_of_nil|]. cbn in H.
  destruct (bstep s e) as [s1|] eqn:E; [|done]. cbn in H. apply not_elem_of_cons. split.
  - intros <-. cbn in E. by rewrite Hc in E.
  - eapply IH; [exact H|]. by eapply closed_stays.
Qed.
Lemma kept s0 es1 s1 es2 s2 : opened s0 → bsteps s0 es1 = Some s1 → closed s1 = false → enabled s1 = true →
  bsteps s1 (ERequest :: es2) = Some s2 → works es2 → EClose ∉ es2 → quiet s2 → backed_up (changes s1) s2.
Proof.
  intros O H1 Hc En H2 W N (Q1&Q2&Q3). pose proof (inv_steps _ _ _ (inv_opened _ O) H1) as I1. cbn in H2.
  pose proof (cov_request s1 I1 Hc En) as C. pose proof (inv_background s1 I1) as I2.
  destruct (cov_steps _ _ _ _ I2 C H2 W N) as (_&_&Wl). pose proof (inv_steps _ _ _ I2 H2) as I3.
  assert (closed s2 = false) as Hc2. { eapply open_steps; [exact H2|done|]. by apply (open_stays s1 ERequest). }
  pose proof (i_closed _ I3) as Ic. rewrite Hc2 in Ic. assert (closer s2 = CIdle) as Eco by (by destruct (closer s2)).
  destruct Wl as [Wl|[[Wl _]|[(_&Wl&_)|[(g&Wl&_)|Wl]]]]; [done|congruence|congruence|congruence|by rewrite Eco in Wl].
Qed.
Lemma kept_final s0 es1 s1 es2 sc es3 s3 : opened s0 → bsteps s0 es1 = Some s1 → closed s1 = false → enabled s1 = true →
  bsteps s1 (ERequest :: es2) = Some sc → bsteps sc (EClose :: es3) = Some s3 → works es2 → works es3 →
  (gap sc = O ∨ backing_up sc = true) → closer s3 = CDone → backed_up (changes s1) s3.
Proof.
  intros O H1 Hc En H2 H3 W2 W3 G D. pose proof (inv_steps _ _ _ (inv_opened _ O) H1) as I1. cbn [bsteps] in H2, H3.
  change (bstep s1 ERequest) with (Some (background s1)) in H2. cbn in H2.
  pose proof (cov_request s1 I1 Hc En) as C. pose proof (inv_background s1 I1) as I2.
  destruct (bstep sc EClose) as [s4|] eqn:E4; [|done]. cbn in H3.
  assert (EClose ∉ es2) as N2.
  { intros Hin. apply elem_of_list_split in Hin as (l1&l2&->). rewrite bsteps_app in H2. destruct (bsteps (background s1) l1) as [x|] eqn:Ex; [|done]. cbn [mbind option_bind bsteps] in H2.
    destruct (bstep x EClose) as [y|] eqn:Ey; [|done]. cbn in H2.
    assert (closed y = true) as Hy. { cbn in Ey. destruct (closed x); [done|]. by destruct (backing_up x); injection Ey as <-. }
    assert (closed sc = true) as Hsc. { clear -H2 Hy. revert y H2 Hy. induction l2 as [|e l IH]; intros y H Hy; cbn in H; [by injection H as <-|]. destruct (bstep y e) as [z|] eqn:E; [|done]. eapply IH; [exact H|]. by eapply closed_stays. }
    cbn in E4. by rewrite Hsc in E4. }
  pose proof (cov_steps _ _ _ _ I2 C H2 W2 N2) as C2. pose proof (inv_steps _ _ _ I2 H2) as I3.
  assert (cov (changes s1) s4) as C4. { eapply (cov_step _ sc EClose); [done|done|done|]. destruct G; [by right|by left]. }
  pose proof (inv_step _ _ _ I3 E4) as I4.
  assert (closed s4 = true) as Hc4. { clear -E4. cbn in E4. destruct (closed sc); [done|]. by destruct (backing_up sc); injection E4 as <-. }
  destruct (cov_steps _ _ _ _ I4 C4 H3 W3 (closed_steps _ _ _ H3 Hc4)) as (_&_&Wl). pose proof (inv_steps _ _ _ I4 H3) as I5.
  pose proof (i_past _ I5) as P. pose proof (i_closed _ I5) as Ic. rewrite D in P, Ic.
  destruct Wl as [Wl|[[_ Wl]|[(Wl&_&_)|[(g&Wl&_)|Wl]]]]; [done|by rewrite D in Wl|by rewrite Ic in Wl|congruence|by rewrite D in Wl].
Qed.

(** ** One at a time *)
Lemma whole s0 es s : opened s0 → bsteps s0 es = Some s → bk s ≠ Some Part ∧ (writers s ≤ 1)%nat.
Proof.
  intros O H. pose proof (inv_steps _ _ _ (inv_opened _ O) H) as I. split.
  - pose proof (i_bk _ I) as B. intros E. by rewrite E in B.
  - pose proof (i_past _ I) as P. unfold writers. destruct (i_gos _ I) as [[-> _]|(g&E&_)]; [cbn; destruct (closer s); lia|].
    rewrite E in P |- *. assert (match closer s with CIdle | CNotif => True | _ => False end) as Hc by (by destruct (closer s)).
    cbn. destruct (closer s); try done; destruct (g_pc g); cbn; lia.
Qed.

(** ** Spacing *)
Lemma no_end s e s' : bstep s e = Some s' → (∀ i, e ≠ EEnd i) → last s' = last s ∧ wait s' = wait s ∧ now s ≤ now s'.
Proof.
  intros H N. assert (∀ x : bdb, last (background x) = last x ∧ wait (background x) = wait x ∧ now (background x) = now x) as B.
  { intros x. unfold background. destruct (_ || _); [done|]. by destruct (backing_up x). }
  destruct s as [ch t b n cl bu fi qu en s3' st la wa gs ga no co].
  destruct e; try (by destruct (N i)); cbn in H; unfold set_go, put in H; repeat (case_match; try done); simplify_eq; try (split_and!; [done|done|cbn; lia]); cbn in *;
    repeat (match goal with H : mbind _ ?x = Some _ |- _ => destruct x; cbn in H; [|done] end); repeat (case_match; try done); simplify_eq; try (split_and!; [done|done|cbn; lia]).
  all: repeat match goal with H : bool_decide _ = true |- _ => apply bool_decide_eq_true in H end; try (split_and!; [done|done|cbn; lia]).
  all: match goal with |- context [background ?x] => destruct (B x) as (->&->&->) end; split_and!; [done|done|cbn; lia].
Qed.
Lemma no_ends es s s' : bsteps s es = Some s' → (∀ i, EEnd i ∉ es) → last s' = last s ∧ wait s' = wait s ∧ now s ≤ now s'.
Proof.
  revert s. induction es as [|e es IH]; intros s H N; cbn in H; [injection H as <-; split_and!; [done|done|lia]|].
  destruct (bstep s e) as [s1|] eqn:E; [|done]. cbn in H. destruct (IH _ H) as (->&->&?).
  { intros i Hi. apply (N i). by right. }
  destruct (no_end _ _ _ E) as (->&->&?). { intros i ->. apply (N i). by left. }
  split_and!; [done|done|lia].
Qed.
Lemma spaced s0 es1 s1 i (g : bgo) s2 es2 s3 j (h : bgo) s4 : opened s0 → bsteps s0 es1 = Some s1 → gos s1 !! i = Some g → bstep s1 (EEnd i) = Some s2 →
  bsteps s2 es2 = Some s3 → (∀ k, EEnd k ∉ es2) → gos s3 !! j = Some h → g_pc h = BWait → bstep s3 (EGo j) = Some s4 → closed s3 = false →
  Z.max 30 (now s1 - g_start g) ≤ now s3 - now s1.
Proof.
  intros O H1 Hg H2 H3 N Hh Hp H4 Hc. pose proof (inv_steps _ _ _ (inv_opened _ O) H1) as I1. pose proof (inv_step _ _ _ I1 H2) as I2. pose proof (inv_steps _ _ _ I2 H3) as I3.
  assert (last s2 = Some (now s1) ∧ Z.max 30 (now s1 - g_start g) ≤ wait s2) as [L2 W2].
  { cbn [bstep] in H2. rewrite Hg in H2. cbn in H2. destruct (g_pc g); try done. injection H2 as <-. pose proof (i_wait _ I1) as W. unfold min_wait in W.
    unfold finish. destruct s1 as [ch t b n cl bu fi qu en s3' st la wa gs ga no co]. cbn in *.
    destruct fi; [|destruct qu]; cbn; (split; [done|]); unfold min_wait; case_bool_decide; lia. }
  destruct (no_ends _ _ _ H3 N) as (L3&W3&T3).
  pose proof (i_gos _ I3) as G. pose proof (i_stop _ I3) as S. pose proof (i_final _ I3) as F. pose proof (i_closed _ I3) as C.
  rewrite Hc in C. destruct G as [[G _]|(g'&G&_&Nw&U)]; [by rewrite G in Hh|]. rewrite G in Hh. destruct j as [|j]; [|done]. injection Hh as ->.
  cbn [bstep] in H4. rewrite G in H4. cbn in H4. rewrite Hp, Nw, S, F in H4. assert (closer s3 = CIdle) as Eco by (by destruct (closer s3)). rewrite Eco in H4. cbn in H4.
  rewrite U, L3, L2 in H4. cbn in H4. case_bool_decide as Hle; [|done]. lia.
Qed.

(** ** It ends *)
Definition pc_weight (p : bpc) : nat := match p with BWait => 6 | BCopy => 5 | BCopying _ => 4 | BPut => 3 | BEnd => 2 end.
Definition c_weight (c : cpc) : nat := match c with CNotif => 7 | CCheck => 6 | CCopy => 5 | CCopying _ => 4 | CPut => 3 | CShut => 2 | CIdle | CDone => 0 end.
Definition weight (s : bdb) : nat :=
  (list_sum (map (λ g, pc_weight (g_pc g)) (gos s)) + 7 * gap s + (if queued s then 6 else 0) + notifying s + c_weight (closer s))%nat.
Lemma put_weight ok s : weight (put ok s) = weight s.
Proof. unfold put. destruct (tmp s); [|done]. by destruct (s3 s), ok. Qed.
Lemma own_less s e s' : inv s → bstep s e = Some s' → own e = true → (weight s' < weight s)%nat.
Proof.
  intros [I1 I2 I3 I4 I5 I6 I7 I8 I9] H Ho. destruct e; try done; cbn [bstep] in H.
  1-4: destruct s as [ch t b n cl bu fi qu en s3' st la wa gs ga no co]; cbn in *; destruct I1 as [[-> ->]|(g&->&->&_)]; [done|]; one; destruct g as [pc un nw sta]; cbn in *; destruct pc; try done.
  - destruct (nw || st || _); [|done]. inj. unfold weight. cbn. lia.
  - inj. unfold weight. cbn. lia.
  - destruct ok; inj; unfold weight; cbn; lia.
  - inj. rewrite put_weight. unfold weight. cbn. lia.
  - inj. unfold finish. cbn. destruct fi; [|destruct qu]; unfold weight; cbn; lia.
  - destruct s as [ch t b n cl bu fi qu en s3' st la wa gs ga no co]; cbn in *. destruct ga as [|m]; [done|]. inj. unfold background. cbn.
    destruct (cl || negb en); [unfold weight; cbn; lia|]. destruct bu; unfold weight; cbn; [destruct qu; lia|].
    rewrite map_app. unfold list_sum. rewrite foldr_app. cbn. destruct I1 as [[-> _]|(g&_&?&_)]; [cbn; lia|done].
  - destruct s as [ch t b n cl bu fi qu en s3' st la wa gs ga no co]; cbn in *. destruct co; try done. destruct no; [done|]. inj. unfold weight. cbn. lia.
  - destruct s as [ch t b n cl bu fi qu en s3' st la wa gs ga no co]; cbn in *. destruct co; try done. inj. unfold weight. cbn. destruct (en && qu); cbn; lia.
  - destruct s as [ch t b n cl bu fi qu en s3' st la wa gs ga no co]; cbn in *. destruct co; try done. inj. unfold weight. cbn. lia.
  - destruct s as [ch t b n cl bu fi qu en s3' st la wa gs ga no co]; cbn in *. destruct co; try done. destruct ok; inj; unfold weight; cbn; lia.
  - destruct s as [ch t b n cl bu fi qu en s3' st la wa gs ga no co]; cbn in *. destruct co; try done. inj. rewrite put_weight. unfold weight. cbn. lia.
  - destruct s as [ch t b n cl bu fi qu en s3' st la wa gs ga no co]; cbn in *. destruct co; try done. inj. unfold weight. cbn. lia.
Qed.
Lemma other_same s e s' : bstep s e = Some s' → own e = false → e ≠ EClose → (closed s = true ∨ e ≠ ERequest) → weight s' = weight s.
Proof.
  intros H Ho N R. destruct e; try done; cbn in H.
  - destruct (closer s) eqn:E; try done; inj; unfold weight; cbn; by rewrite E.
  - inj. destruct R as [R|]; [|done]. unfold background. by rewrite R.
  - case_bool_decide; [|done]. by inj.
Qed.
Lemma ends es s s' : inv s → bsteps s es = Some s' → EClose ∉ es → (closed s = true ∨ ERequest ∉ es) → (length (List.filter own es) ≤ weight s)%nat.
Proof.
  revert s. induction es as [|e es IH]; intros s I H N R; cbn in H; [cbn; lia|]. destruct (bstep s e) as [s1|] eqn:E; [|done]. cbn in H.
  apply not_elem_of_cons in N as [N1 N2].
  assert (length (List.filter own es) ≤ weight s1)%nat as L.
  { eapply IH; [by eapply inv_step|exact H|done|]. destruct R as [R|R]; [left; by eapply closed_stays|right; intros Hin; apply R; by right]. }
  cbn [List.filter]. destruct (own e) eqn:Ho.
  - pose proof (own_less _ _ _ I E Ho). cbn. lia.
  - rewrite (other_same s e s1) in L; [done|done|done|done|]. destruct R as [R|R]; [by left|right]. intros ->. apply R. by left.
Qed.
Lemma goes_on s : inv s → gos s ≠ [] ∨ gap s ≠ O ∨ (closer s ≠ CIdle ∧ closer s ≠ CDone) →
  ∃ dt e, 0 ≤ dt ∧ own e = true ∧ is_Some (bsteps s [ETick dt; e]).
Proof.
  intros [I1 I2 I3 I4 I5 I6 I7 I8 I9] Hs.
  assert (∀ dt e, 0 ≤ dt → is_Some (bstep (s <| now ::= λ t, t + dt |>) e) → is_Some (bsteps s [ETick dt; e])) as K.
  { intros dt e Hd [x Hx]. cbn [bsteps bstep]. rewrite bool_decide_true by done. cbn [mbind option_bind]. rewrite Hx. by eexists. }
  destruct s as [ch t b n cl bu fi qu en s3' st la wa gs ga no co]. cbn in *.
  destruct I1 as [[-> ->]|(g&->&->&N&U)].
  - destruct Hs as [|[Hs|[H1 H2]]]; [done| |].
    + exists 0, EGap. split; [done|]. split; [done|]. apply K; [done|]. cbn. destruct ga; [done|]. by eexists.
    + exists 0. destruct co; try done.
      * exists ENotify. split; [done|]. split; [done|]. apply K; [done|]. cbn. rewrite I5. by eexists.
      * exists ECheck. split; [done|]. split; [done|]. apply K; [done|]. by eexists.
      * exists ECStart. split; [done|]. split; [done|]. apply K; [done|]. by eexists.
      * exists (ECCopied true). split; [done|]. split; [done|]. apply K; [done|]. by eexists.
      * exists (ECPut true). split; [done|]. split; [done|]. apply K; [done|]. by eexists.
      * exists EShut. split; [done|]. split; [done|]. apply K; [done|]. by eexists.
  - destruct g as [pc un nw sta]. cbn in *. destruct pc.
    + exists (match un with Some u => Z.max 0 (u - n) | None => 0 end), (EGo 0). split; [destruct un; lia|]. split; [done|]. apply K; [destruct un; lia|]. cbn. rewrite N. cbn.
      destruct un as [u|]; [|rewrite orb_true_r; by eexists]. rewrite bool_decide_true by lia. rewrite orb_true_r. by eexists.
    + exists 0, (EGo 0). split; [done|]. split; [done|]. apply K; [done|]. by eexists.
    + exists 0, (ECopied 0 true). split; [done|]. split; [done|]. apply K; [done|]. by eexists.
    + exists 0, (EPut 0 true). split; [done|]. split; [done|]. apply K; [done|]. by eexists.
    + exists 0, (EEnd 0). split; [done|]. split; [done|]. apply K; [done|]. by eexists.
Qed.
Lemma bk_same s e s' : bstep s e = Some s' → match e with EPut _ _ | ECPut _ => False | _ => True end → bk s' = bk s.
Proof.
  intros H He. unfold bstep in H. destruct e; try done.
  - destruct (closer s); try done; by inj.
  - inj. unfold background. destruct (closed s || negb (enabled s)); [done|]. by destruct (backing_up s).
  - case_bool_decide; [|done]. by inj.
  - destruct (gos s !! i) as [g|]; [|done]. cbn in H. destruct (g_pc g); try done; [|by inj]. destruct (_ || _); [by inj|done].
  - destruct (gos s !! i) as [g|]; [|done]. cbn in H. destruct (g_pc g); try done. destruct ok; by inj.
  - destruct (gos s !! i) as [g|]; [|done]. cbn in H. destruct (g_pc g); try done. inj. unfold finish. cbn. destruct (final s); [done|]. by destruct (queued s).
  - destruct (gap s); [done|]. inj. unfold background. cbn. destruct (closed s || negb (enabled s)); [done|]. by destruct (backing_up s).
  - destruct (closed s); [done|]. destruct (backing_up s); by inj.
  - destruct (closer s); try done. destruct (notifying s); [done|]. by inj.
  - destruct (closer s); try done. by inj.
  - destruct (closer s); try done. by inj.
  - destruct (closer s); try done. destruct ok; by inj.
  - destruct (closer s); try done. by inj.
Qed.
Lemma put_backed ok w s v : tmp s = Some (Whole v) → bk_upto (bk s) v → backed_up w s → backed_up w (put ok s).
Proof.
  intros Ht Hb (x & Hx & Hw). unfold put. rewrite Ht. rewrite Hx in Hb. cbn in Hb.
  destruct (s3 s), ok; cbn; (exists v; split; [done|lia]) || (exists x; done).
Qed.
Lemma backed_step w s e s' : inv s → bstep s e = Some s' → backed_up w s → backed_up w s'.
Proof.
  intros I H B. assert (match e with EPut _ _ | ECPut _ => False | _ => True end ∨ match e with EPut _ _ | ECPut _ => True | _ => False end) as [He|He] by (destruct e; auto).
  { unfold backed_up. rewrite (bk_same _ _ _ H He). exact B. }
  destruct I as [I1 _ _ _ _ I6 _ I8 _]. destruct e; try done; unfold bstep in H.
  - destruct I1 as [[E _]|(g & E & _)]; [by rewrite E in H|]. rewrite E in H. destruct i as [|i]; cbn in H; [|done].
    unfold writer in I8. rewrite E in I8. unfold g_writer in I8. destruct (g_pc g) eqn:Eg; try done. inj. destruct I8 as (v & Ht & Hv & _). by eapply put_backed.
  - unfold writer in I8. destruct (closer s) eqn:Ec; try done. rewrite I6 in I8. cbn in I8. inj. destruct I8 as (v & Ht & Hv & _). by eapply put_backed.
Qed.
(** what was backed up stays so, whatever fails *)
Lemma backed_stays w es s s' : inv s → bsteps s es = Some s' → backed_up w s → backed_up w s'.
Proof.
  revert s. induction es as [|e es IH]; intros s I H B; cbn in H; [by injection H as <-|].
  destruct (bstep s e) as [s1|] eqn:E; [|done]. cbn in H. eapply IH; [|exact H|]; [by eapply inv_step|by eapply backed_step].
Qed.
