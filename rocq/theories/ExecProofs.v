(** Proofs for C61 to C64. *)
From Coq Require Import ZArith Lia.
From stdpp Require Import base option list.
From RecordUpdate Require Import RecordSet.
From Verif Require Import ExecModel ExecSpec.
Import RecordSetNotations.
Open Scope Z_scope.

Lemma xrun_snoc cf s ls l s' : xrun cf s (ls ++ [l]) = Some s' ↔ ∃ s1, xrun cf s ls = Some s1 ∧ xstep cf s1 l = Some s'.
Proof.
  revert s. induction ls as [|k ls IH]; intros s; cbn [xrun app].
  - destruct (xstep cf s l) as [s1|] eqn:E; cbn [mbind option_bind xrun]; split.
    + intros [= <-]. by exists s.
    + intros (s2 & [= <-] & ?). congruence.
    + done.
    + intros (s2 & [= <-] & ?). congruence.
  - destruct (xstep cf s k) as [s1|]; cbn [mbind option_bind]; [apply IH|]. split; [done|]. by intros (? & ? & _).
Qed.
(** Induction over a run. *)
Lemma xrun_ind cf (P : list xlabel → exec → Prop) :
  P [] x_new → (∀ ls l s s', xrun cf x_new ls = Some s → P ls s → xstep cf s l = Some s' → P (ls ++ [l]) s') →
  ∀ ls s, xrun cf x_new ls = Some s → P ls s.
Proof.
  intros H0 HS ls. induction ls as [|l ls IH] using rev_ind; intros s H; [by injection H as <-|].
  apply xrun_snoc in H as (s1 & H1 & H2). eapply HS; try done. by apply IH.
Qed.

(** ** Control *)
Definition msent (m : mpc) : nat := match m with MSetup _ | MRun | MStop _ => 0 | _ => 1 end.
Definition tsent (t : tpc) : nat := match t with TEnd => 1 | _ => 0 end.
Definition stsent (m : mpc) : nat := match m with MReport _ _ _ => 1 | MRet _ => 2 | _ => 0 end.
Record Ctl (s : exec) : Prop := {
  a_stopc : (x_stopc s ≤ msent (x_main s) + tsent (x_touch s))%nat;
  a_check : match x_main s with
            | MSetup _ => x_check s = CNone
            | MRun | MStop _ => x_check s ≠ CNone ∧ x_check s ≠ CEnd
            | MFin _ => x_check s ≠ CNone ∧ x_check s ≠ CEnd ∧ ((x_check s = CNew ∨ x_check s = CLoop) → (1 ≤ x_stopc s)%nat)
            | MLock _ | MKillDone _ | MEnd _ | MReport _ _ _ => x_check s = CEnd
            | MRet _ => x_check s = CNone ∨ x_check s = CEnd
            end;
  a_mutex : x_smutex s = match x_main s with MKillDone _ | MEnd _ | MReport _ _ _ => true | _ => false end;
  a_kd : match x_touch s with TStopC | TEnd => (x_killdone s ≤ 1)%nat | _ => x_killdone s = 0%nat end;
  a_kc : x_killCalled s = true → x_touch s = TNew2 ∨ x_touch s = TNew3 ∨ x_killdone s = 1%nat ∨ match x_main s with MEnd _ | MReport _ _ _ | MRet _ => True | _ => False end;
  a_mkd : match x_main s with MKillDone _ => x_killCalled s = true | _ => True end;
  a_stopt : (x_stopt s ≤ stsent (x_main s))%nat;
  a_low : match x_main s with MReport _ _ _ | MRet _ => x_touch s = TLoop → (1 ≤ x_stopt s)%nat | _ => True end;
  a_inst : x_installed s = match x_check s with CNone | CNew => false | _ => true end;
  a_touch : match x_main s with MSetup SPrepare | MSetup SCwd | MSetup SDir | MSetup STouch => x_touch s = TNone | MRet _ => True | _ => x_touch s ≠ TNone end;
}.
Lemma ctl_new : Ctl x_new.
Proof. by split. Qed.
Ltac fin m := try (destruct m as [[]| | | | | | | |]; cbn in *; naive_solver lia).
Lemma ctl_step cf s l s' : Ctl s → xstep cf s l = Some s' → Ctl s'.
Proof.
  intros HC H. destruct s as [m t c sm inst kd sc st pk rm rt rd sg kc rn er lg]. destruct HC as [A1 A2 A3 A4 A5 A6 A7 A10 A8 A9]. cbn in *.
  destruct l as [ok did|st0|up w|r did|r| | | |ns mm| |late|]; cbn in H.
  - destruct m as [k| | | | | | | |]; try done. destruct ok; [destruct k|destruct k, t]; try done; injection H as <-; split; cbn in *; subst; try done; try lia; try tauto.
    all: try (intros Hk; specialize (A5 Hk); naive_solver).
  - destruct m; try done. injection H as <-. split; cbn in *; try done.
  - destruct m; try done.
    + case_decide; [|done]. injection H as <-. split; cbn in *; try done; try lia. destruct A2; split_and!; try done. lia.
    + destruct c; try done. injection H as <-. split; cbn in *; try done; try lia; try (by subst). 
    + injection H as <-. destruct kc; split; cbn in *; subst; try done; try lia; try tauto.
    + destruct kd; try done. injection H as <-. split; cbn in *; try done; try lia; try tauto. destruct t; try done; lia.
    + case_decide; [|done]. injection H as <-. split; cbn in *; try done; try lia; try tauto.
  - destruct m as [| | | | | | |rep e pb|]; try done. destruct r; injection H as <-; try (destruct t); split; cbn in *; try done; try lia; try tauto.
  - destruct t; try done. destruct r; injection H as <-; split; cbn in *; try done; try lia; try tauto; try (intros Hk; specialize (A5 Hk); naive_solver); fin m.
  - destruct t, st; try done. injection H as <-. split; cbn in *; try done; try lia; try (intros Hk; specialize (A5 Hk); naive_solver).
    all: fin m.
  - destruct t; try done; try (case_decide; [|done]); try (destruct sm; [done|]); try (destruct inst); injection H as <-; (split; cbn in *; try done; try lia; try tauto).
    all: fin m.
  - destruct c; try done. injection H as <-. split; cbn in *; try done. destruct m; naive_solver.
  - destruct c; try done. destruct ns; [injection H as <-; split; cbn in *; try done; destruct m; naive_solver|]. destruct sm; [done|].
    destruct mm as [mm|]; [|injection H as <-; split; cbn in *; done].
    destruct (pk <? mm); [|injection H as <-; split; cbn in *; done]. destruct (e_ram cf <? mm); [|injection H as <-; split; cbn in *; done].
    destruct (kill_for_memory cf mm); injection H as <-; split; cbn in *; try done. destruct m; naive_solver.
  - destruct c, sc; try done. injection H as <-. split; cbn in *; try done; try lia. destruct m; naive_solver.
  - destruct c; try done.
    + assert (Some (Exec m t CLoop sm true kd sc st pk rm rt rd sg kc rn er lg) = Some s') as [= <-] by (destruct t; done || exact H).
      split; cbn in *; try done. destruct m; naive_solver.
    + destruct sm; [done|]. injection H as <-. split; cbn in *; try done. destruct m; naive_solver.
    + destruct sm; [done|]. injection H as <-. split; cbn in *; try done. destruct m; naive_solver.
  - destruct m; try done. injection H as <-. split; cbn in *; try done.
Qed.

Lemma ctl cf ls s : xrun cf x_new ls = Some s → Ctl s.
Proof. revert ls s. apply (xrun_ind cf (λ _ s, Ctl s)); [apply ctl_new|]. intros ls l s s' _ HC H. by eapply ctl_step. Qed.

(** ** Execute comes to an end *)
Lemma xstep_progress cf s : Ctl s → finishing s → ∃ l s', own l ∧ xstep cf s l = Some s'.
Proof.
  intros [A1 A2 A3 A4 A5 A6 A7 A10 A8 A9] Hf. unfold finishing in Hf. destruct (x_main s) as [| |st|st|st|st|st| |] eqn:Em; try done.
  - exists (XMain false 0). cbn. rewrite Em, decide_True; [by eexists|]. cbn in A1. destruct (x_touch s); cbn in A1; lia.
  - destruct A2 as (N1 & N2 & N3). destruct (x_check s) eqn:Ec; try done.
    + assert (Hx : x_touch s = TOld ∨ x_touch s = TNew ∨ x_touch s = TNew2 ∨ x_touch s = TNew3 ∨ x_touch s = TStopC ∨
        ∃ s', xstep cf s (XC false) = Some s').
      { cbn. rewrite Ec. destruct (x_touch s); try tauto; do 5 right; by eexists. }
      destruct Hx as [Ht|[Ht|[Ht|[Ht|[Ht|[s' Hs]]]]]]; [..|by exists (XC false), s']; exists XT; cbn; rewrite Ht in *; cbn in *.
      * rewrite decide_True by lia. by eexists.
      * rewrite A3. by eexists.
      * by eexists.
      * rewrite decide_True by lia. by eexists.
      * rewrite decide_True by lia. by eexists.
    + exists XStopCheck. cbn. rewrite Ec. specialize (N3 ltac:(tauto)). destruct (x_stopc s); [lia|]. by eexists.
    + exists (XC false). cbn. rewrite Ec, A3. by eexists.
    + exists (XC false). cbn. rewrite Ec, A3. by eexists.
    + exists (XMain false 0). cbn. rewrite Em, Ec. by eexists.
  - exists (XMain false 0). cbn. rewrite Em. by eexists.
  - specialize (A5 A6). destruct A5 as [Ht|[Ht|[Hk|[]]]].
    + exists XT. cbn. rewrite Ht. by eexists.
    + exists XT. cbn. rewrite Ht in *. cbn in A4. rewrite A4. rewrite decide_True by lia. by eexists.
    + exists (XMain false 0). cbn. rewrite Em, Hk. by eexists.
  - exists (XMain false 0). cbn. rewrite Em, decide_True; [by eexists|]. cbn in A7. lia.
Qed.
Definition w_main (m : mpc) : nat := match m with MStop _ => 5 | MFin _ => 4 | MLock _ => 3 | MKillDone _ => 2 | MEnd _ => 1 | _ => 0 end.
Definition w_touch (t : tpc) : nat := match t with TLoop => 7 | TKill => 6 | TOld | TNew => 5 | TNew2 => 4 | TNew3 => 3 | TStopC => 2 | _ => 0 end.
Definition w_check (c : cpc) : nat := match c with CNew => 4 | CLoop => 3 | CSig | CDisk => 2 | CDone => 1 | _ => 0 end.
Definition weight (s : exec) : nat := w_main (x_main s) + w_touch (x_touch s) + w_check (x_check s).
Lemma own_less cf s l s' : own l → xstep cf s l = Some s' → (weight s' < weight s)%nat.
Proof.
  intros Ho H. destruct s as [m t c sm inst kd sc st pk rm rt rd sg kc rn er lg]. unfold weight.
  destruct l as [ok did|st0|up w|r did|r| | | |ns mm| |late|]; cbn in *; try done.
  - destruct m; try done.
    + case_decide; [|done]. injection H as <-. cbn. lia.
    + destruct c; try done. injection H as <-. cbn. lia.
    + injection H as <-. destruct kc; cbn; lia.
    + destruct kd; [done|]. injection H as <-. cbn. lia.
    + case_decide; [|done]. injection H as <-. cbn. lia.
  - destruct t; try done; try (case_decide; [|done]); try (destruct sm; [done|]); try (destruct inst); injection H as <-; cbn; lia.
  - destruct c, sc; try done. injection H as <-. cbn. lia.
  - destruct c; try done; try (destruct sm; [done|]); try (destruct t; try done); injection H as <-; cbn; lia.
Qed.
Lemma own_bound cf s n s' : own_steps cf s n s' → (n + weight s' ≤ weight s)%nat.
Proof. induction 1 as [|s l s' n s'' Ho Hs H IH]; [lia|]. pose proof (own_less cf s l s' Ho Hs). lia. Qed.
(** When Execute has returned, the other goroutines come to their end. *)
Lemma returned_progress cf s e : Ctl s → x_main s = MRet e → (x_touch s = TNone ∨ x_touch s = TEnd) ∧ (x_check s = CNone ∨ x_check s = CEnd) ∨
  ∃ l s', (own l ∨ l = XStopTouch) ∧ xstep cf s l = Some s'.
Proof.
  intros [A1 A2 A3 A4 A5 A6 A7 A10 A8 A9] Em. rewrite Em in *. cbn in *. destruct (x_touch s) eqn:Et; cbn in *; try tauto.
  - right. exists XStopTouch. cbn. rewrite Et. specialize (A10 eq_refl). destruct (x_stopt s); [lia|]. eexists. split; [by right|done].
  - right. exists XT. cbn. rewrite Et. eexists. split; [by left|done].
  - right. exists XT. cbn. rewrite Et, decide_True by lia. eexists. split; [by left|done].
  - right. exists XT. cbn. rewrite Et, A3. eexists. split; [by left|done].
  - right. exists XT. cbn. rewrite Et. eexists. split; [by left|done].
  - right. exists XT. cbn. rewrite Et, decide_True by lia. eexists. split; [by left|done].
  - right. exists XT. cbn. rewrite Et, decide_True by lia. eexists. split; [by left|done].
Qed.

