(** Proof of C54: passes of the local scheduler that are asked for are made. *)
From Coq Require Import ZArith Lia.
From stdpp Require Import base option list.
From RecordUpdate Require Import RecordSet.
From Verif Require Import LocalModel LocalSpec.
Import RecordSetNotations.
Open Scope Z_scope.

Lemma local_run_app maxram maxcores a b s : local_run maxram maxcores (a ++ b) s = local_run maxram maxcores a s ≫= local_run maxram maxcores b.
Proof.
  revert s. induction a as [|e a IH]; intros s; cbn; [done|].
  destruct (local_step maxram maxcores e s); cbn; [apply IH|done].
Qed.
(** A pass that is going on ends if no pass is going on later. *)
Lemma pass_ends maxram maxcores es : ∀ s s', local_run maxram maxcores es s = Some s' →
  lphase_ s ≠ LIdle → lphase_ s' = LIdle → ∃ b c, es = b ++ LDone :: c ∧ LDone ∉ b.
Proof.
  induction es as [|e es IH]; intros s s' Hr Hn Hi; cbn in Hr.
  { by injection Hr as <-. }
  destruct (local_step maxram maxcores e s) as [s1|] eqn:E; cbn in Hr; [|done].
  assert (e = LDone ∨ e ≠ LDone ∧ lphase_ s1 ≠ LIdle) as [->|[Hd Hn1]].
  { destruct e; cbn in E; try (by left); right; (split; [done|]).
    - injection E as <-. unfold ask. destruct s as [cl st sd ph r ag]; cbn in *. by destruct ph.
    - destruct (lphase_ s) eqn:Hp; try done. repeat case_bool_decide; injection E as <-; rewrite ?Hp; done.
    - destruct (starting s !! i); cbn in E; [|done]. injection E as <-. destruct s as [cl st sd ph r ag]; cbn in *. by destruct ph as [| |[|]].
    - destruct (starting s !! i); cbn in E; [|done]. injection E as <-. destruct s as [cl st sd ph r ag]; cbn in *. by destruct ph as [| |[|]].
    - destruct (started s !! i); cbn in E; [|done]. injection E as <-. done.
    - destruct (lphase_ s) as [| |[|]]; try done. by injection E as <-.
    - destruct (lphase_ s) as [| |]; try done. by injection E as <-.
    - destruct (lagain s); [done|]. injection E as <-. unfold ask. destruct s as [cl st sd ph rc ag]; cbn in *. by destruct ph.
    - injection E as <-. done. }
  - exists [], es. split; [done|]. apply not_elem_of_nil.
  - destruct (IH _ _ Hr Hn1 Hi) as (b & c & -> & Hb). exists (e :: b), c. split; [done|].
    rewrite not_elem_of_cons. split; [by intros <-|done].
Qed.
(** A pass to come is made. *)
Definition coming (s : local) : Prop := (lphase_ s ≠ LIdle ∧ lrecall s = true) ∨ lagain s ≠ 0%nat.
Lemma coming_made maxram maxcores es : ∀ s s', local_run maxram maxcores es s = Some s' →
  coming s → no_pass s' → whole_pass maxram maxcores s es.
Proof.
  induction es as [|e es IH]; intros s s' Hr Hc [Hi Ha]; cbn in Hr.
  { injection Hr as <-. destruct Hc as [[? _]|?]; done. }
  destruct (local_step maxram maxcores e s) as [s1|] eqn:E; cbn in Hr; [|done].
  assert ((lphase_ s = LIdle ∧ lphase_ s1 ≠ LIdle ∧ (e = LAsk ∨ e = LAgain)) ∨ coming s1) as [(H1 & H2 & H3)|Hc1].
  { unfold coming in *. destruct s as [cl st sd ph rc ag]; cbn in *. destruct e; cbn in E.
    - injection E as <-. destruct ph; cbn; [left; auto|right; left; done..].
    - destruct ph as [| |n]; try done. right. repeat case_bool_decide; injection E as <-; cbn; (destruct Hc as [[_ ?]|?]; [by left|by right]).
    - destruct (st !! i); cbn in E; [|done]. injection E as <-. right. cbn. destruct ph as [| |[|]]; cbn; intuition done.
    - destruct (st !! i); cbn in E; [|done]. injection E as <-. right. cbn. destruct ph as [| |[|]]; cbn; intuition done.
    - destruct (sd !! i); cbn in E; [|done]. injection E as <-. right. done.
    - destruct ph as [| |[|]]; try done. injection E as <-. right. cbn. intuition done.
    - destruct ph as [| |]; try done. injection E as <-. right. cbn. intuition done.
    - destruct ph as [| |]; try done. injection E as <-. right. cbn. right. destruct rc; [done|]. destruct Hc as [[_ ?]|?]; done.
    - destruct ag as [|n]; [done|]. injection E as <-. unfold ask. cbn. destruct ph; cbn; [left; auto|right; left; done..].
    - injection E as <-. right. done. }
  - destruct (pass_ends _ _ _ _ _ Hr H2 Hi) as (b & c & -> & Hb). exists [], e, b, c, s. done.
  - destruct (IH _ _ Hr Hc1 (conj Hi Ha)) as (a & e' & b & c & s2 & -> & H1 & H2 & H3 & H4).
    exists (e :: a), e', b, c, s2. split; [done|]. split; [|done]. cbn. by rewrite E.
Qed.
Lemma asked_made maxram maxcores a b s : local_run maxram maxcores (a ++ LAsk :: b) local0 = Some s → no_pass s →
  ∃ s1, local_run maxram maxcores a local0 = Some s1 ∧ whole_pass maxram maxcores s1 (LAsk :: b).
Proof.
  intros Hr Hn. rewrite local_run_app in Hr. destruct (local_run maxram maxcores a local0) as [s1|]; cbn in Hr; [|done].
  exists s1. split; [done|]. assert (lphase_ s1 = LIdle ∨ lphase_ s1 ≠ LIdle) as [Hp|Hp] by (destruct (lphase_ s1); by (left + right)).
  - destruct Hn as [Hi _]. destruct (pass_ends _ _ _ _ _ Hr) as (b' & c & -> & Hb); [|done|].
    { unfold ask. rewrite Hp. done. }
    exists [], LAsk, b', c, s1. split; [done|]. split; [done|]. split; [done|]. split; [by left|done].
  - destruct (coming_made _ _ _ _ _ Hr) as (a' & e' & b' & c & s2 & -> & H1 & H2 & H3 & H4); [|done|].
    { left. unfold ask. destruct s1 as [cl st sd ph rc ag]; cbn in *. by destruct ph. }
    exists (LAsk :: a'), e', b', c, s2. done.
Qed.
