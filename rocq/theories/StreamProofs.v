(** Lemmas for C34 and C51. *)
From Coq Require Import ZArith Lia String Ascii.
From stdpp Require Import base option strings list pretty.
From RecordUpdate Require Import RecordSet.
From Verif Require Import StreamModel.
Import RecordSetNotations.

(** what the ring holds, oldest byte first *)
Definition ring (w : saver) : list ascii := drop (suffixOff w) (suffix w) ++ take (suffixOff w) (suffix w).

Lemma copy_ring s off p n s' : off < length s → copy_at s off p = (n, s') →
  n ≤ length p ∧ n ≤ length s - off ∧ (p ≠ [] → 0 < n) ∧ length s' = length s ∧
  let off' := if decide (off + n = length s) then 0 else off + n in
  drop off' s' ++ take off' s' = drop n (drop off s ++ take off s) ++ take n p ∧ off' < length s.
Proof.
  intros Ho. unfold copy_at. intros [= <- <-].
  set (n := if decide (length p < length s - off) then length p else length s - off).
  assert (Hn1 : n ≤ length p) by (unfold n; destruct (decide _); lia).
  assert (Hn2 : n ≤ length s - off) by (unfold n; destruct (decide _); lia).
  assert (Hl : length (take n p) = n) by (rewrite take_length; lia).
  assert (Hto : length (take off s) = off) by (rewrite take_length; lia).
  split; [done|]. split; [done|]. split.
  { intros Hp. unfold n. destruct p; [done|]. cbn [length]. destruct (decide _); lia. }
  split. { rewrite !app_length, Hl, Hto, drop_length. lia. }
  cbv zeta. destruct (decide (off + n = length s)) as [E|E].
  - rewrite drop_0, take_0, app_nil_r. split; [|lia].
    rewrite (drop_ge s (off + n)) by lia. rewrite app_nil_r.
    rewrite drop_app_ge by (rewrite drop_length; lia). rewrite drop_length.
    replace (n - (length s - off)) with 0 by lia. by rewrite drop_0.
  - split; [|lia]. assert (Hd : n ≤ length (drop off s)) by (rewrite drop_length; lia).
    rewrite (drop_app_le (drop off s)) by done. rewrite drop_drop.
    rewrite (assoc_L (++) (take off s)). rewrite (drop_app_alt (take off s ++ take n p)) by (rewrite app_length; lia).
    rewrite (take_app_alt (take off s ++ take n p)) by (rewrite app_length; lia). by rewrite (assoc_L (++)).
Qed.

Lemma spill_ring f p w : length (suffix w) = sN w → suffixOff w < sN w → length p < f →
  ∃ w', spill f p w = Some w' ∧ sN w' = sN w ∧ prefix w' = prefix w ∧ length (suffix w') = sN w ∧ suffixOff w' < sN w ∧
    skipped w' = skipped w + length p ∧ (length p ≤ sN w → ring w' = drop (length p) (ring w ++ p)).
Proof.
  revert p w. induction f as [|f IH]; intros p w Hs Ho Hf; [lia|]. destruct p as [|c p].
  { exists w. cbn. split_and!; try done. intros _. by rewrite app_nil_r. }
  cbn [spill]. destruct (copy_at (suffix w) (suffixOff w) (c :: p)) as [n s'] eqn:E.
  destruct (copy_ring (suffix w) (suffixOff w) (c :: p) n s') as (H1 & H2 & H3 & H4 & H5 & H6); [lia|done|].
  specialize (H3 ltac:(done)).
  match goal with |- context [spill f ?q ?v] => set (q' := q); set (v' := v) end.
  assert (HN : sN v' = sN w) by done.
  destruct (IH q' v') as (w' & Hw & I1 & I2 & I3 & I4 & I5 & I6).
  { unfold v'. cbn. congruence. }
  { unfold v'. cbn. rewrite Hs in H6. done. }
  { unfold q'. rewrite drop_length. cbn [length] in *. lia. }
  exists w'. split; [done|]. rewrite HN in *. split_and!; try done.
  - rewrite I5. unfold v', q'. cbn [skipped set]. cbn. rewrite drop_length. cbn [length] in *. lia.
  - intros Hp. rewrite I6 by (unfold q'; rewrite drop_length; lia).
    assert (Hr : ring v' = drop n (ring w) ++ take n (c :: p)).
    { unfold ring, v'. cbn. rewrite Hs in H5. exact H5. }
    rewrite Hr. unfold q'. rewrite drop_length. rewrite <- (assoc_L (++)). rewrite take_drop.
    assert (Hrl : length (ring w) = sN w) by (unfold ring; rewrite app_length, drop_length, take_length; lia).
    rewrite <- (drop_app_le (ring w) (c :: p) n) by lia. rewrite drop_drop. f_equal. lia.
Qed.

(** the state after writing [data] *)
Record holds_tail (n : nat) (data : list ascii) (w : saver) : Prop := HT {
  ht_n : sN w = n;
  ht_prefix : prefix w = take n data;
  ht_small : length data ≤ n + n → suffix w = drop n data ∧ suffixOff w = 0 ∧ skipped w = 0;
  ht_large : n + n < length data → length (suffix w) = n ∧ suffixOff w < n ∧ skipped w = length data - (n + n) ∧
    ring w = drop (length data - n) data;
}.
(** the last [n] bytes *)
Definition lastn (n : nat) (l : list ascii) : list ascii := drop (length l - n) l.
Lemma lastn_app n l k : lastn n (lastn n l ++ k) = lastn n (l ++ k).
Proof.
  unfold lastn. rewrite !app_length, drop_length. destruct (decide (length l ≤ n)) as [H|H].
  - replace (length l - n) with 0 by lia. rewrite drop_0. f_equal. lia.
  - destruct (decide (n ≤ length k)).
    + rewrite !drop_app_ge by (rewrite ?drop_length; lia). rewrite drop_length. f_equal. lia.
    + rewrite !drop_app_le by (rewrite ?drop_length; lia). rewrite drop_drop. f_equal. f_equal. lia.
Qed.
Lemma lastn_drop n m l : n + m ≤ length l → lastn n (drop m l) = lastn n l.
Proof. intros H. unfold lastn. rewrite drop_length, drop_drop. f_equal. lia. Qed.
Lemma lastn_over n l k o : o ≤ length k - n → lastn n (l ++ k) = lastn n (l ++ drop o k).
Proof.
  intros H. unfold lastn. destruct (decide (o = 0)) as [->|]; [by rewrite drop_0|].
  rewrite !app_length, drop_length. rewrite !drop_app_ge by (rewrite ?drop_length; lia).
  rewrite drop_drop. f_equal. lia.
Qed.
Lemma fill_spec n dst p : length dst ≤ n →
  fill n dst p = (take n (dst ++ p), drop (n - length dst) p).
Proof.
  intros H. unfold fill. destruct (decide (0 < n - length dst)) as [Hr|Hr].
  - rewrite take_app_ge by lia. destruct (decide (length p < n - length dst)).
    + rewrite !(take_ge p) by lia. rewrite !drop_ge by lia. done.
    + done.
  - replace (n - length dst) with 0 by lia. rewrite drop_0. by rewrite take_app_le, take_ge by lia.
Qed.
Lemma write_holds n data p w : 0 < n → holds_tail n data w → ∃ w', write p w = Some w' ∧ holds_tail n (data ++ p) w'.
Proof.
  intros Hn [HN Hpre Hsm Hlg]. unfold write. rewrite HN, Hpre.
  rewrite (fill_spec n (take n data) p) by (rewrite take_length; lia).
  assert (Hp1 : take n (take n data ++ p) = take n (data ++ p)).
  { destruct (decide (n ≤ length data)).
    - rewrite (take_app_le (take n data)) by (rewrite take_length; lia). rewrite take_take.
      rewrite take_app_le by lia. f_equal. lia.
    - by rewrite (take_ge data) by lia. }
  rewrite Hp1. rewrite take_length. set (p1 := drop (n - min n (length data)) p).
  (* the tail of the data is extended by p1 *)
  assert (Ht : drop n (data ++ p) = drop n data ++ p1).
  { unfold p1. destruct (decide (n ≤ length data)).
    - rewrite drop_app_le by lia. replace (n - n `min` length data) with 0 by lia. done.
    - rewrite drop_app_ge by lia. rewrite (drop_ge data) by lia. cbn. f_equal. lia. }
  assert (Hl1 : length p1 = length p - (n - min n (length data))) by (unfold p1; by rewrite drop_length).
  cbn [sN set]. cbv zeta.
  match goal with |- context [let '(_, _) := (if decide (0 < ?o) then (drop ?o p1, ?a) else (p1, ?b)) in _] =>
    set (over := o); set (wa := a); set (wb := b) end.
  set (p2 := drop over p1).
  assert (Hif : (if decide (0 < over) then (p2, wb <| skipped ::= Nat.add over |>) else (p1, wb)) = (p2, wb <| skipped ::= Nat.add over |>)).
  { destruct (decide (0 < over)); [done|]. replace p2 with p1 by (unfold p2; replace over with 0 by lia; done).
    f_equal. unfold wb. destruct w; cbn. replace over with 0 by lia. done. }
  rewrite Hif. clear Hif wa.
  assert (Hl2 : length p2 = length p1 - over) by (unfold p2; by rewrite drop_length).
  assert (Ho : over = length p1 - n) by (unfold over; cbn; by rewrite HN).
  clearbody over.
  change (sN (wb <| skipped ::= Nat.add over |>)) with (sN w). rewrite HN.
  change (suffix (wb <| skipped ::= Nat.add over |>)) with (suffix w).
  assert (Hsl : length (suffix w) ≤ n).
  { destruct (decide (length data ≤ n + n)) as [H|H]; [destruct (Hsm H) as (-> & _); rewrite drop_length; lia|].
    destruct (Hlg ltac:(lia)) as (-> & _). lia. }
  rewrite (fill_spec n (suffix w) p2) by done.
  set (p3 := drop (n - length (suffix w)) p2).
  set (w3 := (wb <| skipped ::= Nat.add over |>) <| suffix := take n (suffix w ++ p2) |>).
  assert (HN3 : sN w3 = n) by done.
  assert (Hl3 : length p3 = length p2 - (n - length (suffix w))) by (unfold p3; by rewrite drop_length).
  assert (Hdl : length (drop n data) = length data - n) by (by rewrite drop_length).
  destruct (decide (length (data ++ p) ≤ n + n)) as [Hall|Hall].
  { (* still small *)
    rewrite app_length in Hall. destruct (Hsm ltac:(lia)) as (Hs & Hoff & Hsk).
    assert (over = 0) as Ho0 by lia. assert (p2 = p1) as Hp2 by (unfold p2; by rewrite Ho0).
    assert (p3 = []) as ->. { apply nil_length_inv. rewrite Hl3, Hp2, Hs, Hdl, Hl1. lia. }
    cbn [length spill]. exists w3. split; [done|].
    assert (Hsx : suffix w ++ p2 = drop n (data ++ p)) by (by rewrite Ht, Hs, Hp2).
    split.
    - done.
    - done.
    - intros _. unfold w3. cbn. rewrite Hsx, Hoff, Hsk, Ho0. split; [|done]. rewrite take_ge; [done|].
      rewrite drop_length, app_length. lia.
    - rewrite app_length. lia. }
  rewrite app_length in Hall.
  assert (Hfull : length (take n (suffix w ++ p2)) = n).
  { rewrite take_length, app_length. destruct (decide (length data ≤ n + n)) as [H|H].
    - destruct (Hsm H) as (-> & _). rewrite Hdl, Hl2, Hl1. lia.
    - destruct (Hlg ltac:(lia)) as (-> & _). lia. }
  assert (Hoff3 : suffixOff w3 < n).
  { unfold w3. cbn. destruct (decide (length data ≤ n + n)) as [H|H]; [destruct (Hsm H) as (_ & -> & _); done|].
    by destruct (Hlg ltac:(lia)) as (_ & ? & _). }
  destruct (spill_ring (S (length p3)) p3 w3) as (w' & Hw & I1 & I2 & I3 & I4 & I5 & I6);
    [unfold w3 at 1; cbn [suffix set]; cbn; rewrite HN; exact Hfull|rewrite HN3; exact Hoff3|lia|].
  exists w'. split; [exact Hw|]. rewrite HN3 in *. split.
  - done.
  - rewrite I2. done.
  - rewrite app_length. lia.
  - intros _. split; [done|]. split; [done|].
    assert (Hp3n : length p3 ≤ n) by lia. specialize (I6 Hp3n).
    assert (Hring3 : ring w3 ++ p3 = (if decide (length data ≤ n + n) then drop n data else ring w) ++ p2 ∧
                     skipped w3 = skipped w + over).
    { split; [|unfold w3; cbn; lia]. unfold ring, w3. cbn. destruct (decide (length data ≤ n + n)) as [H|H].
      - destruct (Hsm H) as (Hs & -> & _). rewrite drop_0, take_0, app_nil_r, Hs. unfold p3. rewrite Hs.
        destruct (decide (length (drop n data) = n)) as [E|E].
        + rewrite take_app_le, take_ge by lia. rewrite E. by rewrite Nat.sub_diag.
        + rewrite take_app_ge by lia. rewrite <- (assoc_L (++)). by rewrite take_drop.
      - destruct (Hlg ltac:(lia)) as (Hs & Hoff & _). rewrite (take_app_le (suffix w) p2), (take_ge (suffix w)) by lia.
        unfold p3. rewrite Hs, Nat.sub_diag. by rewrite drop_0. }
    destruct Hring3 as [Hring3 Hsk3]. rewrite I5, I6, Hring3, Hsk3. rewrite app_length.
    assert (Hlast : drop (length data + length p - n) (data ++ p) = lastn n (drop n data ++ p1)).
    { rewrite <- Ht. rewrite lastn_drop by (rewrite app_length; lia). unfold lastn. by rewrite app_length. }
    rewrite Hlast. rewrite (lastn_over n (drop n data) p1 over) by (rewrite Ho; lia). fold p2.
    destruct (decide (length data ≤ n + n)) as [H|H].
    + destruct (Hsm H) as (Hs & _ & Hsk). rewrite Hsk. rewrite Hs in Hl3.
      split; [rewrite Hl3, Hl2, Hdl, Ho, Hl1; lia|].
      unfold lastn. f_equal. rewrite app_length, Hl3, Hdl, Hl2, Ho, Hl1. lia.
    + destruct (Hlg ltac:(lia)) as (Hs & _ & Hsk & Hr). rewrite Hsk. rewrite Hs in Hl3.
      split; [rewrite Hl3, Hl2, Ho, Hl1; lia|].
      assert (Hrl : ring w = lastn n (drop n data)).
      { rewrite Hr. rewrite lastn_drop by lia. done. }
      assert (Hrn : length (ring w) = n) by (rewrite Hr, drop_length; lia).
      rewrite <- (lastn_app n (drop n data) p2), <- Hrl. unfold lastn. f_equal. rewrite app_length, Hl3, Hrn. lia.
Qed.

(** *** C34 *)
Lemma writes_holds n ps data w : 0 < n → holds_tail n data w → ∃ w', writes ps w = Some w' ∧ holds_tail n (data ++ concat ps) w'.
Proof.
  intros Hn. revert data w. induction ps as [|p ps IH]; intros data w H; cbn [writes concat].
  { exists w. by rewrite app_nil_r. }
  destruct (write_holds n data p w Hn H) as (w1 & -> & H1). cbn. rewrite (assoc_L (++)). by apply IH.
Qed.
Lemma new_holds n : holds_tail n [] (saver_new n).
Proof. split; cbn; [done|by destruct n|by destruct n|lia]. Qed.
Lemma bytes_holds n data w : 0 < n → holds_tail n data w →
  bytes w = if decide (length data ≤ n + n) then data
            else take n data ++ note (length data - (n + n)) ++ drop (length data - n) data.
Proof.
  intros Hn [HN Hp Hsm Hlg]. unfold bytes. rewrite Hp. destruct (decide (length data ≤ n + n)) as [H|H].
  - destruct (Hsm H) as (Hs & Ho & Hk). rewrite Hk, Hs. transitivity (take n data ++ drop n data); [|apply take_drop].
    destruct (drop n data); [by rewrite app_nil_r|done].
  - destruct (Hlg ltac:(lia)) as (Hs & Ho & Hk & Hr). rewrite <- Hr, <- Hk. unfold ring.
    destruct (suffix w) as [|c s] eqn:E; [cbn in Hs; lia|].
    destruct (skipped w) as [|k] eqn:Ek; [lia|]. done.
Qed.

(** *** C51 *)
Lemma lines_concat s : concat (lines s) = s.
Proof.
  induction s as [|c s IH]; [done|]. cbn [lines]. destruct (decide (c = lf)) as [->|H].
  - cbn [concat]. by rewrite IH.
  - destruct (lines s) as [|l ls]; cbn in *; [by rewrite <- IH|by rewrite IH].
Qed.
Lemma split_nocr s : cr ∉ s → split_cr s = [s].
Proof.
  induction s as [|c s IH]; [done|]. intros H. apply not_elem_of_cons in H as [H1 H2]. cbn [split_cr].
  destruct (decide (c = cr)); [congruence|]. by rewrite (IH H2).
Qed.
Lemma lines_sub s l c : l ∈ lines s → c ∈ l → c ∈ s.
Proof.
  intros H1 H2. rewrite <- (lines_concat s). apply elem_of_list_In, in_concat. exists l. by rewrite <- !elem_of_list_In.
Qed.
Lemma filter_nocr p : cr ∉ p → filter_line p = [p].
Proof. intros H. unfold filter_line. by rewrite split_nocr. Qed.
Lemma std_filter_nocr s : cr ∉ s → std_filter s = lines s.
Proof.
  intros H. unfold std_filter. assert (HF : Forall (λ l, cr ∉ l) (lines s)).
  { apply Forall_forall. intros l Hl Hc. apply H. by apply (lines_sub s l). }
  induction HF as [|l ls Hl _ IH]; [done|].
  change (filter_line l ++ concat (filter_line <$> ls) = l :: ls). by rewrite (filter_nocr l Hl), IH.
Qed.
Lemma lines_line l s : lf ∉ l → lines (l ++ lf :: s) = (l ++ [lf]) :: lines s.
Proof.
  induction l as [|c l IH]; intros H; [done|]. apply not_elem_of_cons in H as [H1 H2].
  cbn [app lines]. destruct (decide (c = lf)); [congruence|]. by rewrite (IH H2).
Qed.
Lemma split_part l s : cr ∉ l → split_cr (l ++ cr :: s) = l :: split_cr s.
Proof.
  induction l as [|c l IH]; intros H; [done|]. apply not_elem_of_cons in H as [H1 H2].
  cbn [app split_cr]. destruct (decide (c = cr)); [congruence|]. by rewrite (IH H2).
Qed.
(** lines that each end in a carriage return *)
Definition bars (ps : list (list ascii)) : list ascii := concat ((λ p, p ++ [cr]) <$> ps).
Lemma split_bars ps rest : Forall (λ p, cr ∉ p) ps → cr ∉ rest → split_cr (bars ps ++ rest) = ps ++ [rest].
Proof.
  intros HF Hr. induction HF as [|p ps Hp _ IH]; [by apply split_nocr|].
  unfold bars in *. cbn [fmap list_fmap concat]. rewrite <- !(assoc_L (++)). cbn [app].
  by rewrite split_part, IH.
Qed.
Lemma filter_bars p0 ps pk rest : Forall (λ p, cr ∉ p) (p0 :: ps ++ [pk]) → cr ∉ rest →
  filter_line (bars (p0 :: ps ++ [pk]) ++ rest) =
  p0 :: [lf] :: (if decide (ps = []) then [] else [ellipses]) ++ [pk; [lf]].
Proof.
  intros HF Hr. unfold filter_line. rewrite split_bars by done. cbn [app hd].
  assert (Hlen : length (p0 :: (ps ++ [pk]) ++ [rest]) = 3 + length ps) by (cbn; rewrite !app_length; cbn; lia).
  rewrite Hlen. rewrite decide_True by lia. f_equal. f_equal. f_equal.
  { destruct ps; [by rewrite decide_False by (cbn; lia)|]. rewrite decide_True by (cbn; lia). done. }
  f_equal. replace (3 + length ps - 2) with (S (length ps)) by lia. cbn [nth].
  rewrite <- (assoc_L (++)). rewrite app_nth2 by lia. by rewrite Nat.sub_diag.
Qed.
Lemma filter_bar p rest : cr ∉ p → cr ∉ rest → filter_line (p ++ cr :: rest) = [p].
Proof.
  intros Hp Hr. unfold filter_line. rewrite split_part by done. by rewrite split_nocr.
Qed.
Lemma std_filter_line l s : lf ∉ l → std_filter (l ++ lf :: s) = filter_line (l ++ [lf]) ++ std_filter s.
Proof. intros H. unfold std_filter. by rewrite lines_line. Qed.
