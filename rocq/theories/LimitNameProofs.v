(** Proofs about limit group names. *)
From Coq Require Import ZArith Lia String Ascii.
From stdpp Require Import base option strings list.
From Verif Require Import LimiterModel LimiterSpec LimitNameModel LimitNameSpec.
Open Scope Z_scope.
Open Scope string_scope.

#[local] Arguments String.append : simpl nomatch.
#[local] Arguments dig : simpl never.
#[local] Arguments digit_of : simpl never.
#[local] Arguments Z.mul : simpl never.
#[local] Arguments Z.div : simpl never.
#[local] Arguments Z.modulo : simpl never.

Lemma app_assoc_s (a b c : string) : (a ++ b) ++ c = a ++ (b ++ c).
Proof. induction a as [|x a IH]; simpl; [done|]. by rewrite IH. Qed.
Lemma app_nil_s (a : string) : a ++ "" = a.
Proof. induction a as [|x a IH]; simpl; [done|]. by rewrite IH. Qed.

Lemma digit_dig n : 0 ≤ n < 10 → digit_of (dig n) = Some n.
Proof.
  intros H. assert (n = 0 ∨ n = 1 ∨ n = 2 ∨ n = 3 ∨ n = 4 ∨ n = 5 ∨ n = 6 ∨ n = 7 ∨ n = 8 ∨ n = 9) as Hn by lia.
  by repeat (destruct Hn as [->|Hn]; [by vm_compute|]); subst n; vm_compute.
Qed.
Lemma digit_Some a n : digit_of a = Some n → 0 ≤ n < 10 ∧ a = dig n.
Proof.
  unfold digit_of, dig. assert (ascii_of_nat (nat_of_ascii a) = a) as Ha by apply ascii_nat_embedding.
  revert Ha. generalize (nat_of_ascii a) as k. intros k <-.
  destruct (Z.leb_spec 48 (Z.of_nat k)); [|done]. destruct (Z.leb_spec (Z.of_nat k) 57); [|done].
  simpl. intros [= <-]. split; [lia|]. f_equal. lia.
Qed.
Lemma digit_not a n : digit_of a = Some n → a ≠ ":"%char ∧ a ≠ "-"%char ∧ a ≠ "+"%char ∧ a ≠ " "%char ∧ a ≠ "t"%char ∧ a ≠ "d"%char.
Proof. intros H. split_and!; intros ->; by vm_compute in H. Qed.
Lemma dig_not n : 0 ≤ n < 10 → dig n ≠ ":"%char ∧ dig n ≠ "-"%char ∧ dig n ≠ "+"%char ∧ dig n ≠ " "%char ∧ dig n ≠ "t"%char ∧ dig n ≠ "d"%char.
Proof. intros H. eapply digit_not. by apply digit_dig. Qed.
Lemma eqb_no a b : a ≠ b → Ascii.eqb a b = false.
Proof. apply Ascii.eqb_neq. Qed.

Lemma two_two n r : 0 ≤ n < 100 → two_ (two n ++ r) = Some (n, r).
Proof.
  intros H. unfold two. change (two_ (String (dig (n / 10)) (String (dig (n mod 10)) r)) = Some (n, r)). unfold two_.
  assert (0 ≤ n / 10 < 10) by (split; [apply Z.div_pos; lia|apply Z.div_lt_upper_bound; lia]).
  pose proof (Z.mod_pos_bound n 10). pose proof (Z.div_mod n 10).
  rewrite !digit_dig by lia. cbn [mbind option_bind]. do 2 f_equal. lia.
Qed.
Lemma two_Some s n r : two_ s = Some (n, r) → 0 ≤ n < 100 ∧ s = two n ++ r.
Proof.
  destruct s as [|a [|b s]]; simpl; [done|done|]. destruct (digit_of a) as [x|] eqn:Ha; [|done].
  simpl. destruct (digit_of b) as [y|] eqn:Hb; [|done]. simpl. intros [= <- <-].
  apply digit_Some in Ha as [Hx ->]. apply digit_Some in Hb as [Hy ->]. split; [lia|].
  unfold two. replace (10 * x + y) with (y + x * 10) by lia. rewrite Z.div_add by lia. rewrite Z.mod_add by lia.
  rewrite Z.div_small, Z.mod_small by lia. done.
Qed.
Lemma lit_app w r : lit w (w ++ r) = Some r.
Proof. induction w as [|a w IH]; simpl; [done|]. by rewrite Ascii.eqb_refl. Qed.
Lemma lit_Some w s r : lit w s = Some r → s = w ++ r.
Proof.
  revert s. induction w as [|a w IH]; intros s; simpl; [by intros [= ->]|]. destruct s as [|b s]; [done|].
  destruct (Ascii.eqb_spec a b) as [->|]; [|done]. intros H. by rewrite (IH s H).
Qed.
Definition unspaced (s : string) : Prop := match s with String a _ => a ≠ " "%char | "" => True end.
Lemma spaces_app k r : unspaced r → spaces_ (spaces k ++ r) = r.
Proof.
  intros H. induction k as [|k IH]; simpl; [|done]. destruct r as [|a r]; simpl; [done|]. by rewrite eqb_no.
Qed.
Lemma spaces_Some s : ∃ k, s = spaces k ++ spaces_ s.
Proof.
  induction s as [|a s [k IH]]; simpl; [by exists 0%nat|]. destruct (Ascii.eqb_spec a " ") as [->|]; [|by exists 0%nat].
  exists (S k). simpl. by f_equal.
Qed.
Lemma less_app a b r : unspaced r → less_ (less a b ++ r) = Some r.
Proof.
  intros H. unfold less_, less. rewrite app_assoc_s. rewrite spaces_app by done. rewrite app_assoc_s, lit_app.
  simpl. by rewrite spaces_app.
Qed.
Lemma less_Some s r : less_ s = Some r → ∃ a b, s = less a b ++ r.
Proof.
  unfold less_. intros (s' & H1 & [= <-])%bind_Some. apply lit_Some in H1.
  destruct (spaces_Some s) as [a Ha]. destruct (spaces_Some s') as [b Hb]. exists a, b. unfold less.
  rewrite !app_assoc_s. rewrite <- Hb, <- H1. done.
Qed.

Lemma hms_app t r : 0 ≤ hour t < 100 → 0 ≤ minute t < 100 → 0 ≤ second t < 100 →
  hms_ (tod_str t ++ r) = Some ((hour t, minute t, second t), r).
Proof.
  intros H1 H2 H3. unfold hms_, tod_str. rewrite !app_assoc_s, two_two by done. cbn [mbind option_bind].
  rewrite lit_app. cbn [mbind option_bind]. rewrite two_two by done. cbn [mbind option_bind].
  rewrite lit_app. cbn [mbind option_bind]. by rewrite two_two.
Qed.
Lemma hms_Some s h m x r : hms_ s = Some ((h, m, x), r) →
  0 ≤ h < 100 ∧ 0 ≤ m < 100 ∧ 0 ≤ x < 100 ∧ s = tod_str (Tod h m x) ++ r.
Proof.
  unfold hms_. intros H. apply bind_Some in H as ([h' s1] & H1 & H). apply bind_Some in H as (s2 & H2 & H).
  apply bind_Some in H as ([m' s3] & H3 & H). apply bind_Some in H as (s4 & H4 & H).
  apply bind_Some in H as ([x' s5] & H5 & H). simplify_eq.
  apply two_Some in H1 as [? ->]. apply lit_Some in H2 as ->. apply two_Some in H3 as [? ->]. apply lit_Some in H4 as ->.
  apply two_Some in H5 as [? ->]. unfold tod_str. rewrite !app_assoc_s. done.
Qed.
Lemma secs_Some t v : 0 ≤ hour t → 0 ≤ minute t → 0 ≤ second t →
  time_to_secs (hour t, minute t, second t) = Some v ↔ tod_ok t ∧ v = tod_secs t.
Proof.
  intros. unfold time_to_secs, tod_ok, tod_secs.
  destruct (Z.ltb_spec (hour t) 24), (Z.ltb_spec (minute t) 60), (Z.ltb_spec (second t) 60); simpl;
    split; try (intros [=]); try lia; try (intros [? ->]; done); naive_solver lia.
Qed.

Lemma secs_tod t : tod_ok t → time_to_secs (hour t, minute t, second t) = Some (tod_secs t).
Proof. intros H. apply secs_Some; unfold tod_ok in *; lia. Qed.

Definition dt_ok100 (d : date) (t : tod) : Prop :=
  0 ≤ year d < 10000 ∧ 0 ≤ month d < 100 ∧ 0 ≤ day d < 100 ∧ 0 ≤ hour t < 100 ∧ 0 ≤ minute t < 100 ∧ 0 ≤ second t < 100.
Lemma datetime_app d t r : dt_ok100 d t → datetime_ (date_str d t ++ r) = Some (tuple d t, r).
Proof.
  intros (H1 & H2 & H3 & H4 & H5 & H6). unfold datetime_, date_str, tuple.
  assert (0 ≤ year d / 100 < 100) by (split; [apply Z.div_pos; lia|apply Z.div_lt_upper_bound; lia]).
  pose proof (Z.mod_pos_bound (year d) 100). pose proof (Z.div_mod (year d) 100).
  rewrite !app_assoc_s. repeat (first [rewrite two_two by lia|rewrite lit_app|rewrite hms_app by done]; cbn [mbind option_bind]).
  do 5 f_equal. lia.
Qed.
Lemma datetime_Some s x r : datetime_ s = Some (x, r) → ∃ d t, x = tuple d t ∧ dt_ok100 d t ∧ s = date_str d t ++ r.
Proof.
  unfold datetime_. intros H. apply bind_Some in H as ([c s1] & H1 & H). apply bind_Some in H as ([y s2] & H2 & H).
  apply bind_Some in H as (s3 & H3 & H). apply bind_Some in H as ([mo s4] & H4 & H). apply bind_Some in H as (s5 & H5 & H).
  apply bind_Some in H as ([d s6] & H6 & H). apply bind_Some in H as (s7 & H7 & H). apply bind_Some in H as ([[[h m] z] s8] & H8 & H).
  simplify_eq. exists (Date (100 * c + y) mo d), (Tod h m z). 
  apply two_Some in H1 as [? ->]. apply two_Some in H2 as [? ->]. apply lit_Some in H3 as ->. apply two_Some in H4 as [? ->].
  apply lit_Some in H5 as ->. apply two_Some in H6 as [? ->]. apply lit_Some in H7 as ->. apply hms_Some in H8 as (? & ? & ? & ->).
  split; [done|]. split; [unfold dt_ok100; simpl; lia|]. unfold date_str. cbn [year month day]. rewrite !app_assoc_s.
  replace (100 * c + y) with (y + c * 100) by lia. rewrite Z.div_add, Z.mod_add by lia. rewrite Z.div_small, Z.mod_small by lia. done.
Qed.
Lemma days_in_month y m n : month_days y m n ↔ 1 ≤ m ≤ 12 ∧ n = days_in y m.
Proof.
  unfold month_days, days_in, leap. split.
  - intros [[H ->]|[[H ->]|[(-> & H & ->)|(-> & H & ->)]]].
    + by repeat (apply elem_of_cons in H as [->|H]; [done|]); apply elem_of_nil in H.
    + by repeat (apply elem_of_cons in H as [->|H]; [done|]); apply elem_of_nil in H.
    + split; [lia|]. simpl. destruct H as [H1 H2]. rewrite (proj2 (Z.eqb_eq _ _) H1). simpl.
      destruct H2 as [H2|H2]; [rewrite (proj2 (Z.eqb_neq _ _) H2)|rewrite (proj2 (Z.eqb_eq _ _) H2)]; simpl; [done|by rewrite orb_true_r].
    + split; [lia|]. simpl. destruct (Z.eqb_spec (y mod 4) 0); simpl; [|done].
      destruct (Z.eqb_spec (y mod 100) 0), (Z.eqb_spec (y mod 400) 0); simpl; try done; exfalso; apply H; auto.
  - intros [H ->].
    assert (m = 1 ∨ m = 2 ∨ m = 3 ∨ m = 4 ∨ m = 5 ∨ m = 6 ∨ m = 7 ∨ m = 8 ∨ m = 9 ∨ m = 10 ∨ m = 11 ∨ m = 12) as Hm by lia.
    destruct (decide (m = 2)) as [->|Hne].
    { right. right. simpl. destruct (Z.eqb_spec (y mod 4) 0); simpl; [|right; split_and!; auto; by intros [? _]].
      destruct (Z.eqb_spec (y mod 100) 0), (Z.eqb_spec (y mod 400) 0); simpl; naive_solver. }
    clear H. repeat (destruct Hm as [->|Hm]; [try done; simpl; first [left; split; [apply elem_of_list_In; simpl; tauto|done]|right; left; split; [apply elem_of_list_In; simpl; tauto|done]]|]).
    subst m. simpl. left. split; [apply elem_of_list_In; simpl; tauto|done].
Qed.
Lemma unix_Some local d t v : dt_ok100 d t → datetime_to_unix local (tuple d t) = Some v ↔ date_ok d ∧ tod_ok t ∧ v = local (tuple d t).
Proof.
  intros (H1 & H2 & H3 & H4 & H5 & H6). unfold date_ok. setoid_rewrite days_in_month. unfold datetime_to_unix, tuple at 1.
  destruct (Z.leb_spec 1 (month d)); simpl; [|split; [done|]; intros [[_ (? & [? _] & _)] _]; lia].
  destruct (Z.leb_spec (month d) 12); simpl; [|split; [done|]; intros [[_ (? & [? _] & _)] _]; lia].
  destruct (Z.leb_spec 1 (day d)); simpl; [|split; [done|]; intros [[_ (? & [? ->] & ?)] _]; lia].
  destruct (Z.leb_spec (day d) (days_in (year d) (month d))); simpl; [|split; [done|]; intros [[_ (? & [? ->] & ?)] _]; lia].
  rewrite bind_Some. setoid_rewrite secs_Some; [|lia|lia|lia]. split.
  - intros (x & [Ht _] & [= <-]). split_and!; try done; try lia. eexists. split_and!; [..|done|]; done.
  - intros (_ & Ht & ->). by exists (tod_secs t).
Qed.

Lemma unspaced_tod t r : tod_ok t → unspaced (tod_str t ++ r).
Proof.
  intros [H _]. unfold tod_str, two. simpl.
  assert (0 ≤ hour t / 10 < 10) by (split; [apply Z.div_pos; lia|apply Z.div_lt_upper_bound; lia]). by apply dig_not.
Qed.
Lemma unspaced_date d t r : date_ok d → unspaced (date_str d t ++ r).
Proof.
  intros [H _]. unfold date_str, two. simpl.
  assert (0 ≤ year d / 100 / 10 < 10) by (rewrite Z.div_div by lia; split; [apply Z.div_pos; lia|apply Z.div_lt_upper_bound; lia]).
  by apply dig_not.
Qed.
Lemma end_Some {A} (x : A) s y : end_ x s = Some y ↔ s = "" ∧ y = x.
Proof. destruct s; simpl; naive_solver. Qed.
Lemma tod_100 t : tod_ok t → 0 ≤ hour t < 100 ∧ 0 ≤ minute t < 100 ∧ 0 ≤ second t < 100.
Proof. unfold tod_ok. lia. Qed.
Lemma dt_100 d t : date_ok d → tod_ok t → dt_ok100 d t.
Proof.
  intros [H1 (n & H2%days_in_month & H3)] Ht%tod_100. unfold dt_ok100. destruct H2 as [Hm ->]. unfold days_in in H3. split_and!; try lia.
  repeat case_match; lia.
Qed.

Lemma unix_dt local d t : date_ok d → tod_ok t → datetime_to_unix local (tuple d t) = Some (local (tuple d t)).
Proof. intros Hd Ht. apply unix_Some; [by apply dt_100|]. split_and!; done. Qed.

Ltac scan := repeat first
  [ rewrite lit_app; cbn [mbind option_bind]
  | rewrite less_app by (match goal with |- unspaced (tod_str _ ++ _) => apply unspaced_tod; assumption | |- unspaced (date_str _ _ ++ _) => apply unspaced_date; assumption | |- _ => by vm_compute end); cbn [mbind option_bind]
  | rewrite hms_app by (by apply tod_100); cbn [mbind option_bind]
  | rewrite datetime_app by (by apply dt_100); cbn [mbind option_bind] ].

Lemma before_time_iff s d : before_time_parse s = Some d ↔
  ∃ a b t, tod_ok t ∧ s = "time" ++ less a b ++ tod_str t ∧ d = GData MBeforeTime (tod_secs t) 0.
Proof.
  unfold before_time_parse. split.
  - intros H. apply bind_Some in H as (s1 & H1 & H). apply bind_Some in H as (s2 & H2 & H). apply bind_Some in H as ([[[h m] x] s3] & H3 & H).
    apply bind_Some in H as (t' & H4 & H). apply bind_Some in H as (v & H5 & H). simplify_eq.
    apply lit_Some in H1 as ->. apply less_Some in H2 as (a & b & ->). apply hms_Some in H3 as (? & ? & ? & ->). apply end_Some in H4 as [-> ->].
    apply (secs_Some (Tod h m x)) in H5 as [Ht ->]; simpl; try lia. exists a, b, (Tod h m x). by split_and!; rewrite ?app_nil_s.
  - intros (a & b & t & Ht & -> & ->). rewrite lit_app. cbn [mbind option_bind].
    rewrite <- (app_nil_s (tod_str t)). scan. cbn [end_ mbind option_bind]. by rewrite secs_tod.
Qed.
Lemma after_time_iff s d : after_time_parse s = Some d ↔
  ∃ a b t, tod_ok t ∧ s = tod_str t ++ less a b ++ "time" ∧ d = GData MAfterTime 0 (tod_secs t).
Proof.
  unfold after_time_parse. split.
  - intros H. apply bind_Some in H as ([[[h m] x] s1] & H1 & H). apply bind_Some in H as (s2 & H2 & H). apply bind_Some in H as (s3 & H3 & H).
    apply bind_Some in H as (t' & H4 & H). apply bind_Some in H as (v & H5 & H). simplify_eq.
    apply hms_Some in H1 as (? & ? & ? & ->). apply less_Some in H2 as (a & b & ->). apply lit_Some in H3 as ->. apply end_Some in H4 as [-> ->].
    apply (secs_Some (Tod h m x)) in H5 as [Ht ->]; simpl; try lia. exists a, b, (Tod h m x). by split_and!.
  - intros (a & b & t & Ht & -> & ->). change "time" with ("time" ++ "") at 2. scan. cbn [end_ mbind option_bind]. by rewrite secs_tod.
Qed.
Lemma between_times_iff s d : between_times_parse s = Some d ↔
  ∃ a b c e t u, tod_ok t ∧ tod_ok u ∧ s = tod_str t ++ less a b ++ "time" ++ less c e ++ tod_str u ∧
    d = GData MBetweenTimes (tod_secs u) (tod_secs t).
Proof.
  unfold between_times_parse. split.
  - intros H. apply bind_Some in H as ([[[h m] x] s1] & H1 & H). apply bind_Some in H as (s2 & H2 & H). apply bind_Some in H as (s3 & H3 & H).
    apply bind_Some in H as (s4 & H4 & H). apply bind_Some in H as ([[[h' m'] x'] s5] & H5 & H). apply bind_Some in H as (t' & H6 & H).
    apply bind_Some in H as (v & H7 & H). apply bind_Some in H as (w & H8 & H). simplify_eq.
    apply hms_Some in H1 as (? & ? & ? & ->). apply less_Some in H2 as (a & b & ->). apply lit_Some in H3 as ->.
    apply less_Some in H4 as (c & e & ->). apply hms_Some in H5 as (? & ? & ? & ->). apply end_Some in H6 as [-> ->].
    apply (secs_Some (Tod h m x)) in H7 as [Ht ->]; simpl; try lia. apply (secs_Some (Tod h' m' x')) in H8 as [Hu ->]; simpl; try lia.
    exists a, b, c, e, (Tod h m x), (Tod h' m' x'). by split_and!; rewrite ?app_nil_s.
  - intros (a & b & c & e & t & u & Ht & Hu & -> & ->). rewrite <- (app_nil_s (tod_str u)). scan. cbn [end_ mbind option_bind].
    rewrite secs_tod by done. cbn [mbind option_bind]. by rewrite secs_tod.
Qed.
Lemma before_datetime_iff local s d : before_datetime_parse local s = Some d ↔
  ∃ a b x t, date_ok x ∧ tod_ok t ∧ s = "datetime" ++ less a b ++ date_str x t ∧ d = GData MBeforeDateTime (local (tuple x t)) 0.
Proof.
  unfold before_datetime_parse. split.
  - intros H. apply bind_Some in H as (s1 & H1 & H). apply bind_Some in H as (s2 & H2 & H). apply bind_Some in H as ([x' s3] & H3 & H).
    apply bind_Some in H as (t' & H4 & H). apply bind_Some in H as (v & H5 & H). simplify_eq.
    apply lit_Some in H1 as ->. apply less_Some in H2 as (a & b & ->). apply datetime_Some in H3 as (x & t & -> & H100 & ->). apply end_Some in H4 as [-> ->].
    apply unix_Some in H5 as (Hx & Ht & ->); [|done]. exists a, b, x, t. by split_and!; rewrite ?app_nil_s.
  - intros (a & b & x & t & Hx & Ht & -> & ->). rewrite lit_app. cbn [mbind option_bind].
    rewrite <- (app_nil_s (date_str x t)). scan. cbn [end_ mbind option_bind]. rewrite unix_dt by done. done.
Qed.
Lemma after_datetime_iff local s d : after_datetime_parse local s = Some d ↔
  ∃ a b x t, date_ok x ∧ tod_ok t ∧ s = date_str x t ++ less a b ++ "datetime" ∧ d = GData MAfterDateTime 0 (local (tuple x t)).
Proof.
  unfold after_datetime_parse. split.
  - intros H. apply bind_Some in H as ([x' s1] & H1 & H). apply bind_Some in H as (s2 & H2 & H). apply bind_Some in H as (s3 & H3 & H).
    apply bind_Some in H as (t' & H4 & H). apply bind_Some in H as (v & H5 & H). simplify_eq.
    apply datetime_Some in H1 as (x & t & -> & H100 & ->). apply less_Some in H2 as (a & b & ->). apply lit_Some in H3 as ->. apply end_Some in H4 as [-> ->].
    apply unix_Some in H5 as (Hx & Ht & ->); [|done]. exists a, b, x, t. by split_and!.
  - intros (a & b & x & t & Hx & Ht & -> & ->). change "datetime" with ("datetime" ++ "") at 2. scan. cbn [end_ mbind option_bind].
    rewrite unix_dt by done. done.
Qed.
Lemma between_datetimes_iff local s d : between_datetimes_parse local s = Some d ↔
  ∃ a b c e x t x' t', date_ok x ∧ tod_ok t ∧ date_ok x' ∧ tod_ok t' ∧
    s = date_str x t ++ less a b ++ "datetime" ++ less c e ++ date_str x' t' ∧
    d = GData MBetweenDateTimes (local (tuple x' t')) (local (tuple x t)).
Proof.
  unfold between_datetimes_parse. split.
  - intros H. apply bind_Some in H as ([p s1] & H1 & H). apply bind_Some in H as (s2 & H2 & H). apply bind_Some in H as (s3 & H3 & H).
    apply bind_Some in H as (s4 & H4 & H). apply bind_Some in H as ([p' s5] & H5 & H). apply bind_Some in H as (q & H6 & H).
    apply bind_Some in H as (v & H7 & H). apply bind_Some in H as (w & H8 & H). simplify_eq.
    apply datetime_Some in H1 as (x & t & -> & H100 & ->). apply less_Some in H2 as (a & b & ->). apply lit_Some in H3 as ->.
    apply less_Some in H4 as (c & e & ->). apply datetime_Some in H5 as (x' & t' & -> & H100' & ->). apply end_Some in H6 as [-> ->].
    apply unix_Some in H7 as (Hx & Ht & ->); [|done]. apply unix_Some in H8 as (Hx' & Ht' & ->); [|done].
    exists a, b, c, e, x, t, x', t'. by split_and!; rewrite ?app_nil_s.
  - intros (a & b & c & e & x & t & x' & t' & Hx & Ht & Hx' & Ht' & -> & ->). rewrite <- (app_nil_s (date_str x' t')). scan. cbn [end_ mbind option_bind].
    rewrite unix_dt by done. cbn [mbind option_bind].
    rewrite unix_dt by done. done.
Qed.

(** *** Counts *)
Lemma split_Some s p q : split_colon s = Some (p, q) ↔ colon_free p ∧ s = p ++ ":" ++ q.
Proof.
  revert p. induction s as [|a s IH]; intros p; simpl.
  - split; [done|]. intros [_ H]. by destruct p.
  - destruct (Ascii.eqb_spec a ":") as [->|Hne].
    + split; [by intros [= <- <-]|]. intros [H1 H2]. destruct p as [|b p]; simpl in *; [by simplify_eq|]. destruct H1. congruence.
    + rewrite bind_Some. split.
      * intros ([p' q'] & H1 & [= <- <-]). apply IH in H1 as [H1 ->]. simpl. done.
      * intros [H1 H2]. destruct p as [|b p]; simpl in *; [congruence|]. injection H2 as -> H2. exists (p, q). split; [|done]. apply IH. naive_solver.
Qed.
Lemma digits_snoc acc s a : digits_ acc (s ++ String a "") = (v ← digits_ acc s; x ← digit_of a; Some (10 * v + x)).
Proof.
  revert acc. induction s as [|b s IH]; intros acc; simpl; [done|]. destruct (digit_of b); simpl; [apply IH|done].
Qed.
Lemma digits_numeral s v : s ≠ "" → digits_ 0 s = Some v → numeral s v.
Proof.
  assert (∀ s acc pre v, numeral pre acc → digits_ acc s = Some v → numeral (pre ++ s) v) as H.
  { clear. induction s as [|a s IH]; intros acc pre v Hp; simpl.
    - intros [= <-]. by rewrite app_nil_s.
    - destruct (digit_of a) as [x|] eqn:E; [|done]. simpl. apply digit_Some in E as [Hx ->]. intros Hd.
      replace (pre ++ String (dig x) s) with ((pre ++ String (dig x) "") ++ s) by (by rewrite app_assoc_s).
      eapply IH; [|done]. by constructor. }
  destruct s as [|a s]; [done|]. intros _. simpl. destruct (digit_of a) as [x|] eqn:E; [|done]. cbn [mbind option_bind]. apply digit_Some in E as [Hx ->]. intros Hd.
  change (String (dig x) s) with (String (dig x) "" ++ s). eapply H; [|done]. replace (10 * 0 + x) with x by lia. by constructor.
Qed.
Lemma numeral_digits s v : numeral s v → s ≠ "" ∧ digits_ 0 s = Some v.
Proof.
  induction 1 as [n Hn|s v n Hs [IH1 IH2] Hn].
  - split; [done|]. cbn [digits_]. rewrite digit_dig by assumption. cbn [mbind option_bind]. done.
  - split; [by destruct s|]. rewrite digits_snoc, IH2. cbn [mbind option_bind]. rewrite digit_dig by assumption. reflexivity.
Qed.
Lemma parse_int_iff s v : parse_int s = Some v ↔ integer s v ∧ - 2 ^ 63 ≤ v < 2 ^ 63.
Proof.
  unfold parse_int, integer. split.
  - intros H.
    assert (∀ ds (neg : bool), match ds with "" => None | _ => n ← digits_ 0 ds; let n := if neg then - n else n in
      if (- 2 ^ 63 <=? n)%Z && (n <? 2 ^ 63)%Z then Some n else None end = Some v →
      ∃ n, numeral ds n ∧ v = (if neg then - n else n) ∧ - 2 ^ 63 ≤ v < 2 ^ 63) as HH.
    { clear. intros ds neg H. assert (ds ≠ "") as Hne by (by destruct ds).
      assert ((n ← digits_ 0 ds; let n := if neg then - n else n in
        if (- 2 ^ 63 <=? n)%Z && (n <? 2 ^ 63)%Z then Some n else None) = Some v) as H' by (by destruct ds).
      apply bind_Some in H' as (n & Hn & H'). cbv zeta in H'. exists n. split; [by apply digits_numeral|].
      destruct (Z.leb_spec (- 2 ^ 63) (if neg then - n else n)); [|done].
      destruct (Z.ltb_spec (if neg then - n else n) (2 ^ 63)); [|done]. cbn [andb] in H'. by simplify_eq. }
    destruct s as [|a s]; [done|]. destruct (Ascii.eqb_spec a "-") as [->|Hm]; [|destruct (Ascii.eqb_spec a "+") as [->|Hp]].
    + apply (HH s true) in H as (n & Hn & -> & Hr). split; [|done]. exists s, n. auto.
    + apply (HH s false) in H as (n & Hn & -> & Hr). split; [|done]. exists s, n. auto.
    + apply (HH (String a s) false) in H as (n & Hn & -> & Hr). split; [|done]. exists (String a s), n. auto.
  - intros [(ds & n & Hn & Hs) Hr]. apply numeral_digits in Hn as [Hne Hd].
    assert (∀ neg : bool, v = (if neg then - n else n) → match ds with "" => None | _ => n ← digits_ 0 ds; let n := if neg then - n else n in
      if (- 2 ^ 63 <=? n)%Z && (n <? 2 ^ 63)%Z then Some n else None end = Some v) as HH.
    { intros neg ->. assert ((n ← digits_ 0 ds; let n := if neg then - n else n in
        if (- 2 ^ 63 <=? n)%Z && (n <? 2 ^ 63)%Z then Some n else None) = Some (if neg then - n else n)) as H'.
      { rewrite Hd. cbn [mbind option_bind]. cbv zeta.
        destruct (Z.leb_spec (- 2 ^ 63) (if neg then - n else n)); [|lia].
        destruct (Z.ltb_spec (if neg then - n else n) (2 ^ 63)); [done|lia]. }
      by destruct ds. }
    destruct Hs as [[-> E]|[[-> E]|[-> E]]].
    + destruct ds as [|a ds]; [done|]. simpl in Hd. apply bind_Some in Hd as (x & Hx & _). apply digit_not in Hx as (_ & H1 & H2 & _).
      rewrite !eqb_no by done. by apply (HH false).
    + simpl. by apply (HH false).
    + simpl. by apply (HH true).
Qed.
Lemma count_iff s p d : count_parse s = Some (p, d) ↔
  ∃ q v, colon_free p ∧ s = p ++ ":" ++ q ∧ integer q v ∧ - 2 ^ 63 ≤ v < 2 ^ 63 ∧ d = new_count v.
Proof.
  unfold count_parse. rewrite bind_Some. split.
  - intros ([p' q] & [H1 ->]%split_Some & H). apply bind_Some in H as (v & [H2 H3]%parse_int_iff & [= <- <-]). by exists q, v.
  - intros (q & v & H1 & -> & H2 & H3 & ->). exists (p, q). split; [by apply split_Some|]. apply bind_Some. exists v. split; [|done]. by apply parse_int_iff.
Qed.

(** A window spelling is no count spelling. *)
Lemma parse_int_colon a b r : 0 ≤ a < 10 → 0 ≤ b < 10 → parse_int (String (dig a) (String (dig b) (String ":" r))) = None.
Proof.
  intros Ha Hb. unfold parse_int. destruct (dig_not a Ha) as (_ & H1 & H2 & _). rewrite !eqb_no by done. cbn [digits_].
  rewrite !digit_dig by done. done.
Qed.
Lemma digs n : 0 ≤ n < 100 → 0 ≤ n / 10 < 10 ∧ 0 ≤ n mod 10 < 10.
Proof. intros. split; [split; [apply Z.div_pos; lia|apply Z.div_lt_upper_bound; lia]|apply Z.mod_pos_bound; lia]. Qed.
Lemma split_app p s : colon_free p → split_colon (p ++ s) = '(x, y) ← split_colon s; Some (p ++ x, y).
Proof.
  induction p as [|a p IH]; simpl; [by destruct (split_colon s) as [[]|]|]. intros [H1 H2]. rewrite eqb_no by done. rewrite IH by done.
  by destruct (split_colon s) as [[]|].
Qed.
Lemma two_free n : 0 ≤ n < 100 → colon_free (two n).
Proof. intros [H1 H2]%digs. simpl. destruct (dig_not _ H1), (dig_not _ H2). done. Qed.
Lemma spaces_free n : colon_free (spaces n). Proof. by induction n. Qed.
Lemma free_app p q : colon_free p → colon_free q → colon_free (p ++ q).
Proof. induction p as [|a p IH]; simpl; [done|]. intros [H1 H2] H3. auto. Qed.
Lemma less_free a b : colon_free (less a b).
Proof. unfold less. apply free_app; [apply spaces_free|]. simpl. split; [done|]. apply spaces_free. Qed.
Lemma split_tod p t r : colon_free p → tod_ok t → ∃ x, split_colon (p ++ tod_str t ++ r) = Some (x, two (minute t) ++ ":" ++ two (second t) ++ r).
Proof.
  intros Hp Ht. rewrite split_app by done. unfold tod_str. rewrite !app_assoc_s. rewrite split_app by (apply two_free; unfold tod_ok in Ht; lia).
  simpl. eexists. done.
Qed.
Lemma count_parse_tod p t r : colon_free p → tod_ok t → count_parse (p ++ tod_str t ++ r) = None.
Proof.
  intros Hp Ht. unfold count_parse. destruct (split_tod p t r Hp Ht) as [x ->]. cbn [mbind option_bind].
  unfold two at 1. cbn [String.append]. rewrite parse_int_colon; [reflexivity|..]; apply digs; unfold tod_ok in Ht; lia.
Qed.
Lemma count_parse_date p d t r : colon_free p → date_ok d → tod_ok t → count_parse (p ++ date_str d t ++ r) = None.
Proof.
  intros Hp Hd Ht. unfold date_str. destruct (dt_100 d t Hd Ht) as (H1 & H2 & H3 & _).
  assert (0 ≤ year d / 100 < 100) by (split; [apply Z.div_pos; lia|apply Z.div_lt_upper_bound; lia]).
  pose proof (Z.mod_pos_bound (year d) 100 ltac:(lia)).
  assert (p ++ (two (year d / 100) ++ two (year d mod 100) ++ "-" ++ two (month d) ++ "-" ++ two (day d) ++ " " ++ tod_str t) ++ r =
    (p ++ two (year d / 100) ++ two (year d mod 100) ++ "-" ++ two (month d) ++ "-" ++ two (day d) ++ " ") ++ tod_str t ++ r) as -> by (by rewrite !app_assoc_s).
  apply count_parse_tod; [|done]. repeat (apply free_app; [first [done|apply two_free; lia|(simpl; done)]|]). simpl. done.
Qed.

Lemma lit_digit w a n s : 0 ≤ n < 10 → a = "t"%char ∨ a = "d"%char → lit (String a w) (String (dig n) s) = None.
Proof. intros H [->| ->]; cbn [lit]; destruct (dig_not n H) as (_ & _ & _ & _ & H2 & H3); rewrite eqb_no by congruence; reflexivity. Qed.
Lemma tod_first t r : tod_ok t → before_time_parse (tod_str t ++ r) = None ∧ ∀ local, before_datetime_parse local (tod_str t ++ r) = None.
Proof.
  intros Ht. unfold before_time_parse, before_datetime_parse, tod_str, two. destruct (digs (hour t)) as [H1 _]; [unfold tod_ok in Ht; lia|].
  cbn [String.append]. split; intros; rewrite lit_digit by auto; reflexivity.
Qed.
Lemma date_first d t r : date_ok d → tod_ok t →
  before_time_parse (date_str d t ++ r) = None ∧ after_time_parse (date_str d t ++ r) = None ∧ between_times_parse (date_str d t ++ r) = None ∧
  ∀ local, before_datetime_parse local (date_str d t ++ r) = None.
Proof.
  intros Hd Ht. destruct (dt_100 d t Hd Ht) as (H1 & _).
  assert (0 ≤ year d / 100 < 100) as Hc by (split; [apply Z.div_pos; lia|apply Z.div_lt_upper_bound; lia]).
  pose proof (Z.mod_pos_bound (year d) 100 ltac:(lia)) as Hy. pose proof (digs _ Hc) as [Hc1 Hc2]. pose proof (digs _ Hy) as [Hy1 Hy2].
  assert (hms_ (date_str d t ++ r) = None) as Hh.
  { unfold hms_, date_str. rewrite app_assoc_s, two_two by done. cbn [mbind option_bind]. unfold two at 1. cbn [String.append lit].
    destruct (dig_not _ Hy1) as (H3 & _). rewrite eqb_no by congruence. reflexivity. }
  split_and!.
  - unfold before_time_parse, date_str. unfold two at 1. cbn [String.append]. rewrite lit_digit by auto. reflexivity.
  - unfold after_time_parse. by rewrite Hh.
  - unfold between_times_parse. by rewrite Hh.
  - intros. unfold before_datetime_parse, date_str. unfold two at 1. cbn [String.append]. rewrite lit_digit by auto. reflexivity.
Qed.
Lemma tod_no_date t r local : tod_ok t →
  after_datetime_parse local (tod_str t ++ r) = None ∧ between_datetimes_parse local (tod_str t ++ r) = None.
Proof.
  intros Ht. assert (datetime_ (tod_str t ++ r) = None) as Hh.
  { unfold datetime_, tod_str. rewrite app_assoc_s, two_two by (unfold tod_ok in Ht; lia). done. }
  unfold after_datetime_parse, between_datetimes_parse. by rewrite Hh.
Qed.

Theorem names_spell local s : 
  (∀ n d, spells local s n d → name_to_group local s = (n, Some d)) ∧
  ((∀ n d, ¬ spells local s n d) → name_to_group local s = (s, None)).
Proof.
  assert (∀ n d, name_to_group local s = (n, Some d) → spells local s n d) as Hback.
  { intros n d. unfold name_to_group.
    destruct (before_time_parse s) eqn:E1; [intros [= <- <-]; apply before_time_iff in E1 as (a & b & t & Ht & -> & ->); apply (sp_before local a b t); assumption|].
    destruct (after_time_parse s) eqn:E2; [intros [= <- <-]; apply after_time_iff in E2 as (a & b & t & Ht & -> & ->); apply (sp_after local a b t); assumption|].
    destruct (between_times_parse s) eqn:E3; [intros [= <- <-]; apply between_times_iff in E3 as (a & b & c & e & t & u & Ht & Hu & -> & ->); apply (sp_between local a b c e t u); assumption|].
    destruct (before_datetime_parse local s) eqn:E4; [intros [= <- <-]; apply before_datetime_iff in E4 as (a & b & x & t & Hx & Ht & -> & ->); apply (sp_dbefore local a b x t); assumption|].
    destruct (after_datetime_parse local s) eqn:E5; [intros [= <- <-]; apply after_datetime_iff in E5 as (a & b & x & t & Hx & Ht & -> & ->); apply (sp_dafter local a b x t); assumption|].
    destruct (between_datetimes_parse local s) eqn:E6; [intros [= <- <-]; apply between_datetimes_iff in E6 as (a & b & c & e & x & t & x' & t' & Hx & Ht & Hx' & Ht' & -> & ->); apply (sp_dbetween local a b c e x t x' t'); assumption|].
    destruct (count_parse s) as [[n' d']|] eqn:E7; [intros [= <- <-]|done].
    apply count_iff in E7 as (q & v & Hp & -> & Hi & Hr & ->). unfold new_count. destruct (Z.ltb_spec v 0).
    - apply (sp_none local n' q v); [done|done|lia].
    - apply sp_count; [done|done|lia]. }
  split.
  - assert (∀ n q v, colon_free n → integer q v → - 2 ^ 63 ≤ v < 2 ^ 63 → name_to_group local (n ++ ":" ++ q) = (n, Some (new_count v))) as Hc.
    { clear. intros n q v Hn Hi Hr. set (s := n ++ ":" ++ q).
      assert (count_parse s = Some (n, new_count v)) as E7. { apply count_iff. by exists q, v. }
      unfold name_to_group.
      destruct (before_time_parse s) eqn:E1.
      { apply before_time_iff in E1 as (a & b & t & Ht & E & _). rewrite E in E7.
        replace ("time" ++ less a b ++ tod_str t) with (("time" ++ less a b) ++ tod_str t ++ "") in E7 by (by rewrite app_nil_s, app_assoc_s).
        rewrite count_parse_tod in E7; [done| |done]. apply free_app; [by vm_compute|apply less_free]. }
      destruct (after_time_parse s) eqn:E2.
      { apply after_time_iff in E2 as (a & b & t & Ht & E & _). rewrite E in E7.
        pose proof (count_parse_tod "" t (less a b ++ "time") I Ht) as E8. simpl in E8, E7. by rewrite E8 in E7. }
      destruct (between_times_parse s) eqn:E3.
      { apply between_times_iff in E3 as (a & b & c & e & t & u & Ht & Hu & E & _). rewrite E in E7.
        pose proof (count_parse_tod "" t (less a b ++ "time" ++ less c e ++ tod_str u) I Ht) as E8. change ("" ++ ?x) with x in E8. by rewrite E8 in E7. }
      destruct (before_datetime_parse local s) eqn:E4.
      { apply before_datetime_iff in E4 as (a & b & x & t & Hx & Ht & E & _). rewrite E in E7.
        replace ("datetime" ++ less a b ++ date_str x t) with (("datetime" ++ less a b) ++ date_str x t ++ "") in E7 by (by rewrite app_nil_s, app_assoc_s).
        rewrite count_parse_date in E7; [done| |done|done]. apply free_app; [by vm_compute|apply less_free]. }
      destruct (after_datetime_parse local s) eqn:E5.
      { apply after_datetime_iff in E5 as (a & b & x & t & Hx & Ht & E & _). rewrite E in E7.
        pose proof (count_parse_date "" x t (less a b ++ "datetime") I Hx Ht) as E8. change ("" ++ ?x) with x in E8. by rewrite E8 in E7. }
      destruct (between_datetimes_parse local s) eqn:E6.
      { apply between_datetimes_iff in E6 as (a & b & c & e & x & t & x' & t' & Hx & Ht & Hx' & Ht' & E & _). rewrite E in E7.
        pose proof (count_parse_date "" x t (less a b ++ "datetime" ++ less c e ++ date_str x' t') I Hx Ht) as E8. change ("" ++ ?x) with x in E8. by rewrite E8 in E7. }
      by rewrite E7. }
    intros n d. destruct 1 as [n q v Hn Hi Hr|n q v Hn Hi Hr|a b t Ht|a b t Ht|a b c e t u Ht Hu|a b x t Hx Ht|a b x t Hx Ht|a b c e x t x' t' Hx Ht Hx' Ht'].
    + rewrite (Hc n q v) by (done || lia). unfold new_count. by destruct (Z.ltb_spec v 0); [lia|].
    + rewrite (Hc n q v) by (done || lia). unfold new_count. by destruct (Z.ltb_spec v 0); [|lia].
    + unfold name_to_group. rewrite (proj2 (before_time_iff s _)) by (by exists a, b, t). done.
    + unfold name_to_group. destruct (tod_first t (less a b ++ "time") Ht) as [E _]. fold s in E. rewrite E. clear E.
      rewrite (proj2 (after_time_iff s (GData MAfterTime 0 (tod_secs t)))) by (by exists a, b, t). done.
    + unfold name_to_group. destruct (tod_first t (less a b ++ "time" ++ less c e ++ tod_str u) Ht) as [E _]. fold s in E. rewrite E. clear E.
      assert (after_time_parse s = None) as ->.
      { unfold after_time_parse, s. scan. unfold less at 1. rewrite app_assoc_s. destruct c; done. }
      rewrite (proj2 (between_times_iff s (GData MBetweenTimes (tod_secs u) (tod_secs t)))) by (by exists a, b, c, e, t, u). done.
    + unfold name_to_group. assert (before_time_parse s = None ∧ after_time_parse s = None ∧ between_times_parse s = None) as (-> & -> & ->) by done.
      rewrite (proj2 (before_datetime_iff local s (GData MBeforeDateTime (local (tuple x t)) 0))) by (by exists a, b, x, t). done.
    + unfold name_to_group. destruct (date_first x t (less a b ++ "datetime") Hx Ht) as (E1 & E2 & E3 & E4). fold s in E1, E2, E3, E4.
      rewrite E1, E2, E3, E4. rewrite (proj2 (after_datetime_iff local s (GData MAfterDateTime 0 (local (tuple x t))))) by (by exists a, b, x, t). done.
    + unfold name_to_group. destruct (date_first x t (less a b ++ "datetime" ++ less c e ++ date_str x' t') Hx Ht) as (E1 & E2 & E3 & E4). fold s in E1, E2, E3, E4.
      rewrite E1, E2, E3, E4. assert (after_datetime_parse local s = None) as ->.
      { unfold after_datetime_parse, s. scan. unfold less at 1. rewrite app_assoc_s. destruct c; done. }
      rewrite (proj2 (between_datetimes_iff local s (GData MBetweenDateTimes (local (tuple x' t')) (local (tuple x t))))) by (by exists a, b, c, e, x, t, x', t'). done.
  - intros Hno. destruct (name_to_group local s) as [n [d|]] eqn:E; [exfalso; by eapply Hno, Hback|].
    unfold name_to_group in E. repeat case_match; by simplify_eq.
Qed.

(** Seconds since midnight are the wall clock when the offset has not changed. *)
Lemma wall_seconds offset u m : day_start offset u m → offset m = offset u → seconds_in_day u m = wall offset u.
Proof.
  unfold day_start, seconds_in_day, wall. intros H1 H2. pose proof (Z.div_mod (u + offset u) 86400 ltac:(lia)). lia.
Qed.
Lemma time_windows offset u m t t' : day_start offset u m → offset m = offset u →
  let c := Clock (seconds_in_day u m) u in
  (can_increment c (GData MBeforeTime t 0) = true ↔ wall offset u < t) ∧
  (can_increment c (GData MAfterTime 0 t) = true ↔ t < wall offset u) ∧
  (t ≤ t' → can_increment c (GData MBetweenTimes t' t) = true ↔ t < wall offset u < t').
Proof.
  intros H1 H2 c. subst c. rewrite (wall_seconds offset u m H1 H2). unfold can_increment. cbn [dmode dlimit dcurrent csod].
  rewrite !Z.ltb_lt. split_and!; [done|done|]. intros Hle. destruct (Z.ltb_spec t' t); [lia|]. rewrite andb_true_iff, !Z.ltb_lt. done.
Qed.
Lemma datetime_windows s u t t' :
  (can_increment (Clock s u) (GData MBeforeDateTime t 0) = true ↔ u < t) ∧
  (can_increment (Clock s u) (GData MAfterDateTime 0 t) = true ↔ t < u) ∧
  (can_increment (Clock s u) (GData MBetweenDateTimes t' t) = true ↔ t < u < t').
Proof. unfold can_increment. cbn [dmode dlimit dcurrent cunix]. rewrite andb_true_iff, !Z.ltb_lt. done. Qed.
