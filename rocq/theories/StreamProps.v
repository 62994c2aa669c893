(** C34, C51: what is kept of a command's output. *)
From Coq Require Import ZArith Lia String Ascii.
From stdpp Require Import base option strings list pretty.
From Verif Require Import StreamModel StreamProofs.

(** What should be kept of [data] by a saver of size [n]: everything, or the first
    [n] bytes, a note of the number left out, and the last [n] bytes. *)
Definition kept (n : nat) (data out : list ascii) : Prop :=
  (length data ≤ 2 * n → out = data) ∧
  (2 * n < length data → ∃ head middle tail,
     data = head ++ middle ++ tail ∧ length head = n ∧ length tail = n ∧
     out = head ++ String.list_ascii_of_string
       (String "010" ("... omitting " ++ pretty (length middle) ++ " bytes ..." ++ String "010" ""))%string ++ tail).

(** ** C34 for every size above zero, all data and every way of cutting it into writes *)
Theorem C34_output_kept n chunks : 0 < n →
  ∃ w, writes chunks (saver_new n) = Some w ∧ kept n (concat chunks) (bytes w).
Proof.
  intros Hn. destruct (writes_holds n chunks [] (saver_new n) Hn (new_holds n)) as (w & Hw & H).
  exists w. split; [done|]. cbn [app] in H. rewrite (bytes_holds n _ w Hn H). set (d := concat chunks). split.
  - intros Hl. by rewrite decide_True by lia.
  - intros Hl. rewrite decide_False by lia.
    exists (take n d), (take (length d - (n + n)) (drop n d)), (drop (length d - n) d).
    split_and!.
    + replace (length d - n) with (n + (length d - (n + n))) by lia. rewrite <- drop_drop. by rewrite !take_drop.
    + rewrite take_length. lia.
    + rewrite drop_length. lia.
    + rewrite take_length, drop_length. unfold note. repeat f_equal. lia.
Qed.
Print Assumptions C34_output_kept.
Definition of_string := String.list_ascii_of_string.
Example C34_case : option_map bytes (writes (of_string <$> ["a"; "bcdefgh"; "i"; "jklmnop"; ""; "q"])%string (saver_new 3)) =
  Some (of_string ("abc" ++ String "010" ("... omitting 11 bytes ..." ++ String "010" "opq")))%string.
Proof. by vm_compute. Qed.

(** A saver of size zero loses everything silently. The code only makes savers of
    size 4096 (client.go:607, 613). *)
Theorem size_zero_refuted : ∃ chunks w,
  writes chunks (saver_new 0) = Some w ∧ ¬ kept 0 (concat chunks) (bytes w).
Proof.
  exists [["a"%char]]. eexists. split; [by vm_compute|]. intros [_ H].
  destruct H as (h & m & t & _ & _ & _ & E); [vm_compute; lia|]. vm_compute in E. destruct h; discriminate E.
Qed.
Print Assumptions size_zero_refuted.

(** ** C51 The progress bar filter: output without carriage returns passes unchanged *)
Theorem C51_plain_unchanged s : "013"%char ∉ s → concat (std_filter s) = s.
Proof. intros H. rewrite std_filter_nocr by done. apply lines_concat. Qed.
Print Assumptions C51_plain_unchanged.
Example C51_plain_case : concat (std_filter (of_string ("one" ++ String "010" (String "010" "two")))%string) =
  of_string ("one" ++ String "010" (String "010" "two"))%string.
Proof. by vm_compute. Qed.

(** A block of lines each ended by a carriage return, closed by a newline, is cut to
    its first and its last line, with an ellipsis in between if others were left
    out; what comes after the block is treated the same way. *)
Theorem C51_block_first_and_last first between last_one rest :
  Forall (λ l, "013"%char ∉ l ∧ "010"%char ∉ l) (first :: between ++ [last_one]) →
  concat (std_filter (concat ((λ l, l ++ ["013"%char]) <$> first :: between ++ [last_one]) ++ "010"%char :: rest)) =
  first ++ ["010"%char] ++ (if decide (between = []) then [] else of_string ("[...]" ++ String "010" "")%string) ++
  last_one ++ ["010"%char] ++ concat (std_filter rest).
Proof.
  intros HF. change "013"%char with cr in *. change "010"%char with lf in *.
  change (concat ((λ l, l ++ [cr]) <$> first :: between ++ [last_one])) with (bars (first :: between ++ [last_one])).
  rewrite std_filter_line.
  - rewrite filter_bars.
    + rewrite concat_app. cbn [concat]. rewrite concat_app. cbn [concat]. rewrite app_nil_r, <- !(assoc_L (++)).
      destruct (decide (between = [])); done.
    + eapply Forall_impl; [exact HF|]. by intros l [? _].
    + apply not_elem_of_cons. split; [discriminate|apply not_elem_of_nil].
  - unfold bars. intros Hin. apply elem_of_list_In, in_concat in Hin as (l & Hl & Hc). rewrite <- elem_of_list_In in Hl; rewrite <- elem_of_list_In in Hc.
    apply elem_of_list_fmap in Hl as (l0 & -> & Hl0). rewrite Forall_forall in HF. destruct (HF l0 Hl0) as [_ Hn].
    apply elem_of_app in Hc as [Hc|Hc]; [done|]. apply elem_of_list_singleton in Hc. discriminate Hc.
Qed.
Print Assumptions C51_block_first_and_last.
Example C51_block_case :
  concat (std_filter (of_string ("1%" ++ String cr ("50%" ++ String cr ("100%" ++ String cr (String lf "ok")))))%string) =
  of_string ("1%" ++ String lf ("[...]" ++ String lf ("100%" ++ String lf "ok")))%string.
Proof. by vm_compute. Qed.

(** What follows the last carriage return of a line is dropped, so the final state of
    a progress bar ended by a newline alone, and the newlines of DOS text, are lost. *)
Theorem C51_after_last_return_refuted : ∃ a b, "013"%char ∉ a ∧ "013"%char ∉ b ∧ b ≠ [] ∧
  concat (std_filter (a ++ "013"%char :: b ++ ["010"%char])) = a.
Proof.
  exists (of_string "1%"), (of_string "100%"). split_and!; apply (bool_decide_unpack _); by vm_compute.
Qed.
Print Assumptions C51_after_last_return_refuted.
Theorem C51_dos_newline_refuted : ∃ a b, "013"%char ∉ a ∧ "013"%char ∉ b ∧
  concat (std_filter (a ++ ["013"; "010"]%char ++ b)) = a ++ b ∧ a ≠ [] ∧ b ≠ [].
Proof.
  exists (of_string "one"), (of_string "two"). split_and!; apply (bool_decide_unpack _); by vm_compute.
Qed.
Print Assumptions C51_dos_newline_refuted.

(** ** C34 and C51 together: what is kept of the output of a command *)
Theorem C34_command_output_kept n output : 0 < n → "013"%char ∉ output →
  ∃ w, writes (std_filter output) (saver_new n) = Some w ∧ kept n output (bytes w).
Proof.
  intros Hn Hc. destruct (C34_output_kept n (std_filter output) Hn) as (w & Hw & H). exists w.
  split; [done|]. by rewrite C51_plain_unchanged in H.
Qed.
Print Assumptions C34_command_output_kept.
Example C34_command_case : "013"%char ∉ of_string "0123456789" ∧
  option_map bytes (writes (std_filter (of_string "0123456789")) (saver_new 4)) =
  Some (of_string ("0123" ++ String "010" ("... omitting 2 bytes ..." ++ String "010" "6789")))%string.
Proof. split; [apply (bool_decide_unpack _)|]; by vm_compute. Qed.
