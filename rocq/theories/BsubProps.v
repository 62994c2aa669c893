(** C41: the requirement strings given to bsub -R. *)
From Coq Require Import String Ascii.
From stdpp Require Import base option strings list.
From Verif Require Import BsubModel BsubSpec BsubProofs BsubProofs4.

(** a text and what is read from it, for the cases *)
Definition sample : string := "{ select[type==any && swp>=300] order[ut] rusage[mem=(50 10):duration='a b'] } || 4*{ select[ defined(x) ] span[ptile=!] }@4".
Definition read (s : string) : clauses := match parse_bsub (str s) with POk cs _ => cs | _ => KNil end.

(** ** Reading a text always comes to an answer *)
Theorem C41_answers : ∀ s : chars, parse_bsub s ≠ PFuel.
Proof. intros s. apply parse_bsub_answers. Qed.
Print Assumptions C41_answers.
Example C41_answers_case : parse_bsub (str sample) = POk (read sample) [] ∧ parse_bsub (str "select[mem>1") = PErr.
Proof. split; vm_compute; reflexivity. Qed.

(** ** Printing what was read gives the text back, but for white space outside quotes *)
Theorem C41_same_text_partial : ∀ (s : chars) r rest, parse_bsub s = POk r rest → lexical s →
  squeeze None (show_clauses r) = squeeze None s.
Proof. intros s r rest H Hl. destruct (show_text s r rest H) as (k & -> & Hk). rewrite (Hk Hl). by rewrite app_nil_r. Qed.
Print Assumptions C41_same_text_partial.
Example C41_same_text_case : parse_bsub (str sample) = POk (read sample) [] ∧ lexical (str sample) ∧
  show_clauses (read sample) = str "{select[type==any && swp >= 300] order[ut] rusage[mem=(50 10):duration='a b']} || 4 * {select[defined(x)] span[ptile=!]}@4".
Proof. split_and!; vm_compute; reflexivity. Qed.
(** what is missing: at a character that cannot be, the reading ends without an error *)
Theorem C41_cut_off_refuted : ∃ (s : string) r rest, parse_bsub (str s) = POk r rest ∧ squeeze None (show_clauses r) ≠ squeeze None (str s) ∧
  show_clauses r = str "select[mem > 1]".
Proof. exists "select[mem>1] % rusage[mem=1]". eexists _, _. split; [vm_compute; reflexivity|]. split; [|vm_compute; reflexivity]. intros H. vm_compute in H. discriminate H. Qed.
Print Assumptions C41_cut_off_refuted.
(** but nothing is made up: it is always the beginning of the text *)
Theorem C41_beginning : ∀ (s : chars) r rest, parse_bsub s = POk r rest → ∃ k, squeeze None s = squeeze None (show_clauses r) ++ k.
Proof. intros s r rest H. destruct (show_text s r rest H) as (k & Hk & _). by exists k. Qed.
Print Assumptions C41_beginning.
Example C41_beginning_case : parse_bsub (str "select[mem>1] ] x") = POk (read "select[mem>1]") [].
Proof. vm_compute. reflexivity. Qed.

(** ** And it is read again as the same *)
Theorem C41_reads_back_partial : ∀ (s : chars) r rest, parse_bsub s = POk r rest → no_split_bang s →
  parse_bsub (show_clauses r) = POk r [] ∧ lexical (show_clauses r).
Proof. exact show_parses. Qed.
Print Assumptions C41_reads_back_partial.
Example C41_reads_back_case : parse_bsub (str "gtile[ x = ! ] same[ b!= 'c d' ]") = POk (read "gtile[x=!] same[b!='c d']") [] ∧
  no_split_bang (str "gtile[ x = ! ] same[ b!= 'c d' ]").
Proof.
  split; [vm_compute; reflexivity|]. apply bang_check_ok. vm_compute. reflexivity.
Qed.
(** what is missing: [! =] becomes [!=], which is something else *)
Theorem C41_split_bang_refuted : ∃ (s : string) r rest, parse_bsub (str s) = POk r rest ∧ lexical (str s) ∧ parse_bsub (show_clauses r) = PErr.
Proof. exists "select[! = 2]". eexists _, _. split; [vm_compute; reflexivity|]. split; vm_compute; reflexivity. Qed.
Print Assumptions C41_split_bang_refuted.

(** ** Replacing memory and hosts changes their settings in their sections and nothing else *)
Theorem C41_replaced : ∀ (memory hosts : chars) cs i,
  match clause_list cs !! i with
  | Some c => ∃ c', clause_list (replace_memory_and_hosts memory hosts cs) !! i = Some c' ∧ clause_replaced memory hosts i c c'
  | None => clause_list (replace_memory_and_hosts memory hosts cs) !! i = None
  end.
Proof. exact replace_all_spec. Qed.
Print Assumptions C41_replaced.
(** where [only_puts] leaves no choice: a piece of text is its shape and its settings *)
Theorem C41_determined : ∀ l l', shape_logic l = shape_logic l' → in_logic l = in_logic l' → l = l'.
Proof. intros l l' H1 H2. destruct shape_settings as (_ & _ & _ & H & _). by apply (H l l'). Qed.
Print Assumptions C41_determined.
Example C41_replaced_case :
  replaced_text "100" "1" "select[(mem<500||mem>5) && type==any] rusage[mem=(50 10):swp=mem] span[ hosts=4 ] order[mem]" =
    Some "select[(mem > 100 || mem > 100) && type==any] rusage[mem=100:swp=mem] span[hosts=1] order[mem]" ∧
  replaced_text "100" "1" "mem<500 && ut<0.5" = Some "mem > 100 && ut < 0.5" ∧
  length (settings_of "mem" (read "select[mem>5] rusage[mem=(50 10):swp=mem]")) = 2%nat.
Proof. split_and!; vm_compute; reflexivity. Qed.
(** "exactly one of each setting" is not what comes out: none is added, several stay *)
Theorem C41_exactly_one_refuted :
  (∃ s : string, parse_bsub (str s) = POk (read s) [] ∧ settings_of "mem" (replace_memory_and_hosts (str "100") (str "1") (read s)) = [] ∧ replaced_text "100" "1" s = Some "rusage[swp=2]") ∧
  (∃ s : string, parse_bsub (str s) = POk (read s) [] ∧ replaced_text "100" "1" s = Some "rusage[mem=100, mem=100]").
Proof. split; [exists "rusage[swp=2]"|exists "rusage[mem=4,mem=7]"]; split_and!; vm_compute; reflexivity. Qed.
Print Assumptions C41_exactly_one_refuted.
(** Sections inside curly brackets are not seen as sections: alone, their settings are all
    put as in a select; beside an operator they keep the old memory. *)
Theorem C41_compound_refuted :
  (∃ s, s = "{rusage[mem=5] span[hosts=2]}" ∧ replaced_text "100" "1" s = Some "{rusage[mem > 100] span[hosts=2]}") ∧
  (∃ s, s = "4*{rusage[mem=5]}" ∧ replaced_text "100" "1" s = Some "4 * {rusage[mem=5]}").
Proof. split; eexists; (split; [reflexivity|]); vm_compute; reflexivity. Qed.
Print Assumptions C41_compound_refuted.
(** nor is a memory written on the right of its bound *)
Theorem C41_reversed_refuted : ∃ s, replaced_text "100" "1" s = Some s ∧ s = "select[500 < mem]".
Proof. eexists. split; [|reflexivity]. vm_compute. reflexivity. Qed.
Print Assumptions C41_reversed_refuted.
