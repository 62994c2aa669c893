(** What is said about bsub -R texts: the text without the white space outside quotes, the
    settings it holds, and its shape apart from them. *)
From Coq Require Import String Ascii.
From stdpp Require Import base option strings list.
From Verif Require Import BsubModel.

(** The text without the white space that is not inside quotes; [q] is the quote the text
    is inside of. A backslash inside quotes keeps the next character from ending them. *)
Fixpoint squeeze (q : option ascii) (s : chars) : chars :=
  match s with
  | [] => []
  | c :: s' =>
      match q with
      | None => if bool_decide (c ∈ [" "; "009"; "010"; "013"]%char) then squeeze None s'
                else if bool_decide (c = """"%char ∨ c = "'"%char) then c :: squeeze (Some c) s'
                else c :: squeeze None s'
      | Some q => if bool_decide (c = "\"%char) then
                    match s' with [] => [c] | d :: s'' => c :: d :: squeeze (Some q) s'' end
                  else c :: squeeze (if bool_decide (c = q) then None else Some q) s'
      end
  end.
(** the text is cut into tokens to its end, with every bracket closed *)
Definition lexical (s : chars) : Prop := (tokenise s).2 = true.
(** no [!] and [=] (or [==]) with white space between them *)
Definition no_split_bang (s : chars) : Prop :=
  ∀ a w b, s = a ++ "!"%char :: w ++ "="%char :: b → Forall (λ c, is_white c = true) w → w = [].

(** A setting: what stands on the left of an operator, the operator, what stands on the
    right. These are all settings of a piece of text, in order: those joined by && || : ,
    and /, those in round and curly brackets, in the arguments of calls and in sections,
    but not those within a setting. *)
Notation setting := (call * bop * binary)%type.
Fixpoint in_primary (p : primary) : list setting :=
  match p with PName _ | PLiteral _ => [] | PParens cs | PBraces cs => in_clauses cs end
with in_call (c : call) : list setting :=
  match c with C1 p => in_primary p | C2 p l => in_primary p ++ in_logic l end
with in_binary (b : binary) : list setting :=
  match b with B1 c => in_call c | B2 c o b => [(c, o, b)] end
with in_logic (l : logic) : list setting :=
  match l with L1 b => in_binary b | L2 b _ l => in_binary b ++ in_logic l end
with in_clause (c : clause) : list setting :=
  match c with K1 l => in_logic l | K2 l c => in_logic l ++ in_logic c end
with in_clauses (cs : clauses) : list setting :=
  match cs with KNil => [] | KCons c cs => in_clause c ++ in_clauses cs end.
(** the same piece of text with every setting put to [?=?] *)
Definition blank : binary := B2 (C1 (PName (str "?"))) BEquals (B1 (C1 (PName (str "?")))).
Fixpoint shape_primary (p : primary) : primary :=
  match p with PName d => PName d | PLiteral d => PLiteral d
             | PParens cs => PParens (shape_clauses cs) | PBraces cs => PBraces (shape_clauses cs) end
with shape_call (c : call) : call :=
  match c with C1 p => C1 (shape_primary p) | C2 p l => C2 (shape_primary p) (shape_logic l) end
with shape_binary (b : binary) : binary :=
  match b with B1 c => B1 (shape_call c) | B2 _ _ _ => blank end
with shape_logic (l : logic) : logic :=
  match l with L1 b => L1 (shape_binary b) | L2 b o l => L2 (shape_binary b) o (shape_logic l) end
with shape_clause (c : clause) : clause :=
  match c with K1 l => K1 (shape_logic l) | K2 l c => K2 (shape_logic l) (shape_logic c) end
with shape_clauses (cs : clauses) : clauses :=
  match cs with KNil => KNil | KCons c cs => KCons (shape_clause c) (shape_clauses cs) end.
(** what becomes of a setting when [key] is to be [o v] *)
Definition put (key : string) (o : bop) (v : chars) (s : setting) : setting :=
  let '(c, o', b) := s in
  if bool_decide (plain_name c = Some (str key)) then (c, o, B1 (C1 (PName v))) else s.
(** the clauses as a list *)
Fixpoint clause_list (cs : clauses) : list clause :=
  match cs with KNil => [] | KCons c cs => c :: clause_list cs end.
(** the settings of [l'] are those of [l] with [key] put to [o v], and nothing else differs *)
Definition only_puts (key : string) (o : bop) (v : chars) (l l' : logic) : Prop :=
  shape_logic l' = shape_logic l ∧ in_logic l' = put key o v <$> in_logic l.
(** induction over all kinds of pieces at once *)
Scheme primary_mut := Induction for primary Sort Prop
with call_mut := Induction for call Sort Prop
with binary_mut := Induction for binary Sort Prop
with logic_mut := Induction for logic Sort Prop
with clause_mut := Induction for clause Sort Prop
with clauses_mut := Induction for clauses Sort Prop.
Combined Scheme ast_ind from primary_mut, call_mut, binary_mut, logic_mut, clause_mut, clauses_mut.
(** the first thing in a piece of text, if it is a word *)
Definition first_call (l : logic) : call := match l with L1 b | L2 b _ _ => match b with B1 c | B2 c _ _ => c end end.
Definition leading_word (l : logic) : option chars :=
  match match first_call l with C1 p | C2 p _ => p end with PName d => Some d | _ => None end.
(** What replacing the memory and the hosts is to make of clause number [i]: in a select
    section, and in a first clause without a section, [mem] is put to [> memory], in
    rusage to [= memory]; in span [hosts] is put to [= hosts]; all else stays. *)
Definition clause_replaced (memory hosts : chars) (i : nat) (c c' : clause) : Prop :=
  match c with
  | K1 l => if decide (i = 0%nat) then ∃ l', c' = K1 l' ∧ only_puts "mem" BGreater memory l l' else c' = c
  | K2 l cond => ∃ cond', c' = K2 l cond' ∧
      (leading_word l = Some (str "select") → only_puts "mem" BGreater memory cond cond') ∧
      (leading_word l = Some (str "rusage") → only_puts "mem" BEquals memory cond cond') ∧
      (leading_word l = Some (str "span") → only_puts "hosts" BEquals hosts cond cond') ∧
      (leading_word l ∉ [Some (str "select"); Some (str "rusage"); Some (str "span")] → cond' = cond)
  end.
(** the settings of the words [key] in a piece of text *)
Definition settings_of (key : string) (cs : clauses) : list setting :=
  filter (λ s, plain_name s.1.1 = Some (str key)) (in_clauses cs).
(** the text that comes out when the memory and hosts of the text [s] are replaced *)
Definition replaced_text (memory hosts s : string) : option string :=
  match parse_bsub (str s) with
  | POk cs _ => Some (string_of_list_ascii (show_clauses (replace_memory_and_hosts (str memory) (str hosts) cs)))
  | _ => None
  end.
