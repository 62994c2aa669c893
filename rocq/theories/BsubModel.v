(** Model of the bsubresource package: the strings given to bsub -R are taken apart into
    tokens, parsed, changed and printed again. Characters are bytes; a character above
    127 is only let through inside quotes, where it does not matter. *)
From Coq Require Import String Ascii.
From stdpp Require Import base option strings list.

Notation chars := (list ascii).
Definition str (s : string) : chars := list_ascii_of_string s.
Definition one_of (s : string) (c : ascii) : bool := bool_decide (c ∈ str s).
(** tokeniser.go:28-32 *)
Definition is_white (c : ascii) : bool := bool_decide (c ∈ [" "; "009"; "010"; "013"]%char).
Definition is_letter : ascii → bool := one_of "ABCDEFGHIJKLMNOPQRSTUVWXYZabcdefghijklmnopqrstuvwxyz_".
Definition is_digit : ascii → bool := one_of "0123456789".
(** tokeniser.go:34-40 *)
Inductive tkind := TWhite | TWord | TNumber | TString | TOperator.
Global Instance tkind_eq_dec : EqDecision tkind.
Proof. solve_decision. Defined.
(** a token of the vimagination parser library: its kind and its text *)
Record token := Tok { kind_of : tkind; text : chars }.
Global Instance token_eq_dec : EqDecision token.
Proof. solve_decision. Defined.

(** AcceptRun of the parser library: the longest run of such characters, and what follows *)
Fixpoint run (p : ascii → bool) (s : chars) : chars * chars :=
  match s with
  | c :: s' => if p c then let '(a, b) := run p s' in (c :: a, b) else ([], s)
  | [] => ([], [])
  end.
(** tokeniser.go:145-159 string, after the opening quote; None at the end of the text *)
Fixpoint scan_string (q : ascii) (s : chars) : option (chars * chars) :=
  match s with
  | [] => None
  | c :: s' =>
      if bool_decide (c = "\"%char) then
        match s' with
        | [] => None
        | d :: s'' => '(a, b) ← scan_string q s''; Some (c :: d :: a, b)
        end
      else if bool_decide (c = q) then Some ([c], s')
      else '(a, b) ← scan_string q s'; Some (c :: a, b)
  end.
(** tokeniser.go:82-92 number, after the first digit *)
Definition scan_number (s : chars) : chars * chars :=
  let '(a, s) := run is_digit s in
  let '(b, s) := match s with
                 | "."%char :: s' => let '(b, s'') := run is_digit s' in ("."%char :: b, s'')
                 | _ => ([], s)
                 end in
  let '(c, s) := run is_letter s in (a ++ b ++ c, s).
(** tokeniser.go:132-143 inverseGrouping *)
Definition inverse (c : ascii) : ascii :=
  if bool_decide (c = "["%char) then "]"%char else if bool_decide (c = "("%char) then ")"%char else "}"%char.
(** what the tokeniser says next: a token with the grouping depth and text after it,
    the end, or an error *)
Inductive tres := TGot (t : token) (depth rest : chars) | TEnd | TBad.
(** tokeniser.go:104-130 operator *)
Definition operator (depth : chars) (c : ascii) (s : chars) : tres :=
  if one_of "[({" c then TGot (Tok TOperator [c]) (inverse c :: depth) s else
  if one_of "])}" c then
    match depth with
    | d :: depth' => if bool_decide (d = c) then TGot (Tok TOperator [c]) depth' s else TBad
    | [] => TBad
    end else
  if bool_decide (c = "!"%char) then
    match s with
    | "="%char :: s' => TGot (Tok TOperator [c; "="%char]) depth s'
    | _ => TGot (Tok TWord [c]) depth s
    end else
  if one_of ":,/+*@" c then TGot (Tok TOperator [c]) depth s else
  if one_of "=><" c then
    match s with
    | "="%char :: s' => TGot (Tok TOperator [c; "="%char]) depth s'
    | _ => TGot (Tok TOperator [c]) depth s
    end else
  if one_of "&|" c then
    match s with
    | d :: s' => if bool_decide (d = c) then TGot (Tok TOperator [c; c]) depth s' else TBad
    | [] => TBad
    end else TBad.
(** tokeniser.go:54-80 main, 94-102 stringOrOperator *)
Definition next_token (depth s : chars) : tres :=
  match s with
  | [] => match depth with [] => TEnd | _ => TBad end
  | c :: s' =>
      if is_white c then let '(a, b) := run is_white s' in TGot (Tok TWhite (c :: a)) depth b else
      if is_letter c then let '(a, b) := run (λ x, is_letter x || is_digit x) s' in TGot (Tok TWord (c :: a)) depth b else
      if is_digit c then let '(a, b) := scan_number s' in TGot (Tok TNumber (c :: a)) depth b else
      if one_of """'" c then match scan_string c s' with Some (a, b) => TGot (Tok TString (c :: a)) depth b | None => TBad end else
      operator depth c s'
  end.
(** all tokens up to the end or the first error; true: the end was reached. Each token
    takes at least one character, so a number above the length will do for [n]. *)
Fixpoint tokens (n : nat) (depth s : chars) : list token * bool :=
  match n with
  | O => ([], false)
  | S n => match next_token depth s with
           | TGot t depth s => let '(l, b) := tokens n depth s in (t :: l, b)
           | TEnd => ([], true)
           | TBad => ([], false)
           end
  end.
Definition tokenise (s : chars) : list token * bool := tokens (S (length s)) [] s.

(** binary.go:28-42 and logic.go:28-37 *)
Inductive bop := BEquals | BNotEquals | BDoubleEquals | BLess | BLessEqual | BGreater | BGreaterEqual | BAdd | BMultiply | BDelay.
Inductive lop := LAnd | LOr | LColon | LComma | LSlash.
(** primary.go:28-33, call.go:28-31, binary.go:74-78, logic.go:59-63, clause.go:28-31, 83.
    An operator is there exactly if its right side is. *)
Inductive primary := PName (d : chars) | PLiteral (d : chars) | PParens (cs : clauses) | PBraces (cs : clauses)
with call := C1 (p : primary) | C2 (p : primary) (l : logic)
with binary := B1 (c : call) | B2 (c : call) (o : bop) (b : binary)
with logic := L1 (b : binary) | L2 (b : binary) (o : lop) (l : logic)
with clause := K1 (l : logic) | K2 (l cond : logic)
with clauses := KNil | KCons (c : clause) (cs : clauses).

(** binary.go:105-130 parseBinaryOperator *)
Definition parse_bop (d : chars) : option bop :=
  if bool_decide (d = str "=") then Some BEquals else if bool_decide (d = str "!=") then Some BNotEquals else
  if bool_decide (d = str "==") then Some BDoubleEquals else if bool_decide (d = str "<") then Some BLess else
  if bool_decide (d = str "<=") then Some BLessEqual else if bool_decide (d = str ">") then Some BGreater else
  if bool_decide (d = str ">=") then Some BGreaterEqual else if bool_decide (d = str "+") then Some BAdd else
  if bool_decide (d = str "*") then Some BMultiply else if bool_decide (d = str "@") then Some BDelay else None.
(** logic.go:90-105 parseLogicOperator *)
Definition parse_lop (d : chars) : option lop :=
  if bool_decide (d = str "&&") then Some LAnd else if bool_decide (d = str "||") then Some LOr else
  if bool_decide (d = str ":") then Some LColon else if bool_decide (d = str ",") then Some LComma else
  if bool_decide (d = str "/") then Some LSlash else None.
Definition op (s : string) : token := Tok TOperator (str s).
(** AcceptRun(tokenWhitespace) of the parser library *)
Fixpoint skip (ts : list token) : list token :=
  match ts with Tok TWhite _ :: ts' => skip ts' | _ => ts end.
(** AcceptToken of the parser library *)
Definition accept (t : token) (ts : list token) : option (list token) :=
  match ts with t' :: ts' => if bool_decide (t' = t) then Some ts' else None | [] => None end.
(** what a parse function makes of the tokens: a result and the tokens left, an error, or
    it ran out of the steps it was given *)
Inductive pres (A : Type) := POk (a : A) (rest : list token) | PErr | PFuel.
Arguments POk {A} _ _. Arguments PErr {A}. Arguments PFuel {A}.
Definition pbind {A B} (r : pres A) (f : A → list token → pres B) : pres B :=
  match r with POk a ts => f a ts | PErr => PErr | PFuel => PFuel end.
(** The parse methods: primary.go:35-95, call.go:33-55, binary.go:80-103, logic.go:65-88,
    clause.go:33-63. At the end of the tokens and at a tokeniser error Peek gives a
    token of a negative type, here the empty list. [n] bounds the depth of calls. *)
Fixpoint parse_primary (n : nat) (ts : list token) {struct n} : pres primary :=
  match n with O => PFuel | S n =>
    match ts with
    | Tok TWord d :: ts => POk (PName d) ts
    | Tok TNumber d :: ts => POk (PLiteral d) ts
    | Tok TString d :: ts => POk (PLiteral d) ts
    | Tok TOperator d :: ts =>
        if bool_decide (d = str "(") then pbind (parse_clauses n (op ")") (skip ts)) (λ cs ts, POk (PParens cs) ts) else
        if bool_decide (d = str "{") then pbind (parse_clauses n (op "}") (skip ts)) (λ cs ts, POk (PBraces cs) ts) else PErr
    | _ => PErr
    end
  end
with parse_clauses (n : nat) (close : token) (ts : list token) {struct n} : pres clauses :=
  match n with O => PFuel | S n =>
    pbind (parse_clause n ts) (λ c ts,
      match accept close (skip ts) with
      | Some ts => POk (KCons c KNil) ts
      | None => pbind (parse_clauses n close (skip ts)) (λ cs ts, POk (KCons c cs) ts)
      end)
  end
with parse_call (n : nat) (ts : list token) {struct n} : pres call :=
  match n with O => PFuel | S n =>
    pbind (parse_primary n ts) (λ p ts,
      match accept (op "(") (skip ts) with
      | None => POk (C1 p) (skip ts)
      | Some ts => pbind (parse_logic n ts) (λ l ts,
                     match accept (op ")") (skip ts) with Some ts => POk (C2 p l) ts | None => PErr end)
      end)
  end
with parse_binary (n : nat) (ts : list token) {struct n} : pres binary :=
  match n with O => PFuel | S n =>
    pbind (parse_call n ts) (λ c ts,
      let ts := skip ts in
      match ts with
      | Tok TOperator d :: ts' =>
          match parse_bop d with
          | Some o => pbind (parse_binary n (skip ts')) (λ b ts, POk (B2 c o b) ts)
          | None => POk (B1 c) ts
          end
      | _ => POk (B1 c) ts
      end)
  end
with parse_logic (n : nat) (ts : list token) {struct n} : pres logic :=
  match n with O => PFuel | S n =>
    pbind (parse_binary n ts) (λ b ts,
      let ts := skip ts in
      match ts with
      | Tok TOperator d :: ts' =>
          match parse_lop d with
          | Some o => pbind (parse_logic n (skip ts')) (λ l ts, POk (L2 b o l) ts)
          | None => POk (L1 b) ts
          end
      | _ => POk (L1 b) ts
      end)
  end
with parse_clause (n : nat) (ts : list token) {struct n} : pres clause :=
  match n with O => PFuel | S n =>
    pbind (parse_logic n ts) (λ l ts,
      match accept (op "[") (skip ts) with
      | None => POk (K1 l) (skip ts)
      | Some ts => pbind (parse_logic n (skip ts)) (λ c ts,
                     match accept (op "]") (skip ts) with Some ts => POk (K2 l c) ts | None => PErr end)
      end)
  end.
(** requirements.go:76-92 parse: the clauses up to the end of the tokens, or to where the
    tokeniser found an error *)
Fixpoint parse_top (n : nat) (ts : list token) : pres clauses :=
  match ts with [] => POk KNil [] | _ :: _ =>
    match n with O => PFuel | S n =>
      pbind (parse_clause n ts) (λ c ts, pbind (parse_top n (skip ts)) (λ cs ts, POk (KCons c cs) ts))
    end
  end.
(** bsub.go:28-36 ParseBsubR *)
Definition parse_bsub (s : chars) : pres clauses :=
  let ts := (tokenise s).1 in parse_top (6 * length ts + 6) (skip ts).

(** binary.go:44-72 and logic.go:39-57 *)
Definition bop_text (o : bop) : chars :=
  str match o with
      | BEquals => "=" | BNotEquals => "!=" | BDoubleEquals => "==" | BLess => " < " | BLessEqual => " <= "
      | BGreater => " > " | BGreaterEqual => " >= " | BAdd => " + " | BMultiply => " * " | BDelay => "@"
      end.
Definition lop_text (o : lop) : chars :=
  str match o with LAnd => " && " | LOr => " || " | LColon => ":" | LComma => ", " | LSlash => "/" end.
(** The toString methods: primary.go:97-131, call.go:57-65, binary.go:132-139,
    logic.go:107-114, clause.go:65-73, requirements.go:94-105 (clauses with a space
    between; an empty grouping, on which the code panics, cannot come out of the parser) *)
Fixpoint show_primary (p : primary) : chars :=
  match p with
  | PName d => d
  | PLiteral d => d
  | PParens cs => str "(" ++ show_clauses cs ++ str ")"
  | PBraces cs => str "{" ++ show_clauses cs ++ str "}"
  end
with show_call (c : call) : chars :=
  match c with C1 p => show_primary p | C2 p l => show_primary p ++ str "(" ++ show_logic l ++ str ")" end
with show_binary (b : binary) : chars :=
  match b with B1 c => show_call c | B2 c o b => show_call c ++ bop_text o ++ show_binary b end
with show_logic (l : logic) : chars :=
  match l with L1 b => show_binary b | L2 b o l => show_binary b ++ lop_text o ++ show_logic l end
with show_clause (c : clause) : chars :=
  match c with K1 l => show_logic l | K2 l c => show_logic l ++ str "[" ++ show_logic c ++ str "]" end
with show_clauses (cs : clauses) : chars :=
  match cs with
  | KNil => []
  | KCons c KNil => show_clause c
  | KCons c cs => show_clause c ++ str " " ++ show_clauses cs
  end.

(** a word as a right side (binary.go:153-159) *)
Definition word (v : chars) : binary := B1 (C1 (PName v)).
(** the name a call is, if it is nothing but a name (binary.go:148) *)
Definition plain_name (c : call) : option chars := match c with C1 (PName d) => Some d | _ => None end.
(** The replace methods: call.go:67-77, binary.go:141-160, logic.go:116-122,
    clause.go:75-89. Grouped clauses are looked through, names and literals are not. *)
Fixpoint replace_primary (key : chars) (o : bop) (v : chars) (p : primary) : primary :=
  match p with
  | PName d => PName d
  | PLiteral d => PLiteral d
  | PParens cs => PParens (replace_clauses key o v cs)
  | PBraces cs => PBraces (replace_clauses key o v cs)
  end
with replace_call (key : chars) (o : bop) (v : chars) (c : call) : call :=
  match c with C1 p => C1 (replace_primary key o v p) | C2 p l => C2 (replace_primary key o v p) (replace_logic key o v l) end
with replace_binary (key : chars) (o : bop) (v : chars) (b : binary) : binary :=
  match b with
  | B1 c => B1 (replace_call key o v c)
  | B2 c o' b' => if bool_decide (plain_name c = Some key) then B2 c o (word v) else B2 c o' b'
  end
with replace_logic (key : chars) (o : bop) (v : chars) (l : logic) : logic :=
  match l with L1 b => L1 (replace_binary key o v b) | L2 b o' l => L2 (replace_binary key o v b) o' (replace_logic key o v l) end
with replace_clause (key : chars) (o : bop) (v : chars) (c : clause) : clause :=
  match c with K1 l => K1 (replace_logic key o v l) | K2 l c => K2 (replace_logic key o v l) (replace_logic key o v c) end
with replace_clauses (key : chars) (o : bop) (v : chars) (cs : clauses) : clauses :=
  match cs with KNil => KNil | KCons c cs => KCons (replace_clause key o v c) (replace_clauses key o v cs) end.
(** requirements.go:47-53: the name a section starts with *)
Definition logic_call (l : logic) : call := match l with L1 (B1 c) | L1 (B2 c _ _) | L2 (B1 c) _ _ | L2 (B2 c _ _) _ _ => c end.
Definition section (l : logic) : option chars :=
  match logic_call l with C1 (PName d) | C2 (PName d) _ => Some d | _ => None end.
(** requirements.go:63-74 ReplaceMemoryAndHosts on a section, by its name *)
Definition replace_section (name memory hosts : chars) (l : logic) : logic :=
  if bool_decide (name = str "select") then replace_logic (str "mem") BGreater memory l else
  if bool_decide (name = str "rusage") then replace_logic (str "mem") BEquals memory l else
  if bool_decide (name = str "span") then replace_logic (str "hosts") BEquals hosts l else l.
(** requirements.go:34-58 clauses: the sections that are visited *)
Definition replace_top (first : bool) (memory hosts : chars) (c : clause) : clause :=
  match c with
  | K1 l => if first then K1 (replace_section (str "select") memory hosts l) else K1 l
  | K2 l cond => match section l with Some d => K2 l (replace_section d memory hosts cond) | None => K2 l cond end
  end.
Fixpoint replace_rest (memory hosts : chars) (cs : clauses) : clauses :=
  match cs with KNil => KNil | KCons c cs => KCons (replace_top false memory hosts c) (replace_rest memory hosts cs) end.
Definition replace_memory_and_hosts (memory hosts : chars) (cs : clauses) : clauses :=
  match cs with KNil => KNil | KCons c cs => KCons (replace_top true memory hosts c) (replace_rest memory hosts cs) end.
