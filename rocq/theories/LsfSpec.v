(** What is said about the LSF scheduler, in words of its own. *)
From Coq Require Import ZArith String Ascii.
From stdpp Require Import base option strings list gmap pretty.
From Verif Require Import UtilModel BsubModel LsfModel.
Open Scope Z_scope.

(** ** Queues *)
(** what a queue is worth on a criterion: what bqueues said, and where it said nothing, one
    more than the largest it said of any queue, or a fixed number *)
Definition is_largest (l : list seen) (c : string) (v : Z) : Prop :=
  (∃ n, n ∈ l ∧ n_facts n !! c = Some v) ∧ ∀ n w, n ∈ l → n_facts n !! c = Some w → w ≤ v.
Definition unsaid (l : list seen) (c : string) (v : Z) : Prop :=
  (c = "prio" ∧ v = 0) ∨ (c = "chunk_size" ∧ v = 0) ∨ (c = "num_users" ∧ v = 10000) ∨ (c = "runlimit" ∧ v = 365 * 24 * 60 * 60) ∨
  (c ∈ ["memlimit"; "max"; "max_user"; "hosts"] ∧
    ((∃ h, is_largest l c h ∧ 0 < h ∧ v = h + 1) ∨ ((∀ n w, n ∈ l → n_facts n !! c = Some w → w ≤ 0) ∧ v = 10000000)))%string.
Definition is_worth (l : list seen) (n : seen) (c : string) (v : Z) : Prop :=
  match n_facts n !! c with Some w => v = w | None => unsaid l c v end.
Definition eight : list string := ["max_user"; "max"; "hosts"; "prio"; "chunk_size"; "num_users"; "runlimit"; "memlimit"]%string.
(** how many different values some queue has that are more, or less, than this one's *)
Definition above (us : list seen) (worth : seen → string → Z) (n : seen) (c : string) : Z :=
  Z.of_nat (length (remove_dups (filter (λ v, worth n c < v) ((λ m, worth m c) <$> us)))).
Definition below (us : list seen) (worth : seen → string → Z) (n : seen) (c : string) : Z :=
  Z.of_nat (length (remove_dups (filter (λ v, v < worth n c) ((λ m, worth m c) <$> us)))).
(** the penalty of a queue *)
Definition penalty (us : list seen) (worth : seen → string → Z) (n : seen) : Z :=
  10000 * below us worth n "chunk_size" + 18 * above us worth n "hosts" + 15 * below us worth n "num_users" +
  10 * above us worth n "max_user" + 5 * above us worth n "max" +
  below us worth n "prio" + above us worth n "runlimit" + below us worth n "memlimit".
Definition before (us : list seen) (worth : seen → string → Z) (a b : seen) : Prop :=
  penalty us worth a < penalty us worth b ∨ penalty us worth a = penalty us worth b ∧ String.leb (n_queue b) (n_queue a) = true.
(** [a] is as good as [b] on a criterion *)
Definition as_good (worth : seen → string → Z) (a b : seen) (c : string) : Prop :=
  if decide (c ∈ ["hosts"; "max_user"; "max"; "runlimit"]%string) then worth b c ≤ worth a c else worth a c ≤ worth b c.
(** [a] comes before [b] in a list *)
Definition earlier {A} (a b : A) (l : list A) : Prop := ∃ i j, l !! i = Some a ∧ l !! j = Some b ∧ (i < j)%nat.
(** well-formed output of bqueues *)
Definition good_seen (l : list seen) : Prop := NoDup (n_queue <$> l) ∧ ∀ n c v, n ∈ l → n_facts n !! c = Some v → 0 ≤ v.
Definition usable (l : list seen) : list seen := filter (λ n, n_mine n = true) l.
Definition any_order (l : list seen) (order : string → list (string * gmap string Z)) : Prop := ∀ c, order c ≡ₚ queues_of l.

(** ** Picking *)
Definition occurs_in (part s : string) : Prop := ∃ a b, s = a +:+ part +:+ b.
(** the parts of a text between commas *)
Fixpoint joined (parts : list string) : string :=
  match parts with [] => "" | [p] => p | p :: ps => p +:+ "," +:+ joined ps end%string.
Definition no_comma (s : string) : Prop := ","%char ∉ list_ascii_of_string s.
Definition parts_of (parts : list string) (s : string) : Prop := parts ≠ [] ∧ Forall no_comma parts ∧ joined parts = s.
(** a queue with limits (MB and seconds, 0 for none) suits the requirements *)
Definition suits (q : lreq) (queue : string) (memlimit runlimit : Z) : Prop :=
  (∀ parts part, r_avoid q ≠ ""%string → parts_of parts (r_avoid q) → part ∈ parts → ¬ occurs_in part queue) ∧
  (0 < memlimit → r_ram q ≤ memlimit) ∧
  (0 < runlimit → r_time q + 60 * 10 ^ 9 ≤ runlimit * 10 ^ 9).

(** the limit of a queue that is named; of one that is not known there is none *)
Definition limit_of (l : list seen) (worth : seen → string → Z) (queue c : string) (v : Z) : Prop :=
  (∃ n, n ∈ usable l ∧ n_queue n = queue ∧ v = worth n c) ∨ (¬ (∃ n, n ∈ usable l ∧ n_queue n = queue) ∧ v = 0).
Definition named_suits (l : list seen) (worth : seen → string → Z) (q : lreq) (queue : string) : Prop :=
  ∃ m r, limit_of l worth queue "memlimit" m ∧ limit_of l worth queue "runlimit" r ∧ suits q queue m r.

(** ** Jobs *)
(** a line of bjobs is about a job of ours that has not ended *)
Definition alive (stat : string) : Prop := stat ≠ "EXIT"%string ∧ stat ≠ "DONE"%string.
Definition starts_with (p s : string) : Prop := ∃ t, s = p +:+ t.
Definition shows (fields : list string) (id stat name : string) : Prop :=
  ∃ f1 f3 f4 f5 f7 rest, fields = id :: f1 :: stat :: f3 :: f4 :: f5 :: name :: f7 :: rest.
Definition job_line (prefix : string) (fields : list string) : Prop :=
  ∃ id stat name, shows fields id stat name ∧ alive stat ∧ starts_with prefix name.
Definition running_line (prefix : string) (fields : list string) : Prop :=
  ∃ id name, shows fields id "RUN" name ∧ starts_with prefix name.
(** how many lines are of a kind *)
Inductive num {A} (P : A → Prop) : list A → Z → Prop :=
  | num_nil : num P [] 0
  | num_yes x l n : P x → num P l n → num P (x :: l) (n + 1)
  | num_no x l n : ¬ P x → num P l n → num P (x :: l) n.
(** the line is about the job that bkill calls [id] *)
Definition one_of_array (name i : string) : Prop := ∃ base, name = base +:+ "[" +:+ i +:+ "]" ∧ i ≠ ""%string ∧ Forall (λ c, is_digit c = true) (list_ascii_of_string i).
Definition known_as (fields : list string) (kid : string) : Prop :=
  ∃ id stat name, shows fields id stat name ∧
    ((kid = id ∧ ∃ a, id = a +:+ "]") ∨ (¬ (∃ a, id = a +:+ "]") ∧ ∃ i, one_of_array name i ∧ kid = id +:+ "[" +:+ i +:+ "]")).
(** how many jobs bsub is asked for: of the value of -J, x or x[1-n] *)
Definition asks_for (args : list string) (n : Z) : Prop :=
  ∃ a b name, args = a ++ ["-J"; name] ++ b ∧ length b = 5%nat ∧
    ((n = 1 ∧ ¬ ∃ x y, name = x +:+ "[" +:+ y) ∨ (1 < n ∧ ∃ x, name = x +:+ "[1-" +:+ pretty n +:+ "]" ∧ ¬ ∃ y z, x = y +:+ "[" +:+ z)).
Definition asked (sub : option (list string)) (n : Z) : Prop :=
  match sub with None => n = 0 | Some args => asks_for args n end.
(** what a hash and a random string look like (hexadecimal; letters and digits) *)
Definition no_bracket (s : string) : Prop := "["%char ∉ list_ascii_of_string s.

Definition plain (hash : string → string) (random deployment : string) : Prop :=
  (∀ x, no_bracket (hash x)) ∧ no_bracket random ∧ no_bracket deployment.

(** ** Options *)
(** the options wr gives *)
Definition own_options (queue limit mb : string) : list string :=
  ["-q"; queue; "-M"; limit; "-R"; "select[mem>" +:+ mb +:+ "] rusage[mem=" +:+ mb +:+ "] span[hosts=1]"]%string.
(** the slots asked for: none are mentioned for one core or less *)
Definition slots (cores : Z) (l : list string) : Prop :=
  (cores ≤ 1000 ∧ l = []) ∨ (1000 < cores ∧ ∃ n, l = ["-n"%string; pretty n] ∧ cores ≤ 1000 * n < cores + 1000).
(** |x - y| is at most one part in 2^22 of y *)
Definition close_to (x y : Z) : Prop := Z.abs (x - y) * 2 ^ 22 ≤ y.
(** the options of the user as passed on *)
Definition passed_on (mb : string) (ws l : list string) : Prop :=
  length l = length ws ∧
  ∀ i w, ws !! i = Some w → ∃ w', l !! i = Some w' ∧
    (Nat.Even i → w' = w ∧ starts_with "-" w) ∧
    (Nat.Odd i → match ws !! pred i with
      | Some o => (o ≠ "-R"%string → w' = w) ∧
                  (o = "-R"%string → ∃ cs rest, parse_bsub (str w) = POk cs rest ∧ str w' = show_clauses (replace_memory_and_hosts (str mb) (str "1") cs))
      | None => False
      end).
(** whether bsub would take the options of the user for a small job in a queue *)
Definition valid_options (hash : string → string) (words : string → option (list string)) (random : string) (accepts : list string → bool) (queue opts : string) (v : bool) : Prop :=
  v = true ↔ ∃ ws l, words opts = Some ws ∧ passed_on "1" ws l ∧
    accepts (own_options queue "1" "1" ++ l ++ ["-J"; generateBsubName hash random "echo" "production" 1; "-o"; "/dev/null"; "-e"; "/dev/null"; "echo"]%string) = true.
