(** Meaning of query trees, independent of the hopper code. *)
From Verif Require Import Base Bytes HopperModel GclSpec VectorModel QueryModel.

(** The operators of the query language as set operations. *)
Definition sem_op (k : op) : (iv -> Prop) -> (iv -> Prop) -> iv -> Prop :=
  match k with
  | ONE_OF => sem_or
  | ALL_OF => sem_and
  | FOLLOWED_BY => sem_fby
  | CONTAINED_IN => sem_cin
  | CONTAINING => sem_cing
  | NOT_CONTAINED_IN => sem_nin
  | NOT_CONTAINING => sem_nct
  | _ => fun _ _ _ => False
  end.

(** The set a tree denotes when term [t] denotes [E t]; n-ary operators associate to
    the left; one operand of an n-ary operator is that operand. *)
Fixpoint meaning (E : bytes -> iv -> Prop) (e : sexpr) : iv -> Prop :=
  let (k, t, w, xs) := e in
  match k with
  | TERM => E t
  | FIXED => sem_fixed w
  | LINK => match map (meaning E) xs with [T] => sem_link T | _ => fun _ => False end
  | MATERIALIZE => match map (meaning E) xs with [T] => T | _ => fun _ => False end
  | _ => match map (meaning E) xs with
         | [] => fun _ => False
         | T :: r => fold_left (sem_op k) r T
         end
  end.

(** Trees that can be evaluated: operand counts as the parser demands, widths of at
    least one position, and operands of link and materialize fitting in memory. *)
Inductive valid (E : bytes -> iv -> Prop) : sexpr -> Prop :=
| valid_term t : valid E (SX TERM t 0 [])
| valid_fixed w : 1 <= w <= maxf -> valid E (SX FIXED [] w [])
| valid_link x : valid E x -> fits_in_memory (meaning E x) -> valid E (SX LINK [] 0 [x])
| valid_mat x : valid E x -> fits_in_memory (meaning E x) -> valid E (SX MATERIALIZE [] 0 [x])
| valid_comb k xs : k = ONE_OF \/ k = ALL_OF \/ k = FOLLOWED_BY ->
    xs <> [] -> Forall (valid E) xs -> valid E (SX k [] 0 xs)
| valid_cont k xs : k = CONTAINED_IN \/ k = CONTAINING \/ k = NOT_CONTAINED_IN \/ k = NOT_CONTAINING ->
    (2 <= length xs)%nat -> Forall (valid E) xs -> valid E (SX k [] 0 xs).

(** The index answers every term correctly: [idx t] is a view of [E t]. *)
Definition index_for (idx : bytes -> hobj) (E : bytes -> iv -> Prop) : Prop :=
  forall t, answers (projT1 (idx t)) (projT2 (idx t)) (E t).

(** Two sets with the same intervals and values. *)
Definition same (S T : iv -> Prop) : Prop := forall x, S x <-> T x.

(** Every operand of a Materialize node of the tree fits in memory. *)
Fixpoint mats_fit (E : bytes -> iv -> Prop) (e : sexpr) : Prop :=
  let (k, t, w, xs) := e in
  (k = MATERIALIZE -> Forall (fun x => fits_in_memory (meaning E x)) xs) /\
  (fix all l := match l with [] => True | x :: r => mats_fit E x /\ all r end) xs.

(** ** Printable trees *)
(** What may stand between two quotes [q]: no NUL, every [q] inside right after a
    backslash, and no backslash at the end. *)
Definition quoted_body (q : Z) (b : bytes) : Prop :=
  ~ In 0 b /\ (forall u v, b = u ++ q :: v -> exists u', u = u' ++ [92]) /\ (forall u, b <> u ++ [92]).
(** A term as written in a query: a run of term characters not starting with a quote
    character, or a quoted text. *)
Definition written_term (t : bytes) : Prop :=
  (t <> [] /\ forallb is_term_char t = true /\ is_quote_char (peek t) = false) \/
  (exists q b, is_quote_char q = true /\ quoted_body q b /\ t = q :: b ++ [q]).
(** How many operands an operator takes. *)
Definition operand_count (k : op) (n : Z) : Prop :=
  match k with
  | TERM | FIXED => n = 0
  | LINK | MATERIALIZE => n = 1
  | ONE_OF | ALL_OF | FOLLOWED_BY => 1 <= n <= 4294967295
  | CONTAINED_IN | CONTAINING | NOT_CONTAINED_IN | NOT_CONTAINING => 2 <= n <= 4294967295
  end.
(** Trees with written terms, representable widths and the right operand counts. *)
Inductive printable : sexpr -> Prop :=
| pr_term t : written_term t -> printable (SX TERM t 0 [])
| pr_fixed w : 0 <= w <= maxf -> printable (SX FIXED [] w [])
| pr_node k xs : k <> TERM -> k <> FIXED ->
    operand_count k (Z.of_nat (length xs)) ->
    Forall printable xs -> printable (SX k [] 0 xs).

(** ** Phrases *)
(** The tokens stand at consecutive positions, starting where [x] starts and ending
    where [x] ends. *)
Definition phrase_at (E : bytes -> iv -> Prop) (toks : list bytes) (x : iv) : Prop :=
  finite x /\ iq x = ip x + Z.of_nat (length toks) - 1 /\ ivl x = 0 /\
  forall i t, nth_error toks i = Some t -> exists v, E t (Iv (ip x + Z.of_nat i) (ip x + Z.of_nat i) v).
(** A term in double quotes denotes the phrase of its tokens; any other term, and a
    quoted text without tokens, denotes itself. *)
Definition phrased (E : bytes -> iv -> Prop) (split : bytes -> list bytes) (t : bytes) (x : iv) : Prop :=
  (exists p, p <> [] /\ t = 34 :: p ++ [34] /\
     match split p with [] => E t x | [u] => E u x | us => phrase_at E us x end) \/
  ((forall p, p <> [] -> t <> 34 :: p ++ [34]) /\ E t x).
(** What the index and the tokenizer must satisfy: tokens can be written as raw query
    terms, are indexed as single positions, and a text has less than 2^32 of them. *)
Definition tokens_indexed (E : bytes -> iv -> Prop) (split : bytes -> list bytes) : Prop :=
  forall p, Z.of_nat (length (split p)) <= 4294967295 /\
  forall t, In t (split p) ->
    t <> [] /\ forallb is_term_char t = true /\ is_quote_char (peek t) = false /\
    forall x, E t x -> iq x = ip x.
