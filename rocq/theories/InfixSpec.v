(** The infix query language: what is written and what it stands for, independent
    of the scanner and parser. *)
From Verif Require Import Base Bytes QueryModel InfixModel.
Local Arguments chr s%string_scope.

(** ** Words *)
(** A word, a number, a run of the characters > < / . , any other single character,
    or a text in double quotes. *)
Inductive itok := Kw (w : bytes) | Kn (ds : bytes) | Kp (w : bytes) | Ks (c : Z) | Kq (b : bytes).
Definition written (t : itok) : bytes :=
  match t with Kw w | Kn w | Kp w => w | Ks c => [c] | Kq b => 34 :: b ++ [34] end.
Definition tok_ok (t : itok) : Prop :=
  match t with
  | Kw w => is_alpha (peek w) = true /\ forallb is_alnum w = true
  | Kn ds => ds <> [] /\ forallb is_digit ds = true
  | Kp w => w <> [] /\ forallb is_multi w = true
  | Ks c => is_space c = false /\ is_digit c = false /\ is_alpha c = false /\ is_multi c = false /\ c <> 34 /\ c <> 0
  | Kq b => ~ In 34 b /\ ~ In 0 b
  end.
(** What follows is not taken for more of the same. *)
Definition ends (t : itok) (s : bytes) : Prop :=
  match t with
  | Kw _ => is_alnum (peek s) = false
  | Kn _ => is_digit (peek s) = false
  | Kp _ => is_multi (peek s) = false
  | Ks _ | Kq _ => True
  end.
(** A text is a sequence of these with blanks anywhere between them. *)
Inductive lexes : list itok -> bytes -> Prop :=
| lx_end b : forallb is_space b = true -> lexes [] b
| lx_cons b t ts s : forallb is_space b = true -> tok_ok t -> ends t s -> lexes ts s ->
    lexes (t :: ts) (b ++ written t ++ s).

(** ** Queries *)
Inductive infix :=
| ITerm (b : bytes)
| IWidth (n : Z)
| IOf (n : Z) (xs : list infix)
| IBin (k : op) (l r : infix)
| IName (w : bytes).

(** How the operators are written. *)
Definition spellings (k : op) : list (list itok) :=
  match k with
  | CONTAINING => [[Kp (lit ">>")]; [Kp (lit ">")]; [Kw (lit "containing")]]
  | CONTAINED_IN => [[Kp (lit "<<")]; [Kp (lit "<")]; [Kw (lit "contained"); Kw (lit "in")]]
  | NOT_CONTAINING => [[Kp (lit "/>")]; [Kw (lit "not"); Kw (lit "containing")]]
  | NOT_CONTAINED_IN => [[Kp (lit "/<")]; [Kw (lit "not"); Kw (lit "contained"); Kw (lit "in")]]
  | ALL_OF => [[Ks (chr "^")]; [Kw (lit "and")]]
  | ONE_OF => [[Ks (chr "+")]; [Kw (lit "or")]]
  | FOLLOWED_BY => [[Kp (lit "<>")]; [Kp (lit "..")]; [Kp (lit "...")]; [Kp (lit "....")]]
  | _ => []
  end.
(** Numbers from 4294967290 on are read as 4294967295. *)
Definition number (ds : bytes) : Z := let v := dec_val 0 ds in if v <=? 4294967289 then v else 4294967295.

Section Grammar.
(** The words that have a definition. *)
Context (defined : bytes -> Prop).
Definition lpar := Ks (chr "("). Definition rpar := Ks (chr ")"). Definition comma := Ks (chr ",").
Definition of_word (t : itok) : Prop := t = Kw (lit "of") \/ t = Ks (chr "^").
Definition is_name (w : bytes) : Prop := w <> lit "one" /\ w <> lit "all".

Inductive atom_of : infix -> list itok -> Prop :=
| a_term b : atom_of (ITerm b) [Kq b]
| a_words ds : 1 <= number ds -> atom_of (IWidth (number ds)) [Kn ds; Kw (lit "words")]
| a_width ds : 1 <= number ds -> atom_of (IWidth (number ds)) [Ks (chr "["); Kn ds; Ks (chr "]")]
| a_some ds o xs ts : of_word o -> list_of xs ts -> number ds <= Z.of_nat (length xs) ->
    atom_of (IOf (number ds) xs) (Kn ds :: o :: lpar :: ts ++ [rpar])
| a_one o xs ts : of_word o -> list_of xs ts -> atom_of (IOf 1 xs) (Kw (lit "one") :: o :: lpar :: ts ++ [rpar])
| a_all o xs ts : of_word o -> list_of xs ts ->
    atom_of (IOf (Z.of_nat (length xs)) xs) (Kw (lit "all") :: o :: lpar :: ts ++ [rpar])
| a_name w : is_name w -> defined w -> atom_of (IName w) [Kw w]
| a_par q ts : query_of q ts -> atom_of q (lpar :: ts ++ [rpar])
with query_of : infix -> list itok -> Prop :=
| q_atom q ts : atom_of q ts -> query_of q ts
| q_bin k l r t1 t2 t3 : query_of l t1 -> In t2 (spellings k) -> atom_of r t3 ->
    query_of (IBin k l r) (t1 ++ t2 ++ t3)
with list_of : list infix -> list itok -> Prop :=
| l_one q ts : query_of q ts -> list_of [q] ts
| l_cons q xs t1 t2 : query_of q t1 -> list_of xs t2 -> list_of (q :: xs) (t1 ++ comma :: t2).

(** A line asks a query or defines a word. *)
Inductive line := Ask (q : infix) | Let (w : bytes) (q : infix).
Inductive line_of : line -> list itok -> Prop :=
| n_ask q ts : query_of q ts -> line_of (Ask q) ts
| n_let w q ts : is_name w -> query_of q ts -> line_of (Let w q) (Kw w :: Ks (chr "=") :: ts).
End Grammar.

(** ** What queries stand for *)
(** The tree of the query, [defs] being the trees of the defined words when the
    query is read.  "0 of" is any one address.  The operands of "of" are listed
    from the last to the first. *)
Fixpoint tree (defs : bytes -> option sexpr) (q : infix) : sexpr :=
  match q with
  | ITerm b => SX TERM (34 :: b ++ [34]) 0 []
  | IWidth n => SX FIXED [] n []
  | IOf n xs => if n =? 0 then SX FIXED [] 1 []
                else SX (if n =? 1 then ONE_OF else ALL_OF) [] 0 (rev (map (tree defs) xs))
  | IBin k l r => SX k [] 0 [tree defs l; tree defs r]
  | IName w => match defs w with Some e => e | None => sx_default end
  end.
(** Queries without "n of" m for n other than 0, 1 and m, and without a term that
    ends in a backslash; no list is longer than 2^32-1. *)
Fixpoint plain (q : infix) : Prop :=
  match q with
  | ITerm b => forall u, b <> u ++ [92]
  | IWidth _ | IName _ => True
  | IOf n xs => (n = 0 \/ n = 1 \/ n = Z.of_nat (length xs)) /\ Z.of_nat (length xs) <= 4294967295 /\
                (fix all l := match l with [] => True | x :: r => plain x /\ all r end) xs
  | IBin _ l r => plain l /\ plain r
  end.

(** ** Sessions: one text after the other *)
Definition define (defs : bytes -> option sexpr) (l : line) : bytes -> option sexpr :=
  match l with
  | Ask _ => defs
  | Let w q => fun x => if eqb_bytes x w then Some (tree defs q) else defs x
  end.
Definition line_plain (l : line) : Prop := match l with Ask q | Let _ q => plain q end.
(** The texts entered: a line, nothing, or something that is no line. *)
Inductive entry := Line (l : line) | Blank | Wrong.
Definition is_line (defs : bytes -> option sexpr) (l : line) (s : bytes) : Prop :=
  exists ts, lexes ts s /\ line_of (fun w => defs w <> None) l ts.
(** A wrong text here has neither a NUL nor an equals sign. *)
Fixpoint session (defs : bytes -> option sexpr) (es : list entry) (texts : list bytes) : Prop :=
  match es, texts with
  | [], [] => True
  | x :: es, s :: ss =>
      match x with
      | Line l => is_line defs l s /\ line_plain l /\ session (define defs l) es ss
      | Blank => lexes [] s /\ session defs es ss
      | Wrong => ~ In 0 s /\ ~ In (chr "=") s /\ ~ lexes [] s /\ (forall l, ~ is_line defs l s) /\ session defs es ss
      end
  | _, _ => False
  end.
(** What is reported for each: success or failure, and the tree of the query last
    asked, [None] after a definition or nothing. *)
Fixpoint reports (defs : bytes -> option sexpr) (last : option sexpr) (es : list entry) : list (bool * option sexpr) :=
  match es with
  | [] => []
  | Line (Ask q) :: es => (true, Some (tree defs q)) :: reports defs (Some (tree defs q)) es
  | Line (Let w q) :: es => (true, None) :: reports (define defs (Let w q)) None es
  | Blank :: es => (true, None) :: reports defs None es
  | Wrong :: es => (false, last) :: reports defs last es
  end.
(** A text of the s-expression language reads as the tree. *)
Definition spells (s : bytes) (e : option sexpr) : Prop :=
  match e with Some e => from_string s = Ok (Some e) | None => s = [] end.
(** infix_expression and s_expression for each text in turn. *)
Fixpoint mt_run (m : mt) (texts : list bytes) : res (list (bool * bytes)) :=
  match texts with
  | [] => Ok []
  | s :: ss =>
      let* (b, m') := infix_expression m s in
      let* outs := mt_run m' ss in
      Ok ((b, m_text m') :: outs)
  end.
