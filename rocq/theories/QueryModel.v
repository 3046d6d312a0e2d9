(** Model of the query language: gcl/parse.cc, gcl/optimizer.cc and
    gcl::hopper of gcl/gcl.cc. *)
From Verif Require Import Base Bytes HopperModel VectorModel UnaryModel.

(** parse.h:21-33: enum Operator. *)
Inductive op :=
| TERM | FIXED | ONE_OF | ALL_OF | FOLLOWED_BY | CONTAINED_IN | CONTAINING
| NOT_CONTAINED_IN | NOT_CONTAINING | LINK | MATERIALIZE.
Scheme Equality for op.

(** parse.h:57-61: kind_, term_, width_, subx_.  (shared_ptr sharing is not
    observable: a node is never changed after it is built.) *)
Inductive sexpr := SX (kind : op) (term : bytes) (width : Z) (subx : list sexpr).
Definition sx_kind (e : sexpr) := let (k, _, _, _) := e in k.
Definition sx_term (e : sexpr) := let (_, t, _, _) := e in t.
Definition sx_width (e : sexpr) := let (_, _, w, _) := e in w.
Definition sx_subx (e : sexpr) := let (_, _, _, s) := e in s.
(** std::make_shared<SExpression>() value-initialises: TERM, empty term, width 0, no operands. *)
Definition sx_default : sexpr := SX TERM [] 0 [].

(** parse.cc:20-40: gcl_operator_forward. *)
Definition operator_forward : list (bytes * op) :=
  [ (lit "#", FIXED); (lit "fixed_width", FIXED);
    (lit "+", ONE_OF); (lit "one_of", ONE_OF);
    (lit "^", ALL_OF); (lit "all_of", ALL_OF);
    (lit "...", FOLLOWED_BY); (lit "<>", FOLLOWED_BY); (lit "followed_by", FOLLOWED_BY);
    (lit "<<", CONTAINED_IN); (lit "contained_in", CONTAINED_IN);
    (lit ">>", CONTAINING); (lit "containing", CONTAINING);
    (lit "!<", NOT_CONTAINED_IN); (lit "not_contained_in", NOT_CONTAINED_IN);
    (lit "!>", NOT_CONTAINING); (lit "not_containing", NOT_CONTAINING);
    (lit "@", LINK); (lit "link", LINK); (lit "materialize", MATERIALIZE) ].
Fixpoint find_op (l : list (bytes * op)) (name : bytes) : option op :=
  match l with
  | [] => None
  | (n, k) :: r => if eqb_bytes n name then Some k else find_op r name
  end.
(** parse.cc:42-53: gcl_operator_reverse. *)
Definition operator_reverse (k : op) : bytes :=
  match k with
  | TERM => [] | FIXED => lit "#" | ONE_OF => lit "+" | ALL_OF => lit "^"
  | FOLLOWED_BY => lit "..." | CONTAINED_IN => lit "<<" | CONTAINING => lit ">>"
  | NOT_CONTAINED_IN => lit "!<" | NOT_CONTAINING => lit "!>" | LINK => lit "@"
  | MATERIALIZE => lit "materialize"
  end.
(** parse.cc:55-61 *)
Definition min_operands (k : op) : Z :=
  match k with
  | TERM | FIXED => 0
  | ONE_OF | ALL_OF | FOLLOWED_BY | LINK | MATERIALIZE => 1
  | _ => 2
  end.
(** parse.cc:63-74; maxfinity converted to unsigned is 2^32-1. *)
Definition max_operands (k : op) : Z :=
  match k with TERM | FIXED => 0 | LINK | MATERIALIZE => 1 | _ => 4294967295 end.

(** parse.cc:76-88 *)
Definition is_ws (c : Z) : bool := (c =? 32) || (c =? 9).
Definition is_term_char (c : Z) : bool := negb (is_ws c) && negb (c =? 41) && negb (c =? 40) && negb (c =? 0).
Definition is_quote_char (c : Z) : bool := (c =? 34) || (c =? 39) || (c =? 96).

(** [*where]: the string is read through c_str(), so the end reads as NUL. *)
Definition peek (w : bytes) : Z := match w with c :: _ => c | [] => 0 end.
(** Advance while [f] holds, with what was passed over. *)
Fixpoint span (f : Z -> bool) (w : bytes) : bytes * bytes :=
  match w with
  | [] => ([], [])
  | c :: r => if f c then let (t, r') := span f r in (c :: t, r') else ([], w)
  end.
Definition skip_ws (w : bytes) : bytes := snd (span is_ws w).

(** parse.cc:104-108: scan to the closing quote; 92 is the backslash. *)
Fixpoint scan_quote (q : Z) (escaped : bool) (w : bytes) : bytes * bytes :=
  match w with
  | [] => ([], [])
  | c :: r => if negb (c =? 0) && (negb (c =? q) || escaped)
              then let (t, r') := scan_quote q (c =? 92) r in (c :: t, r')
              else ([], w)
  end.
(** parse.cc:97-122: a term, quoted or raw. *)
Definition parse_term (w : bytes) : bytes * option sexpr :=
  if negb (is_term_char (peek w)) then (w, None) else
  if is_quote_char (peek w) then
    let q := peek w in
    let (t, r) := scan_quote q false (tl w) in
    if negb (peek r =? q) then (r, None)
    else (skip_ws (tl r), Some (SX TERM (q :: t ++ [q]) 0 []))
  else
    let (t, r) := span is_term_char w in (skip_ws r, Some (SX TERM t 0 [])).
(** parse.cc:142-144: the width, with signed overflow undefined. *)
Fixpoint parse_width (v : Z) (ds : bytes) : res Z :=
  match ds with
  | [] => Ok v
  | c :: r => let* a := chk (10 * v) in let* b := chk (a + (c - 48)) in parse_width b r
  end.

(** parse.cc:91-176: parse_expr; [None] is *okay == false.  [parse_args] is the loop
    at 151-170, [None] being its early returns. *)
Fixpoint parse_expr (n : nat) (w : bytes) : res (bytes * option sexpr) :=
  match n with
  | O => NoFuel
  | S m =>
      let w := skip_ws w in
      if negb (peek w =? 40) then Ok (parse_term w) else
      let w := skip_ws (tl w) in
      if negb (is_term_char (peek w)) then Ok (w, None) else
      let (name, w1) := span is_term_char w in
      match find_op operator_forward name with
      | None => Ok (w, None)
      | Some FIXED =>
          let w2 := skip_ws w1 in
          let (ds, w3) := span is_digit w2 in
          match ds with
          | [] => Ok (w2, None)
          | c :: ds' =>
              let* v := parse_width (c - 48) ds' in
              let w4 := skip_ws w3 in
              Ok (w4, if peek w4 =? 41 then Some (SX FIXED [] v []) else None)
          end
      | Some k =>
          let* (w3, subx) := parse_args m (skip_ws w1) [] in
          match subx with
          | None => Ok (w3, None)
          | Some xs =>
              let size := Z.of_nat (length xs) in
              Ok (w3, if (peek w3 =? 41) && (min_operands k <=? size) && (size <=? max_operands k)
                      then Some (SX k [] 0 xs) else None)
          end
      end
  end
with parse_args (n : nat) (w : bytes) (acc : list sexpr) : res (bytes * option (list sexpr)) :=
  match n with
  | O => NoFuel
  | S m =>
      if (peek w =? 41) || (peek w =? 0) then Ok (w, Some (rev acc))
      else if peek w =? 40 then
        let* (w1, x) := parse_expr m w in
        match x with
        | Some e => if peek w1 =? 41 then parse_args m (skip_ws (tl w1)) (e :: acc) else Ok (w1, None)
        | None => Ok (w1, None)
        end
      else if is_term_char (peek w) then
        let* (w1, x) := parse_expr m w in
        parse_args m (skip_ws w1) ((match x with Some e => e | None => sx_default end) :: acc)
      else Ok (w, None)
  end.

(** parse.cc:178-188: from_string; [None] is nullptr.  (The error text is not modelled.) *)
Definition from_string (s : bytes) : res (option sexpr) :=
  let* (_, e) := parse_expr (2 * length s + 2) s in Ok e.

(** parse.cc:190-201: to_string. *)
Fixpoint to_string (e : sexpr) : bytes :=
  let (k, t, w, xs) := e in
  match k with
  | TERM => t
  | FIXED => lit "(# " ++ dec w ++ lit ")"
  | _ => lit "(" ++ operator_reverse k ++ flat_map (fun x => 32 :: to_string x) xs ++ lit ")"
  end.

Section Phrases.
(** Tokenizer::split. *)
Variable split : bytes -> list bytes.
(** parse.cc:217-223: the query text built for a phrase. *)
Definition phrase_text (terms : list bytes) : bytes :=
  lit "(>> (# " ++ dec (Z.of_nat (length terms)) ++ lit ") (..." ++
  flat_map (fun t => 32 :: t) terms ++ lit "))".
(** parse.cc:203-237: expand_phrases with its default marker, the double quote (34). *)
Fixpoint expand_phrases (e : sexpr) : res sexpr :=
  let (k, t, w, xs) := e in
  let rebuild :=
    let* ys := (fix go l := match l with
                            | [] => Ok []
                            | x :: r => let* y := expand_phrases x in let* ys := go r in Ok (y :: ys)
                            end) xs in
    Ok (SX k t w ys) in
  if op_beq k TERM && (2 <? Z.of_nat (length t)) && (peek t =? 34) && (last t 0 =? 34) then
    let phrase := removelast (tl t) in
    match split phrase with
    | [u] => Ok (SX k u 0 [])
    | u1 :: u2 :: us =>
        let* x := from_string (phrase_text (u1 :: u2 :: us)) in
        match x with Some x => Ok x | None => rebuild end
    | [] => rebuild
    end
  else rebuild.
End Phrases.

(** parse.cc:239-257: to_binary.  [nest_left] is the loop at 247-255. *)
Fixpoint nest_left (k : op) (t : bytes) (w : Z) (e : sexpr) (xs : list sexpr) : sexpr :=
  match xs with [] => e | x :: r => nest_left k t w (SX k t w [e; x]) r end.
Fixpoint to_binary (e : sexpr) : sexpr :=
  let (k, t, w, xs) := e in
  match map to_binary xs with
  | x :: y :: r => nest_left k t w (SX k t w [x; y]) r
  | ys => SX k t w ys
  end.

Section Hoppers.
(** idx->hopper(featurizer->featurize(term)): a new hopper object per call. *)
Variable idx : bytes -> hobj.
Definition bin_obj (op : hcls -> hcls -> hcls)
           (init : forall A B, St A -> St B -> St (op A B)) (l r : hobj) : hobj :=
  existT _ (op (projT1 l) (projT1 r)) (init _ _ (projT2 l) (projT2 r)).
(** parse.cc:259-329 for at most two operands, given the operands' hoppers; [None] is
    nullptr.  A nullptr operand (possible only for trees the parser rejects) is
    answered by nullptr here; the code would build a hopper that crashes when used. *)
Definition node_hopper (k : op) (t : bytes) (w : Z) (hs : list (option hobj)) : option hobj :=
  match k, hs with
  | TERM, _ => Some (idx t)
  | FIXED, _ => Some (existT _ (fixed_hopper w) (fixed_init w))
  | LINK, [Some h] => Some (existT _ (link_hopper (projT1 h)) (link_init _ (projT2 h)))
  | MATERIALIZE, [Some h] => Some (existT _ (mat_hopper (projT1 h)) (mat_init _ (projT2 h)))
  | (ONE_OF | ALL_OF | FOLLOWED_BY), [h] => h
  | ONE_OF, [Some l; Some r] => Some (bin_obj or_hopper bin_init l r)
  | ALL_OF, [Some l; Some r] => Some (bin_obj and_hopper bin_init l r)
  | FOLLOWED_BY, [Some l; Some r] => Some (bin_obj fby_hopper bin_init l r)
  | CONTAINED_IN, [Some l; Some r] => Some (bin_obj cin_hopper bin_init l r)
  | CONTAINING, [Some l; Some r] => Some (bin_obj cing_hopper bin_init l r)
  | NOT_CONTAINED_IN, [Some l; Some r] => Some (bin_obj nin_hopper bin_init l r)
  | NOT_CONTAINING, [Some l; Some r] => Some (bin_obj nct_hopper bin_init l r)
  | _, _ => None
  end.
(** to_hopper on a tree without n-ary nodes. *)
Fixpoint bin_hopper (e : sexpr) : option hobj :=
  let (k, t, w, xs) := e in node_hopper k t w (map bin_hopper xs).
Definition is_nary (k : op) (xs : list sexpr) : bool :=
  match k with TERM | FIXED | LINK | MATERIALIZE => false | _ => (2 <? Z.of_nat (length xs)) end.
(** parse.cc:259-329: to_hopper.  An n-ary node goes through to_binary (284-287), which
    leaves no n-ary node, so the call on its result is [bin_hopper]. *)
Fixpoint to_hopper (e : sexpr) : option hobj :=
  let (k, t, w, xs) := e in
  if is_nary k xs then bin_hopper (to_binary e)
  else node_hopper k t w (map to_hopper xs).

(** optimizer.cc:104-110: idx()->count(featurize(term)); FIXED costs maxfinity. *)
Variable count : bytes -> Z.
Definition cost (e : sexpr) : Z := match sx_kind e with TERM => count (sx_term e) | _ => maxf end.
(** optimizer.cc:100-102 *)
Definition is_atomic (e : sexpr) : bool :=
  match sx_kind e with TERM | FIXED => true | _ => false end.
(** optimizer.cc:81-98 *)
Fixpoint collect_atoms (e : sexpr) : option (list sexpr) :=
  match e with
  | SX ALL_OF _ _ xs =>
      match xs with
      | [] => None
      | _ => (fix go l := match l with
                          | [] => Some []
                          | x :: r => match collect_atoms x, go r with
                                      | Some a, Some b => Some (a ++ b)
                                      | _, _ => None
                                      end
                          end) xs
      end
  | _ => if is_atomic e then Some [e] else None
  end.
(** optimizer.cc:53-66: stable sort by cost.  The comparison is by (cost, index), so
    inserting each later atom after the earlier ones of equal cost is the same. *)
Fixpoint insert_atom (x : sexpr) (l : list sexpr) : list sexpr :=
  match l with
  | [] => [x]
  | y :: r => if cost y <=? cost x then y :: insert_atom x r else x :: l
  end.
Definition sort_atoms (l : list sexpr) : list sexpr := fold_left (fun s x => insert_atom x s) l [].
(** optimizer.cc:67-78 *)
Definition mat_in_container (l r c : sexpr) : sexpr :=
  SX MATERIALIZE [] 0 [SX CONTAINED_IN [] 0 [SX ALL_OF [] 0 [l; r]; c]].
(** optimizer.cc:42-79 *)
Definition rewrite_cin_all_of (e : sexpr) : sexpr :=
  match e with
  | SX CONTAINED_IN _ _ [l; c] =>
      if is_atomic c then
        match collect_atoms l with
        | Some atoms =>
            if Z.of_nat (length atoms) <? 3 then e else
            match sort_atoms atoms with
            | a0 :: a1 :: r => fold_left (fun cur a => mat_in_container cur a c) r (mat_in_container a0 a1 c)
            | _ => e
            end
        | None => e
        end
      else e
  | _ => e
  end.
(** optimizer.cc:30-40 *)
Fixpoint optimize_ (e : sexpr) : sexpr :=
  let (k, t, w, xs) := e in rewrite_cin_all_of (SX k t w (map optimize_ xs)).
(** optimizer.cc:19-24 *)
Definition optimize (enabled : bool) (e : sexpr) : sexpr := if enabled then optimize_ e else e.

(** gcl.cc:37-53: gcl::hopper; [None] is nullptr with an error text. *)
Definition gcl_hopper (enabled : bool) (split : bytes -> list bytes) (query : bytes) : res (option hobj) :=
  let* e := from_string query in
  match e with
  | None => Ok None
  | Some e => let* e1 := expand_phrases split e in Ok (to_hopper (optimize enabled e1))
  end.
End Hoppers.
