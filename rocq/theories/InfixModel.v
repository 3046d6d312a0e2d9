(** Model of the infix query language: gcl/mt.cc. *)
From Verif Require Import Base Bytes QueryModel.

(** gcl/mt.cc:23-57: query nodes.  The node types CONTAINING, CONTAINED_IN,
    NOT_CONTAINING, NOT_CONTAINED_IN, BOTH_OF, ONE_OF and BEFORE are written as
    the operators of QueryModel, BOTH_OF being ALL_OF and BEFORE FOLLOWED_BY.
    The elements of an n-of-m node are a list, in the order of their links.
    Allocation and the free list (137-215, 217-287) are not modelled, so a copy
    of a tree is the tree.  PARAMETER nodes are never made. *)
Inductive mq :=
| MBin (k : op) (l r : mq)
| MOf (n : Z) (xs : list mq)
| MTerm (t : bytes)
| MFixed (n : Z).

(** gcl/mt.cc:294-314 *)
Definition mt_name (k : op) : bytes :=
  match k with
  | CONTAINING => lit ">>" | CONTAINED_IN => lit "<<"
  | NOT_CONTAINING => lit "!>" | NOT_CONTAINED_IN => lit "!<"
  | ALL_OF => lit "^" | ONE_OF => lit "+" | FOLLOWED_BY => lit "..."
  | _ => []
  end.
(** gcl/mt.cc:289-342: to_s_expression, without GCL_NULL_Q.  [i] of 320-322 is
    the length of the list, below 2^32. *)
Fixpoint to_s (q : mq) : bytes :=
  match q with
  | MBin k l r => lit "(" ++ mt_name k ++ lit " " ++ to_s l ++ lit " " ++ to_s r ++ lit ")"
  | MOf n xs =>
      let els := flat_map (fun x => lit " " ++ to_s x) xs in
      let i := Z.of_nat (length xs) in
      if n =? 0 then lit "(# 1)"
      else if n =? 1 then lit "(+" ++ els ++ lit ")"
      else if n =? i then lit "(^" ++ els ++ lit ")"
      else if n <? i then lit "(" ++ dec n ++ els ++ lit ")"
      else []
  | MTerm t => [34] ++ t ++ [34]
  | MFixed n => lit "(# " ++ dec n ++ lit ")"
  end.

(** ** The scanner *)
(** gcl/mt.cc:354-358, in the C locale; bytes from 128 on are no letters (isalpha
    of a negative char is undefined; the tables of the C library answer 0). *)
Definition is_space (c : Z) : bool := (c =? 32) || (c =? 9).
Definition is_alpha (c : Z) : bool := ((65 <=? c) && (c <=? 90)) || ((97 <=? c) && (c <=? 122)).
Definition is_alnum (c : Z) : bool := is_alpha c || is_digit c.
Definition is_multi (c : Z) : bool := (c =? 62) || (c =? 60) || (c =? 47) || (c =? 46).
(** gcl/mt.cc:344-346: ssToken, the flags and the number; [rest] is the text from
    ssNext on with ssSaved put back, which each user of it does first. *)
Record scan_state := Sc { tok : bytes; is_int : bool; is_id : bool; as_int : Z; rest : bytes }.
(** gcl/mt.cc:359-361, 377-383 *)
Definition max_unsigned : Z := 4294967295.
Definition max_cvf : Z := (max_unsigned - 9) / 10.
Definition scan_int (ds : bytes) : Z :=
  fold_left (fun v c => if v <=? max_cvf then 10 * v + (c - 48) else max_unsigned) ds 0.
(** gcl/mt.cc:363-402 *)
Definition scan (w : bytes) : scan_state :=
  let w := snd (span is_space w) in
  if is_digit (peek w) then
    let (ds, r) := span is_digit w in Sc ds true false (scan_int ds) r
  else if is_alpha (peek w) then
    let (t, r) := span is_alnum w in Sc t false true 0 r
  else if is_multi (peek w) then
    let (t, r) := span is_multi w in Sc t false false 0 r
  else match w with
       | [] => Sc [] false false 0 []
       | c :: r => Sc [c] false false 0 r
       end.
Definition next (s : scan_state) : scan_state := scan (rest s).
(** gcl/mt.cc:349 *)
Definition look (s : scan_state) (t : bytes) : bool := eqb_bytes (tok s) t.
(** gcl/mt.cc:410-438: inhale and then repair: the text up to the quote, and what
    follows the quote; [None] when there is no quote. *)
Definition inhale (w : bytes) : option (bytes * bytes) :=
  let (t, r) := span (fun c => negb (c =? 34)) w in
  match r with [] => None | _ :: r' => Some (t, r') end.

(** ** The parser *)
(** gcl/mt.cc:76-80: definitions, the newest first. *)
Definition env := list (bytes * mq).
(** gcl/mt.cc:536-538 *)
Fixpoint lookup (e : env) (w : bytes) : option mq :=
  match e with
  | [] => None
  | (n, q) :: r => if eqb_bytes n w then Some q else lookup r w
  end.
(** gcl/mt.cc:584-585 *)
Fixpoint replace (e : env) (w : bytes) (q : mq) : env :=
  match e with
  | [] => []
  | (n, o) :: r => if eqb_bytes n w then (n, q) :: r else (n, o) :: replace r w q
  end.
(** GCL_SYNTAX_ERROR, or a tree ([None] is GCL_NULL_Q, after a definition), the
    definitions and the scanner.  The error texts are not modelled. *)
Inductive parsed := PErr | POk (q : option mq) (e : env) (s : scan_state).

(** gcl/mt.cc:651-692: [None] no operator, [Some None] a syntax error, else the
    type and the scanner at the last token of the operator. *)
Definition operator (s : scan_state) : option (option (op * scan_state)) :=
  if look s (lit ">>") || look s (lit ">") then Some (Some (CONTAINING, s))
  else if look s (lit "<<") || look s (lit "<") then Some (Some (CONTAINED_IN, s))
  else if look s (lit "/>") then Some (Some (NOT_CONTAINING, s))
  else if look s (lit "/<") then Some (Some (NOT_CONTAINED_IN, s))
  else if look s (lit "^") || look s (lit "and") then Some (Some (ALL_OF, s))
  else if look s (lit "+") || look s (lit "or") then Some (Some (ONE_OF, s))
  else if look s (lit "<>") || look s (lit "..") || look s (lit "...") || look s (lit "....")
       then Some (Some (FOLLOWED_BY, s))
  else if look s (lit "containing") then Some (Some (CONTAINING, s))
  else if look s (lit "contained") then
    let s1 := next s in
    if look s1 (lit "in") then Some (Some (CONTAINED_IN, s1)) else Some None
  else if look s (lit "not") then
    let s1 := next s in
    if look s1 (lit "containing") then Some (Some (NOT_CONTAINING, s1))
    else if look s1 (lit "contained") then
      let s2 := next s1 in
      if look s2 (lit "in") then Some (Some (NOT_CONTAINED_IN, s2)) else Some None
    else Some None
  else None.

(** gcl/mt.cc:452-702: parseQTerm is [atom], its loop at 484-491 [elements],
    parseQ is [query] and its loop at 650-701 [operations].  A missing tree where
    one is needed is UB here; C49_total shows that it never is. *)
Fixpoint atom (n : nat) (e : env) (top : bool) (s : scan_state) : res parsed :=
  match n with
  | O => NoFuel
  | S m =>
      if is_int s || look s (lit "one") || look s (lit "all") then
        let all := negb (is_int s) && look s (lit "all") in
        let num := if is_int s then as_int s else if look s (lit "one") then 1 else 0 in
        let s1 := next s in
        if look s1 (lit "^") || look s1 (lit "of") then
          let s2 := next s1 in
          if negb (look s2 (lit "(")) then Ok PErr else
          let* r := elements m e s2 [] in
          match r with
          | None => Ok PErr
          | Some (xs, s3) =>
              if look s3 (lit ")") then
                let s4 := next s3 in
                let count := Z.of_nat (length xs) in
                if all then Ok (POk (Some (MOf count xs)) e s4)
                else if count <? num then Ok PErr
                else Ok (POk (Some (MOf num xs)) e s4)
              else Ok PErr
          end
        else if look s1 (lit "words") then
          let s2 := next s1 in
          if (num =? 0) && negb all then Ok PErr
          else if negb (is_int s) then Ok PErr
          else Ok (POk (Some (MFixed num)) e s2)
        else Ok PErr
      else if is_id s then
        match lookup e (tok s) with
        | None =>
            if top then
              let s1 := next s in
              if look s1 (lit "=") then
                let* r := query m e false (next s1) in
                match r with
                | PErr => Ok PErr
                | POk (Some q) e' s2 => Ok (POk None ((tok s, q) :: e') s2)
                | POk None _ _ => UB
                end
              else Ok PErr
            else Ok PErr
        | Some q =>
            let s1 := next s in
            if top && look s1 (lit "=") then
              let* r := query m e false (next s1) in
              match r with
              | PErr => Ok PErr
              | POk (Some q') e' s2 => Ok (POk None (replace e' (tok s) q') s2)
              | POk None _ _ => UB
              end
            else Ok (POk (Some q) e s1)
        end
      else if look s (lit "(") then
        let* r := query m e false (next s) in
        match r with
        | PErr => Ok PErr
        | POk q e' s1 => if look s1 (lit ")") then Ok (POk q e' (next s1)) else Ok PErr
        end
      else if look s (lit "[") then
        let s1 := next s in
        if is_int s1 then
          let num := as_int s1 in
          let s2 := next s1 in
          if look s2 (lit "]") then
            if num =? 0 then Ok PErr else Ok (POk (Some (MFixed num)) e (next s2))
          else Ok PErr
        else Ok PErr
      else if look s [34] then
        match inhale (rest s) with
        | Some (t, r) => Ok (POk (Some (MTerm t)) e (scan r))
        | None => Ok PErr
        end
      else Ok PErr
  end
with elements (n : nat) (e : env) (s : scan_state) (xs : list mq) : res (option (list mq * scan_state)) :=
  match n with
  | O => NoFuel
  | S m =>
      let* r := query m e false (next s) in
      match r with
      | PErr => Ok None
      | POk (Some x) _ s1 =>
          if look s1 (lit ",") then elements m e s1 (x :: xs) else Ok (Some (x :: xs, s1))
      | POk None _ _ => UB
      end
  end
with query (n : nat) (e : env) (top : bool) (s : scan_state) : res parsed :=
  match n with
  | O => NoFuel
  | S m =>
      let* r := atom m e top s in
      match r with
      | PErr => Ok PErr
      | POk q e' s1 => operations m e' q s1
      end
  end
with operations (n : nat) (e : env) (left : option mq) (s : scan_state) : res parsed :=
  match n with
  | O => NoFuel
  | S m =>
      match operator s with
      | None => Ok (POk left e s)
      | Some None => Ok PErr
      | Some (Some (k, s1)) =>
          let* r := atom m e false (next s1) in
          match r, left with
          | PErr, _ => Ok PErr
          | POk (Some r) e' s2, Some l => operations m e' (Some (MBin k l r)) s2
          | _, _ => UB
          end
      end
  end.

(** gcl/mt.h:12-24: env_ and s_expression_. *)
Record mt := Mt { m_env : env; m_text : bytes }.
Definition mt_new : mt := Mt [] [].
(** expr.c_str() ends at the first NUL. *)
Definition c_str (s : bytes) : bytes := fst (span (fun c => negb (c =? 0)) s).
(** gcl/mt.cc:704-722, 731-744: infix_expression; a definition that is followed by
    more text is an error and stays. *)
Definition infix_expression (m : mt) (s : bytes) : res (bool * mt) :=
  let s0 := scan (c_str s) in
  if look s0 [] then Ok (true, Mt (m_env m) []) else
  let* r := query (4 * length s + 8) (m_env m) true s0 in
  match r with
  | PErr => Ok (false, m)
  | POk q e s1 =>
      if look s1 [] then Ok (true, Mt e (match q with Some q => to_s q | None => [] end))
      else Ok (false, Mt e (m_text m))
  end.
