(** recipe.cc and dna.cc: configuration text.  A C string is the list of its bytes; reading
    at the end of the list gives the terminating zero. *)
From Verif Require Import Base Bytes.

(** std::map<std::string, std::string>: key and value pairs in the order of the keys. *)
Definition params := list (bytes * bytes).
(** std::string::operator<, by unsigned bytes. *)
Fixpoint before (a b : bytes) : bool :=
  match a, b with
  | [], [] => false
  | [], _ :: _ => true
  | _ :: _, [] => false
  | x :: a', y :: b' => (x <? y) || ((x =? y) && before a' b')
  end.
(** m[key] = value *)
Fixpoint put {A} (k : bytes) (v : A) (m : list (bytes * A)) : list (bytes * A) :=
  match m with
  | [] => [(k, v)]
  | (k', v') :: r => if eqb_bytes k k' then (k, v) :: r else if before k k' then (k, v) :: m else (k', v') :: put k v r
  end.
Fixpoint get {A} (k : bytes) (m : list (bytes * A)) : option A :=
  match m with [] => None | (k', v') :: r => if eqb_bytes k k' then Some v' else get k r end.

(** isspace in the C locale.  Bytes over 127 are passed to isspace and isalpha as negative
    numbers, which glibc takes as neither. *)
Definition is_space (c : Z) : bool := (c =? 32) || ((9 <=? c) && (c <=? 13)).
(** recipe.cc:14-16 *)
Definition identifier (c : Z) : bool :=
  (c =? 45) || (c =? 95) || (c =? 46) || ((65 <=? c) && (c <=? 90)) || ((97 <=? c) && (c <=? 122)) || ((48 <=? c) && (c <=? 57)).
(** *s *)
Definition at0 (s : bytes) : Z := match s with [] => 0 | c :: _ => c end.
(** for (; isspace( *s); s++) *)
Fixpoint skip (s : bytes) : bytes := match s with c :: r => if is_space c then skip r else s | [] => [] end.
(** recipe.cc:86-91: the key and what follows. *)
Fixpoint key_of (s : bytes) : bytes * bytes :=
  match s with c :: r => if identifier c then let '(k, t) := key_of r in (c :: k, t) else ([], s) | [] => ([], []) end.
(** recipe.cc:18-32: where s stops, and what was put in *return_value (nothing on failure).
    [w] is working_value. *)
Fixpoint munch_string (s : bytes) (quote : Z) (w : bytes) : bytes * bytes :=
  match s with
  | [] => ([], [])
  | c :: r =>
      if c =? quote then (s, w) else if c =? 0 then (s, []) else
      if c =? 92 then match r with
                      | [] => ([], [])
                      | e :: r' => if negb (e =? 92) && negb (e =? quote) then (r, []) else munch_string r' quote (w ++ [e])
                      end
      else munch_string r quote (w ++ [c])
  end.
(** recipe.cc:34-64; [inq] is the quote of the inner loop, when in it. *)
Fixpoint munch_map (s : bytes) (count : Z) (inq : option Z) (w : bytes) : bytes * bytes :=
  match s with
  | [] => ([], [])
  | c :: r =>
      match inq with
      | None =>
          if (c =? 93) && negb (0 <? count) then (s, w) else if c =? 0 then (s, []) else
          if c =? 93 then munch_map r (count - 1) None (w ++ [c]) else
          if c =? 91 then munch_map r (count + 1) None (w ++ [c]) else
          if (c =? 39) || (c =? 34) then munch_map r count (Some c) (w ++ [c])
          else munch_map r count None (w ++ [c])
      | Some quote =>
          if c =? quote then munch_map r count None (w ++ [c]) else if c =? 0 then (s, []) else
          if c =? 92 then match r with
                          | [] => ([], [])
                          | e :: r' => if negb (e =? 92) && negb (e =? quote) then (r, []) else munch_map r' count inq (w ++ [e])
                          end
          else munch_map r count inq (w ++ [c])
      end
  end.
(** recipe.cc:66-71 *)
Definition munch (s : bytes) (quote : Z) : bytes * bytes := if negb (quote =? 93) then munch_string s quote [] else munch_map s 0 None [].
(** recipe.cc:122-127 *)
Definition finish (s : bytes) (m : params) : option params := if at0 (skip s) =? 0 then Some m else None.
(** recipe.cc:80-121, the loop; the first argument bounds how often it goes round. *)
Fixpoint parse_items (n : nat) (s : bytes) (m : params) : option params :=
  match n with O => None | S n' =>
    let s := skip s in
    if at0 s =? 93 then finish (tl s) m else
    if negb (identifier (at0 s)) then None else
    let '(key, s) := key_of s in
    let s := skip s in
    if negb (at0 s =? 58) then None else
    let s := skip (tl s) in
    let quote := at0 s in
    if negb (quote =? 39) && negb (quote =? 34) && negb (quote =? 91) then None else
    let quote := if quote =? 91 then 93 else quote in
    let '(s, value) := munch (tl s) quote in
    if negb (at0 s =? quote) then None else
    let value := if quote =? 93 then 91 :: value ++ [93] else value in
    let m := put key value m in
    let s := skip (tl s) in
    if at0 s =? 93 then finish (tl s) m else
    if negb (at0 s =? 44) then None else
    let s := skip (tl s) in
    if at0 s =? 93 then finish (tl s) m else parse_items n' s m
  end.
(** recipe.cc:73-79, 163-190 *)
Definition cook (recipe : bytes) : option params :=
  let s := skip recipe in if negb (at0 s =? 91) then None else parse_items (length recipe) (tl s) [].

(** recipe.cc:150-151 *)
Definition indent (depth : nat) : bytes := concat (repeat [32; 32] depth).
(** recipe.cc:142-159, with what is printed for a value (and its comma, recipe.cc:142). *)
Definition dump_map (f : bytes -> bytes) (m : params) (depth : nat) : bytes :=
  match m with
  | [] => [91; 93]
  | _ => [91; 10] ++ concat (map (fun kv => indent (S depth) ++ fst kv ++ [58] ++ f (snd kv) ++ [44; 10]) m) ++ indent depth ++ [93]
  end.
(** recipe.cc:133-140 without the comma; the first argument bounds the depth of nesting. *)
Fixpoint dump (n : nat) (value : bytes) (depth : nat) : bytes :=
  match n with
  | O => [34] ++ value ++ [34]
  | S n' => match cook value with
            | Some m => dump_map (fun v => dump n' v (S depth)) m depth
            | None => [34] ++ value ++ [34]
            end
  end.
(** recipe.cc:192-197 *)
Definition freeze (m : params) : bytes := dump_map (fun v => dump (S (length v)) v 1) m 0 ++ [10].
(** recipe.cc:199-204 *)
Definition freeze_value (value : bytes) : bytes := dump (S (length value)) value 0 ++ [44] ++ [10].

(** dna.cc:13-14 *)
Definition header : bytes := lit "# DO NOT EDIT DNA - DO NOT EDIT DNA - DO NOT EDIT DNA ".
(** std::getline until it fails: the lines; a last line needs no newline unless it is empty. *)
Fixpoint lines (s acc : bytes) : list bytes :=
  match s with
  | [] => match acc with [] => [] | _ => [rev acc] end
  | c :: r => if c =? 10 then rev acc :: lines r [] else lines r (c :: acc)
  end.
(** dna.cc:17-35: the text in the file. *)
Definition read_dna (file : bytes) : option bytes :=
  match lines file [] with
  | l :: r => if eqb_bytes l header then Some (concat (map (fun l => l ++ [32]) r)) else None
  | [] => None
  end.
(** dna.cc:37-51: the content of the file that is put in place. *)
Definition write_dna (dna : bytes) : bytes := header ++ [10] ++ dna.
Definition parameters : bytes := lit "parameters".
(** dna.cc:53-77 *)
Definition get_parameter_from_dna (file key : bytes) : option bytes :=
  match read_dna file with None => None | Some dna =>
    match cook dna with None => None | Some m =>
      match get parameters m with
      | None => Some []
      | Some p => match cook p with None => None | Some m' => match get key m' with None => Some [] | Some v => Some v end end
      end
    end
  end.
(** dna.cc:79-99: the new file. *)
Definition set_parameter_in_dna (file key value : bytes) : option bytes :=
  match read_dna file with None => None | Some dna =>
    match cook dna with None => None | Some m =>
      match (match get parameters m with None => Some [] | Some p => cook p end) with
      | None => None
      | Some ps => Some (write_dna (freeze (put parameters (freeze (put key value ps)) m)))
      end
    end
  end.
