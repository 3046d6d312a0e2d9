(** Model of the names and descriptions of foragers: meadowlark/forager.cc. *)
From Verif Require Import Base Bytes RecipeModel.
Local Arguments chr s%string_scope.

(** meadowlark/forager.cc:19-28 *)
Definition forager_label (name tag : bytes) : bytes :=
  let l := (match name with [] => [] | _ => name ++ lit ":" end) ++
           (match tag with [] => [] | _ => tag ++ lit ":" end) in
  match l with [] => lit "tf-idf:" | _ => l end.

(** ** Writing *)
Definition hex (d : Z) : Z := nth (Z.to_nat d) (lit "0123456789abcdef") 0.
(** meadowlark/forager.cc:85-120 *)
Definition escaped (c : Z) : bytes :=
  if c =? 34 then [92; 34]
  else if c =? 92 then [92; 92]
  else if c =? 8 then [92; chr "b"]
  else if c =? 12 then [92; chr "f"]
  else if c =? 10 then [92; chr "n"]
  else if c =? 13 then [92; chr "r"]
  else if c =? 9 then [92; chr "t"]
  else if c <? 32 then [92; chr "u"; chr "0"; chr "0"; hex (c / 16); hex (c mod 16)]
  else [c].
(** meadowlark/forager.cc:82-122 *)
Definition quoted (s : bytes) : bytes := [34] ++ flat_map escaped s ++ [34].
(** meadowlark/forager.cc:392-401 *)
Fixpoint parameter_lines (ps : params) : bytes :=
  match ps with
  | [] => []
  | (k, v) :: r =>
      lit "    " ++ quoted k ++ lit ": " ++ quoted v ++
      match r with [] => [] | _ => [chr ","; 10] ++ parameter_lines r end
  end.
(** meadowlark/forager.cc:383-405 *)
Definition forager2json (name tag : bytes) (ps : params) : bytes :=
  [chr "{"; 10] ++ lit "  " ++ [34] ++ lit "name" ++ [34] ++ lit ": " ++ quoted name ++
  [chr ","; 10] ++ lit "  " ++ [34] ++ lit "tag" ++ [34] ++ lit ": " ++ quoted tag ++
  [chr ","; 10] ++ lit "  " ++ [34] ++ lit "parameters" ++ [34] ++ lit ": {" ++ [10] ++
  parameter_lines ps ++ [10] ++ lit "  }" ++ [10] ++ lit "}" ++ [10].

(** ** Reading: the position in the text is the text from there on *)
(** meadowlark/forager.cc:126-129 *)
Fixpoint skip_nulls (s : bytes) : bytes :=
  match s with c :: r => if c =? 0 then skip_nulls r else s | [] => [] end.
(** meadowlark/forager.cc:131-134 is [skip]; 136-147, consume and expect. *)
Definition consume (c : Z) (s : bytes) : option bytes :=
  match skip s with x :: r => if x =? c then Some r else None | [] => None end.
(** meadowlark/forager.cc:149-157 *)
Definition hexval (c : Z) : Z :=
  if (48 <=? c) && (c <=? 57) then c - 48
  else if (97 <=? c) && (c <=? 102) then 10 + (c - 97)
  else if (65 <=? c) && (c <=? 70) then 10 + (c - 65)
  else -1.
(** meadowlark/forager.cc:164-226, after the opening quote; [r] is what was read.  The
    four digits are put together by shifts, which is this sum. *)
Fixpoint string_body (s r : bytes) : option (bytes * bytes) :=
  match s with
  | [] => None
  | c :: s1 =>
      if c =? 34 then Some (r, s1)
      else if c =? 92 then
        match s1 with
        | [] => None
        | e :: s2 =>
            if e =? 34 then string_body s2 (r ++ [34])
            else if e =? 92 then string_body s2 (r ++ [92])
            else if e =? chr "/" then string_body s2 (r ++ [chr "/"])
            else if e =? chr "b" then string_body s2 (r ++ [8])
            else if e =? chr "f" then string_body s2 (r ++ [12])
            else if e =? chr "n" then string_body s2 (r ++ [10])
            else if e =? chr "r" then string_body s2 (r ++ [13])
            else if e =? chr "t" then string_body s2 (r ++ [9])
            else if e =? chr "u" then
              match s2 with
              | h0 :: h1 :: h2 :: h3 :: s3 =>
                  if (hexval h0 <? 0) || (hexval h1 <? 0) || (hexval h2 <? 0) || (hexval h3 <? 0) then None
                  else let code := 4096 * hexval h0 + 256 * hexval h1 + 16 * hexval h2 + hexval h3 in
                       string_body s3 (r ++ [if code <=? 255 then code else 63])
              | _ => None
              end
            else None
        end
      else if c <? 32 then None
      else string_body s1 (r ++ [c])
  end.
(** meadowlark/forager.cc:159-227 *)
Definition parse_string (s : bytes) : option (bytes * bytes) :=
  match skip s with c :: r => if c =? 34 then string_body r [] else None | [] => None end.

Fixpoint digits (s : bytes) : bytes :=
  match s with c :: r => if is_digit c then digits r else s | [] => [] end.
Definition some_digits (s : bytes) : option bytes :=
  match s with c :: r => if is_digit c then Some (digits r) else None | [] => None end.
Definition sign (s : bytes) : bytes :=
  match s with c :: r => if (c =? chr "-") || (c =? chr "+") then r else s | [] => [] end.
(** meadowlark/forager.cc:229-274.  A failure puts the position back, but every caller
    gives up then. *)
Definition skip_number (s : bytes) : option bytes :=
  match some_digits (sign (skip s)) with
  | None => None
  | Some s1 =>
      let s2 := match s1 with c :: r => if c =? chr "." then some_digits r else Some s1 | [] => Some s1 end in
      match s2 with
      | Some (c :: r) => if (c =? chr "e") || (c =? chr "E") then some_digits (sign r) else s2
      | _ => s2
      end
  end.
(** meadowlark/forager.cc:276-287 *)
Fixpoint after_literal (l s : bytes) : option bytes :=
  match l, s with
  | [], _ => Some s
  | x :: l', c :: s' => if c =? x then after_literal l' s' else None
  | _ :: _, [] => None
  end.
(** meadowlark/forager.cc:289-350: skip_value, and the loops of skip_array and
    skip_object (297-305, 314-327); a failed read is [None]. *)
Fixpoint skip_value (n : nat) (s : bytes) : res (option bytes) :=
  match n with
  | O => NoFuel
  | S m =>
      match skip s with
      | [] => Ok None
      | c :: r =>
          if c =? 34 then Ok (match parse_string (c :: r) with Some (_, t) => Some t | None => None end)
          else if c =? chr "{" then
            match consume (chr "}") r with Some t => Ok (Some t) | None => object_items m r end
          else if c =? chr "[" then
            match consume (chr "]") r with Some t => Ok (Some t) | None => array_items m r end
          else if c =? chr "t" then Ok (after_literal (lit "true") (c :: r))
          else if c =? chr "f" then Ok (after_literal (lit "false") (c :: r))
          else if c =? chr "n" then Ok (after_literal (lit "null") (c :: r))
          else Ok (skip_number (c :: r))
      end
  end
with array_items (n : nat) (s : bytes) : res (option bytes) :=
  match n with
  | O => NoFuel
  | S m =>
      let* v := skip_value m s in
      match v with
      | None => Ok None
      | Some s1 =>
          match consume (chr "]") s1 with
          | Some t => Ok (Some t)
          | None => match consume (chr ",") s1 with Some t => array_items m t | None => Ok None end
          end
      end
  end
with object_items (n : nat) (s : bytes) : res (option bytes) :=
  match n with
  | O => NoFuel
  | S m =>
      match parse_string s with
      | None => Ok None
      | Some (_, s1) =>
          match consume (chr ":") s1 with
          | None => Ok None
          | Some s2 =>
              let* v := skip_value m s2 in
              match v with
              | None => Ok None
              | Some s3 =>
                  match consume (chr "}") s3 with
                  | Some t => Ok (Some t)
                  | None => match consume (chr ",") s3 with Some t => object_items m t | None => Ok None end
                  end
              end
          end
      end
  end.
(** meadowlark/forager.cc:352-377: parse_parameters_object, after the brace. *)
Fixpoint parameter_items (n : nat) (s : bytes) (ps : params) : res (option (params * bytes)) :=
  match n with
  | O => NoFuel
  | S m =>
      match parse_string s with
      | None => Ok None
      | Some (k, s1) =>
          match consume (chr ":") s1 with
          | None => Ok None
          | Some s2 =>
              match parse_string s2 with
              | None => Ok None
              | Some (v, s3) =>
                  match consume (chr "}") s3 with
                  | Some t => Ok (Some (put k v ps, t))
                  | None => match consume (chr ",") s3 with Some t => parameter_items m t (put k v ps) | None => Ok None end
                  end
              end
          end
      end
  end.
Definition parse_parameters (n : nat) (s : bytes) (ps : params) : res (option (params * bytes)) :=
  match consume (chr "}") s with Some t => Ok (Some (ps, t)) | None => parameter_items n s ps end.

(** What has been read: *name, *tag, *parameters and saw_name. *)
Record description := Desc { d_name : bytes; d_tag : bytes; d_params : params; d_named : bool }.
(** meadowlark/forager.cc:434-454: what follows a key. *)
Definition member (n : nat) (key s : bytes) (d : description) : res (option (description * bytes)) :=
  if eqb_bytes key (lit "name") then
    Ok (match parse_string s with Some (v, t) => Some (Desc v (d_tag d) (d_params d) true, t) | None => None end)
  else if eqb_bytes key (lit "tag") then
    Ok (match parse_string s with Some (v, t) => Some (Desc (d_name d) v (d_params d) (d_named d), t) | None => None end)
  else if eqb_bytes key (lit "parameters") then
    match consume (chr "{") s with
    | Some t =>
        let* r := parse_parameters n t (d_params d) in
        Ok (match r with Some (ps, u) => Some (Desc (d_name d) (d_tag d) ps (d_named d), u) | None => None end)
    | None => let* r := skip_value n s in Ok (match r with Some u => Some (d, u) | None => None end)
    end
  else let* r := skip_value n s in Ok (match r with Some u => Some (d, u) | None => None end).
(** meadowlark/forager.cc:427-461 *)
Fixpoint members (n : nat) (s : bytes) (d : description) : res (option (description * bytes)) :=
  match n with
  | O => NoFuel
  | S m =>
      match parse_string s with
      | None => Ok None
      | Some (key, s1) =>
          match consume (chr ":") s1 with
          | None => Ok None
          | Some s2 =>
              let* r := member m key s2 d in
              match r with
              | None => Ok None
              | Some (d', s3) =>
                  match consume (chr "}") s3 with
                  | Some t => Ok (Some (d', t))
                  | None => match consume (chr ",") s3 with Some t => members m t d' | None => Ok None end
                  end
              end
          end
      end
  end.
(** meadowlark/forager.cc:407-485: the name, tag and parameters, or [None]. *)
Definition json2forager (json : bytes) : res (option (bytes * bytes * params)) :=
  match consume (chr "{") json with
  | None => Ok None
  | Some s =>
      let d0 := Desc [] [] [] false in
      let* r := (match consume (chr "}") s with
                 | Some t => Ok (Some (d0, t))
                 | None => members (2 * length json + 2) s d0
                 end) in
      Ok (match r with
          | None => None
          | Some (d, t) =>
              match skip_nulls (skip t) with
              | [] => if d_named d then Some (d_name d, d_tag d, d_params d) else None
              | _ => None
              end
          end)
  end.
