(** Model of src/json.cc and JsonTxt (src/json_txt.cc): storing JSON values as text, and
    turning stored text back into JSON. *)
From Verif Require Import Base Bytes CodecModel TokenModel TextModel.

(** A parsed value (nlohmann::json).  An object is its members in the order of the
    iterator; [Num v] is a number by the bits of the fval it is converted to. *)
Inductive json :=
| Null
| Boolean (b : bool)
| Num (v : Z)
| Str (s : bytes)
| Arr (l : list json)
| Obj (l : list (bytes * json)).

(** json.h:12-25 *)
Definition open_object : bytes := [239; 183; 144].
Definition close_object : bytes := [239; 183; 145].
Definition open_array : bytes := [239; 183; 146].
Definition close_array : bytes := [239; 183; 147].
Definition open_string : bytes := [239; 183; 148].
Definition close_string : bytes := [239; 183; 149].
Definition colon : bytes := [239; 183; 150].
Definition comma : bytes := [239; 183; 151].
Definition open_number : bytes := [239; 183; 152].
Definition close_number : bytes := [239; 183; 153].

(** A C string: [s] up to the first NUL.  A char of 128 or more is negative. *)
Definition char (c : Z) : Z := if c <? 128 then c else c - 256.

(** json.cc:129-146, from state [state] on. *)
Fixpoint noncharacters_from (s : bytes) (state : Z) : bool :=
  match s with
  | [] => false
  | c :: r =>
      if c =? 0 then false
      else if state =? 0 then noncharacters_from r (if c =? 239 then 1 else 0)
      else if state =? 1 then noncharacters_from r (if c =? 183 then 2 else 0)
      else if (char 144 <=? char c) || (char c <=? char 175) then true
      else noncharacters_from r 0
  end.
Definition contains_noncharacters (s : bytes) : bool := noncharacters_from s 0.
(** json.cc:148-151 *)
Definition noncharacter_next (s : bytes) : bool :=
  match s with
  | a :: b :: c :: _ => (a =? 239) && (b =? 183) && negb (c =? 0) && ((char 144 <=? char c) || (char 175 <=? char c))
  | _ => false
  end.
(** json.cc:153-165; [k] bytes are still to be passed over. *)
Fixpoint sanitize_from (s : bytes) (k : nat) : bytes :=
  match s with
  | [] => []
  | c :: r =>
      match k with
      | S k => sanitize_from r k
      | O => if c =? 0 then []
             else if noncharacter_next s then [239; 191; 189] ++ sanitize_from r 2
             else c :: sanitize_from r 0
      end
  end.
Definition sanitize (s : bytes) : bytes := sanitize_from s 0.
(** json.cc:173-176: the text that is parsed. *)
Definition prepared (s : bytes) : bytes := if contains_noncharacters s then sanitize s else s.

(** The bits of NAN, 1.0, 0.0 and (fval)j.size() as IEEE doubles; sizes of 2^53 and more,
    which are rounded, are left out. *)
Definition nan : Z := 9221120237041090560.
Definition one : Z := 4607182418800017408.
Definition zero : Z := 0.
Definition size_value (n : Z) : Z :=
  if n =? 0 then 0 else (1023 + Z.log2 n) * 2 ^ 52 + (n - 2 ^ Z.log2 n) * 2 ^ (52 - Z.log2 n).

Section Scribe.
(** The tokenizer with its featurizer, the feature of text chunks, Featurizer::featurize
    and std::to_string of an fval. *)
Variable tokenize : bytes -> list token.
Variable chunk : Z.
Variable featurize : bytes -> Z.
Variable to_string : Z -> bytes.

(** json.cc:16-127, in the order of the calls.  append and annotate of a running
    transaction succeed (fiver.cc). *)
Definition scalar (text path : bytes) (v : Z) (d : draft) : draft * (Z * Z) :=
  let (d, pq) := append tokenize chunk text d in
  (annotate (featurize path) (fst pq) (snd pq) v d, pq).
Fixpoint do_json (j : json) (path : bytes) (d : draft) {struct j} : draft * (Z * Z) :=
  match j with
  | Null => scalar (lit "null") path nan d
  | Boolean true => scalar (lit "true") path one d
  | Boolean false => scalar (lit "false") path zero d
  | Num v => scalar (open_number ++ to_string v ++ close_number) path v d
  | Str s => scalar (open_string ++ s ++ close_string) path zero d
  | Arr l =>
      let (d, pq0) := append tokenize chunk open_array d in
      let d := (fix elements (l : list json) (index : Z) (d : draft) {struct l} : draft :=
                  match l with
                  | [] => d
                  | x :: r =>
                      let d := if index =? 0 then d else fst (append tokenize chunk comma d) in
                      let d := fst (do_json x (path ++ lit "[" ++ dec index ++ lit "]:") d) in
                      elements r (index + 1) d
                  end) l 0 d in
      let (d, pq1) := append tokenize chunk close_array d in
      (annotate (featurize path) (fst pq0) (snd pq1) (size_value (len l)) d, (fst pq0, snd pq1))
  | Obj l =>
      let (d, pq0) := append tokenize chunk open_object d in
      let d := (fix members (l : list (bytes * json)) (first : bool) (d : draft) {struct l} : draft :=
                  match l with
                  | [] => d
                  | (key, x) :: r =>
                      let d := if first then d else fst (append tokenize chunk comma d) in
                      let d := fst (append tokenize chunk (open_string ++ key ++ close_string ++ colon) d) in
                      let (d, pq) := do_json x (path ++ key ++ lit ":") d in
                      let d := annotate (featurize (key ++ lit ":")) (fst pq) (snd pq) zero d in
                      members r false d
                  end) l true d in
      let (d, pq1) := append tokenize chunk close_object d in
      (annotate (featurize path) (fst pq0) (snd pq1) zero d, (fst pq0, snd pq1))
  end.
(** json.cc:168-182; [parse] is json::parse, None when it throws. *)
Definition json_scribe (parse : bytes -> option json) (s : bytes) (d : draft) : option (draft * (Z * Z)) :=
  match parse (prepared s) with
  | Some j => Some (do_json j (lit ":") d)
  | None => None
  end.
End Scribe.

(** json.cc:193-196 *)
Definition is_next (s token : bytes) : bool :=
  match s, token with
  | a :: b :: c :: _, [x; y; z] => (a =? x) && (b =? y) && (c =? z)
  | _, _ => false
  end.
(** json.cc:203-256; [k] bytes are still to be passed over. *)
Fixpoint json_translate_from (s : bytes) (k : nat) (inside pending : bool) : bytes :=
  match s with
  | [] => []
  | c :: r =>
      match k with
      | S k => json_translate_from r k inside pending
      | O =>
          if c =? 0 then [] else
          let emit := negb (c =? 32) && negb (c =? 10) && pending in
          (if emit then [32] else []) ++
          let pending := if emit then false else pending in
          if is_next s open_object then 123 :: json_translate_from r 2 inside pending
          else if is_next s close_object then 125 :: json_translate_from r 2 inside pending
          else if is_next s open_array then 91 :: json_translate_from r 2 inside pending
          else if is_next s close_array then 93 :: json_translate_from r 2 inside pending
          else if is_next s open_string then 34 :: json_translate_from r 2 true pending
          else if is_next s close_string then 34 :: json_translate_from r 2 false pending
          else if is_next s colon then 58 :: json_translate_from r 2 inside pending
          else if is_next s comma then 44 :: json_translate_from r 2 inside pending
          else if is_next s open_number || is_next s close_number then json_translate_from r 2 inside pending
          else if c =? 10 then json_translate_from r 0 inside true
          else if inside then
            (if c =? 34 then [92; 34] else if c =? 92 then [92; 92] else [c]) ++ json_translate_from r 0 inside pending
          else c :: json_translate_from r 0 inside pending
      end
  end.
Definition json_translate (s : bytes) : bytes := json_translate_from s 0 false false.

(** json.cc:258-295: std::hex with a width of 4 and fill '0'. *)
Definition hex_digit (d : Z) : Z := if d <? 10 then 48 + d else 87 + d.
Definition encode_char (c : Z) : bytes :=
  if c =? 34 then [92; 34]
  else if c =? 92 then [92; 92]
  else if c =? 8 then [92; 98]
  else if c =? 12 then [92; 102]
  else if c =? 10 then [92; 110]
  else if c =? 13 then [92; 114]
  else if c =? 9 then [92; 116]
  else if c <? 32 then [92; 117; 48; 48; hex_digit (c / 16); hex_digit (c mod 16)]
  else [c].
Definition json_encode (s : bytes) : bytes := open_string ++ flat_map encode_char s ++ close_string.
