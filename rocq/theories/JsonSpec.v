(** Specification vocabulary for JSON (RFC 8259) and for what is stored of it. *)
From Verif Require Import Base Bytes TokenModel TextModel JsonModel Utf8Spec.

(** Section 2: whitespace. *)
Definition blank (w : bytes) : Prop := Forall (fun c => c = 32 \/ c = 9 \/ c = 10 \/ c = 13) w.
(** Section 7: the characters between the quotes of a string and what they stand for. *)
Definition hex_value (h v : Z) : Prop :=
  (48 <= h <= 57 /\ v = h - 48) \/ (65 <= h <= 70 /\ v = h - 55) \/ (97 <= h <= 102 /\ v = h - 87).
Definition hex4 (a b c d v : Z) : Prop :=
  exists x y z w, hex_value a x /\ hex_value b y /\ hex_value c z /\ hex_value d w /\ v = 4096 * x + 256 * y + 16 * z + w.
Inductive escape : Z -> Z -> Prop :=
| Esc_quote : escape 34 34 | Esc_backslash : escape 92 92 | Esc_slash : escape 47 47 | Esc_b : escape 98 8
| Esc_f : escape 102 12 | Esc_n : escape 110 10 | Esc_r : escape 114 13 | Esc_t : escape 116 9.
Inductive chars : bytes -> bytes -> Prop :=
| Chars_nil : chars [] []
| Chars_plain : forall c t s, 32 <= c -> c <> 34 -> c <> 92 -> chars t s -> chars (c :: t) (c :: s)
| Chars_escape : forall e c t s, escape e c -> chars t s -> chars (92 :: e :: t) (c :: s)
| Chars_hex : forall a b c d v t s, hex4 a b c d v -> ~ (55296 <= v < 57344) -> chars t s ->
    chars (92 :: 117 :: a :: b :: c :: d :: t) (encode_one v ++ s)
| Chars_pair : forall a b c d v a' b' c' d' v' t s, hex4 a b c d v -> 55296 <= v < 56320 -> hex4 a' b' c' d' v' -> 56320 <= v' < 57344 -> chars t s ->
    chars (92 :: 117 :: a :: b :: c :: d :: 92 :: 117 :: a' :: b' :: c' :: d' :: t)
      (encode_one (65536 + 1024 * (v - 55296) + (v' - 56320)) ++ s).
(** Section 6: numbers. *)
Definition digits (t : bytes) : Prop := t <> [] /\ Forall (fun c => 48 <= c <= 57) t.
Definition number_text (t : bytes) : Prop :=
  exists m i f e, t = m ++ i ++ f ++ e /\ (m = [] \/ m = [45]) /\ digits i /\ (hd 0 i = 48 -> i = [48]) /\
    (f = [] \/ exists x, f = 46 :: x /\ digits x) /\
    (e = [] \/ exists k g x, e = k :: g ++ x /\ (k = 69 \/ k = 101) /\ (g = [] \/ g = [43] \/ g = [45]) /\ digits x).
(** Sections 3, 4, 5: values.  [reads t v]: the text of a number and the bits of its value. *)
Section Values.
Variable reads : bytes -> Z -> Prop.
Inductive spells : bytes -> json -> Prop :=
| Sp_null : spells (lit "null") Null
| Sp_true : spells (lit "true") (Boolean true)
| Sp_false : spells (lit "false") (Boolean false)
| Sp_num : forall t v, number_text t -> reads t v -> spells t (Num v)
| Sp_str : forall t s, chars t s -> spells (34 :: t ++ [34]) (Str s)
| Sp_arr_nil : forall w, blank w -> spells (91 :: w ++ [93]) (Arr [])
| Sp_arr : forall t l, elements t l -> spells (91 :: t ++ [93]) (Arr l)
| Sp_obj_nil : forall w, blank w -> spells (123 :: w ++ [125]) (Obj [])
| Sp_obj : forall t l, members t l -> spells (123 :: t ++ [125]) (Obj l)
with elements : bytes -> list json -> Prop :=
| El_one : forall w t w' x, blank w -> blank w' -> spells t x -> elements (w ++ t ++ w') [x]
| El_more : forall w t w' x u l, blank w -> blank w' -> spells t x -> elements u l -> elements ((w ++ t ++ w') ++ 44 :: u) (x :: l)
with members : bytes -> list (bytes * json) -> Prop :=
| Mem_one : forall w k key w1 w2 t w' x, blank w -> blank w1 -> blank w2 -> blank w' -> chars k key -> spells t x ->
    members ((w ++ 34 :: k ++ [34]) ++ w1 ++ 58 :: w2 ++ t ++ w') [(key, x)]
| Mem_more : forall w k key w1 w2 t w' x u l, blank w -> blank w1 -> blank w2 -> blank w' -> chars k key -> spells t x -> members u l ->
    members (((w ++ 34 :: k ++ [34]) ++ w1 ++ 58 :: w2 ++ t ++ w') ++ 44 :: u) ((key, x) :: l).
End Values.

(** Strings that can be stored: well-formed UTF-8, no control characters, and none of the
    ten codepoints FDD0 to FDD9 the store uses for itself. *)
Definition clean_string (s : bytes) : Prop :=
  exists cs, s = encode cs /\ Forall (fun c => 32 <= c < 2097152 /\ ~ (64976 <= c <= 64985)) cs.
Inductive clean (reads : bytes -> Z -> Prop) (to_string : Z -> bytes) : json -> Prop :=
| Clean_null : clean reads to_string Null
| Clean_bool : forall b, clean reads to_string (Boolean b)
| Clean_num : forall v, number_text (to_string v) -> reads (to_string v) v -> v <> minf -> clean reads to_string (Num v)
| Clean_str : forall s, clean_string s -> clean reads to_string (Str s)
| Clean_arr : forall l, Forall (clean reads to_string) l -> clean reads to_string (Arr l)
| Clean_obj : forall l, Forall (fun m => clean_string (fst m) /\ clean reads to_string (snd m)) l -> clean reads to_string (Obj l).

(** [inside j path u p]: [u] is the value at path [p] in [j], which is itself at [path];
    [member_of j path u key]: [u] is a member of an object in [j] and [key] its name. *)
Inductive inside : json -> bytes -> json -> bytes -> Prop :=
| In_here : forall j path, inside j path j path
| In_element : forall l path i x u p, nth_error l i = Some x ->
    inside x (path ++ lit "[" ++ dec (Z.of_nat i) ++ lit "]:") u p -> inside (Arr l) path u p
| In_member : forall l path key x u p, In (key, x) l -> inside x (path ++ key ++ lit ":") u p -> inside (Obj l) path u p.
Definition member_of (j : json) (path : bytes) (u : json) (key : bytes) : Prop :=
  exists l p, inside j path (Obj l) p /\ In (key, u) l.

(** [double_of n y]: [y] is the bits of the IEEE double [n]; [carried u y]: [y] is what the
    annotation of [u] carries: the value of a number, 1 for true, not a number for null, the
    number of elements of an array, and 0 for the rest.  (Doubles hold sizes below 2^53.) *)
Definition double_of (n y : Z) : Prop :=
  (n = 0 /\ y = 0) \/
  exists e m, 0 <= e /\ 0 <= m < 2 ^ 52 /\ y = (1023 + e) * 2 ^ 52 + m /\ n * 2 ^ 52 = (2 ^ 52 + m) * 2 ^ e.
Definition carried (u : json) (y : Z) : Prop :=
  match u with
  | Null => exists m, 0 < m < 2 ^ 52 /\ y = 2047 * 2 ^ 52 + m
  | Boolean true => double_of 1 y
  | Num v => y = v
  | Arr l => Z.of_nat (length l) < 2 ^ 53 -> double_of (Z.of_nat (length l)) y
  | _ => double_of 0 y
  end.

(** The texts a value is stored as, one append each. *)
Section Pieces.
Variable to_string : Z -> bytes.
Fixpoint pieces (j : json) : list bytes :=
  match j with
  | Null => [lit "null"]
  | Boolean true => [lit "true"]
  | Boolean false => [lit "false"]
  | Num v => [open_number ++ to_string v ++ close_number]
  | Str s => [open_string ++ s ++ close_string]
  | Arr l => open_array :: (fix go (l : list json) (first : bool) : list bytes :=
      match l with
      | [] => []
      | x :: r => (if first then [] else [comma]) ++ pieces x ++ go r false
      end) l true ++ [close_array]
  | Obj l => open_object :: (fix go (l : list (bytes * json)) (first : bool) : list bytes :=
      match l with
      | [] => []
      | (key, x) :: r => (if first then [] else [comma]) ++ (open_string ++ key ++ close_string ++ colon) :: pieces x ++ go r false
      end) l true ++ [close_object]
  end.
End Pieces.
(** No token, path or name of a value has the feature of text chunks. *)
Definition avoids (tokenize : bytes -> list token) (featurize : bytes -> Z) (to_string : Z -> bytes) (chunk : Z) (v : json) : Prop :=
  (forall t k, In t (pieces to_string v) -> In k (tokenize t) -> t_feature k <> chunk) /\
  (forall u p, inside v (lit ":") u p -> featurize p <> chunk) /\
  (forall u key, member_of v (lit ":") u key -> featurize (key ++ lit ":") <> chunk).
(** Values scribed one after the other in one transaction. *)
Definition scribe_all (tokenize : bytes -> list token) (chunk : Z) (featurize : bytes -> Z) (to_string : Z -> bytes) (vs : list json) (d : draft) : draft :=
  fold_left (fun d v => fst (do_json tokenize chunk featurize to_string v (lit ":") d)) vs d.
(** Every string of a value satisfies [P]. *)
Inductive strings (P : bytes -> Prop) : json -> Prop :=
| Strings_null : strings P Null
| Strings_bool : forall b, strings P (Boolean b)
| Strings_num : forall v, strings P (Num v)
| Strings_str : forall s, P s -> strings P (Str s)
| Strings_arr : forall l, Forall (strings P) l -> strings P (Arr l)
| Strings_obj : forall l, Forall (fun m => P (fst m) /\ strings P (snd m)) l -> strings P (Obj l).
(** What happens to codepoints before parsing: FDD0 to FDFF become FFFD, the replacement
    character. *)
Definition mapped (c : Z) : Z := if (64976 <=? c) && (c <=? 65023) then 65533 else c.
