(** Model of fast ids: src/fastid_txt.h and src/fastid_txt.cc. *)
From Verif Require Import Base Bytes HopperModel VectorModel CodecModel.

(** * Writing *)
(** src/fastid_txt.cc:177-180: hopper, its last answer, and the ids so far. *)
Definition ids_body (C : hcls) (s : St C * iv * list iv) : res ((St C * iv * list iv) + list iv) :=
  let '(h, x, l) := s in
  if ip x <? maxf then
    let* k := chk (ip x + 1) in
    let* (h', y) := h_tau C h k in
    Ok (inl (h', y, l ++ [x]))
  else Ok (inr l).
Definition ids_of (C : hcls) (c : St C) : res (list iv) :=
  let* (h, x) := h_tau C c (minf + 1) in
  loop (ids_body C) (h, x, []).

(** What strcpy copies. *)
Fixpoint cstr (t : bytes) : bytes :=
  match t with [] => [] | c :: r => if c =? 0 then [] else c :: cstr r end.
(** src/fastid_txt.cc:196-202: what the text buffer, which held [junk], holds of an id whose
    text starts at offset [at_].  The final NUL of a text without another is overwritten
    by the next text, or stands past the end. *)
Definition slot (junk : Z -> Z) (at_ : Z) (t : bytes) : bytes :=
  let s := cstr t in
  if Nat.eqb (length s) (length t) then t
  else s ++ [0] ++ map (fun i => junk (at_ + Z.of_nat i)) (seq (S (length s)) (length t - S (length s))).
Fixpoint laid (junk : Z -> Z) (at_ : Z) (ts : list bytes) : bytes :=
  match ts with [] => [] | t :: r => slot junk at_ t ++ laid junk (at_ + len t) r end.
(** src/fastid_txt.cc:181-185: the offsets. *)
Fixpoint offsets (at_ : Z) (ts : list bytes) : list Z :=
  match ts with [] => [] | t :: r => at_ :: offsets (at_ + len t) r end.
(** src/fastid_txt.cc:22-40, compressed_write: the size and the compressed bytes. *)
Definition compressed (c : compressor) (b : bytes) : res bytes :=
  let* z := crush c b (len b + extra c (len b)) in Ok (addr_bytes (len z) ++ z).
(** src/fastid_txt.cc:186-237: the file.  [tc] is the compressor of get_text_compressor;
    writing to the file does not fail here. *)
Definition fastid_file (tc : compressor) (junk : Z -> Z) (translate : Z -> Z -> bytes) (ids : list iv) : res bytes :=
  let ts := map (fun x => translate (ip x) (iq x)) ids in
  let n := len (concat ts) in
  let* bp := compressed post_compressor (word_bytes (map ip ids)) in
  let* bq := compressed post_compressor (word_bytes (map iq ids)) in
  let* bo := compressed post_compressor (word_bytes (offsets 0 ts)) in
  let* bt := compressed tc (laid junk 0 ts) in
  Ok (addr_bytes n ++ addr_bytes (len ids) ++ bp ++ bq ++ bo ++ bt).
(** src/fastid_txt.cc:155-245, fastid: None when it answers false.  [gcl] is the parameter
    "id"; the hopper of the query is None when it cannot be parsed.  Setting the parameter
    "fastid" at the end is in RecipeModel. *)
Definition fastid (tc : compressor) (junk : Z -> Z) (translate : Z -> Z -> bytes) (gcl : option bytes) (query : bytes -> option hobj) : res (option bytes) :=
  match gcl with
  | None => Ok None
  | Some [] => Ok None
  | Some g =>
      match query g with
      | None => Ok None
      | Some h =>
          let* ids := ids_of (projT1 h) (projT2 h) in
          let* b := fastid_file tc junk translate ids in
          Ok (Some b)
      end
  end.

(** * Reading *)
(** src/fastid_txt.h:36-39 *)
Record fast := Fast { f_n : Z; f_m : Z; f_text : bytes; f_p : list Z; f_q : list Z; f_offset : list Z }.
(** A size_t from the buffer; past its end is undefined. *)
Definition take_size (b : bytes) : res (Z * bytes) :=
  if Nat.ltb (length b) 8 then UB else Ok (le_val (firstn 8 b), skipn 8 b).
(** src/fastid_txt.cc:102-106 and the like: a size and so many bytes. *)
Definition take_field (b : bytes) : res (bytes * bytes) :=
  let* (k, b) := take_size b in
  if len b <? k then UB else Ok (firstn (Z.to_nat k) b, skipn (Z.to_nat k) b).
(** src/fastid_txt.cc:78-132, FastidTxt::make, when there is a file. *)
Definition fast_make (tc : compressor) (file : bytes) : res fast :=
  let* (n, b) := take_size file in
  let* (m, b) := take_size b in
  let* (zp, b) := take_field b in
  let* p := tang post_compressor zp (m * 8) in
  let* (zq, b) := take_field b in
  let* q := tang post_compressor zq (m * 8) in
  let* (zo, b) := take_field b in
  let* o := tang post_compressor zo (m * 8) in
  let* (zt, b) := take_field b in
  let* t := tang tc zt n in
  Ok (Fast n m t (words p) (words q) (words o ++ [n])).
(** What an int makes of an addr. *)
Definition to_int (z : Z) : Z := (z + 2147483648) mod 4294967296 - 2147483648.
Definition at_index (a : list Z) (i : Z) : res Z :=
  if i <? 0 then UB else match nth_error a (Z.to_nat i) with Some x => Ok x | None => UB end.
(** src/fastid_txt.cc:54-66, search_addr. *)
Fixpoint search (n : nat) (a : list Z) (l h value : Z) : res Z :=
  match n with
  | O => NoFuel
  | S n =>
      if l <=? h then
        let m := to_int (l + (h - l) / 2) in
        let* x := at_index a m in
        if x =? value then Ok m else if value <? x then search n a l (m - 1) value else search n a (m + 1) h value
      else Ok (-1)
  end.
(** src/fastid_txt.cc:144-151, translate_; [translate] is that of the wrapped text. *)
Definition fast_translate (translate : Z -> Z -> bytes) (f : fast) (p q : Z) : res bytes :=
  let* w := search (S (length (f_p f))) (f_p f) 0 (f_m f - 1) p in
  if w =? -1 then Ok (translate p q)
  else
    let* x := at_index (f_q f) w in
    if x =? q then
      let* a := at_index (f_offset f) w in
      let* b := at_index (f_offset f) (w + 1) in
      if (a <? 0) || (b <? a) || (len (f_text f) <? b) then UB
      else Ok (firstn (Z.to_nat (b - a)) (skipn (Z.to_nat a) (f_text f)))
    else Ok (translate p q).
(** src/txt.h:48: raw_ is not defined by FastidTxt, so raw asks translate_. *)
Definition fast_raw := fast_translate.
