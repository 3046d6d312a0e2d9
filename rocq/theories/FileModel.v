(** Model of the files of a shard: the jar of a Fiver (Fiver::pickle, Fiver::unpickle,
    src/fiver.cc), the single file of a Hazel with its dictionary of blobs and its text
    (Fiver::hazel; src/owsla.cc; HazelTxt, Hazel::merge and Hazel::make, src/hazel.cc). *)
From Verif Require Import Base HopperModel ArrayDefs VectorModel Bytes CodecModel PostingModel ShardModel TokenModel TextModel HazelModel.
From Verif Require RecipeModel.

(** std::map<addr, ...>: one row for each feature, in their order. *)
Fixpoint map_put (f : Z) (p : posting) (m : index) : index :=
  match m with
  | [] => [(f, p)]
  | (g, q) :: r => if f <? g then (f, p) :: m else if f =? g then (f, p) :: r else (g, q) :: map_put f p r
  end.
(** The rows of the index of a shard as a for loop over the std::map meets them. *)
Definition in_order (ix : index) : index := fold_right (fun r m => map_put (fst r) (snd r) m) [] ix.

(** * Jars *)
Section Jar.
Variables cp cf ct : compressor.
(** fiver.cc:810-811 *)
Fixpoint write_all (l : index) : res bytes :=
  match l with
  | [] => Ok []
  | (_, s) :: r => let* b := write cp cf s in let* c := write_all r in Ok (b ++ c)
  end.
(** fiver.cc:764-814; the checks of 766-773 and failing writes are not modelled. *)
Definition pickle (w : fiver) : res bytes :=
  let n := len (f_text w) in
  let* z := crush ct (f_text w) (n + extra ct n) in
  let* ps := write_all (in_order (f_index w)) in
  Ok (word_bytes [f_start w; f_end w; n; len z] ++ z ++ ps).
(** fiver.cc:911-917: postings until there is none; each takes at least 40 bytes. *)
Fixpoint read_all (n : nat) (f : bytes) (ix : index) : res index :=
  match n with
  | O => NoFuel
  | S n =>
      let* r := posting_from_file cp cf f in
      match r with
      | None => Ok ix
      | Some (p, f) => read_all n f (map_put (feature p) p ix)
      end
  end.
(** fiver.cc:816-929; [None] is nullptr.  The reads of 866-901 stand for one read of
    four addrs.  The read of the text is not checked: a short one leaves part of the
    buffer undefined. *)
Definition unpickle (jar : bytes) : res (option fiver) :=
  match read 32 jar with
  | None => Ok None
  | Some (h, f) =>
      match words h with
      | [start; stop; n; m] =>
          let nx := n + extra ct n in
          if (nx <? 0) || (m <? 0) then UB else
          let* (z, f) := must_read m f in
          let* t := tang ct z nx in
          if (n <? 0) || (len t <? n) then UB else
          let* ix := read_all (S (length f)) f [] in
          Ok (Some (Fiver (firstn (Z.to_nat n) t) ix start stop))
      | _ => UB
      end
  end.
(** fiver.cc:919-920: storage_estimate_; an Annotation is 32 bytes (core.h:99-105). *)
Definition storage_estimate (w : fiver) : Z :=
  len (f_text w) + 32 * fold_right (fun r n => psize (snd r) + n) 0 (f_index w).
End Jar.

(** * The dictionary of blobs *)
(** owsla.cc:8, 12-14 *)
Definition file_magic : bytes := lit "#COTTONTAIL" ++ [10].
Definition dict_magic : bytes := lit "COTTONTAIL_HAZEL_BLOBS" ++ [10].
Definition txt_magic : bytes := lit "COTTONTAIL_HAZEL_TXT" ++ [10].
(** owsla.h:28-32 *)
Record blob := Blob { b_name : bytes; b_offset : Z; b_length : Z }.
(** owsla.cc:82-102 *)
Definition blob_entry (b : blob) : bytes :=
  word_bytes [len (b_name b)] ++ b_name b ++ word_bytes [b_offset b; b_length b].
Definition blob_dictionary (bs : list blob) : bytes :=
  dict_magic ++ word_bytes [len bs] ++ flat_map blob_entry bs.
(** in->read of the bytes of a magic; what is short of it is not it. *)
Definition read_magic (magic f : bytes) : option bytes :=
  if eqb_bytes (firstn (length magic) f) magic then Some (skipn (length magic) f) else None.
(** owsla.h:136-139 *)
Definition read_addr (f : bytes) : option (Z * bytes) :=
  match read 8 f with
  | Some (b, r) => match words b with [z] => Some (z, r) | _ => None end
  | None => None
  end.
(** hazel.cc:94-98: getline until an empty line; the rest of the file. *)
Fixpoint skip_lines (s line : bytes) : option bytes :=
  match s with
  | [] => None
  | c :: r => if c =? 10 then match line with [] => Some r | _ => skip_lines r [] end
              else skip_lines r (c :: line)
  end.
(** hazel.cc:85-99 *)
Definition skip_dna (file : bytes) : option bytes :=
  match read_magic file_magic file with None => None | Some f => skip_lines f [] end.
(** hazel.cc:123-139; [None] is false.  A name longer than the rest of the file is an
    error here; std::string may also fail to make it.  The map keeps the last blob of
    each name. *)
Fixpoint read_blobs (n : nat) (count : Z) (f : bytes) (m : list (bytes * blob)) : res (option (list (bytes * blob))) :=
  if count <=? 0 then Ok (Some m) else
  match n with
  | O => NoFuel
  | S n =>
      match read_addr f with
      | None => Ok None
      | Some (k, f) =>
          if k <? 0 then Ok None else
          match read k f with
          | None => Ok None
          | Some (name, f) =>
              match read_addr f with
              | None => Ok None
              | Some (o, f) =>
                  match read_addr f with
                  | None => Ok None
                  | Some (l, f) =>
                      if (o <? 0) || (l <? 0) then Ok None
                      else read_blobs n (count - 1) f (RecipeModel.put name (Blob name o l) m)
                  end
              end
          end
      end
  end.
Definition read_blob_list (f : bytes) : res (option (list (bytes * blob))) :=
  match read_magic dict_magic f with
  | None => Ok None
  | Some f =>
      match read_addr f with
      | None => Ok None
      | Some (count, f) => if count <? 0 then Ok None else read_blobs (S (length f)) count f []
      end
  end.
(** hazel.cc:101-141 *)
Definition read_blob_dictionary (file : bytes) : res (option (list (bytes * blob))) :=
  match skip_dna file with None => Ok None | Some f => read_blob_list f end.
(** warren.cc:72-113: the DNA of a single file. *)
Fixpoint dna_lines (s line : bytes) : option bytes :=
  match s with
  | [] => None
  | c :: r => if c =? 10 then
                match line with
                | [] => Some []
                | _ => match dna_lines r [] with Some d => Some (rev line ++ [10] ++ d) | None => None end
                end
              else dna_lines r (c :: line)
  end.
Definition burrow_dna (file : bytes) : option bytes :=
  match read_magic file_magic file with None => None | Some f => dna_lines f [] end.

(** * Text blobs *)
(** hazel.cc:1070: the magic and five addrs. *)
Definition txt_header_length : Z := len txt_magic + 40.
(** owsla.h:40-43 *)
Record tentry := Tentry { te_raw : Z; te_comp : Z }.
Definition tentry_bytes (e : tentry) : bytes := word_bytes [te_raw e; te_comp e].
Definition tdir_bytes (d : list tentry) : bytes := flat_map tentry_bytes d.

Section Text.
(** The text compressor, Tokenizer::skip and the feature of text_chunk_tag. *)
Variable ct : compressor.
Variable skip : bytes -> Z -> Z.

(** fiver.cc:1039-1082; [None] is false.  [out] is the stream so far. *)
Definition write_text_chunk (space_start : Z) (text : bytes) (raw_start raw_length : Z) (out : bytes) (dir : list tentry) :
  res (option (bytes * list tentry)) :=
  if raw_length <=? 0 then Ok (Some (out, dir)) else
  let available := raw_length + extra ct raw_length in
  let* z := crush ct (slice text raw_start raw_length) available in
  if available <? len z then Ok None else
  let out := out ++ z in
  Ok (Some (out, dir ++ [Tentry (raw_start + raw_length) (len out - space_start)])).
(** fiver.cc:1112-1134: the chunks of the hopper, from the second on. *)
Fixpoint write_groups (space_start target : Z) (text : bytes) (xs : list iv) (group : Z) (out : bytes) (dir : list tentry) :
  res (option (Z * bytes * list tentry)) :=
  match xs with
  | [] => Ok (Some (group, out, dir))
  | x :: r =>
      let raw := ivl x in
      if (raw <? 0) || (len text <? raw) then Ok None else
      if target <=? raw - group then
        let* w := write_text_chunk space_start text group (raw - group) out dir in
        match w with
        | None => Ok None
        | Some (out, dir) => write_groups space_start target text r raw out dir
        end
      else write_groups space_start target text r group out dir
  end.
(** fiver.cc:1112-1139 *)
Definition write_text (space_start target : Z) (text : bytes) (xs : list iv) (out : bytes) : res (option (bytes * list tentry)) :=
  match xs with
  | [] => if 0 <? len text then write_text_chunk space_start text 0 (len text) out [] else Ok (Some (out, []))
  | x :: r =>
      if (ivl x <? 0) || (len text <? ivl x) then Ok None else
      let* w := write_groups space_start target text r (ivl x) out [] in
      match w with
      | None => Ok None
      | Some (group, out, dir) => write_text_chunk space_start text group (len text - group) out dir
      end
  end.
(** fiver.cc:1112-1114: tau(minfinity + 1), then tau(p + 1) until maxfinity. *)
Definition enum_all (C : hcls) (s : St C) : res (list iv) :=
  let* (s0, x0) := h_tau C s (minf + 1) in
  let* l := loop (fun '(s, x, acc) =>
          if ip x <? maxf then
            let* k1 := chk (ip x + 1) in
            let* (s', x') := h_tau C s k1 in Ok (inl (s', x', x :: acc))
          else Ok (inr acc)) (s0, x0, []) in
  Ok (rev l).
(** fiver.cc:1084-1161: the stream, the start and the length of the blob; [None] is
    false.  The hopper is read before anything is written: the order cannot be seen. *)
Definition write_txt_blob (out : bytes) (o : hobj) (text : bytes) (target : Z) : res (option (bytes * Z * Z)) :=
  let start := len out in
  let out := out ++ txt_magic ++ word_bytes [0; 0; 0; len text; target] in
  let space_start := len out in
  let* xs := enum_all (projT1 o) (projT2 o) in
  let* w := write_text space_start target text xs out in
  match w with
  | None => Ok None
  | Some (out, dir) =>
      let offset := len out - space_start in
      let out2 := out ++ tdir_bytes dir in
      let length := len out2 - len out in
      Ok (Some (patch out2 (start + len txt_magic) (word_bytes [offset; length; len dir; len text; target]),
                start, len out2 - start))
  end.

(** * HazelTxt *)
(** hazel.cc:1237-1251, without the cache, the hopper and the objects of Section
    variables. *)
Record htxt := Htxt {
  ht_file : bytes;
  ht_start : Z;      (* chunk_space_start_ *)
  ht_raw : Z;        (* raw_text_length_ *)
  ht_target : Z;     (* target_chunk_size_ *)
  ht_map : list tentry;
  ht_first : Z;      (* token_start_ *)
  ht_last : Z        (* token_end_ *) }.
(** What calls change: the hopper, and cache_ (what is present). *)
Definition tstate : Type := (hobj * list (option bytes))%type.

(** The entries in the words of the directory. *)
Fixpoint pairs_of (l : list Z) : list tentry :=
  match l with a :: b :: r => Tentry a b :: pairs_of r | _ => [] end.
(** hazel.cc:1119-1134: the check of each entry against the one before. *)
Fixpoint chunks_bounded (raw comp hi : Z) (d : list tentry) : bool :=
  match d with
  | [] => true
  | e :: r => (raw <=? te_raw e) && (comp <=? te_comp e) && (te_comp e <=? hi) && chunks_bounded (te_raw e) (te_comp e) hi r
  end.
Definition tlast (d : list tentry) : option tentry := match rev d with [] => None | e :: _ => Some e end.
(** hazel.cc:1068-1145: the text without its range of tokens; [None] is false.  The
    first entry is checked against 0. *)
Definition txt_load (file : bytes) (offset length : Z) : res (option htxt) :=
  if length <? txt_header_length then Ok None else
  match file_read file offset txt_header_length with
  | None => Ok None
  | Some h =>
      if negb (eqb_bytes (firstn (Z.to_nat (len txt_magic)) h) txt_magic) then Ok None else
      match words (skipn (Z.to_nat (len txt_magic)) h) with
      | [doff; dlen; dcount; raw; target] =>
          let space := length - txt_header_length in
          let* m := if (doff <? 0) || (dlen <? 0) || (dcount <? 0) || (raw <? 0) || (target <=? 0) then Ok 0 else chk (dcount * 16) in
          if (doff <? 0) || (dlen <? 0) || (dcount <? 0) || (raw <? 0) || (target <=? 0) ||
             negb (dlen =? m) || (space <? doff) || (space - doff <? dlen) then Ok None else
          if dcount =? 0 then
            Ok (if negb (raw =? 0) || negb (dlen =? 0) || negb (doff =? 0) then None
                else Some (Htxt file (offset + txt_header_length) raw target [] maxf maxf))
          else
          match file_read file (offset + txt_header_length + doff) dlen with
          | None => Ok None
          | Some b =>
              let d := pairs_of (words b) in
              if negb (chunks_bounded 0 0 doff d) then Ok None else
              match tlast d with
              | None => UB
              | Some e =>
                  Ok (if negb (te_raw e =? raw) || negb (te_comp e =? doff) then None
                      else Some (Htxt file (offset + txt_header_length) raw target d maxf maxf))
              end
          end
      | _ => UB
      end
  end.
(** hazel.cc:1147-1164 *)
Definition load_token_range (t : htxt) (o : hobj) : res (htxt * hobj) :=
  let with_range p q := Htxt (ht_file t) (ht_start t) (ht_raw t) (ht_target t) (ht_map t) p q in
  let* (s1, x) := h_tau (projT1 o) (projT2 o) (minf + 1) in
  if ip x =? maxf then Ok (with_range maxf maxf, existT _ (projT1 o) s1) else
  let* (s2, y) := h_uat (projT1 o) s1 (maxf - 1) in
  Ok (if iq y <? ip x then with_range maxf maxf else with_range (ip x) (iq y), existT _ (projT1 o) s2).
(** hazel.cc:938-957: HazelTxt::make *)
Definition txt_make (file : bytes) (offset length : Z) (o : hobj) : res (option (htxt * tstate)) :=
  let* t := txt_load file offset length in
  match t with
  | None => Ok None
  | Some t => let* (t, o) := load_token_range t o in Ok (Some (t, (o, map (fun _ => None) (ht_map t))))
  end.

(** hazel.cc:1166-1175: std::upper_bound on ends that do not fall. *)
Fixpoint upper (d : list tentry) (b : Z) : nat :=
  match d with [] => O | e :: r => if b <? te_raw e then O else S (upper r b) end.
Definition chunk_containing (t : htxt) (b : Z) : nat :=
  if (b =? ht_raw t) && negb (match ht_map t with [] => true | _ => false end)
  then (length (ht_map t) - 1)%nat else upper (ht_map t) b.
(** hazel.cc:1017-1018, 1182 *)
Definition raw_before (t : htxt) (k : nat) : Z :=
  match k with O => 0 | S j => match nth_error (ht_map t) j with Some e => te_raw e | None => 0 end end.
Definition comp_before (t : htxt) (k : nat) : Z :=
  match k with O => 0 | S j => match nth_error (ht_map t) j with Some e => te_comp e | None => 0 end end.
(** replacing one element of a vector. *)
Fixpoint put_at {A} (k : nat) (x : A) (l : list A) : list A :=
  match l, k with [], _ => [] | _ :: r, O => x :: r | y :: r, S k => y :: put_at k x r end.
(** hazel.cc:1177-1209; [None] is nullptr.  [cache] is cache_; another thread that
    fills the entry meanwhile fills it with the same bytes. *)
Definition obtain (t : htxt) (k : nat) (cache : list (option bytes)) : res (list (option bytes) * option bytes) :=
  match nth_error cache k, nth_error (ht_map t) k with
  | Some (Some b), _ => Ok (cache, Some b)
  | Some None, Some e =>
      let raw := te_raw e - raw_before t k in
      let comp := te_comp e - comp_before t k in
      if (raw <? 0) || (comp <? 0) then Ok (cache, None) else
      match file_read (ht_file t) (ht_start t + comp_before t k) comp with
      | None => Ok (cache, None)
      | Some z =>
          let* b := tang ct z raw in
          if negb (len b =? raw) then Ok (cache, None) else Ok (put_at k (Some b) cache, Some b)
      end
  | _, _ => UB
  end.
(** hazel.cc:1223-1233: [n] chunks from chunk [k] on; [None] is the return of "". *)
Fixpoint gather (t : htxt) (from to : Z) (n k : nat) (cache : list (option bytes)) : res (list (option bytes) * option bytes) :=
  match n with
  | O => Ok (cache, Some [])
  | S n =>
      let* (cache, b) := obtain t k cache in
      match b with
      | None => Ok (cache, None)
      | Some b =>
          let* (lo, hi) := match nth_error (ht_map t) k with Some e => Ok (raw_before t k, te_raw e) | None => UB end in
          let s := Z.max from lo in
          let e := Z.min to hi in
          let part := if s <? e then slice b (s - lo) (e - s) else [] in
          let* (cache, r) := gather t from to n (S k) cache in
          Ok (cache, match r with Some r => Some (part ++ r) | None => None end)
      end
  end.
(** hazel.cc:1211-1235 *)
Definition raw_bytes (t : htxt) (from to : Z) (cache : list (option bytes)) : res (list (option bytes) * bytes) :=
  if (from <? 0) || (to <? from) || (ht_raw t <? to) || (from =? to) then Ok (cache, []) else
  match ht_map t with
  | [] => Ok (cache, [])
  | _ =>
      let first := chunk_containing t from in
      let last := chunk_containing t (to - 1) in
      if (length (ht_map t) <=? first)%nat || (length (ht_map t) <=? last)%nat || (last <? first)%nat then Ok (cache, []) else
      let* (cache, r) := gather t from to (last - first + 1) first cache in
      Ok (cache, match r with Some r => r | None => [] end)
  end.

(** hazel.cc:978-1050: HazelTxt::translate_.  Pointers are offsets into cover. *)
Definition hazel_translate (t : htxt) (w : tstate) (p q : Z) : res (tstate * bytes) :=
  let (o, cache) := w in
  if ht_first t =? maxf then Ok (w, []) else
  let p := if p <? ht_first t then ht_first t else p in
  let q := if ht_last t <? q then ht_last t else q in
  if (p =? maxf) || (q <? p) then Ok (w, []) else
  let* (s1, x0) := h_rho (projT1 o) (projT2 o) p in
  let o1 : hobj := existT _ (projT1 o) s1 in
  if (ip x0 =? maxf) || (q <? ip x0) then Ok ((o1, cache), []) else
  let* (s2, x1) := h_ohr (projT1 o) s1 q in
  let o2 : hobj := existT _ (projT1 o) s2 in
  if (ip x1 =? minf) || (ip x1 =? maxf) then Ok ((o2, cache), []) else
  let left := ivl x0 in
  let right := ivl x1 in
  if (left <? 0) || (ht_raw t <? left) || (right <? 0) || (ht_raw t <? right) then Ok ((o2, cache), []) else
  let beyond := iq x1 <? q in
  let cover_end := if beyond then ht_raw t else right in
  if (cover_end <? left) || (match ht_map t with [] => true | _ => false end) then Ok ((o2, cache), []) else
  let first := chunk_containing t left in
  let last := if beyond then (length (ht_map t) - 1)%nat else chunk_containing t right in
  if (length (ht_map t) <=? first)%nat || (length (ht_map t) <=? last)%nat || (last <? first)%nat then Ok ((o2, cache), []) else
  let from := raw_before t first in
  let to := raw_before t (S last) in
  if (left <? from) || (to <? cover_end) then Ok ((o2, cache), []) else
  let* (cache, cover) := raw_bytes t from to cache in
  if negb (len cover =? to - from) then Ok ((o2, cache), []) else
  let* s := if ip x0 <? p then skip_at skip cover (left - from) (p - ip x0) else Ok (left - from) in
  let p := if ip x0 <? p then p else ip x0 in
  let* e := if beyond then Ok (Some (len cover))
            else if iq x0 =? iq x1 then let* k := chk (q - p + 1) in let* e := skip_at skip cover s k in Ok (Some e)
            else if (right - from <? 0) || (len cover <? right - from) then Ok None
            else let* k := chk (q - ip x1 + 1) in let* e := skip_at skip cover (right - from) k in Ok (Some e) in
  match e with
  | None => Ok ((o2, cache), [])
  | Some e =>
      if (s <? 0) || (e <? s) || (len cover <? e) then Ok ((o2, cache), [])
      else Ok ((o2, cache), slice cover s (e - s))
  end.
(** hazel.cc:1052-1056 *)
Definition hazel_tokens (t : htxt) : res Z :=
  if ht_first t =? maxf then Ok 0 else let* n := chk (ht_last t - ht_first t) in chk (n + 1).
(** hazel.cc:1057-1066 *)
Definition hazel_range (t : htxt) : option (Z * Z) :=
  if ht_first t =? maxf then None else Some (ht_first t, ht_last t).

(** * HazelTxt::merge, hazel.cc:1254-1342 *)
(** hazel.cc:1291-1319: the chunks of one text copied; [None] is false. *)
Fixpoint copy_chunks (t : htxt) (space_start base raw comp : Z) (d : list tentry) (out : bytes) (dir : list tentry) :
  res (option (bytes * list tentry)) :=
  match d with
  | [] => Ok (Some (out, dir))
  | e :: r =>
      let n := te_comp e - comp in
      if (te_raw e - raw <? 0) || (n <? 0) then Ok None else
      match file_read (ht_file t) (ht_start t + comp) n with
      | None => Ok None
      | Some z =>
          let out := out ++ z in
          let* end_ := chk (base + te_raw e) in
          copy_chunks t space_start base (te_raw e) (te_comp e) r out (dir ++ [Tentry end_ (len out - space_start)])
      end
  end.
Fixpoint copy_texts (ts : list htxt) (space_start base : Z) (out : bytes) (dir : list tentry) : res (option (bytes * list tentry * Z)) :=
  match ts with
  | [] => Ok (Some (out, dir, base))
  | t :: r =>
      let* w := copy_chunks t space_start base 0 0 (ht_map t) out dir in
      match w with
      | None => Ok None
      | Some (out, dir) => let* base := chk (base + ht_raw t) in copy_texts r space_start base out dir
      end
  end.
(** The stream after it; [None] is false. *)
Definition merge_txt_blob (ts : list htxt) (out : bytes) : res (option bytes) :=
  match ts with
  | t0 :: _ :: _ =>
      if negb (forallb (fun t => ht_target t =? ht_target t0) ts) then Ok None else
      let start := len out in
      let out := out ++ txt_magic ++ word_bytes [0; 0; 0; 0; ht_target t0] in
      let space_start := len out in
      let* w := copy_texts ts space_start 0 out [] in
      match w with
      | None => Ok None
      | Some (out, dir, base) =>
          let offset := len out - space_start in
          let out2 := out ++ tdir_bytes dir in
          Ok (Some (patch out2 (start + len txt_magic)
                      (word_bytes [offset; len out2 - (space_start + offset); len dir; base; ht_target t0])))
      end
  | _ => Ok None
  end.
End Text.

(** * The whole file *)
Section File.
Variables cp cf ct : compressor.
Variable chunk : Z.
(** The bytes before the dictionary (fiver.cc:1235-1237, hazel.cc:1387-1389). *)
Definition file_head (dna : bytes) : bytes := file_magic ++ dna ++ [10].
(** The name of the blobs (fiver.cc:1225, hazel.cc:1374). *)
Definition named (io il to tl : Z) : list blob := [Blob (lit "idx") io il; Blob (lit "txt") to tl].
(** fiver.cc:1218-1219 *)
Definition closed_text (t : bytes) : bytes :=
  match t with [] => [] | _ => if separator (last t 0) then t else t ++ [10] end.
(** fiver.cc:1207-1263: Fiver::hazel; [None] is false.  [dna] is hazel_dna of the shard. *)
Definition hazel_file (dna : bytes) (target : Z) (w : fiver) : res (option bytes) :=
  if target <=? 0 then Ok None else
  let text := closed_text (f_text w) in
  let head := file_head dna in
  let out := head ++ blob_dictionary (named 0 0 0 0) in
  let* (out, io, il) := write_idx_blob cp cf out (in_order (f_index w)) in
  let* o := fiver_hopper (f_index w) chunk in
  let* r := write_txt_blob ct out o text target in
  match r with
  | None => Ok None
  | Some (out, to, tl) => Ok (Some (patch out (len head) (blob_dictionary (named io il to tl))))
  end.
(** hazel.cc:1371-1422, 2033-2066: the file Hazel::merge writes; [idx] is the blob
    HazelIdx::merge writes to the stream. *)
Definition merged_file (dna idx : bytes) (ts : list htxt) : res (option bytes) :=
  let head := file_head dna in
  let out := head ++ blob_dictionary (named 0 0 0 0) in
  let io := len out in
  let out := out ++ idx in
  let il := len out - io in
  let to := len out in
  let* r := merge_txt_blob ts out in
  match r with
  | None => Ok None
  | Some out =>
      let tl := len out - to in
      if tl <? 0 then Ok None else Ok (Some (patch out (len head) (blob_dictionary (named io il to tl))))
  end.
(** hazel.cc:2136-2166: opening the blobs in Hazel::make; [None] is nullptr. *)
Definition open_file (file : bytes) : res (option (hidx * htxt * tstate)) :=
  let* m := read_blob_dictionary file in
  match m with
  | None => Ok None
  | Some m =>
      match RecipeModel.get (lit "idx") m, RecipeModel.get (lit "txt") m with
      | Some i, Some t =>
          let* h := load file (b_offset i) (b_length i) in
          match h with
          | None => Ok None
          | Some h =>
              let* o := hazel_hopper cp cf h chunk in
              let* x := txt_make file (b_offset t) (b_length t) o in
              Ok (match x with None => None | Some (x, s) => Some (h, x, s) end)
          end
      | _, _ => Ok None
      end
  end.
End File.
