(** Model of the index of a Hazel shard on disk: the blob Fiver::hazel writes
    (src/fiver.cc), HazelIdx that answers from it, and the merge of such blobs that can
    be resumed after a crash (src/hazel.cc). *)
From Verif Require Import Base HopperModel ArrayDefs VectorModel Bytes CodecModel PostingModel ShardModel.

(** owsla.cc:12-14 *)
Definition idx_magic : bytes := lit "COTTONTAIL_HAZEL_IDX" ++ [10].
(** hazel.cc:422-424: the magic and three addrs. *)
Definition header_length : Z := len idx_magic + 24.
(** owsla.h:34-38 *)
Record entry := Entry { en_feature : Z; en_end : Z; en_val : Z }.
(** fiver.cc:1020-1024, hazel.cc:544-546 *)
Definition entry_bytes (e : entry) : bytes := word_bytes [en_feature e; en_end e; en_val e].
Definition dir_bytes (d : list entry) : bytes := flat_map entry_bytes d.

(** out->seekp(o); out->write(x): the bytes replaced (fiver.cc:1027-1030). *)
Definition patch (b : bytes) (o : Z) (x : bytes) : bytes :=
  firstn (Z.to_nat o) b ++ x ++ skipn (Z.to_nat (o + len x)) b.

(** fiver.cc:1005-1010, hazel.cc:570-577: a list of one position p with value 0.0. *)
Definition plain_at (p : posting) : res (option Z) :=
  if psize p =? 1 then
    let* x := get p 0 in
    Ok (match x with
        | Some x => if (ip x =? iq x) && fzero (ivl x) then Some (ip x) else None
        | None => None
        end)
  else Ok None.

Section Compressors.
(** The compressors of the posting factory (hazel.cc:221-231). *)
Variables cp cf : compressor.

(** * hazel_write_idx_blob, fiver.cc:983-1037 *)
(** fiver.cc:998-1017: the stream written so far and the directory. *)
Fixpoint write_rows (start : Z) (out : bytes) (ix : index) : res (bytes * list entry) :=
  match ix with
  | [] => Ok (out, [])
  | (f, p) :: r =>
      let* s := plain_at p in
      match s with
      | Some a => let* (o, d) := write_rows start out r in Ok (o, Entry f (len out - start) a :: d)
      | None =>
          let* b := write cp cf p in
          let* (o, d) := write_rows start (out ++ b) r in
          Ok (o, Entry f (len (out ++ b) - start) (psize p) :: d)
      end
  end.
(** The stream, the start and the length of the blob.  The index is a std::map: its
    rows in order of their features. *)
Definition write_idx_blob (out : bytes) (ix : index) : res (bytes * Z * Z) :=
  let start := len out in
  let* (o, d) := write_rows start (out ++ idx_magic ++ word_bytes [0; 0; 0]) ix in
  let offset := len o - start in
  let o2 := o ++ dir_bytes d in
  let length := len o2 - start - offset in
  Ok (patch o2 (start + len idx_magic) (word_bytes [offset; length; len d]), start, len o2 - start).

(** * HazelIdx *)
(** hazel.cc:56-76: HazelFile::read, and ReadGate::read, of a file that does not change. *)
Definition file_read (file : bytes) (o n : Z) : option bytes :=
  if n <? 0 then None else
  if n =? 0 then Some [] else
  if (o <? 0) || (len file <? o + n) then None else Some (slice file o n).
(** hazel.cc:409-414: the file, the place of the blob in it and the directory. *)
Record hidx := Hidx { hx_file : bytes; hx_offset : Z; hx_dir : list entry }.

(** The entries in the words of the directory. *)
Fixpoint triples (l : list Z) : list entry :=
  match l with a :: b :: c :: r => Entry a b c :: triples r | _ => [] end.
(** hazel.cc:399-404: the check of each entry against the one before. *)
Fixpoint bounded (lo hi : Z) (d : list entry) : bool :=
  match d with
  | [] => true
  | e :: r => (lo <=? en_end e) && (en_end e <=? hi) && bounded (en_end e) hi r
  end.
(** hazel.cc:358-407; [None] is false.  The first bound of an entry is the header
    length, which no entry after it can fall below. *)
Definition load (file : bytes) (offset length : Z) : res (option hidx) :=
  if length <? header_length then Ok None else
  match file_read file offset header_length with
  | None => Ok None
  | Some h =>
      if negb (eqb_bytes (firstn (Z.to_nat (len idx_magic)) h) idx_magic) then Ok None else
      match words (skipn (Z.to_nat (len idx_magic)) h) with
      | [doff; dlen; dcount] =>
          if (doff <? header_length) || (dlen <? 0) || (dcount <? 0) then Ok None else
          let* e := chk (doff + dlen) in
          if length <? e then Ok None else
          let* m := chk (dcount * 24) in
          if negb (dlen =? m) then Ok None else
          match file_read file (offset + doff) dlen with
          | None => Ok None
          | Some b =>
              let d := triples (words b) in
              Ok (if bounded header_length doff d then Some (Hidx file offset d) else None)
          end
      | _ => UB
      end
  end.

(** hazel.cc:161-172: std::lower_bound with the features below [f] first; on a
    directory where they are not all first its answer is unspecified. *)
Fixpoint below (d : list entry) (f : Z) : nat :=
  match d with [] => O | e :: r => if en_feature e <? f then S (below r f) else O end.
Definition partitioned (d : list entry) (f : Z) : bool :=
  forallb (fun e => negb (en_feature e <? f)) (skipn (below d f) d).
Definition locate (d : list entry) (f : Z) : res (option (nat * entry)) :=
  if negb (partitioned d f) then UB else
  Ok (match nth_error d (below d f) with
      | Some e => if en_feature e =? f then Some (below d f, e) else None
      | None => None
      end).
(** hazel.cc:327-329 *)
Definition start_of (d : list entry) (i : nat) : Z :=
  match i with O => header_length | S j => match nth_error d j with Some e => en_end e | None => 0 end end.
(** hazel.cc:255-260, 334-339, 600-605 *)
Definition plain_posting (f a : Z) : posting := push (posting_from_feature f) (Iv a a 0).
(** hazel.cc:181-199: fill_hazel_posting; what is not the list fails the assertion. *)
Definition fill (h : hidx) (f o n size : Z) : res posting :=
  match file_read (hx_file h) o n with
  | None => UB
  | Some b =>
      let* p := posting_from_blob cp cf b in
      match p with
      | None => UB
      | Some p => if (feature p =? f) && (psize p =? size) then append (posting_from_feature f) p else UB
      end
  end.
(** hazel.cc:249-276: HazelIdx::posting; [None] is nullptr.  The cache hands later
    callers the posting the first one filled. *)
Definition hazel_posting (h : hidx) (f : Z) : res (option posting) :=
  let* x := locate (hx_dir h) f in
  match x with
  | None => Ok None
  | Some (i, e) =>
      let s := start_of (hx_dir h) i in
      if s =? en_end e then Ok (Some (plain_posting f (en_val e))) else
      if en_end e <? s then UB else
      let* p := fill h f (hx_offset h + s) (en_end e - s) (en_val e) in Ok (Some p)
  end.
(** hazel.cc:287-315: HazelIdx::hopper_; the ArrayHopper waits for the thread that
    fills the posting. *)
Definition hazel_hopper (h : hidx) (f : Z) : res hobj :=
  let* x := locate (hx_dir h) f in
  match x with
  | None => Ok empty_obj
  | Some (i, e) =>
      let s := start_of (hx_dir h) i in
      if s =? en_end e then Ok (singleton_obj (Iv (en_val e) (en_val e) 0)) else
      if en_end e <? s then UB else
      let* p := fill h f (hx_offset h + s) (en_end e - s) (en_val e) in array_obj p
  end.
(** hazel.cc:316-324 *)
Definition hazel_count (h : hidx) (f : Z) : res Z :=
  let* x := locate (hx_dir h) f in
  Ok (match x with
      | None => 0
      | Some (i, e) => if start_of (hx_dir h) i =? en_end e then 1 else en_val e
      end).
(** hazel.cc:325 *)
Definition hazel_vocab (h : hidx) : Z := len (hx_dir h).
(** hazel.cc:331-356: posting_at; [None] is nullptr with an error. *)
Definition posting_at (h : hidx) (i : nat) (e : entry) : res (option posting) :=
  let s := start_of (hx_dir h) i in
  if s =? en_end e then Ok (Some (plain_posting (en_feature e) (en_val e))) else
  if en_end e <? s then Ok None else
  match file_read (hx_file h) (hx_offset h + s) (en_end e - s) with
  | None => Ok None
  | Some b =>
      let* p := posting_from_blob cp cf b in
      Ok (match p with
          | None => None
          | Some p => if feature p =? en_feature e then Some p else None
          end)
  end.

(** * The checkpoint files of a merge *)
(** The files .pst and .dct; [None]: there is no such file. *)
Record files := Files { pst : option bytes; dct : option bytes }.
(** What a merge does to them, in order.  fstream::write and flush append; a crash can
    leave a first part of what was appended (HazelSpec.v). *)
Inductive act :=
| Reset_pst | Reset_dct                          (* hazel.cc:437-446 *)
| Trunc_pst (n : Z) | Trunc_dct (n : Z)          (* hazel.cc:448-459 *)
| Append_pst (b : bytes) | Append_dct (b : bytes) (* hazel.cc:577-578, 544-547 *).
Definition cut (n : Z) (o : option bytes) : option bytes :=
  match o with
  | None => None
  | Some b => Some (firstn (Z.to_nat n) (b ++ repeat 0 (Z.to_nat (n - len b))))
  end.
Definition more (x : bytes) (o : option bytes) : option bytes :=
  match o with None => None | Some b => Some (b ++ x) end.
Definition exec1 (s : files) (a : act) : files :=
  match a with
  | Reset_pst => Files (Some []) (dct s)
  | Reset_dct => Files (pst s) (Some [])
  | Trunc_pst n => Files (cut n (pst s)) (dct s)
  | Trunc_dct n => Files (pst s) (cut n (dct s))
  | Append_pst b => Files (more b (pst s)) (dct s)
  | Append_dct b => Files (pst s) (more b (dct s))
  end.
Definition exec (s : files) (l : list act) : files := fold_left exec1 l s.
Definition size_of (o : option bytes) : Z := match o with Some b => len b | None => 0 end.

(** hazel.cc:468-505: the entries of the whole records, and the cut to whole records;
    [None] is false. *)
Definition read_checkpoint (s : files) : option (list act * list entry) :=
  match dct s with
  | None => None
  | Some b =>
      let usable := len b - len b mod 24 in
      Some (if usable =? len b then [] else [Trunc_dct usable],
            triples (words (firstn (Z.to_nat usable) b)))
  end.
(** hazel.cc:517-531: the number of entries to keep. *)
Fixpoint keep (previous_end covered_end : Z) (before : option Z) (d : list entry) : nat :=
  match d with
  | [] => O
  | e :: r =>
      if (en_end e <? previous_end) || match before with Some f => en_feature e <=? f | None => false end then O
      else if covered_end <? en_end e then O
      else S (keep (en_end e) covered_end (Some (en_feature e)) r)
  end.
(** std::vector::back *)
Definition last_of (d : list entry) : option entry := match rev d with [] => None | e :: _ => Some e end.
(** hazel.cc:507-539; [None] is false: only when a file is missing. *)
Definition repair (s : files) : option (list act * list entry) :=
  match pst s with
  | None => None
  | Some p =>
      match read_checkpoint s with
      | None => None
      | Some (acts, d) =>
          let k := keep header_length (header_length + len p) None d in
          let d' := firstn k d in
          let cuts := if Nat.ltb k (length d) then [Trunc_dct (Z.of_nat k * 24)] else [] in
          let wanted := match last_of d' with None => 0 | Some e => en_end e - header_length end in
          Some (acts ++ cuts ++ [Trunc_pst wanted], d')
      end
  end.
(** hazel.cc:555-594: the writes for one posting; nothing for an empty one. *)
Definition append_posting (s : files) (p : option posting) : res (list act * list entry) :=
  match p with
  | None => Ok ([], [])
  | Some p =>
      if psize p =? 0 then Ok ([], []) else
      let start := size_of (pst s) + header_length in
      let* a := plain_at p in
      match a with
      | Some a => let e := Entry (feature p) start a in Ok ([Append_dct (entry_bytes e)], [e])
      | None =>
          let* b := write cp cf p in
          let e := Entry (feature p) (size_of (pst s) + len b + header_length) (psize p) in
          Ok ([Append_pst b; Append_dct (entry_bytes e)], [e])
      end
  end.
(** hazel.cc:596-634; [None] is nullptr. *)
Definition checkpoint_posting (s : files) (e : entry) : res (option posting) :=
  if en_end e =? header_length then Ok (Some (plain_posting (en_feature e) (en_val e))) else
  if en_end e <? header_length then Ok None else
  match pst s with
  | None => Ok None
  | Some b =>
      match file_read b 0 (en_end e - header_length) with
      | None => Ok None
      | Some x =>
          let* p := posting_from_blob cp cf x in
          Ok (match p with
              | None => None
              | Some p => if feature p =? en_feature e then Some p else None
              end)
      end
  end.

(** * HazelIdx::merge, hazel.cc:662-929 *)
(** hazel.cc:705-711 *)
Fixpoint bases (b : Z) (lengths : list Z) : list Z :=
  match lengths with [] => [] | n :: r => b :: bases (b + n) r end.
(** hazel.cc:713-720 *)
Fixpoint has_feature (hs : list hidx) (f : Z) : res bool :=
  match hs with
  | [] => Ok false
  | h :: r => let* x := locate (hx_dir h) f in
              match x with Some _ => Ok true | None => has_feature r f end
  end.
(** hazel.cc:722-737; [None] is false. *)
Fixpoint postings_for (hs : list hidx) (f : Z) : res (option (list posting)) :=
  match hs with
  | [] => Ok (Some [])
  | h :: r =>
      let* x := locate (hx_dir h) f in
      match x with
      | None => postings_for r f
      | Some (i, e) =>
          let* p := posting_at h i e in
          match p with
          | None => Ok None
          | Some p => let* t := postings_for r f in
                      Ok (match t with Some t => Some (p :: t) | None => None end)
          end
      end
  end.
(** hazel.cc:754-757 *)
Fixpoint push_shifted (n : Z) (l : list iv) (m : posting) : res posting :=
  match l with
  | [] => Ok m
  | x :: r => let* v := chk (ivl x + n) in push_shifted n r (push m (Iv (ip x) (iq x) v))
  end.
(** hazel.cc:739-762; [None] is nullptr. *)
Fixpoint chunk_posting (chunk : Z) (hs : list hidx) (bs : list Z) (m : posting) : res (option posting) :=
  match hs, bs with
  | h :: r, b :: s =>
      let* x := locate (hx_dir h) chunk in
      match x with
      | None => chunk_posting chunk r s m
      | Some (i, e) =>
          let* p := posting_at h i e in
          match p with
          | None => Ok None
          | Some p => let* l := contents p in
                      let* m := push_shifted b l m in
                      chunk_posting chunk r s m
          end
      end
  | _, _ => Ok (if psize m =? 0 then None else Some m)
  end.
(** hazel.cc:851-857: the rest of a directory after the features up to [f]. *)
Fixpoint after (f : Z) (d : list entry) : list entry :=
  match d with [] => [] | e :: r => if en_feature e <=? f then after f r else d end.
(** hazel.cc:860-865 *)
Definition next_feature (rem : list (list entry)) : Z :=
  fold_right (fun d n => match d with e :: _ => Z.min n (en_feature e) | [] => n end) maxf rem.
(** hazel.cc:867-870 *)
Definition advance (f : Z) (rem : list (list entry)) : list (list entry) :=
  map (fun d => match d with e :: r => if en_feature e =? f then r else d | [] => [] end) rem.
(** hazel.cc:872-882; [None] is the return of false, [Some None] is nullptr. *)
Definition row (chunk : Z) (hs : list hidx) (bs : list Z) (exclude : option posting) (f : Z) :
  res (option (option posting)) :=
  if f =? chunk then
    let* p := chunk_posting chunk hs bs (posting_from_feature chunk) in
    let* b := has_feature hs chunk in
    Ok (match p with None => if b then None else Some None | _ => Some p end)
  else
    let* ps := postings_for hs f in
    match ps with
    | None => Ok None
    | Some ps => let* p := posting_from_merge_exclude ps exclude in Ok (Some p)
    end.
(** hazel.cc:859-892: the writes of the remaining features; [None] is false. *)
Fixpoint merge_loop (n : nat) (chunk : Z) (hs : list hidx) (bs : list Z) (exclude : option posting)
    (rem : list (list entry)) (s : files) : res (option (list act)) :=
  match n with
  | O => NoFuel
  | S n =>
      let f := next_feature rem in
      if f =? maxf then Ok (Some []) else
      let* p := row chunk hs bs exclude f in
      match p with
      | None => Ok None
      | Some p =>
          let* (acts, _) := append_posting s p in
          let* t := merge_loop n chunk hs bs exclude (advance f rem) (exec s acts) in
          Ok (match t with Some t => Some (acts ++ t) | None => None end)
      end
  end.
(** hazel.cc:905-928: the blob; [None] is false. *)
Definition finish (s : files) : option bytes :=
  match pst s, dct s with
  | Some p, Some d =>
      if negb (len d mod 24 =? 0) then None else
      Some (idx_magic ++ word_bytes [header_length + len p; len d; len d / 24] ++ p ++ d)
  | _, _ => None
  end.
(** hazel.cc:791-813: the repair of the checkpoint, or the start from nothing. *)
Definition establish (s : files) (source_has_null : bool) : list act * list entry :=
  let from_nothing := [Reset_pst; Reset_dct] in
  match repair s with
  | None => (from_nothing, [])
  | Some (acts, d) =>
      let first_null := match d with e :: _ => en_feature e =? null_feature | [] => false end in
      if (source_has_null && negb first_null) || (negb source_has_null && first_null)
      then (acts ++ from_nothing, [])
      else (acts ++ [Trunc_pst (match last_of d with None => 0 | Some e => en_end e - header_length end)], d)
  end.
(** hazel.cc:815-844: the erased ranges, from the checkpoint or merged and written;
    the checkpoint after that; [None] is false. *)
Definition erasures (hs : list hidx) (s : files) (d : list entry) (source_has_null : bool) :
  res (option (list act * list entry * option posting)) :=
  let* (acts, d, ex) :=
    match d with
    | e :: _ =>
        if en_feature e =? null_feature then
          let* x := checkpoint_posting s e in
          Ok (match x with None => ([Reset_pst; Reset_dct], [], None) | Some x => ([], d, Some x) end)
        else Ok ([], d, None)
    | [] => Ok ([], d, None)
    end in
  if (match d with [] => true | _ => false end) && source_has_null then
    let* ps := postings_for hs null_feature in
    match ps with
    | None => Ok None
    | Some ps =>
        let* ex := posting_from_merge ps in
        let* (a, d) := append_posting (exec s acts) ex in
        Ok (Some (acts ++ a, d, ex))
    end
  else Ok (Some (acts, d, ex)).
(** The whole merge from the checkpoint files [s]: what it does to them, and the blob
    it writes; [None] is false.  The checks of the arguments (hazel.cc:667-700) are not
    modelled: there are at least two sources, with the same recipes. *)
Definition idx_merge (chunk : Z) (hs : list hidx) (lengths : list Z) (s : files) :
  res (option (list act * bytes)) :=
  let bs := bases 0 lengths in
  let* source_has_null := has_feature hs null_feature in
  let (acts1, d) := establish s source_has_null in
  let s1 := exec s acts1 in
  let* x := erasures hs s1 d source_has_null in
  match x with
  | None => Ok None
  | Some (acts2, d, ex) =>
      let s2 := exec s1 acts2 in
      let last := match last_of d with None => null_feature | Some e => en_feature e end in
      let rem := map (fun h => after last (hx_dir h)) hs in
      let* t := merge_loop (S (length (concat rem))) chunk hs bs ex rem s2 in
      match t with
      | None => Ok None
      | Some acts3 =>
          Ok (match finish (exec s2 acts3) with
              | None => None
              | Some b => Some (acts1 ++ acts2 ++ acts3, b)
              end)
      end
  end.
End Compressors.
