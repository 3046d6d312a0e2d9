(** Model of shards in memory: Fiver's index and merge (src/fiver.cc) and the view of
    many shards (BigwigIdx, src/bigwig.cc). *)
From Verif Require Import Base HopperModel ArrayDefs UnaryModel VectorModel Bytes CodecModel PostingModel.

(** core.h:19 *)
Definition null_feature : Z := 0.
(** fiver.h:105-107: the text, the index (std::map) and the sequence numbers. *)
Definition index := list (Z * posting).
Record fiver := Fiver { f_text : bytes; f_index : index; f_start : Z; f_end : Z }.

(** EmptyHopper, SingletonHopper and ArrayHopper objects. *)
Definition empty_obj : hobj := existT _ empty_hopper empty_init.
Definition singleton_obj (x : iv) : hobj := existT _ (singleton_hopper x) (singleton_init x).
(** array_hopper.cc:189-220; the assertion that the list is not empty fails at the
    first use: here, when it is made. *)
Definition array_obj (p : posting) : res hobj :=
  if psize p =? 0 then UB
  else Ok (existT _ (array_hopper (arr_of_posting p)) (array_init (arr_of_posting p))).

(** fiver.cc:219-233: FiverIdx::hopper_ *)
Definition fiver_hopper (ix : index) (f : Z) : res hobj :=
  match find_posting ix f with
  | None => Ok empty_obj
  | Some p =>
      if psize p =? 1 then
        let* x := get p 0 in
        match x with Some x => Ok (singleton_obj x) | None => Ok empty_obj end
      else array_obj p
  end.
(** fiver.cc:234-240: FiverIdx::count_ *)
Definition fiver_count (ix : index) (f : Z) : Z :=
  match find_posting ix f with None => 0 | Some p => psize p end.

(** * The view of several shards *)
(** bigwig.cc:154-160 *)
Definition contributors (ws : list index) (f : Z) : list index := filter (fun w => 0 <? fiver_count w f) ws.
(** The postings of a feature in the shards that have one, in order (Fiver::posting,
    fiver.cc:610-617). *)
Definition postings_of (ws : list index) (f : Z) : list posting :=
  flat_map (fun w => match find_posting w f with Some p => [p] | None => [] end) ws.
(** bigwig.cc:162-185: what the posting holds when it is released; no merged list is
    the failing assertion. *)
Definition fill_posting (ws : list index) (f : Z) : res posting :=
  let* m := posting_from_merge (postings_of ws f) in
  match m with Some m => append (posting_from_feature f) m | None => UB end.
(** bigwig.cc:187-210; ArrayHopper waits for the posting to be filled, so the thread
    that fills it is not visible here (the cache: CacheModel.v). *)
Definition raw_hopper (ws : list index) (f : Z) : res hobj :=
  match contributors ws f with
  | [] => Ok empty_obj
  | [w] => fiver_hopper w f
  | cs => let* p := fill_posting cs f in array_obj p
  end.
(** bigwig.cc:114-119 *)
Definition erasing (ws : list index) : bool := existsb (fun w => negb (fiver_count w null_feature =? 0)) ws.
(** bigwig.cc:132-139: BigwigIdx::hopper_ *)
Definition bigwig_hopper (ws : list index) (f : Z) : res hobj :=
  if erasing ws && negb (f =? null_feature) then
    let* a := raw_hopper ws f in
    let* b := raw_hopper ws null_feature in
    Ok (existT _ (nin_hopper (projT1 a) (projT1 b)) (bin_init _ _ (projT2 a) (projT2 b)))
  else raw_hopper ws f.
(** bigwig.cc:140-146 *)
Definition bigwig_count (ws : list index) (f : Z) : Z :=
  fold_right (fun w n => fiver_count w f + n) 0 ws.

(** * Fiver::merge, fiver.cc:509-608 *)
Section Merge.
(** std::sort with the comparison of fiver.cc:538-543 and the text chunk feature. *)
Variable sort : list annotation -> list annotation.
Variable chunk : Z.

(** fiver.cc:531-533: for (tau(0); p < maxfinity; tau(p + 1)). *)
Definition enum_chunks (C : hcls) (s : St C) : res (list iv) :=
  let* (s0, x0) := h_tau C s 0 in
  let* l := loop (fun '(s, x, acc) =>
          if ip x <? maxf then
            let* k1 := chk (ip x + 1) in
            let* (s', x') := h_tau C s k1 in Ok (inl (s', x', x :: acc))
          else Ok (inr acc)) (s0, x0, []) in
  Ok (rev l).
Fixpoint shift_chunks (n : Z) (l : list iv) : res (list annotation) :=
  match l with
  | [] => Ok []
  | x :: r => let* v := chk (ivl x + n) in
              let* t := shift_chunks n r in Ok (Ann chunk (Iv (ip x) (iq x) v) :: t)
  end.
(** A text that ends in a newline, or has one added (fiver.cc:527-528). *)
Definition end_line (t : bytes) : bytes :=
  match t with [] => [] | _ => if last t 0 =? 10 then t else t ++ [10] end.
(** fiver.cc:520-535 *)
Fixpoint merge_text (ws : list fiver) (text : bytes) (ann : list annotation) : res (bytes * list annotation) :=
  match ws with
  | [] => Ok (text, ann)
  | w :: r =>
      match f_text w with
      | [] => merge_text r text ann
      | t =>
          match find_posting (f_index w) chunk with
          | None => merge_text r (text ++ t) ann
          | Some p =>
              let text := end_line text in
              let* o := array_obj p in
              let* xs := enum_chunks (projT1 o) (projT2 o) in
              let* a := shift_chunks (len text) xs in
              merge_text r (text ++ t) (ann ++ a)
          end
      end
  end.
(** fiver.cc:569-582: the merged erased ranges. *)
Definition merged_erased (ws : list index) : res (option posting) := posting_from_merge (postings_of ws null_feature).
(** fiver.cc:583-593: every other feature, in some order. *)
Definition other_features (ws : list index) : list Z :=
  filter (fun f => negb (f =? null_feature) && negb (f =? chunk)) (nodup Z.eq_dec (concat (map (map fst) ws))).
Fixpoint merge_features (ws : list index) (ex : option posting) (fs : list Z) : res index :=
  match fs with
  | [] => Ok []
  | f :: r =>
      let* p := posting_from_merge_exclude (postings_of ws f) ex in
      let* ix := merge_features ws ex r in
      Ok (match p with Some p => (f, p) :: ix | None => ix end)
  end.
Definition fiver_merge (ws : list fiver) : res (option fiver) :=
  match ws with
  | [] => Ok None
  | [w] => Ok (Some w)
  | w0 :: _ =>
      let* (text, ann) := merge_text ws [] [] in
      let chunks := match posting_from_annotations (sort ann) with None => [] | Some (p, _) => [(chunk, p)] end in
      let ixs := map f_index ws in
      let* ex := merged_erased ixs in
      let erased := match ex with None => [] | Some e => [(null_feature, e)] end in
      let* others := merge_features ixs ex (other_features ixs) in
      Ok (Some (Fiver text (chunks ++ erased ++ others) (f_start w0) (f_end (last ws w0))))
  end.
End Merge.
