(** Model of the view of shards of both kinds, in memory (Fiver) and on disk (Hazel):
    BigwigIdx and BigwigTxt (src/bigwig.cc) through the interface Owsla (src/owsla.h). *)
From Verif Require Import Base HopperModel UnaryModel VectorModel Bytes CodecModel PostingModel ShardModel TokenModel TextModel HazelModel FileModel.

(** owsla.h:77-95: a Fiver or a Hazel, with its text opened. *)
Inductive owsla :=
| In_memory (w : fiver) (t : txt)
| On_disk (h : hidx) (x : htxt) (s : tstate).
(** What is kept of a shard: a Fiver, or the file of a Hazel. *)
Inductive stored := Mem (w : fiver) | File (f : bytes).

Section Owsla.
Variables cp cf ct : compressor.
Variable skip : bytes -> Z -> Z.
Variable chunk : Z.

(** Opening: FiverTxt::make (fiver.cc:245-268), or Hazel::make (hazel.cc:2136-2166);
    [None] is nullptr. *)
Definition open_stored (s : stored) : res (option owsla) :=
  match s with
  | Mem w => let* t := fiver_txt chunk w in Ok (Some (In_memory w t))
  | File f => let* r := open_file cp cf chunk f in Ok (match r with Some (h, x, s) => Some (On_disk h x s) | None => None end)
  end.
Fixpoint open_view (l : list stored) : res (option (list owsla)) :=
  match l with
  | [] => Ok (Some [])
  | s :: r => let* o := open_stored s in
              let* os := open_view r in
              Ok (match o, os with Some o, Some os => Some (o :: os) | _, _ => None end)
  end.

(** FiverIdx::count_ (fiver.cc:234-240) or HazelIdx::count_ (hazel.cc:316-324). *)
Definition owsla_count (o : owsla) (f : Z) : res Z :=
  match o with In_memory w _ => Ok (fiver_count (f_index w) f) | On_disk h _ _ => hazel_count h f end.
(** Fiver::posting (fiver.cc:610-617) or Hazel::posting, that is HazelIdx::posting
    (hazel.cc:249-276); [None] is nullptr. *)
Definition owsla_posting (o : owsla) (f : Z) : res (option posting) :=
  match o with In_memory w _ => Ok (find_posting (f_index w) f) | On_disk h _ _ => hazel_posting cp cf h f end.
(** FiverIdx::hopper_ (fiver.cc:219-233) or HazelIdx::hopper_ (hazel.cc:287-315). *)
Definition owsla_hopper (o : owsla) (f : Z) : res hobj :=
  match o with In_memory w _ => fiver_hopper (f_index w) f | On_disk h _ _ => hazel_hopper cp cf h f end.
(** fiver.cc:241 or hazel.cc:325: the number of features. *)
Definition owsla_vocab (o : owsla) : Z :=
  match o with In_memory w _ => len (f_index w) | On_disk h _ _ => hazel_vocab h end.

(** bigwig.cc:154-160 *)
Fixpoint owsla_contributors (os : list owsla) (f : Z) : res (list owsla) :=
  match os with
  | [] => Ok []
  | o :: r => let* n := owsla_count o f in
              let* t := owsla_contributors r f in
              Ok (if 0 <? n then o :: t else t)
  end.
(** bigwig.cc:168-173 *)
Fixpoint owsla_postings (os : list owsla) (f : Z) : res (list posting) :=
  match os with
  | [] => Ok []
  | o :: r => let* p := owsla_posting o f in
              let* t := owsla_postings r f in
              Ok (match p with Some p => p :: t | None => t end)
  end.
(** bigwig.cc:162-185 *)
Definition owsla_fill (os : list owsla) (f : Z) : res posting :=
  let* ps := owsla_postings os f in
  let* m := posting_from_merge ps in
  match m with Some m => PostingModel.append (posting_from_feature f) m | None => UB end.
(** bigwig.cc:187-210 *)
Definition owsla_raw (os : list owsla) (f : Z) : res hobj :=
  let* cs := owsla_contributors os f in
  match cs with
  | [] => Ok empty_obj
  | [o] => owsla_hopper o f
  | _ => let* p := owsla_fill cs f in array_obj p
  end.
(** bigwig.cc:114-119 *)
Fixpoint owsla_erasing (os : list owsla) : res bool :=
  match os with
  | [] => Ok false
  | o :: r => let* n := owsla_count o null_feature in if negb (n =? 0) then Ok true else owsla_erasing r
  end.
(** bigwig.cc:132-139: BigwigIdx::hopper_ *)
Definition view_hopper (os : list owsla) (f : Z) : res hobj :=
  let* e := owsla_erasing os in
  if e && negb (f =? null_feature) then
    let* a := owsla_raw os f in
    let* b := owsla_raw os null_feature in
    Ok (existT _ (nin_hopper (projT1 a) (projT1 b)) (bin_init _ _ (projT2 a) (projT2 b)))
  else owsla_raw os f.
(** bigwig.cc:140-146 *)
Fixpoint view_count (os : list owsla) (f : Z) : res Z :=
  match os with
  | [] => Ok 0
  | o :: r => let* n := owsla_count o f in let* m := view_count r f in Ok (n + m)
  end.

(** FiverTxt::translate_ (fiver.cc:279-308) or HazelTxt::translate_ (hazel.cc:978-1050). *)
Definition owsla_translate (o : owsla) (p q : Z) : res (owsla * bytes) :=
  match o with
  | In_memory w t => let* (t, b) := translate skip t p q in Ok (In_memory w t, b)
  | On_disk h x s => let* (s, b) := hazel_translate ct skip x s p q in Ok (On_disk h x s, b)
  end.
(** bigwig.cc:240-245: BigwigTxt::translate_ *)
Fixpoint view_translate (os : list owsla) (p q : Z) : res (list owsla * bytes) :=
  match os with
  | [] => Ok ([], [])
  | o :: r => let* (o, b) := owsla_translate o p q in
              let* (r, c) := view_translate r p q in Ok (o :: r, b ++ c)
  end.
(** fiver.cc:309-318 or hazel.cc:1052-1056. *)
Definition owsla_tokens (o : owsla) : res Z :=
  match o with In_memory _ t => tokens t | On_disk _ x _ => hazel_tokens x end.
(** bigwig.cc:246-251: BigwigTxt::tokens_ *)
Fixpoint view_tokens (os : list owsla) : res Z :=
  match os with
  | [] => Ok 0
  | o :: r => let* n := owsla_tokens o in let* m := view_tokens r in chk (n + m)
  end.
(** fiver.cc:319-334 or hazel.cc:1057-1066. *)
Definition owsla_range (o : owsla) : res (owsla * option (Z * Z)) :=
  match o with
  | In_memory w t => let* (t, r) := range t in Ok (In_memory w t, r)
  | On_disk _ x _ => Ok (o, hazel_range x)
  end.
(** bigwig.cc:257-261: the first shard with a range, and those after it. *)
Fixpoint first_range (os : list owsla) : res (list owsla * option (Z * Z * nat)) :=
  match os with
  | [] => Ok ([], None)
  | o :: r => let* (o, pq) := owsla_range o in
              match pq with
              | Some (p, q) => Ok (o :: r, Some (p, q, O))
              | None => let* (r, x) := first_range r in
                        Ok (o :: r, match x with Some (p, q, i) => Some (p, q, S i) | None => None end)
              end
  end.
(** bigwig.cc:266-273: the end of the last shard with a range among [os], the last shard
    first. *)
Fixpoint last_range (os : list owsla) : res (list owsla * option Z) :=
  match os with
  | [] => Ok ([], None)
  | o :: r => let* (o, pq) := owsla_range o in
              match pq with
              | Some (_, q) => Ok (o :: r, Some q)
              | None => let* (r, x) := last_range r in Ok (o :: r, x)
              end
  end.
(** bigwig.cc:252-274: BigwigTxt::range_; [None] is false. *)
Definition view_range (os : list owsla) : res (list owsla * option (Z * Z)) :=
  let* (os, x) := first_range os in
  match x with
  | None => Ok (os, None)
  | Some (p, q0, i) =>
      let* (rest, y) := last_range (rev (skipn (S i) os)) in
      Ok (firstn (S i) os ++ rev rest, Some (p, match y with Some q => q | None => q0 end))
  end.
End Owsla.
