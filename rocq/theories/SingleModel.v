(** Model of the single-file index: SimpleIdx (src/simple_idx.cc) answering from the files
    idx and pst, and SimpleAnnotator (src/simple_annotator.cc) replacing them. *)
From Verif Require Import Base HopperModel ArrayDefs VectorModel Bytes CodecModel PostingModel ShardModel.
From Coq Require Import Permutation Sorted.

(** * The file idx *)
(** simple.h:38-42 IdxRecord: a feature and where its list ends in pst. *)
Definition record_bytes (r : Z * Z) : bytes := word_bytes [fst r; snd r].
Definition map_bytes (m : list (Z * Z)) : bytes := flat_map record_bytes m.
Fixpoint pairs (l : list Z) : list (Z * Z) :=
  match l with a :: b :: r => (a, b) :: pairs r | _ => [] end.
(** simple_idx.cc:154-175; [None] is the error. *)
Definition load_map (b : bytes) : option (list (Z * Z)) :=
  if len b mod 16 =? 0 then Some (pairs (words b)) else None.

(** simple_idx.cc:217-225: the loop of locate; [l] and [h] are the pointers. *)
Fixpoint search (n : nat) (m : list (Z * Z)) (f l h : Z) : res (option Z) :=
  if h <=? l then
    let* r := idx m h in Ok (if fst r =? f then Some h else None)
  else
    match n with
    | O => NoFuel
    | S n =>
        let k := l + (h - l) / 2 in
        let* r := idx m k in
        if fst r <? f then search n m f (k + 1) h
        else if f <? fst r then search n m f l (k - 1)
        else Ok (Some k)
    end.
(** simple_idx.cc:208-230.  An empty std::vector that was never filled has no data. *)
Definition locate (m : list (Z * Z)) (f : Z) : res (option Z) :=
  match m with
  | [] => Ok None
  | first :: _ =>
      let* last := idx m (len m - 1) in
      if (f <? fst first) || (fst last <? f) then Ok None
      else if fst first =? f then Ok (Some 0)
      else search (length m) m f 0 (len m - 1)
  end.

(** simple_idx.h:57-58: the map and the open file pst: what it held when it was opened,
    for a commit replaces the file by another. *)
Record sidx := Sidx { sx_map : list (Z * Z); sx_pst : bytes }.

Section Compressors.
(** The compressors of the posting factory. *)
Variables cp cf : compressor.

(** simple_idx.cc:328-333, 407-411: where the list at [i] starts. *)
Definition start_of (x : sidx) (i : Z) : res Z :=
  if i =? 0 then Ok 0 else let* r := idx (sx_map x) (i - 1) in Ok (snd r).
(** working.cc:44-64: of a read past the end the rest of the buffer is left as it was. *)
Definition read_at (b : bytes) (o n : Z) : res bytes :=
  if (n <? 0) || (o <? 0) || (len b <? o + n) then UB else Ok (slice b o n).
(** simple_idx.cc:308-366 load_cache, 268-305 decompress_cache.  The list is decompressed
    by a thread the hopper waits for; the map of lists already loaded is left out.  Sizes
    that do not fit are out of bounds, as they are in posting_from_file. *)
Definition load_list (x : sidx) (f : Z) : res (option posting) :=
  let* k := locate (sx_map x) f in
  match k with
  | None => Ok None
  | Some i =>
      let* o := start_of x i in
      let* r := idx (sx_map x) i in
      let* b := read_at (sx_pst x) o (snd r - o) in
      let* p := posting_from_file cp cf b in
      match p with Some (p, _) => Ok (Some p) | None => UB end
  end.
(** simple_idx.cc:368-384 *)
Definition single_hopper (x : sidx) (f : Z) : res hobj :=
  let* p := load_list x f in
  match p with
  | None => Ok empty_obj
  | Some p =>
      if psize p =? 0 then Ok empty_obj
      else if psize p =? 1 then
        let* y := get p 0 in
        match y with Some y => Ok (singleton_obj y) | None => UB end
      else array_obj p
  end.
(** simple_idx.cc:386-417 *)
Definition single_count (x : sidx) (f : Z) : res Z :=
  let* k := locate (sx_map x) f in
  match k with
  | None => Ok 0
  | Some i =>
      let* o := start_of x i in
      let* h := read_at (sx_pst x) o 40 in
      match words h with [_; n; _; _; _] => Ok n | _ => UB end
  end.
(** simple_idx.cc:419-424 *)
Definition single_vocab (x : sidx) : Z := len (sx_map x).

(** * Files *)
(** The files of a burrow: idx, pst, idx.new, pst.new, idx.NEW, pst.NEW, idx.lock and
    temporary files. *)
Inductive name := Idx | Pst | Idx_new | Pst_new | Idx_NEW | Pst_NEW | Lock | Temp (n : nat).
Definition name_eqb (a b : name) : bool :=
  match a, b with
  | Idx, Idx | Pst, Pst | Idx_new, Idx_new | Pst_new, Pst_new | Idx_NEW, Idx_NEW | Pst_NEW, Pst_NEW | Lock, Lock => true
  | Temp n, Temp m => Nat.eqb n m
  | _, _ => false
  end.
Definition dir := name -> option bytes.
Definition set (d : dir) (a : name) (o : option bytes) : dir := fun b => if name_eqb a b then o else d b.
(** What is done to them.  A rename or link of a file that is not there does nothing, nor
    does a link to a name that is. *)
Inductive op := Put (a : name) (b : bytes) | Move (a b : name) | Delete (a : name) | Link (a b : name).
Definition exec1 (d : dir) (o : op) : dir :=
  match o with
  | Put a b => set d a (Some b)
  | Move a b => match d a with Some x => set (set d b (Some x)) a None | None => d end
  | Delete a => set d a None
  | Link a b => match d a, d b with Some x, None => set d b (Some x) | _, _ => d end
  end.
Definition exec (d : dir) (l : list op) : dir := fold_left exec1 l d.
Definition here (d : dir) (a : name) : bool := match d a with Some _ => true | None => false end.

(** simple_idx.cc:125-153: what opening the index does first. *)
Definition open_ops (d : dir) : list op :=
  if here d Pst_NEW then (if here d Idx_NEW then [Move Idx_NEW Idx] else []) ++ [Move Pst_NEW Pst]
  else if here d Idx_NEW then [Delete Idx_NEW] else [].
(** simple_idx.cc:123-180; [None] is the error. *)
Definition open (d : dir) : option sidx :=
  let d := exec d (open_ops d) in
  match d Idx, d Pst with
  | Some i, Some p => match load_map i with Some m => Some (Sidx m p) | None => None end
  | _, _ => None
  end.

(** * Merging *)
(** A file of lists that is being read: the next list and the rest. *)
Definition stream := (option posting * bytes)%type.
Definition advance (b : bytes) : res stream :=
  let* r := posting_from_file cp cf b in Ok (match r with Some (p, b) => (Some p, b) | None => (None, []) end).
Fixpoint advance_all (bs : list bytes) : res (list stream) :=
  match bs with
  | [] => Ok []
  | b :: r => let* s := advance b in let* ss := advance_all r in Ok (s :: ss)
  end.
(** simple_annotator.cc:161-172 *)
Fixpoint least_feature (found : option Z) (ss : list stream) : option Z :=
  match ss with
  | [] => found
  | (None, _) :: r => least_feature found r
  | (Some p, _) :: r =>
      least_feature (match found with
                     | Some f => Some (if feature p <? f then feature p else f)
                     | None => Some (feature p)
                     end) r
  end.
(** simple_annotator.cc:173-176 *)
Definition with_feature (f : Z) (ss : list stream) : list posting :=
  flat_map (fun s => match fst s with Some p => if feature p =? f then [p] else [] | None => [] end) ss.
(** simple_annotator.cc:190-193 *)
Fixpoint step_streams (f : Z) (ss : list stream) : res (list stream) :=
  match ss with
  | [] => Ok []
  | (Some p, b) :: r =>
      let* s := if feature p =? f then advance b else Ok (Some p, b) in
      let* l := step_streams f r in Ok (s :: l)
  | (None, b) :: r => let* l := step_streams f r in Ok ((None, b) :: l)
  end.
(** simple_posting.cc:574-601 *)
Fixpoint is_sorted (l : list Z) : bool :=
  match l with a :: ((b :: _) as r) => (a <=? b) && is_sorted r | _ => true end.
Definition invariants (s : posting) : bool :=
  (match qostings s with [] => true | l => Nat.eqb (length l) (length (postings s)) end) &&
  (match fostings s with [] => true | l => Nat.eqb (length l) (length (postings s)) end) &&
  is_sorted (postings s) && is_sorted (qostings s) &&
  forallb (fun x => fst x <=? snd x) (combine (postings s) (qostings s)).
(** simple_annotator.cc:178-189: the list to write; [None] is the error. *)
Definition choose (ps : list posting) : res (option posting) :=
  match ps with
  | [p] => Ok (Some p)
  | _ => let* m := posting_from_merge ps in
         match m with Some m => Ok (if invariants m then Some m else None) | None => UB end
  end.
(** simple_annotator.cc:160-200: what is written to idx and pst; [None] is the error. *)
Fixpoint merge_loop (n : nat) (ss : list stream) (m : list (Z * Z)) (out : bytes) : res (option (list (Z * Z) * bytes)) :=
  match least_feature None ss with
  | None => Ok (Some (m, out))
  | Some f =>
      match n with
      | O => NoFuel
      | S n =>
          let* c := choose (with_feature f ss) in
          match c with
          | None => Ok None
          | Some p =>
              let* b := write cp cf p in
              let* ss := step_streams f ss in
              merge_loop n ss (m ++ [(f, len (out ++ b))]) (out ++ b)
          end
      end
  end.
(** simple_annotator.cc:133-202.  A list takes 40 bytes or more of its file, so there are
    no more lists than bytes. *)
Definition merge_updates (bs : list bytes) : res (option (bytes * bytes)) :=
  let* ss := advance_all bs in
  let* r := merge_loop (length (concat bs)) ss [] [] in
  Ok (match r with Some (m, out) => Some (map_bytes m, out) | None => None end).

(** * SimpleAnnotator *)
(** simple_annotator.cc:204-206: the order given to std::sort: by feature and start. *)
Definition start_lt (a b : annotation) : bool :=
  (afeat a <? afeat b) || ((afeat a =? afeat b) && (ip (aiv a) <? ip (aiv b))).
Definition start_sorted (l l' : list annotation) : Prop :=
  Permutation l l' /\ StronglySorted (fun a b => start_lt b a = false) l'.
(** std::sort, and add_file_size_. *)
Variables (sort : list annotation -> list annotation) (limit : nat).

(** simple_annotator.cc:223-228 *)
Fixpoint write_batch (n : nat) (l : list annotation) : res bytes :=
  match posting_from_annotations l with
  | None => Ok []
  | Some (p, rest) =>
      match n with
      | O => NoFuel
      | S n => let* b := write cp cf p in let* r := write_batch n rest in Ok (b ++ r)
      end
  end.
(** simple_annotator.h:50-70: adding_, isready_, added_, the temporary files in
    added_files_, and how many temporary names were made.  Temporary files can always be
    created: failed_ and cannot_create_temp_files_ stay false. *)
Record annotator := Annotator { adding : bool; isready : bool; added : list annotation; files : list nat; temps : nat }.
Definition annotator_init : annotator := Annotator false false [] [] 0.

(** simple_annotator.cc:209-242 maybe_flush_additions.  The thread that sorts and writes is
    joined before its file is read. *)
Definition flush (force : bool) (a : annotator) : res (list op * annotator) :=
  if (force && negb (Nat.eqb (length (added a)) 0)) || Nat.ltb limit (length (added a)) then
    let l := sort (added a) in
    let* b := write_batch (length l) l in
    Ok ([Put (Temp (temps a)) b], Annotator (adding a) (isready a) [] (files a ++ [temps a]) (S (temps a)))
  else Ok ([], a).
(** simple_annotator.cc:110-130 *)
Definition transaction (d : dir) (a : annotator) : bool * list op * annotator :=
  if adding a then (false, [], a)
  else if negb (here d Idx) || here d Lock then (false, [], a)
  else (true, [Link Idx Lock], Annotator true (isready a) (added a) (files a) (temps a)).
(** annotator.h:26-32, simple_annotator.cc:244-268 *)
Definition annotate (x : annotation) (a : annotator) : res (bool * list op * annotator) :=
  if afeat x <=? null_feature then Ok (true, [], a) else
  if negb (adding a) then Ok (false, [], a) else
  if (0 <=? ip (aiv x)) && (ip (aiv x) <=? iq (aiv x)) then
    let* (ops, a) := flush false (Annotator (adding a) (isready a) (added a ++ [x]) (files a) (temps a)) in
    Ok (true, ops, a)
  else Ok (true, [], a).
(** The contents of the files; [None]: one cannot be opened. *)
Fixpoint read_files (d : dir) (l : list name) : option (list bytes) :=
  match l with
  | [] => Some []
  | a :: r => match d a, read_files d r with Some b, Some bs => Some (b :: bs) | _, _ => None end
  end.
(** simple_annotator.cc:276-282 *)
Definition cleanup (a : annotator) : list op := map (fun n => Delete (Temp n)) (files a).
(** simple_annotator.cc:284-340.  idx and pst are written side by side; here one after the
    other, both to temporary names. *)
Definition ready (d : dir) (a : annotator) : res (bool * list op * annotator) :=
  if isready a then Ok (true, [], a) else
  if negb (adding a) then Ok (false, [], a) else
  let* (ops, a) := flush true a in
  let ti := temps a in let tp := S (temps a) in
  let* m := match read_files (exec d ops) (Pst :: map Temp (files a)) with
            | Some bs => merge_updates bs
            | None => Ok None
            end in
  match m with
  | None => Ok (false, ops ++ cleanup a ++ [Delete (Temp ti); Delete (Temp tp)], Annotator true false [] [] (S tp))
  | Some (i, p) =>
      Ok (true, ops ++ [Put (Temp tp) p; Put (Temp ti) i] ++ cleanup a ++ [Move (Temp ti) Idx_new; Move (Temp tp) Pst_new],
          Annotator false true [] [] (S tp))
  end.
(** simple_annotator.cc:342-353 *)
Definition commit (a : annotator) : res (list op * annotator) :=
  if adding a || negb (isready a) then UB
  else Ok ([Move Idx_new Idx; Move Pst_new Pst; Delete Lock], Annotator false false (added a) (files a) (temps a)).
(** simple_annotator.cc:355-369 *)
Definition abort (a : annotator) : list op * annotator :=
  (cleanup a ++ [Delete Pst_new; Delete Idx_new; Delete Lock], Annotator false false [] [] (temps a)).
(** simple_annotator.cc:84-106 *)
Definition recover (commit : bool) : list op :=
  (if commit then [Move Idx_new Idx; Move Pst_new Pst] else [Delete Pst_new; Delete Idx_new]) ++ [Delete Lock].

(** * A transaction *)
(** Calls of annotate one after the other: what is done to the files. *)
Fixpoint annotate_all (l : list annotation) (a : annotator) : res (list op * annotator) :=
  match l with
  | [] => Ok ([], a)
  | x :: r =>
      let* (o, a) := annotate x a in
      let* (ops, a) := annotate_all r a in Ok (snd o ++ ops, a)
  end.
End Compressors.
