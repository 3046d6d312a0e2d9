(** Model of src/simple_posting.cc: posting lists, their disk format, and the merges
    of posting lists; the sort and the index building of Fiver::ready_. *)
From Verif Require Import Base HopperModel ArrayDefs Bytes CodecModel.
From Coq Require Import Permutation Sorted.

(** An fval is its 64-bit pattern read as an addr (core.h: fval2addr); the patterns
    0 and INT64_MIN are the two zeros, the only values equal to 0.0. *)
Definition fzero (v : Z) : bool := (v =? 0) || (v =? minf).

(** simple_posting.h:45-49 *)
Record posting := Posting { feature : Z; postings : list Z; qostings : list Z; fostings : list Z }.
Definition psize (p : posting) : Z := len (postings p).
(** simple_posting.cc:74-80 *)
Definition posting_from_feature (f : Z) : posting := Posting f [] [] [].
(** simple_posting.cc:483-498: false is [None]. *)
Definition get (s : posting) (i : nat) : res (option iv) :=
  if Nat.ltb i (length (postings s)) then
    let* p := idx (postings s) (Z.of_nat i) in
    let* q := match qostings s with [] => Ok p | l => idx l (Z.of_nat i) end in
    let* v := match fostings s with [] => Ok 0 | l => idx l (Z.of_nat i) end in
    Ok (Some (Iv p q v))
  else Ok None.
(** simple_posting.cc:500-516 *)
Definition push (s : posting) (x : iv) : posting :=
  let qs := if ip x <? iq x then
              (match qostings s with [] => postings s | l => l end) ++ [iq x]
            else match qostings s with [] => [] | l => l ++ [ip x] end in
  let fs := if negb (fzero (ivl x)) then
              (match fostings s with [] => repeat 0 (length (postings s)) | l => l end) ++ [ivl x]
            else match fostings s with [] => [] | l => l ++ [0] end in
  Posting (feature s) (postings s ++ [ip x]) qs fs.
(** simple_posting.cc:446-481; the assertion on the features is UB. *)
Definition append (s more : posting) : res posting :=
  if negb (feature s =? feature more) then UB else
  let qs := match qostings s, qostings more with
            | [], [] => []
            | [], m => postings s ++ m
            | l, [] => l ++ postings more
            | l, m => l ++ m
            end in
  let fs := match fostings s, fostings more with
            | [], [] => []
            | [], m => repeat 0 (length (postings s)) ++ m
            | l, [] => firstn (length (postings s) + length (postings more))
                         (l ++ repeat 0 (length (postings s) + length (postings more) - length l))
            | l, m => l ++ m
            end in
  Ok (Posting (feature s) (postings s ++ postings more) qs fs).

(** * Disk format *)
(** simple_posting.cc:518-572, simple.h PstRecord: five 8-byte fields. *)
Definition write (cp cf : compressor) (s : posting) : res bytes :=
  let n := psize s in
  if n =? 0 then Ok (word_bytes [feature s; 0; 0; 0; 0]) else
  let size := 8 * n in
  let* bp := crush cp (word_bytes (postings s)) (size + extra cp size) in
  let* bq := match qostings s with
             | [] => Ok []
             | qs => if len qs =? n then crush cp (word_bytes qs) (size + extra cp size) else UB
             end in
  let* bf := match fostings s with
             | [] => Ok []
             | fs => if len fs =? n then crush cf (word_bytes fs) (size + extra cf size) else UB
             end in
  Ok (word_bytes [feature s; n; len bp; len bq; len bf] ++ bp ++ bq ++ bf).

(** f->read: [n] bytes and the rest, or failure. *)
Definition read (n : Z) (f : bytes) : option (bytes * bytes) :=
  if (n <? 0) || (len f <? n) then None
  else Some (firstn (Z.to_nat n) f, skipn (Z.to_nat n) f).
Definition must_read (n : Z) (f : bytes) : res (bytes * bytes) :=
  match read n f with Some x => Ok x | None => UB end.
(** Decompress an array of [n] values from the file (simple_posting.cc:276-285). *)
Definition read_array (c : compressor) (n size room : Z) (f : bytes) : res (list Z * bytes) :=
  let* (z, f) := must_read size f in
  let* t := tang c z room in
  if (len t mod 8 =? 0) && (len t / 8 =? n) then Ok (words t, f) else UB.
(** simple_posting.cc:257-309: the posting and the rest of the file; [None] is nullptr. *)
Definition posting_from_file (cp cf : compressor) (f : bytes) : res (option (posting * bytes)) :=
  match read 40 f with
  | None => Ok None
  | Some (h, f) =>
      match words h with
      | [feat; n; pst; qst; fst] =>
          if n =? 0 then Ok (Some (Posting feat [] [] [], f)) else
          let room := 8 * n in
          let* (ps, f) := read_array cp n pst room f in
          let* (qs, f) := if 0 <? qst then read_array cp n qst room f else Ok ([], f) in
          let* (fs, f) := if 0 <? fst then read_array cf n fst room f else Ok ([], f) in
          Ok (Some (Posting feat ps qs fs, f))
      | _ => UB
      end
  end.

(** [len] bytes at offset [o] of a blob whose size has been checked. *)
Definition slice (b : bytes) (o n : Z) : bytes := firstn (Z.to_nat n) (skipn (Z.to_nat o) b).
(** simple_posting.cc:86-110, 167-195: the header checks; [None] is an error. *)
Definition blob_header (b : bytes) : option (Z * Z * Z * Z * Z) :=
  if len b <? 40 then None else
  match words (slice b 0 40) with
  | [feat; n; pst; qst; fst] =>
      if (n <? 0) || (pst <? 0) || (qst <? 0) || (fst <? 0) then None
      else if len b - 40 <? pst then None
      else if len b - (40 + pst) <? qst then None
      else if len b - (40 + pst + qst) <? fst then None
      else Some (feat, n, pst, qst, fst)
  | _ => None
  end.
(** One array of a blob (simple_posting.cc:121-131); [None] is an error. *)
Definition blob_array (c : compressor) (b : bytes) (o size n : Z) : res (option (list Z)) :=
  let* t := tang c (slice b o size) (8 * n) in
  Ok (if len t =? 8 * n then Some (words t) else None).
(** simple_posting.cc:82-158 *)
Definition posting_from_blob (cp cf : compressor) (b : bytes) : res (option posting) :=
  match blob_header b with
  | None => Ok None
  | Some (feat, n, pst, qst, fst) =>
      if n =? 0 then Ok (Some (Posting feat [] [] [])) else
      let* ps := blob_array cp b 40 pst n in
      match ps with
      | None => Ok None
      | Some ps =>
          let* qs := if 0 <? qst then blob_array cp b (40 + pst) qst n else Ok (Some []) in
          match qs with
          | None => Ok None
          | Some qs =>
              let* fs := if 0 <? fst then blob_array cf b (40 + pst + qst) fst n else Ok (Some []) in
              match fs with
              | None => Ok None
              | Some fs => Ok (Some (Posting feat ps qs fs))
              end
          end
      end
  end.
(** simple_posting.cc:160-255: fills a cache line of [want] entries: the arrays an
    ArrayHopper is bound to; an empty list leaves no arrays. *)
Definition cache_from_blob (cp cf : compressor) (want : Z) (b : bytes) : res (option arr) :=
  match blob_header b with
  | None => Ok None
  | Some (_, n, pst, qst, fst) =>
      if negb (n =? want) then Ok None else
      if n =? 0 then Ok (Some (Arr [] [] None)) else
      let* ps := blob_array cp b 40 pst n in
      match ps with
      | None => Ok None
      | Some ps =>
          let* qs := if qst =? 0 then Ok (Some ps) else blob_array cp b (40 + pst) qst n in
          match qs with
          | None => Ok None
          | Some qs =>
              if fst =? 0 then Ok (Some (Arr ps qs None)) else
              let* fs := blob_array cf b (40 + pst + qst) fst n in
              match fs with
              | None => Ok None
              | Some fs => Ok (Some (Arr ps qs (Some fs)))
              end
          end
      end
  end.
(** array_hopper.cc:189-220: the arrays of an ArrayHopper made from a posting. *)
Definition arr_of_posting (s : posting) : arr :=
  Arr (postings s) (match qostings s with [] => postings s | l => l end)
      (match fostings s with [] => None | l => Some l end).

(** * Annotations *)
(** annotator.h: a feature and an interval with its value. *)
Record annotation := Ann { afeat : Z; aiv : iv }.
(** fiver.cc:683-688: the order given to std::sort: by feature, end, later start first. *)
Definition ann_lt (a b : annotation) : bool :=
  (afeat a <? afeat b) ||
  ((afeat a =? afeat b) &&
   ((iq (aiv a) <? iq (aiv b)) || ((iq (aiv a) =? iq (aiv b)) && (ip (aiv b) <? ip (aiv a))))).
(** std::sort: some reordering in which no element precedes a smaller one (the order
    of equal ones is unspecified). *)
Definition sort_result (l l' : list annotation) : Prop :=
  Permutation l l' /\ StronglySorted (fun a b => ann_lt b a = false) l'.
(** fiver.cc:677-682: addresses of this transaction are moved from the staging area
    (fiver.cc:36: staging, half of maxfinity) to where_. *)
Definition staging : Z := 4611686018427387903.
Definition relocate_ann (where_ : Z) (a : annotation) : res annotation :=
  let x := aiv a in
  let* r := chk (staging - where_) in
  if staging <=? ip x then
    let* p := chk (ip x - r) in let* q := chk (iq x - r) in Ok (Ann (afeat a) (Iv p q (ivl x)))
  else Ok a.

(** simple_posting.cc:49-65: the loop over the annotations of one feature.  The
    vectors are kept newest first; [cq], [cf] are clear_qostings, clear_fostings. *)
Fixpoint ann_loop (f : Z) (l : list annotation) (acc : list iv) (cq cf : bool)
  : list iv * bool * bool * list annotation :=
  match l with
  | a :: r =>
      if afeat a =? f then
        let x := aiv a in
        if ip x <=? iq x then
          let cq := if ip x <? iq x then false else cq in
          let cf := if negb (fzero (ivl x)) then false else cf in
          match acc with
          | [] => ann_loop f r [x] cq cf
          | b :: _ => if (ip b <=? ip x) && (iq b <=? iq x) then ann_loop f r (x :: acc) cq cf
                      else ann_loop f r acc cq cf
          end
        else ann_loop f r acc cq cf
      else (acc, cq, cf, l)
  | [] => (acc, cq, cf, [])
  end.
(** simple_posting.cc:40-72: the posting and the annotations left. *)
Definition posting_from_annotations (l : list annotation) : option (posting * list annotation) :=
  match l with
  | [] => None
  | a :: _ =>
      let '(acc, cq, cf, rest) := ann_loop (afeat a) l [] true true in
      let xs := rev acc in
      Some (Posting (afeat a) (map ip xs) (if cq then [] else map iq xs) (if cf then [] else map ivl xs), rest)
  end.
(** fiver.cc:691-695: std::map index_, newest entry first; the loop gets as many
    rounds as there are annotations. *)
Fixpoint build_index (n : nat) (l : list annotation) (index : list (Z * posting)) : res (list (Z * posting)) :=
  match posting_from_annotations l with
  | None => Ok index
  | Some (p, rest) =>
      match n with O => NoFuel | S m => build_index m rest ((feature p, p) :: index) end
  end.
(** std::map::find. *)
Fixpoint find_posting (index : list (Z * posting)) (f : Z) : option posting :=
  match index with
  | [] => None
  | (g, p) :: r => if g =? f then Some p else find_posting r f
  end.

(** simple_posting.cc:20-38: single positions from token records; the assertion that
    they are in order is UB. *)
Fixpoint tok_loop (f : Z) (l : list (Z * Z)) (acc : list Z) : res (list Z * list (Z * Z)) :=
  match l with
  | (g, pq) :: r =>
      if g =? f then
        match acc with
        | [] => tok_loop f r [pq]
        | b :: _ => if pq <? b then UB else if b <? pq then tok_loop f r (pq :: acc) else tok_loop f r acc
        end
      else Ok (acc, l)
  | [] => Ok (acc, [])
  end.
Definition posting_from_tokens (l : list (Z * Z)) : res (option (posting * list (Z * Z))) :=
  match l with
  | [] => Ok None
  | (f, _) :: _ => let* (acc, rest) := tok_loop f l [] in Ok (Some (Posting f (rev acc) [] [], rest))
  end.

(** * Merging *)
(** What get answers for all indices in order. *)
Fixpoint get_all (n i : nat) (s : posting) : res (list iv) :=
  match n with
  | O => Ok []
  | S m => let* x := get s i in
           match x with
           | Some x => let* r := get_all m (S i) s in Ok (x :: r)
           | None => UB
           end
  end.
Definition contents (s : posting) : res (list iv) := get_all (length (postings s)) 0 s.

(** simple_posting.cc:312-349: an Element: its index, the interval at current_ and the
    ones after it. *)
Record element := Elt { el_index : nat; el_cur : iv; el_rest : list iv }.
(** simple_posting.cc:330-342 next(): false is [None]. *)
Definition el_next (e : element) : option element :=
  match el_rest e with [] => None | x :: r => Some (Elt (el_index e) x r) end.
(** simple_posting.cc:351-359 Compare: [before a b] iff !compare(a, b). *)
Definition before (a b : element) : bool :=
  (iq (el_cur a) <? iq (el_cur b)) ||
  ((iq (el_cur a) =? iq (el_cur b)) &&
   ((ip (el_cur b) <? ip (el_cur a)) ||
    ((ip (el_cur a) =? ip (el_cur b)) && Nat.ltb (el_index b) (el_index a)))).
(** std::priority_queue as the sequence of its elements (indices are distinct, so the
    top is unique; the heap layout is not modelled). *)
Fixpoint first_of (e : element) (q : list element) : element :=
  match q with [] => e | x :: r => first_of (if before x e then x else e) r end.
Definition drop (e : element) (q : list element) : list element :=
  filter (fun x => negb (Nat.eqb (el_index x) (el_index e))) q.
(** simple_posting.cc:373-375, 428-430: queue the non-empty lists. *)
Fixpoint enqueue (i : nat) (ls : list (list iv)) : list element :=
  match ls with
  | [] => []
  | [] :: r => enqueue (S i) r
  | (x :: xs) :: r => Elt i x xs :: enqueue (S i) r
  end.
(** simple_posting.cc:377-389, 432-441: take the first element, run the body, put the
    element's successor back.  One round per interval. *)
Fixpoint drain {T} (n : nat) (f : T -> iv -> res T) (q : list element) (t : T) : res T :=
  match q with
  | [] => Ok t
  | e0 :: r =>
      match n with
      | O => NoFuel
      | S m =>
          let e := first_of e0 r in
          let q' := drop e q in
          let* t' := f t (el_cur e) in
          drain m f (match el_next e with Some e' => e' :: q' | None => q' end) t'
      end
  end.
Definition total (ls : list (list iv)) : nat := length (concat ls).

(** simple_posting.cc:435-438: the body without exclusion. *)
Definition merge_body (t : Z * posting) (x : iv) : res (Z * posting) :=
  let (k, m) := t in
  if k <? ip x then Ok (ip x, push m x) else Ok (k, m).
(** simple_posting.cc:402-414: can_append: consecutive non-empty lists in order. *)
Fixpoint can_append (ls : list (list iv)) : bool :=
  match ls with
  | a :: ((b :: _) as r) =>
      match rev a, b with
      | x :: _, y :: _ => (ip x <? ip y) && (iq x <? iq y) && can_append r
      | _, _ => can_append r
      end
  | _ => true
  end.
(** All lists of the postings, through get. *)
Fixpoint all_contents (ps : list posting) : res (list (list iv)) :=
  match ps with
  | [] => Ok []
  | p :: r => let* l := contents p in let* ls := all_contents r in Ok (l :: ls)
  end.
(** simple_posting.cc:395-444; [None] is nullptr.  Postings of different features
    fail the assertion. *)
Definition posting_from_merge (ps : list posting) : res (option posting) :=
  match ps with
  | [] => Ok None
  | [p] => Ok (Some p)
  | p0 :: _ =>
      if negb (forallb (fun p => feature p =? feature p0) ps) then UB else
      let* ls := all_contents ps in
      let m := posting_from_feature (feature p0) in
      if can_append ls then Ok (Some (fold_left push (concat ls) m))
      else let* (_, m) := drain (total ls) merge_body (enqueue 0 ls) (minf, m) in Ok (Some m)
  end.
(** simple_posting.cc:380-386: the body with exclusion; the state is k, px, qx, the
    hopper over the excluded ranges and the merged posting. *)
Definition exclude_body (C : hcls) (t : Z * Z * Z * St C * posting) (x : iv) : res (Z * Z * Z * St C * posting) :=
  let '(k, px, qx, h, m) := t in
  if k <? ip x then
    let* (px, qx, h) := if qx <? iq x then let* (h, r) := h_rho C h (iq x) in Ok (ip r, iq r, h)
                        else Ok (px, qx, h) in
    Ok (ip x, px, qx, h, if ip x <? px then push m x else m)
  else Ok (k, px, qx, h, m).
(** simple_posting.cc:362-393 *)
Definition posting_from_merge_exclude (ps : list posting) (exclude : option posting) : res (option posting) :=
  match ps with
  | [] => Ok None
  | p0 :: _ =>
      match exclude with
      | None => posting_from_merge ps
      | Some ex =>
          if psize ex =? 0 then posting_from_merge ps else
          let C := array_hopper (arr_of_posting ex) in
          let* ls := all_contents ps in
          let* t := drain (total ls) (exclude_body C) (enqueue 0 ls)
                      (minf, minf, minf, array_init (arr_of_posting ex), posting_from_feature (feature p0)) in
          let m := snd t in
          Ok (if psize m =? 0 then None else Some m)
      end
  end.
