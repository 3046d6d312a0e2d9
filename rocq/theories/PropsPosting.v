(** Property theorems C13-C16: posting lists on disk, from annotations, merged and
    with erased ranges.  Vocabulary: GclSpec.v, CodecSpec.v, PostingSpec.v. *)
From Verif Require Import Base HopperModel ArrayDefs GclSpec Bytes CodecModel CodecSpec PostingModel PostingSpec
  PostingProofs PostingIO AnnProofs PostingWitness.

(** C13: a list written by any two compressors that are lossless on its arrays is read
    back from a file, wherever it stands in it, from a copy in memory, and into the
    arrays an ArrayHopper uses. *)
Theorem C13_write_read : forall cp cf s l, holds s l -> storable cp cf s ->
  exists b, write cp cf s = Ok b /\
    (forall rest, posting_from_file cp cf (b ++ rest) = Ok (Some (s, rest))) /\
    posting_from_blob cp cf b = Ok (Some s) /\
    (l <> [] -> cache_from_blob cp cf (Z.of_nat (length l)) b = Ok (Some (arr_of_posting s))).
Proof. exact write_read. Qed.
Print Assumptions C13_write_read.
(** C13: a file of any number of lists. *)
Theorem C13_file : forall cp cf ss, Forall (fun s => (exists l, holds s l) /\ storable cp cf s) ss ->
  exists b, write_postings cp cf ss = Ok b /\ read_postings (S (length ss)) cp cf b = Ok ss.
Proof. exact file_of_postings. Qed.
Print Assumptions C13_file.
(** C13: a truncated record is refused. *)
Theorem C13_truncated : forall cp cf s l b k, holds s l -> storable cp cf s -> write cp cf s = Ok b ->
  (k < length b)%nat ->
  posting_from_blob cp cf (firstn k b) = Ok None /\ forall want, cache_from_blob cp cf want (firstn k b) = Ok None.
Proof. exact write_truncated. Qed.
Print Assumptions C13_truncated.
(** C13: the default compressors can store every list of non-negative addresses. *)
Theorem C13_default_compressors : forall s l, holds s l -> gcdup l ->
  Forall (fun x => 0 <= ip x /\ is_addr (ivl x)) l ->
  is_addr (feature s) -> Z.of_nat (length l) <= 288230376151711743 ->
  storable post_compressor (tfdf_compressor false) s.
Proof. exact standard_storable. Qed.
Print Assumptions C13_default_compressors.
(** C13: the arrays of an ArrayHopper made from a list are those of its intervals. *)
Theorem C13_arrays : forall s l, holds s l ->
  arr_of_posting s = arr_of l (match fostings s with [] => false | _ => true end).
Proof. exact arr_of_posting_eq. Qed.
Print Assumptions C13_arrays.
(** C13: push adds one interval, append another list. *)
Theorem C13_push : forall s l x, holds s l -> ip x <= iq x -> value_ok x -> holds (push s x) (l ++ [x]).
Proof. exact push_holds. Qed.
Print Assumptions C13_push.
Theorem C13_push_negative_zero_refuted : exists s l x, holds s l /\ ip x <= iq x /\ ~ holds (push s x) (l ++ [x]).
Proof. exact neg_zero_refuted. Qed.
Print Assumptions C13_push_negative_zero_refuted.
Theorem C13_append : forall s t l m, holds s l -> holds t m -> feature s = feature t ->
  exists r, append s t = Ok r /\ holds r (l ++ m) /\ feature r = feature s.
Proof. exact append_holds. Qed.
Print Assumptions C13_append.
Example C13_ex : holds p1 l1 /\ storable post_compressor (tfdf_compressor false) p1 /\
  write post_compressor (tfdf_compressor false) p1 =
    Ok (word_bytes [42; 3; 3; 3; 24] ++ [1; 3; 4] ++ [3; 2; 3] ++ word_bytes [7; 9; 0]).
Proof. exact posting_ex. Qed.

(** C14: the index of a batch, whatever order the sort gives to equal annotations: of
    each feature the annotations that contain no other starting later; when those
    that start together are the same, the innermost ones, in order.  Missing from the
    full property: the innermost ones for every batch, which is false
    (C14_same_start_refuted below). *)
Theorem C14_index_partial : forall batch sorted, sort_result batch sorted ->
  Forall (fun a => value_ok (aiv a)) batch ->
  exists index, build_index (length sorted) sorted [] = Ok index /\
  forall f,
    match find_posting index f with
    | None => forall x, ~ In (Ann f x) batch
    | Some s => feature s = f /\ exists l, holds s l /\ rising l /\ (forall x, In x l <-> kept batch f x) /\
        (starts_distinct batch f -> (forall x, annotated batch f x -> finite x) ->
           gcdup l /\ forall x, In x l <-> innermost_ann batch f x)
    end.
Proof. exact index_ok. Qed.
Print Assumptions C14_index_partial.
Theorem C14_sort_exists : forall batch, exists sorted, sort_result batch sorted.
Proof. exact sort_exists. Qed.
Print Assumptions C14_sort_exists.
Example C14_ex : sort_result b2 b2s /\ Forall (fun a => value_ok (aiv a)) b2 /\ starts_distinct b2 42 /\
  build_index 5 b2s [] = Ok [(42, Posting 42 [1; 6] [2; 7] [0; 1]); (7, Posting 7 [1] [] [])].
Proof. exact ann_ex. Qed.
(** C14 without the condition on starts: an annotation that strictly contains another
    is stored, and the same call then answers differently after different calls. *)
Theorem C14_same_start_refuted : exists batch sorted index s l, sort_result batch sorted /\
  Forall (fun a => value_ok (aiv a) /\ finite (aiv a)) batch /\
  build_index (length sorted) sorted [] = Ok index /\ find_posting index 42 = Some s /\ holds s l /\
  (exists x y, In x l /\ In y l /\ nests x y /\ ~ nests y x) /\
  run (array_hopper (arr_of_posting s)) (array_init (arr_of_posting s)) [(Mtau, 5)] = Ok [Iv 5 6 1] /\
  run (array_hopper (arr_of_posting s)) (array_init (arr_of_posting s)) [(Muat, 10); (Mtau, 5)] = Ok [Iv 5 8 2; Iv 5 8 2].
Proof. exact same_start_refuted. Qed.
Print Assumptions C14_same_start_refuted.

(** C15: merging the lists of one feature.  Missing from the full property: lists that
    may be empty (a batch of annotations with p > q makes one), for which it is false
    (C15_empty_list_refuted below). *)
Theorem C15_merge_partial : forall f ps ls, ps <> [] -> Forall2 holds ps ls -> Forall (fun p => feature p = f) ps ->
  Forall gcdup ls -> Forall (fun l => l <> []) ls -> Forall (Forall value_ok) ls ->
  exists m l, posting_from_merge ps = Ok (Some m) /\ feature m = f /\ holds m l /\ gcdup l /\
              (forall x, In x l <-> sem_inner (map set_of ls) x) /\ (length l <= length (concat ls))%nat.
Proof. exact merge_ok. Qed.
Print Assumptions C15_merge_partial.
(** C15: with an empty list between two others the merge may keep both of two nested
    intervals. *)
Theorem C15_empty_list_refuted : exists ps ls m l, Forall2 holds ps ls /\ Forall gcdup ls /\
  posting_from_merge ps = Ok (Some m) /\ holds m l /\
  (exists x y, In x l /\ In y l /\ nests x y /\ x <> y) /\ (exists x, In x l /\ ~ sem_inner (map set_of ls) x).
Proof. exact merge_empty_refuted. Qed.
Print Assumptions C15_empty_list_refuted.

(** C16: merging while excluding ranges keeps exactly the merged intervals that no
    excluded range contains; nothing left is no list. *)
Theorem C16_merge_exclude : forall f ps ls e ex, ps <> [] -> Forall2 holds ps ls -> Forall (fun p => feature p = f) ps ->
  Forall gcdup ls -> Forall (Forall value_ok) ls ->
  holds e ex -> gcdup ex -> ex <> [] -> Z.of_nat (length ex) <= 2305843009213693951 ->
  exists o, posting_from_merge_exclude ps (Some e) = Ok o /\
    exists l, listed (sem_nin (sem_inner (map set_of ls)) (set_of ex)) l /\
      match o with
      | None => l = []
      | Some m => feature m = f /\ holds m l /\ l <> []
      end.
Proof. exact merge_exclude_ok. Qed.
Print Assumptions C16_merge_exclude.
Example C15_C16_ex : Forall2 holds [p1; p2; p3] [l1; l2; l3] /\ Forall gcdup [l1; l2; l3] /\
  posting_from_merge [p1; p2; p3] = Ok (Some (Posting 42 [2; 4; 8; 20] [] [])) /\
  posting_from_merge [p1; p3] = Ok (Some (Posting 42 [1; 4; 8] [3; 5; 8] [5; 9; 0])) /\
  posting_from_merge_exclude [p1; p3] (Some (Posting 0 [0; 8] [4; 30] [])) = Ok (Some (Posting 42 [4] [5] [9])) /\
  posting_from_merge_exclude [p1; p3] (Some (Posting 0 [0] [30] [])) = Ok None.
Proof. exact merge_ex. Qed.
