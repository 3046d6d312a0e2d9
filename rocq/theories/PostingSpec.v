(** Specification vocabulary for posting lists: what a list holds is what get answers. *)
From Verif Require Import Base HopperModel GclSpec Bytes CodecModel CodecSpec PostingModel.

(** [holds s l]: the vectors have consistent sizes and get(0), get(1), ... answer the
    intervals of [l] and then false. *)
Definition holds (s : posting) (l : list iv) : Prop :=
  (qostings s = [] \/ length (qostings s) = length (postings s)) /\
  (fostings s = [] \/ length (fostings s) = length (postings s)) /\
  forall i, get s i = Ok (nth_error l i).

(** A value a list can carry: any 64-bit pattern but the one of -0.0. *)
Definition value_ok (x : iv) : Prop := ivl x <> minf.

(** The annotations of feature [f] in a batch [b]; one that ends before it starts is none. *)
Definition annotated (b : list annotation) (f : Z) (x : iv) : Prop :=
  In (Ann f x) b /\ ip x <= iq x.
(** The ones that contain no other that starts later. *)
Definition kept (b : list annotation) (f : Z) (x : iv) : Prop :=
  annotated b f x /\ forall y, annotated b f y -> nests x y -> ip y = ip x.
(** The innermost ones. *)
Definition innermost_ann (b : list annotation) (f : Z) (x : iv) : Prop :=
  annotated b f x /\ forall y, annotated b f y -> nests x y -> y = x.
(** Annotations of the same feature that start together are the same annotation. *)
Definition starts_distinct (b : list annotation) (f : Z) : Prop :=
  forall x y, annotated b f x -> annotated b f y -> ip x = ip y -> x = y.
(** Starts and ends do not fall. *)
Fixpoint rising (l : list iv) : Prop :=
  match l with
  | [] => True
  | x :: r => match r with [] => True | y :: _ => ip x <= ip y /\ iq x <= iq y end /\ rising r
  end.

(** What the compressors have to do for a posting to be stored. *)
Definition storable (cp cf : compressor) (s : posting) : Prop :=
  is_addr (feature s) /\
  Forall is_addr (postings s) /\ Forall is_addr (qostings s) /\ Forall is_addr (fostings s) /\
  0 <= extra cp (8 * psize s) /\ 0 <= extra cf (8 * psize s) /\
  8 * psize s + extra cp (8 * psize s) <= maxf /\ 8 * psize s + extra cf (8 * psize s) <= maxf /\
  lossless cp (word_bytes (postings s)) /\ lossless cp (word_bytes (qostings s)) /\
  lossless cf (word_bytes (fostings s)).

(** Reading the postings of a file one after the other until the first failure. *)
Fixpoint read_postings (n : nat) (cp cf : compressor) (f : bytes) : res (list posting) :=
  match n with
  | O => NoFuel
  | S m => let* r := posting_from_file cp cf f in
           match r with
           | None => Ok []
           | Some (s, f) => let* l := read_postings m cp cf f in Ok (s :: l)
           end
  end.
Fixpoint write_postings (cp cf : compressor) (l : list posting) : res bytes :=
  match l with
  | [] => Ok []
  | s :: r => let* b := write cp cf s in let* c := write_postings cp cf r in Ok (b ++ c)
  end.
