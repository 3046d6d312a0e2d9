(** What building a single-file index promises. *)
From Verif Require Import Base HopperModel GclSpec Bytes CodecModel CodecSpec PostingModel PostingSpec ShardModel ShardSpec HazelSpec SingleModel SingleSpec BuildModel.
From Verif Require TextSpec TokenModel ChunkModel PlainModel PlainSpec.

(** The texts and the annotations given to a builder. *)
Definition texts (l : list call) : list bytes := flat_map (fun e => match e with Say t => [t] | Note _ => [] end) l.
Definition notes_of (l : list call) : list annotation := flat_map (fun e => match e with Say _ => [] | Note x => [x] end) l.
(** What the texts were answered. *)
Definition ranges (l : list answer) : list (Z * Z) := flat_map (fun a => match a with Some r => [r] | None => [] end) l.
(** What should be found for a feature: the addresses of its words and its annotations. *)
Definition found (words : list (Z * Z)) (notes : list annotation) (f : Z) (x : iv) : Prop :=
  (exists a, In (f, a) words /\ x = Iv a a 0) \/ taken notes f x.

(** * What is asked of the caller *)
(** Words and annotations have different features. *)
Definition separate (words : list (Z * Z)) (notes : list annotation) : Prop :=
  forall f a x, In (f, a) words -> taken notes f x -> False.
(** Annotations of a feature are given in the order of their starts. *)
Definition in_order (notes : list annotation) : Prop :=
  forall i j f x y, (i < j)%nat -> nth_error notes i = Some (Ann f x) -> nth_error notes j = Some (Ann f y) ->
    0 <= ip x <= iq x -> 0 <= ip y <= iq y -> ip x <= ip y.
(** Features of words and of annotations in their range. *)
Definition word_ok (w : Z * Z) : Prop := 0 < fst w < maxf.
(** Annotations have features; that of no annotation is 0. *)
Definition note_ok (x : annotation) : Prop := 0 <= afeat x.
