(** C29: feature numbers. *)
From Verif Require Import Base Bytes HopperModel ShardModel FeatModel FeatSpec FeatProofs.

(** C29: different ordinary terms shorter than eight bytes have different features. *)
Theorem C29_short_unique_partial : forall t u f, ordinary t -> ordinary u -> short t -> short u ->
  featurize t = Ok f -> featurize u = Ok f -> t = u.
Proof. exact short_unique. Qed.
Print Assumptions C29_short_unique_partial.
(** C29: a short term never shares a feature with a long one. *)
Theorem C29_short_long_partial : forall t u f, ordinary t -> ordinary u -> short t -> ~ short u ->
  featurize t = Ok f -> featurize u <> Ok f.
Proof. exact short_not_long. Qed.
Print Assumptions C29_short_long_partial.
(** C29: features of ordinary terms are positive, and tell short terms from long ones. *)
Theorem C29_positive_partial : forall t f, ordinary t -> featurize t = Ok f -> 0 < f <= maxf /\ (short t <-> f < 2 ^ 56).
Proof. exact feature_kinds. Qed.
Print Assumptions C29_positive_partial.
(** C29: translating gives a short term back; for a long one it gives a number that names
    the same feature. *)
Theorem C29_translate_short_partial : forall t f, ordinary t -> short t -> featurize t = Ok f -> feature_name f = t.
Proof. exact short_name. Qed.
Print Assumptions C29_translate_short_partial.
Theorem C29_translate_long_partial : forall t f, ordinary t -> ~ short t -> featurize t = Ok f ->
  numeral (feature_name f) f /\ featurize (feature_name f) = Ok f.
Proof. exact long_back. Qed.
Print Assumptions C29_translate_long_partial.
(** C29: a number names its feature, and featurizing is defined except for terms with one
    hash. *)
Theorem C29_number : forall t n, numeral t n -> featurize t = Ok n.
Proof. exact numeral_feature. Qed.
Print Assumptions C29_number.
Theorem C29_defined_partial : forall t, ordinary t ->
  (exists f, featurize t = Ok f) \/ (~ short t /\ murmur t 588503011 = 2 ^ 63).
Proof. exact featurize_defined. Qed.
Print Assumptions C29_defined_partial.
Example C29_ex : ordinary (lit "#dog") /\ short (lit "#dog") /\ ordinary (lit "elephants") /\ ~ short (lit "elephants") /\
  (exists f, featurize (lit "#dog") = Ok f /\ feature_name f = lit "#dog") /\
  (exists f, featurize (lit "elephants") = Ok f /\ featurize (feature_name f) = Ok f).
Proof. exact feat_ex. Qed.
(** C29 for other terms is false: a NUL byte, a number, the empty term, and a term of
    eight ordinary bytes for which the program negates the least 64-bit number. *)
Theorem C29_nul_refuted : exists t u f, t <> u /\ short t /\ short u /\ featurize t = Ok f /\ featurize u = Ok f.
Proof. exact nul_shared. Qed.
Print Assumptions C29_nul_refuted.
Theorem C29_number_refuted : exists t u f, t <> u /\ ordinary u /\ featurize t = Ok f /\ featurize u = Ok f.
Proof. exact number_shared. Qed.
Print Assumptions C29_number_refuted.
Theorem C29_erase_marker_refuted : featurize [] = Ok null_feature /\ featurize (lit "#0") = Ok null_feature.
Proof. exact null_shared. Qed.
Print Assumptions C29_erase_marker_refuted.
Theorem C29_overflow_refuted : exists t, ordinary t /\ featurize t = UB.
Proof. exact hash_undefined. Qed.
Print Assumptions C29_overflow_refuted.
(** C29 with tags: different tags, and different keys under a tag, have different features,
    and the feature's translation spells out the tag. *)
Theorem C29_tags_partial : forall tag key tag' key' f, Forall (fun c => 0 < c < 256) (tag ++ key) -> Forall (fun c => 0 < c < 256) (tag' ++ key') ->
  ~ In 58 tag -> ~ In 58 tag' -> (length tag + length key < 7)%nat -> (length tag' + length key' < 7)%nat ->
  tagging tag key = Ok f -> tagging tag' key' = Ok f -> tag = tag' /\ key = key'.
Proof. exact tags_apart. Qed.
Print Assumptions C29_tags_partial.
Theorem C29_tagged_name_partial : forall tag key f, Forall (fun c => 0 < c < 256) (tag ++ key) -> (length tag + length key < 7)%nat ->
  tagging tag key = Ok f -> feature_name f = tag ++ lit ":" ++ key.
Proof. exact tagged_name. Qed.
Print Assumptions C29_tagged_name_partial.
Example C29_tag_ex : exists f g, tagging (lit "df") (lit "dog") = Ok f /\ tagging (lit "tf") (lit "dog") = Ok g /\ f <> g /\ feature_name f = lit "df:dog".
Proof. exact tag_ex. Qed.
(** C29 is false for tags with colons in them, and a tagging featurizer does not
    translate a feature back to the key it was made from. *)
Theorem C29_tag_colon_refuted : exists tag key tag' key' f, tag <> tag' /\ tagging tag key = Ok f /\ tagging tag' key' = Ok f.
Proof. exact tags_shared. Qed.
Print Assumptions C29_tag_colon_refuted.
Theorem C29_tag_translate_refuted : exists tag key f, tagging tag key = Ok f /\ feature_name f <> key.
Proof. exact tagged_not_back. Qed.
Print Assumptions C29_tag_translate_refuted.
