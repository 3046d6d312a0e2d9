(** C74: featurizers made from names and recipes. *)
From Verif Require Import Base Bytes HopperModel ShardModel FeatModel RecipeModel RecipeSpec MakeModel MakeSpec MakeProofs MakeWitness.

(** C74: what a featurizer gives as its name and its recipe makes a featurizer with the same
    features for every text, the same translations, the same name and the same recipe; so
    does any other recipe that says the same. *)
Theorem C74_restored_partial : forall working vocabulary f r, kept_tags f -> same_says (feat_recipe f) r ->
  exists g, featurizer_make working vocabulary (feat_name f) r = Some g /\ alike g f /\ feat_name g = feat_name f /\ feat_recipe g = feat_recipe f.
Proof. exact restored. Qed.
Print Assumptions C74_restored_partial.
Example C74_restored_case : kept_tags f_sample /\ same_says (feat_recipe f_sample) r_hand /\ r_hand <> feat_recipe f_sample /\
  featurizer_make false false (lit "json") r_hand = Some (Json (Tagging (Tagging Hashing (lit "en")) (lit "title"))) /\
  feature f_sample (lit "dog") = featurize (lit "en:title:dog") /\ feature f_sample [239; 183; 144] = Ok null_feature.
Proof. exact (conj f_sample_kept (conj r_hand_same f_sample_made)). Qed.
(** C74: with a working directory, exactly what passes the check can be made. *)
Theorem C74_checked : forall vocabulary name recipe,
  featurizer_check name recipe = true <-> exists f, featurizer_make true vocabulary name recipe = Some f.
Proof. exact checked_made. Qed.
Print Assumptions C74_checked.
(** C74: what is made without a working directory is what is made with one. *)
Theorem C74_without : forall vocabulary name recipe f,
  featurizer_make false vocabulary name recipe = Some f -> featurizer_make true vocabulary name recipe = Some f.
Proof. exact made_without. Qed.
Print Assumptions C74_without.
(** C74: only six names make anything. *)
Theorem C74_names : forall working vocabulary name recipe f, featurizer_make working vocabulary name recipe = Some f ->
  In name [[]; lit "hashing"; lit "tagging"; lit "vocab"; lit "json"; lit "null"].
Proof. exact made_names. Qed.
Print Assumptions C74_names.
(** C74: making comes to an end: recipes nest no deeper than they are long. *)
Theorem C74_ends : forall working vocabulary n n' name recipe, (length recipe + 2 <= n)%nat -> (length recipe + 2 <= n')%nat ->
  feat_make working vocabulary n name recipe = feat_make working vocabulary n' name recipe.
Proof. exact make_enough. Qed.
Print Assumptions C74_ends.
(** C74: a vocabulary around any featurizer does not change its features, counts each text
    as often as it was asked for, and writes a line for each. *)
Theorem C74_vocabulary : forall vocabulary r name recipe f,
  unwrap r = Some (name, recipe) \/ (cook r = None /\ r <> [] /\ name = r /\ recipe = []) \/ (r = [] /\ name = lit "hashing" /\ recipe = []) ->
  featurizer_make true vocabulary name recipe = Some f -> exists g, featurizer_make true vocabulary (lit "vocab") r = Some g /\ alike g f.
Proof. exact vocab_alike. Qed.
Print Assumptions C74_vocabulary.
Theorem C74_counts : forall keys k, get k (vocab_counts keys) = if times k keys =? 0 then None else Some (times k keys).
Proof. exact vocab_counted. Qed.
Print Assumptions C74_counts.
Theorem C74_lines : forall f m s, vocab_file f m = Ok s ->
  exists ls, s = concat ls /\ Forall2 (fun l tc => exists n, feature f (fst tc) = Ok n /\ vocab_line l n (snd tc) (fst tc)) ls m.
Proof. exact vocab_file_lines. Qed.
Print Assumptions C74_lines.
Example C74_vocabulary_case : exists f, featurizer_make true false (lit "tagging") (lit "[name:'hashing',tag:'x']") = Some f /\
  featurizer_make true false (lit "vocab") (lit "[name:'tagging',recipe:[name:'hashing',tag:'x']]") = Some (Vocab f) /\
  featurizer_make true true (lit "vocab") (lit "null") = Some Nothing.
Proof. exact vocab_case. Qed.
Example C74_counts_case : vocab_counts v_keys = [(lit "be", 2); (lit "not", 1); (lit "or", 1); (lit "to", 2)] /\
  exists s, vocab_file Hashing (vocab_counts v_keys) = Ok s /\ (20 < length s)%nat.
Proof. exact vocab_counts_case. Qed.
(** C74: the ten characters that mark structure in JSON have the feature that nothing is
    indexed under, and all texts but those that start with the same two bytes keep theirs. *)
Theorem C74_structure : forall f key, structural key -> feature (Json f) key = Ok null_feature.
Proof. exact structural_null. Qed.
Print Assumptions C74_structure.
Theorem C74_text_partial : forall f key, (forall c, key <> [239; 183; c]) -> feature (Json f) key = feature f key.
Proof. exact other_wrapped. Qed.
Print Assumptions C74_text_partial.
Example C74_text_case : structural [239; 183; 153] /\ forall c, lit "dog" <> [239; 183; c].
Proof. split; [exists 153; split; [lia|reflexivity]|discriminate]. Qed.
(** C74 without conditions is false: a tag that is itself a configuration comes back with
    other spacing, so other features; a tag with a quotation mark is not read back. *)
Theorem C74_tag_refuted : exists f g key, clean (lit "[a:'b']") /\ f = Tagging Hashing (lit "[a:'b']") /\
  featurizer_make true true (feat_name f) (feat_recipe f) = Some g /\ feature g key <> feature f key.
Proof. exact tag_respelt. Qed.
Print Assumptions C74_tag_refuted.
Theorem C74_quoted_refuted : exists f, f = Tagging Hashing (34 :: lit "x") /\
  featurizer_make true true (feat_name f) (feat_recipe f) = None /\ featurizer_check (feat_name f) (feat_recipe f) = false.
Proof. exact tag_quoted. Qed.
Print Assumptions C74_quoted_refuted.
(** C74: the check passes a vocabulary that cannot be made for want of a working directory. *)
Theorem C74_working_refuted : exists name recipe, featurizer_check name recipe = true /\ forall vocabulary, featurizer_make false vocabulary name recipe = None.
Proof. exact needs_working. Qed.
Print Assumptions C74_working_refuted.
(** C74: the test for structure has no upper bound, so other characters lose their feature. *)
Theorem C74_text_refuted : exists key, ~ structural key /\ key = [239; 183; 186] /\ feature (Json Hashing) key = Ok null_feature /\
  exists f, feature Hashing key = Ok f /\ f <> null_feature.
Proof. exact arabic_lost. Qed.
Print Assumptions C74_text_refuted.
