(** C77: options that change recipes. *)
From Verif Require Import Base Bytes RecipeModel RecipeSpec RecipeProofs RecipeDna MakeModel OptionsModel OptionsSpec OptionsProofs OptionsWitness.

(** C77: an option changes the one setting that it names and leaves the rest of the
    configuration as it was; one that does not apply is refused. *)
Theorem C77_option_partial : forall recipe l o, says recipe (Map l) -> texts clean (Map l) -> proper o -> whole (item_of o) l ->
  match change o l with
  | Some l' => exists recipe', interpret_option recipe (spelled o) = Ok (Some recipe') /\ says recipe' (Map l') /\ texts clean (Map l')
  | None => interpret_option recipe (spelled o) = Ok None
  end.
Proof. exact interpreted. Qed.
Print Assumptions C77_option_partial.
(** C77: and so do any number of options, one after the other. *)
Theorem C77_options_partial : forall l os l', changes l os l' -> forall recipe, says recipe (Map l) -> texts clean (Map l) ->
  exists recipe', interpret_all recipe (map spelled os) = Ok (Some recipe') /\ says recipe' (Map l') /\ texts clean (Map l').
Proof. exact all_interpreted. Qed.
Print Assumptions C77_options_partial.
Example C77_case : says default_dna (Map default_conf) /\ texts clean (Map default_conf) /\ changes default_conf meadow_options meadow_conf.
Proof. exact (conj default_says (conj default_clean meadow_changes)). Qed.
Example C77_meadow_case : exists recipe, interpret_all default_dna (map spelled meadow_options) = Ok (Some recipe) /\
  extract_option recipe (lit "idx:posting_compressor") = Ok (Some (lit "post")) /\ extract_option recipe (lit "featurizer:name") = Ok (Some (lit "json")).
Proof. exact meadow_text. Qed.
(** C77: what is extracted is what the configuration says. *)
Theorem C77_extracted_partial : forall recipe l q t, says recipe (Map l) -> sensible q -> shown q l = Some t ->
  exists v, extract_option recipe (asked q) = Ok (Some v) /\ says v t.
Proof. exact extracted. Qed.
Print Assumptions C77_extracted_partial.
(** C77: what was set by an option is extracted again. *)
Theorem C77_back_partial : forall recipe l o l', says recipe (Map l) -> texts clean (Map l) -> proper o -> whole (item_of o) l -> has_name (item_of o) l -> change o l = Some l' ->
  exists recipe', interpret_option recipe (spelled o) = Ok (Some recipe') /\ extract_option recipe' (asked (fst (sets o))) = Ok (Some (snd (sets o))).
Proof. exact set_shown. Qed.
Print Assumptions C77_back_partial.
Example C77_back_case : whole (lit "tokenizer") default_conf /\ has_name (lit "tokenizer") default_conf /\ proper (Set_name (lit "tokenizer") (lit "ascii")).
Proof. exact meadow_named. Qed.
(** C77 for other texts is false.  An option of one piece is found to be malformed, but then its
    second piece is read. *)
Theorem C77_short_refuted : interpret_option default_dna (lit "tokenizer") = UB /\ interpret_option default_dna (lit "tokenizer:") = UB.
Proof. exact short_undefined. Qed.
Print Assumptions C77_short_refuted.
(** C77: one of more than three pieces is accepted, and the rest left out. *)
Theorem C77_long_refuted : interpret_option default_dna (lit "tokenizer:name:ascii:xml") = interpret_option default_dna (lit "tokenizer:name:ascii") /\
  interpret_option default_dna (lit "tokenizer:name:ascii") <> Ok None.
Proof. exact long_accepted. Qed.
Print Assumptions C77_long_refuted.
(** C77: an empty value sets something else. *)
Theorem C77_empty_refuted : exists recipe, interpret_option default_dna (lit "tokenizer:name:") = Ok (Some recipe) /\
  extract_option recipe (lit "tokenizer:name") = Ok (Some (lit "utf8")) /\ extract_option recipe (lit "tokenizer") = Ok (Some (lit "name")).
Proof. exact empty_value. Qed.
Print Assumptions C77_empty_refuted.
(** C77: an item without a recipe, as the parameters of every new bigwig. *)
Theorem C77_whole_refuted : interpret_option default_dna (lit "parameters:container:doc") = UB /\ extract_option default_dna (lit "parameters") = UB.
Proof. exact no_recipe. Qed.
Print Assumptions C77_whole_refuted.
(** C77: extracting a setting that there is not. *)
Theorem C77_missing_refuted : extract_option default_dna (lit "idx:compressor") = UB.
Proof. exact not_there. Qed.
Print Assumptions C77_missing_refuted.
