(** Cases for options: the configuration of a new bigwig. *)
From Verif Require Import Base Bytes RecipeModel RecipeSpec RecipeProofs RecipeDna MakeModel OptionsModel OptionsSpec OptionsProofs.

(** src/bigwig.cc:396-424 *)
Definition default_dna : bytes :=
  lit "[  featurizer:[    name:""hashing"",    recipe:"""",  ],  idx:[    name:""bigwig"",    recipe:[      fvalue_compressor:""null"",      fvalue_compressor_recipe:"""",      posting_compressor:""null"",      posting_compressor_recipe:"""",    ],  ],  parameters:[],  tokenizer:[    name:""utf8"",    recipe:"""",  ],  txt:[    name:""bigwig"",    recipe:[      compressor:""null"",      compressor_recipe:"""",      json:""no"",    ],  ],  warren:""bigwig"",]".
Definition part (n : bytes) (r : conf) : conf := Map [(lit "name", Str n); (lit "recipe", r)].
Definition idx_with (fvalue posting : bytes) : conf :=
  part (lit "bigwig") (Map [(lit "fvalue_compressor", Str fvalue); (lit "fvalue_compressor_recipe", Str []);
                            (lit "posting_compressor", Str posting); (lit "posting_compressor_recipe", Str [])]).
Definition txt_with (c : bytes) : conf :=
  part (lit "bigwig") (Map [(lit "compressor", Str c); (lit "compressor_recipe", Str []); (lit "json", Str (lit "no"))]).
Definition conf_with (featurizer idx txt : conf) : list (bytes * conf) :=
  [(lit "featurizer", featurizer); (lit "idx", idx); (lit "parameters", Map []); (lit "tokenizer", part (lit "utf8") (Str []));
   (lit "txt", txt); (lit "warren", Str (lit "bigwig"))].
Definition default_conf := conf_with (part (lit "hashing") (Str [])) (idx_with (lit "null") (lit "null")) (txt_with (lit "null")).
(** The options of a meadow, meadowlark/meadowlark.cc:37-39, and what they are to give. *)
Definition meadow_options : list opt :=
  [Set_name (lit "tokenizer") (lit "utf8"); Wrap (lit "featurizer") (lit "json"); Set_in (lit "idx") (lit "fvalue_compressor") (lit "zlib");
   Set_in (lit "idx") (lit "posting_compressor") (lit "post"); Set_in (lit "txt") (lit "compressor") (lit "zlib")].
Definition meadow_conf := conf_with (part (lit "json") (part (lit "hashing") (Str []))) (idx_with (lit "zlib") (lit "post")) (txt_with (lit "zlib")).

Ltac saying := repeat match goal with
  | |- says _ (Str _) => split; vm_compute; reflexivity
  | |- says _ (Map _) => eexists; split; [vm_compute; reflexivity|]
  | |- pairs _ _ _ => cbn [pairs]
  | |- _ /\ _ => split
  | |- _ = _ => reflexivity
  | |- True => exact I
  end.
Lemma default_says : says default_dna (Map default_conf).
Proof. unfold default_conf, conf_with, idx_with, txt_with, part. saying. Qed.
Lemma clean_by v : forallb (fun c => negb (c =? 34) && negb (c =? 92) && negb (c =? 0)) v = true -> clean v.
Proof. intros F c J. rewrite forallb_forall in F. specialize (F c J). lia. Qed.
Lemma default_clean : texts clean (Map default_conf).
Proof. cbn [texts every default_conf conf_with idx_with txt_with part]. repeat (first [exact I|apply clean_by; reflexivity|split]). Qed.
Lemma name_by k : negb (eqb_bytes k []) && forallb identifier k = true -> name k.
Proof.
  intros H. apply andb_prop in H. destruct H as [A B]. split; [apply negb_true_iff, eqb_bytes_neq in A; exact A|].
  rewrite forallb_forall in B. exact B.
Qed.
Lemma value_by z : negb (eqb_bytes z []) && forallb (fun c => negb (c =? 58) && negb (c =? 64) && negb (c =? 34) && negb (c =? 92) && negb (c =? 0)) z = true -> cook z = None -> value z.
Proof.
  intros H K. apply andb_prop in H. destruct H as [A B]. rewrite forallb_forall in B. split; [apply negb_true_iff, eqb_bytes_neq in A; exact A|].
  split; [intros J; specialize (B _ J); discriminate|]. split; [intros J; specialize (B _ J); discriminate|].
  split; [intros c J; specialize (B c J); lia|exact K].
Qed.
Ltac fine_option := cbn [proper]; repeat (first [split; [apply name_by; reflexivity|]|apply value_by; reflexivity|split; [vm_compute; discriminate|]]).
Ltac step := eapply changes_more; [fine_option|intros p G; vm_compute in G; injection G as <-; vm_compute; discriminate|vm_compute; reflexivity|].
Lemma meadow_changes : changes default_conf meadow_options meadow_conf.
Proof. unfold meadow_options. step. step. step. step. step. apply changes_none. Qed.
Lemma meadow_named : whole (lit "tokenizer") default_conf /\ has_name (lit "tokenizer") default_conf /\ proper (Set_name (lit "tokenizer") (lit "ascii")).
Proof.
  split; [intros p G; vm_compute in G; injection G as <-; vm_compute; discriminate|].
  split; [intros p G; vm_compute in G; injection G as <-; vm_compute; discriminate|]. fine_option.
Qed.
Lemma meadow_text : exists recipe, interpret_all default_dna (map spelled meadow_options) = Ok (Some recipe) /\
  extract_option recipe (lit "idx:posting_compressor") = Ok (Some (lit "post")) /\ extract_option recipe (lit "featurizer:name") = Ok (Some (lit "json")).
Proof. eexists. split; [vm_compute; reflexivity|]. split; vm_compute; reflexivity. Qed.

Lemma short_undefined : interpret_option default_dna (lit "tokenizer") = UB /\ interpret_option default_dna (lit "tokenizer:") = UB.
Proof. repeat split; vm_compute; reflexivity. Qed.
Lemma long_accepted : interpret_option default_dna (lit "tokenizer:name:ascii:xml") = interpret_option default_dna (lit "tokenizer:name:ascii") /\
  interpret_option default_dna (lit "tokenizer:name:ascii") <> Ok None.
Proof. split; vm_compute; [reflexivity|discriminate]. Qed.
Lemma empty_value : exists recipe, interpret_option default_dna (lit "tokenizer:name:") = Ok (Some recipe) /\
  extract_option recipe (lit "tokenizer:name") = Ok (Some (lit "utf8")) /\ extract_option recipe (lit "tokenizer") = Ok (Some (lit "name")).
Proof. eexists. split; [vm_compute; reflexivity|]. split; vm_compute; reflexivity. Qed.
Lemma no_recipe : interpret_option default_dna (lit "parameters:container:doc") = UB /\ extract_option default_dna (lit "parameters") = UB.
Proof. split; vm_compute; reflexivity. Qed.
Lemma not_there : extract_option default_dna (lit "idx:compressor") = UB.
Proof. vm_compute. reflexivity. Qed.
