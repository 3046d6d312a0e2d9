(** C75: bigwigs reopened from their configuration. *)
From Verif Require Import Base Bytes RecipeModel RecipeSpec MakeModel MakeSpec JsonTxtModel OpenModel OpenSpec OpenProofs OpenWitness.

(** C75: after any history of settings and reopenings a bigwig has the features, the tokenizer
    and the compressors that it was made with, is known as a bigwig, and gives for each
    parameter the value that was set last. *)
Theorem C75_kept_partial : forall f t posting fvalue text es, plain_tags f -> named posting -> named fvalue -> named text -> Forall proper es ->
  exists st, history (bigwig_make f t posting fvalue text) es = Ok (Some st) /\ made_of (snd st) f t posting fvalue text /\
    warren_kind (fst st) = Some (lit "bigwig") /\ forall k, get_parameter st k = last_value k es.
Proof. exact kept. Qed.
Print Assumptions C75_kept_partial.
(** C75: when it is reopened, its default container, its stemmer and whether it merges are as
    set last. *)
Theorem C75_reopened_partial : forall f t posting fvalue text es vocabulary, plain_tags f -> named posting -> named fvalue -> named text -> Forall proper es ->
  exists st, history (bigwig_make f t posting fvalue text) (es ++ [Reopen vocabulary]) = Ok (Some st) /\
    b_container (snd st) = last_value (lit "container") es /\
    b_stemmer (snd st) = (if eqb_bytes (last_value (lit "stemmer") es) (lit "porter") then Porter else NoStem) /\
    b_merge (snd st) = (eqb_bytes (last_value (lit "merge") es) [] || okay (last_value (lit "merge") es)).
Proof. exact reopened. Qed.
Print Assumptions C75_reopened_partial.
Example C75_case : plain_tags o_sample /\ Forall proper o_events /\ named c_zlib /\ named c_post /\ named c_tfdf.
Proof. exact (conj (proj1 o_proper) (conj (proj2 o_proper) c_named)). Qed.
Example C75_history_case : exists st, history (bigwig_make o_sample (Ascii true) c_post c_tfdf c_zlib) (o_events ++ [Reopen true]) = Ok (Some st) /\
  get_parameter st (lit "id") = lit ":id:" /\ get_parameter st (lit "merge") = lit "no" /\ b_merge (snd st) = false /\
  b_container (snd st) = lit "(... <DOC> </DOC>)" /\ b_stemmer (snd st) = Porter /\ b_tokenizer (snd st) = Ascii true.
Proof. exact o_case. Qed.
(** C75: exactly the tokenizers that pass the check can be made. *)
Theorem C75_tokenizer : forall name recipe, tok_check name recipe = true <-> exists t, tok_make name recipe = Ok (Some t).
Proof. exact tok_checked. Qed.
Print Assumptions C75_tokenizer.
(** C75 without conditions is false.  After a default container with quotation marks was set,
    as any query for a phrase has, the burrow cannot be opened. *)
Theorem C75_quoted_refuted : exists st, set_container (bigwig_make Hashing (Ascii false) c_post c_zlib c_zlib) quoted_query = st /\
  get_parameter st (lit "container") = quoted_query /\ bigwig_open true (fst st) = Ok None.
Proof. exact quoted_lost. Qed.
Print Assumptions C75_quoted_refuted.
(** C75: nor after the name of a stemmer that there is not. *)
Theorem C75_stemmer_refuted : exists st, set_parameter (bigwig_make Hashing (Ascii false) c_post c_zlib c_zlib) (lit "stemmer") (lit "Porter") = st /\
  get_parameter st (lit "stemmer") = lit "Porter" /\ bigwig_open true (fst st) = Ok None.
Proof. exact stemmer_lost. Qed.
Print Assumptions C75_stemmer_refuted.
(** C75: opening writes to the configuration and loses the parameter of the null stemmer. *)
Theorem C75_null_refuted : exists st st', set_parameter (bigwig_make Hashing (Ascii false) c_post c_zlib c_zlib) (lit "stemmer") (lit "null") = st /\
  get_parameter st (lit "stemmer") = lit "null" /\ bigwig_open true (fst st) = Ok (Some st') /\ get_parameter st' (lit "stemmer") = [] /\ fst st' <> fst st.
Proof. exact null_changed. Qed.
Print Assumptions C75_null_refuted.
(** C75: a compressor from PostCompressor::make() has no name; the reopened bigwig reads what it
    wrote with zlib. *)
Theorem C75_nameless_refuted : exists st st', bigwig_make Hashing (Ascii false) (comp_direct Post) c_zlib c_zlib = st /\ bigwig_open true (fst st) = Ok (Some st') /\
  c_method (b_posting (snd st)) = Post /\ c_method (b_posting (snd st')) = Zlib.
Proof. exact nameless_changed. Qed.
Print Assumptions C75_nameless_refuted.
(** C75: Tokenizer::make with a recipe that does not pass the check is undefined behaviour, not
    an error. *)
Theorem C75_tokenizer_refuted : exists name recipe, tok_check name recipe = false /\ tok_make name recipe = UB.
Proof. exact tok_undefined. Qed.
Print Assumptions C75_tokenizer_refuted.
