(** C76: the ranking statistics of a warren. *)
From Verif Require Import Base Bytes RecipeModel MakeModel JsonTxtModel OpenModel ChoiceModel ChoiceSpec ChoiceProofs ChoiceWitness.

(** C76: statistics are of the kind and for the recipe that was asked for, or when none was,
    of the kind that the warren declares; those of meadows are the tf-idf statistics. *)
Theorem C76_chosen : forall ndebug name recipe w s, stats_make ndebug name recipe w = Ok (Some s) ->
  called (s_kind s) (s_name s) /\ (s_kind s = KTfIdf <-> meadow w) /\
  (name <> [] -> s_name s = name /\ s_recipe s = recipe) /\ (name = [] -> declared w (s_name s) /\ s_recipe s = []).
Proof. exact chosen. Qed.
Print Assumptions C76_chosen.
(** C76: what the warren declares is what is made without a name; a warren that declares
    nothing has no statistics. *)
Theorem C76_declared : forall ndebug recipe w,
  (forall name, readable w -> declared w name -> stats_make ndebug [] recipe w = stats_make ndebug name [] w) /\
  ((forall name, ~ declared w name) -> stats_make ndebug [] recipe w = Ok None).
Proof. exact (fun nd r w => conj (fun name R D => as_declared nd r w name R D) (undeclared nd r w)). Qed.
Print Assumptions C76_declared.
(** C76: they are made whenever the warren holds them. *)
Theorem C76_possible : forall ndebug name k w, w_tokenizer w <> None -> ~ meadow w -> called k name -> holds w k ->
  exists s, stats_make ndebug name [] w = Ok (Some s).
Proof. exact possible. Qed.
Print Assumptions C76_possible.
(** C76: and only then. *)
Theorem C76_held : forall ndebug name recipe w s, ~ meadow w -> stats_make ndebug name recipe w = Ok (Some s) -> holds w (s_kind s).
Proof. exact held. Qed.
Print Assumptions C76_held.
Example C76_held_case : holds df_warren KDf /\ holds idf_warren KIdf /\ called KDf (lit "df") /\ w_tokenizer df_warren <> None.
Proof. exact df_holds. Qed.
Example C76_idf_case : declared idf_warren (lit "idf") /\ exists s, stats_make false [] [] idf_warren = Ok (Some s) /\ s_kind s = KIdf /\
  s_stemmer s = Some Porter /\ s_tokenizer s = Some (Ascii true) /\ container_hopper s idf_warren = Ok [(0, 9); (10, 19)].
Proof. exact idf_case. Qed.
(** C76: the name and the recipe of statistics that were made pass the check. *)
Theorem C76_checked : forall ndebug name recipe w s, stats_make ndebug name recipe w = Ok (Some s) -> stats_check name recipe = true.
Proof. exact checked. Qed.
Print Assumptions C76_checked.
(** C76: the items ranked are the solutions of the first of the parameters content and container
    and the default container that is not empty, and the containers those of the last two; no
    assertion fails. *)
Theorem C76_items : forall ndebug name recipe w s, readable w -> ~ meadow w -> stats_make ndebug name recipe w = Ok (Some s) ->
  content_hopper w = items_of w /\ container_hopper s w = Ok (or_none (containers_of w)) /\
  (s_kind s = KIdf \/ exists l, items_of w = Some l /\ tf_items s w = Ok (Some l)).
Proof. exact items. Qed.
Print Assumptions C76_items.
Example C76_case : readable df_warren /\ ~ meadow df_warren /\ ~ meadow idf_warren /\ meadow (tag_meadow meta_sample).
Proof. exact (conj (with_readable _ _) (conj df_no_meadow (conj idf_no_meadow (tag_is_meadow _)))). Qed.
Example C76_df_case : declared df_warren (lit "df") /\ exists s, stats_make false [] [] df_warren = Ok (Some s) /\ s_kind s = KDf /\
  tf_items s df_warren = Ok (Some [(3, 8); (12, 18)]) /\ container_hopper s df_warren = Ok [(0, 9); (10, 19)].
Proof. exact df_case. Qed.
(** C76: the identifiers are the solutions of the parameter id. *)
Theorem C76_identifiers : forall ndebug name recipe w s, readable w -> ~ meadow w -> stats_make ndebug name recipe w = Ok (Some s) ->
  id_hopper s w = Ok (or_none (w_gcl w (value w (lit "id")))).
Proof. exact identifiers. Qed.
Print Assumptions C76_identifiers.
(** C76: for a meadow the items, the containers, the stemmer and the tokenizer are those of the
    metadata of the tag, by default the whole of it, porter and ascii, and so are the identifiers
    when their query is one. *)
Theorem C76_meadow : forall ndebug name recipe w s, meadow w -> stats_make ndebug name recipe w = Ok (Some s) ->
  exists ps q l l', w_meta w (s_recipe s) = Some (lit "tf-idf", s_recipe s, ps) /\
    get (lit "gcl") ps = Some q /\ w_gcl w q = Some l /\ tf_items s w = Ok (Some l) /\
    w_gcl w (found (lit "container") (lit ":") ps) = Some l' /\ container_hopper s w = Ok l' /\
    s_stemmer s = stem_make (found (lit "stemmer") (lit "porter") ps) /\
    Ok (s_tokenizer s) = tok_make (found (lit "tokenizer") (lit "ascii") ps) [] /\ s_tokenizer s <> None /\
    1 <= fst (w_tagged w (s_recipe s)) /\ 1 <= snd (w_tagged w (s_recipe s)) /\
    forall ids, w_gcl w (found (lit "id") (lit ":0:") ps) = Some ids -> id_hopper s w = Ok ids.
Proof. exact meadow_items. Qed.
Print Assumptions C76_meadow.
Example C76_meadow_case : exists s, stats_make true (lit "tf-idf") (lit "news") (tag_meadow meta_sample) = Ok (Some s) /\ s_kind s = KTfIdf /\
  s_recipe s = lit "news" /\ s_tokenizer s = Some Utf8 /\ s_stemmer s = Some Porter /\ tf_items s (tag_meadow meta_sample) = Ok (Some [(3, 8); (12, 18)]).
Proof. exact meadow_case. Qed.
(** C76: queries are split and stemmed as the warren's text was, in programs compiled with
    assertions. *)
Theorem C76_terms_partial : forall name recipe w s, ~ meadow w -> stats_make false name recipe w = Ok (Some s) ->
  exists t, w_tokenizer w = Some t /\ s_stemmer s = Some (match w_stemmer w with Some x => x | None => NoStem end) /\
    forall split query, query_terms split s query = Ok (split t query).
Proof. exact terms. Qed.
Print Assumptions C76_terms_partial.
(** C76 is false of programs compiled without assertions (make fast): the assignment of the
    tokenizer is in an assertion, so splitting any query is undefined for all such statistics. *)
Theorem C76_fast_refuted :
  (forall name recipe w s, ~ meadow w -> stats_make true name recipe w = Ok (Some s) -> forall split query, query_terms split s query = UB) /\
  exists s, stats_make true [] [] idf_warren = Ok (Some s) /\ forall split query, query_terms split s query = UB.
Proof. exact (conj no_terms fast_no_terms). Qed.
Print Assumptions C76_fast_refuted.
(** C76: the query for identifiers of a meadow's tag is not tried when the statistics are made, and
    asking for the identifiers fails an assertion. *)
Theorem C76_id_refuted : exists s, stats_make false (lit "tf-idf") [] (tag_meadow meta_id) = Ok (Some s) /\ id_hopper s (tag_meadow meta_id) = UB.
Proof. exact id_unchecked. Qed.
Print Assumptions C76_id_refuted.
(** C76: without a name the tag that was asked for is ignored. *)
Theorem C76_tag_refuted : exists s, stats_make false [] (lit "news") (tag_meadow meta_sample) = Ok (Some s) /\ s_recipe s = [] /\
  exists s', stats_make false (lit "tf-idf") (lit "news") (tag_meadow meta_sample) = Ok (Some s') /\ s_recipe s' = lit "news".
Proof. exact tag_ignored. Qed.
Print Assumptions C76_tag_refuted.
(** C76: tf-idf passes the check although no warren but a meadow has it. *)
Theorem C76_check_refuted : forall recipe, stats_check (lit "tf-idf") recipe = true /\
  forall ndebug w, ~ meadow w -> stats_make ndebug (lit "tf-idf") recipe w = Ok None.
Proof. exact check_only. Qed.
Print Assumptions C76_check_refuted.
