(** Model of the choice of ranking statistics: Stats::make and Stats::check (src/stats.cc), the
    start of the makes of each kind, and the queries that give the items to rank. *)
From Verif Require Import Base Bytes RecipeModel MakeModel JsonTxtModel OpenModel.

(** * What the choice reads of a warren
    [w_param]: Warren::get_parameter, None when it returns false (src/warren.h:96-99).
    [w_gcl]: Warren::hopper_from_gcl (src/warren.h:88-91), the solutions of the query, None for the
    null pointer.  [w_avgl]: whether there is an annotation for avgl, src/idf_stats.cc:21-34;
    [w_total]: the sums for total:items and total:length, src/df_stats.cc:30-57; [w_fields]: whether
    the rest of FieldStats::make succeeds (FieldModel), src/field_stats.cc:27-113; [w_meta]: the
    parsed metadata of a tag, None when there is none or json2forager fails, and [w_tagged]: the
    sums for the tag, meadowlark/tf-idf_stats.cc:21-44 and 98-138. *)
Record warren := {
  w_param : bytes -> option bytes; w_default : bytes;
  w_stemmer : option stemmer; w_tokenizer : option tokenizer;
  w_gcl : bytes -> option (list (Z * Z));
  w_avgl : bool; w_total : Z * Z; w_fields : bool;
  w_meta : bytes -> option (bytes * bytes * params); w_tagged : bytes -> Z * Z }.
Definition k_format := lit "format".
Definition k_statistics := lit "statistics".
Definition k_content := lit "content".
Definition k_id := lit "id".
Definition k_gcl := lit "gcl".
Definition n_meadowlark := lit "meadowlark".
Definition n_tfidf := lit "tf-idf".
Definition n_idf := lit "idf".
Definition n_df := lit "df".
Definition n_tf := lit "tf".
Definition n_field := lit "field".
Inductive kind := KIdf | KDf | KField | KTfIdf.
(** src/stats.h:62-80; the queries are those of TfIdfStats, and empty for the others. *)
Record stats := {
  s_kind : kind; s_name : bytes; s_recipe : bytes;
  s_stemmer : option stemmer; s_tokenizer : option tokenizer;
  s_id : bytes; s_content : bytes; s_container : bytes }.
(** meadowlark/meadowlark.cc:25-31 *)
Definition is_meadow (w : warren) : bool :=
  match w_param w k_format with Some v => eqb_bytes v n_meadowlark | None => false end.
(** src/stats.cc:130-151 *)
Definition content_hopper (w : warren) : option (list (Z * Z)) :=
  match w_param w k_content with
  | None => None
  | Some q =>
    match (if eqb_bytes q [] then w_param w k_container else Some q) with
    | None => None
    | Some q =>
      let q := if eqb_bytes q [] then w_default w else q in
      if eqb_bytes q [] then None else w_gcl w q
    end
  end.
(** The stats of IdfStats, DfStats and FieldStats before Stats::make completes them. *)
Definition bare (k : kind) : stats :=
  {| s_kind := k; s_name := []; s_recipe := []; s_stemmer := None; s_tokenizer := None; s_id := []; s_content := []; s_container := [] |}.
(** src/idf_stats.cc:14-68: the featurizers are left out. *)
Definition idf_make (recipe : bytes) (w : warren) : option stats :=
  if negb (eqb_bytes recipe []) then None else if w_avgl w then Some (bare KIdf) else None.
(** src/df_stats.cc:16-72 *)
Definition df_make (recipe : bytes) (w : warren) : option stats :=
  if negb (eqb_bytes recipe []) then None else
  match content_hopper w with
  | None => None
  | Some _ => if fst (w_total w) <? 1 then None else if snd (w_total w) <? 1 then None else Some (bare KDf)
  end.
(** src/field_stats.cc:17-122 *)
Definition field_make (recipe : bytes) (w : warren) : option stats :=
  if negb (eqb_bytes recipe []) then None else
  match content_hopper w with None => None | Some _ => if w_fields w then Some (bare KField) else None end.
(** std::map::find with a default, meadowlark/tf-idf_stats.cc:50-84 *)
Definition found (k d : bytes) (ps : params) : bytes := match get k ps with Some v => v | None => d end.
(** meadowlark/tf-idf_stats.cc:18-145 *)
Definition tfidf_make (recipe : bytes) (w : warren) : res (option stats) :=
  match w_meta w recipe with
  | None => Ok None
  | Some (name, tag, ps) =>
    if negb (eqb_bytes name n_tfidf) || negb (eqb_bytes tag recipe) then Ok None else
    match get k_gcl ps with
    | None => Ok None
    | Some content =>
      match w_gcl w content with
      | None => Ok None
      | Some _ =>
        match w_gcl w (found k_container (lit ":") ps) with
        | None => Ok None
        | Some _ =>
          match stem_make (found k_stemmer n_porter ps) with
          | None => Ok None
          | Some stemmer =>
            let* tokenizer := tok_make (found k_tokenizer n_ascii ps) [] in
            match tokenizer with
            | None => Ok None
            | Some t =>
              if fst (w_tagged w recipe) <? 1 then Ok None else if snd (w_tagged w recipe) <? 1 then Ok None else
              Ok (Some {| s_kind := KTfIdf; s_name := []; s_recipe := recipe; s_stemmer := Some stemmer; s_tokenizer := Some t;
                          s_id := found k_id (lit ":0:") ps; s_content := content;
                          s_container := found k_container (lit ":") ps |})
            end
          end
        end
      end
    end
  end.
(** src/stats.cc:75-83.  [ndebug]: the program was compiled with NDEBUG, as by the target fast of
    the Makefile, lines 14-22; then an assertion is not evaluated, and neither is the assignment
    in it.  Without NDEBUG a failed assertion ends the program (UB here). *)
Definition complete (ndebug : bool) (name : bytes) (w : warren) (s : stats) : res (option stats) :=
  let stemmer :=
    match s_stemmer s with
    | Some x => Some x
    | None => match w_stemmer w with Some x => Some x | None => stem_make [] end
    end in
  match stemmer with
  | None => Ok None
  | Some _ =>
    let* tokenizer :=
      match s_tokenizer s with
      | Some t => Ok (Some t)
      | None => if ndebug then Ok None else match w_tokenizer w with Some t => Ok (Some t) | None => UB end
      end in
    Ok (Some {| s_kind := s_kind s; s_name := name; s_recipe := s_recipe s; s_stemmer := stemmer; s_tokenizer := tokenizer;
                s_id := s_id s; s_content := s_content s; s_container := s_container s |})
  end.
(** src/stats.cc:50-84, for names that are not empty *)
Definition make_called (ndebug : bool) (name recipe : bytes) (w : warren) : res (option stats) :=
  let* s :=
    if is_meadow w then if eqb_bytes name n_tfidf then tfidf_make recipe w else Ok None
    else if eqb_bytes name n_idf then Ok (idf_make recipe w)
    else if eqb_bytes name n_df || eqb_bytes name n_tf then Ok (df_make recipe w)
    else if eqb_bytes name n_field then Ok (field_make recipe w)
    else Ok None in
  match s with None => Ok None | Some s => complete ndebug name w s end.
(** src/stats.cc:18-48 *)
Definition make_any (ndebug : bool) (w : warren) : res (option stats) :=
  if is_meadow w then make_called ndebug n_tfidf [] w else
  match w_param w k_statistics with
  | None => Ok None
  | Some name =>
    if eqb_bytes name [] then
      match w_param w k_container with
      | None => Ok None
      | Some c => if eqb_bytes c [] then Ok None else make_called ndebug n_idf [] w
      end
    else make_called ndebug name [] w
  end.
(** src/stats.cc:50-55 *)
Definition stats_make (ndebug : bool) (name recipe : bytes) (w : warren) : res (option stats) :=
  if eqb_bytes name [] then make_any ndebug w else make_called ndebug name recipe w.
(** src/stats.cc:86-102; meadowlark/tf-idf_stats.cc:147-149 *)
Definition stats_check (name recipe : bytes) : bool :=
  if eqb_bytes name [] then true
  else if eqb_bytes name n_tfidf then true
  else if eqb_bytes name n_idf then eqb_bytes recipe []
  else if eqb_bytes name n_df || eqb_bytes name n_tf then eqb_bytes recipe []
  else if eqb_bytes name n_field then eqb_bytes recipe []
  else false.
(** A null pointer where the code asserts that there is none. *)
Definition asserted (h : option (list (Z * Z))) : res (list (Z * Z)) := match h with Some l => Ok l | None => UB end.
(** src/stats.cc:104-117; meadowlark/tf-idf_stats.cc:197-201 *)
Definition container_hopper (s : stats) (w : warren) : res (list (Z * Z)) :=
  match s_kind s with
  | KTfIdf => asserted (w_gcl w (s_container s))
  | _ =>
    match w_param w k_container with
    | None => Ok []
    | Some q =>
      let q := if eqb_bytes q [] then w_default w else q in
      if eqb_bytes q [] then Ok [] else match w_gcl w q with Some l => Ok l | None => Ok [] end
    end
  end.
(** src/stats.cc:119-128; meadowlark/tf-idf_stats.cc:203-207 *)
Definition id_hopper (s : stats) (w : warren) : res (list (Z * Z)) :=
  match s_kind s with
  | KTfIdf => asserted (w_gcl w (s_id s))
  | _ =>
    match w_param w k_id with
    | None => Ok []
    | Some q => match w_gcl w q with Some l => Ok l | None => Ok [] end
    end
  end.
(** The items that term frequencies are given for: src/df_stats.cc:116-123,
    src/field_stats.cc:244-251, meadowlark/tf-idf_stats.cc:188-195.  IdfStats has the annotations only,
    src/idf_stats.cc:114-116. *)
Definition tf_items (s : stats) (w : warren) : res (option (list (Z * Z))) :=
  match s_kind s with
  | KIdf => Ok None
  | KDf | KField => let* l := asserted (content_hopper w) in Ok (Some l)
  | KTfIdf => let* l := asserted (w_gcl w (s_content s)) in Ok (Some l)
  end.
(** src/ranking.cc:100 and src/ranker.cc:52: the tokenizer is used without a test. *)
Definition query_terms (split : tokenizer -> bytes -> list bytes) (s : stats) (query : bytes) : res (list bytes) :=
  match s_tokenizer s with Some t => Ok (split t query) | None => UB end.
