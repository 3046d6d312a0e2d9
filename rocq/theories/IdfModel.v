(** Model of the statistics of terms with their weights: tf_idf_annotations (src/ranking.cc)
    makes them, src/idf_stats.cc reads them. *)
From Verif Require Import Base HopperModel PostingModel VectorModel StatsModel.

(** "idf:", "rsj:" and "avgl:avgl", with the colons that TaggingFeaturizer adds
    (src/tagging_featurizer.h:21-22, 33-36). *)
Definition tag_idf : word := [105; 100; 102; 58].
Definition tag_rsj : word := [114; 115; 106; 58].
Definition avgl_word : word := [97; 118; 103; 108; 58; 97; 118; 103; 108].

(** The names of the parameters: "unstemmed", "idf", "rsj" and "statistics". *)
Definition key_unstemmed : word := [117; 110; 115; 116; 101; 109; 109; 101; 100].
Definition key_idf : word := [105; 100; 102].
Definition key_rsj : word := [114; 115; 106].
Definition key_statistics : word := [115; 116; 97; 116; 105; 115; 116; 105; 99; 115].
Definition key_avgl : word := [97; 118; 103; 108].
Definition key_tf : word := [116; 102].
(** src/core.cc:18-23 *)
Definition okay_string (yes : bool) : word := if yes then [121; 101; 115] else [110; 111].
(** src/core.cc:11-16: y, yes, on, true, okay, ok, Y, Yes, On, True, Okay, Ok and OK. *)
Definition okay_words : list word :=
  [[121]; [121; 101; 115]; [111; 110]; [116; 114; 117; 101]; [111; 107; 97; 121]; [111; 107];
   [89]; [89; 101; 115]; [79; 110]; [84; 114; 117; 101]; [79; 107; 97; 121]; [79; 107]; [79; 75]].
Definition okay (value : word) : bool := existsb (word_eq value) okay_words.

(* ------------------------------------------------------------------ *)
(** * Making the annotations: src/ranking.cc:962-1108 *)
Section Make.
(** The hopper of the items: warren->hopper_from_gcl of the default container. *)
Context (C : hcls).
(** warren->tokenizer()->split(warren->txt()->translate(p, q)). *)
Context (split : Z -> Z -> list word).
(** warren->stemmer()->stem: the stem, and what it sets [stemmed] to. *)
Context (stem : word -> word * bool).
Context (featurize : word -> Z).
(** 1.0 * n, 1.0 * total_length / N, log((1.0 * N) / n), log((N - n + 0.5) / (n + 0.5)) and
    w > 0.0, on the bit patterns of fval. *)
Context (tofval : Z -> Z) (avgl_of idf_of rsj_of : Z -> Z -> Z) (above : Z -> bool).
Context (include_unstemmed include_idf include_rsj : bool).

(** src/ranking.cc:999-1012 *)
Fixpoint count_both (tokens : list word) (tf : list (word * Z)) : list (word * Z) :=
  match tokens with
  | [] => tf
  | token :: r =>
      let tf := bump word_eq token tf in
      let (token, stemmed) := stem token in
      count_both r (if stemmed then bump word_eq token tf else tf)
  end.
(** src/ranking.cc:1014-1021 *)
Fixpoint count_stems (tokens : list word) (tf : list (word * Z)) : list (word * Z) :=
  match tokens with
  | [] => tf
  | token :: r => let (token, _) := stem token in count_stems r (bump word_eq token tf)
  end.
(** src/ranking.cc:997-1022 *)
Definition count_item (tokens : list word) : list (word * Z) :=
  if include_unstemmed then count_both tokens [] else count_stems tokens [].
(** src/ranking.cc:1023-1034: the annotations of the item [d] and the document frequencies. *)
Definition tf_notes (d : iv) (tf : list (word * Z)) : list annotation :=
  map (fun '(t, n) => Ann (featurize (tag_tf ++ t)) (Iv (ip d) (iq d) (tofval n))) tf.
Definition word_dfs (tf : list (word * Z)) (df : list (word * Z)) : list (word * Z) :=
  fold_left (fun df '(t, _) => bump word_eq t df) tf df.

(** The local variables of src/ranking.cc:978-985 and what was written to the file. *)
Record idf_state := IdfState {
  is_hop : St C; is_iv : iv; is_notes : list annotation; is_df : list (word * Z); is_items : Z; is_length : Z }.
(** src/ranking.cc:992-1035, one turn of the loop. *)
Definition idf_body (s : idf_state) : res (idf_state + idf_state) :=
  let d := is_iv s in
  if ip d <? maxf then
    let* n := chk (is_items s + 1) in
    let* len := chk (iq d - ip d + 1) in
    let* total := chk (is_length s + len) in
    let tf := count_item (split (ip d) (iq d)) in
    let* k := chk (ip d + 1) in
    let* (h, d') := h_tau C (is_hop s) k in
    Ok (inl (IdfState h d' (is_notes s ++ tf_notes d tf) (word_dfs tf (is_df s)) n total))
  else Ok (inr s).
(** src/ranking.cc:1060-1076: the weights of a term that [n] of [N] items hold. *)
Definition weight_notes (N : Z) (e : word * Z) : list annotation :=
  let '(t, n) := e in
  (if include_idf then [Ann (featurize (tag_idf ++ t)) (Iv 0 0 (idf_of N n))] else []) ++
  (if include_rsj then
     if above (rsj_of N n) then [Ann (featurize (tag_rsj ++ t)) (Iv 0 0 (rsj_of N n))] else []
   else []).
(** src/ranking.cc:1090-1106: the parameters that are set. *)
Definition idf_parameters : list (word * word) :=
  [(key_unstemmed, okay_string include_unstemmed); (key_idf, okay_string include_idf);
   (key_rsj, okay_string include_rsj); (key_statistics, key_idf)].
(** src/ranking.cc:962-1108, tf_idf_annotations: the annotations and the parameters.  Failures
    of the file, the annotator and the transaction are not modelled; the entries of a map
    stand in the order in which they were made. *)
Definition tf_idf_annotations (c : St C) : res (list annotation * list (word * word)) :=
  if negb (include_idf || include_rsj) then Ok ([], []) else
  let* (h, d) := h_tau C c 0 in
  let* s := loop idf_body (IdfState h d [] [] 0 0) in
  Ok (is_notes s ++ [Ann (featurize avgl_word) (Iv 0 0 (avgl_of (is_length s) (is_items s)))] ++
      flat_map (weight_notes (is_items s)) (is_df s), idf_parameters).
End Make.

(* ------------------------------------------------------------------ *)
(** * Reading them: src/idf_stats.cc *)
Section Read.
Context (featurize : word -> Z).
(** warren->idx()->hopper *)
Context (index : Z -> hobj).
(** What the first interval of a list holds, if there is one. *)
Definition first_value (f : Z) : res (option Z) :=
  let* (_, x) := h_tau (projT1 (index f)) (projT2 (index f)) (minf + 1) in
  Ok (if ip x =? maxf then None else Some (ivl x)).
(** src/idf_stats.cc:21-35, 84: the average length; without one there are no statistics. *)
Definition idf_avgl : res (option Z) := first_value (featurize avgl_word).
(** src/idf_stats.cc:86-98; 0.0 is 0 as a bit pattern. *)
Definition idf_rsj (t : word) : res Z :=
  let* v := first_value (featurize (tag_rsj ++ t)) in
  Ok (match v with None => 0 | Some rsj => rsj end).
(** src/idf_stats.cc:100-112 *)
Definition idf_idf (t : word) : res Z :=
  let* v := first_value (featurize (tag_idf ++ t)) in
  Ok (match v with None => 0 | Some idf => idf end).
(** src/idf_stats.cc:114-116 *)
Definition idf_tf_hopper (t : word) : hobj := index (featurize (tag_tf ++ t)).
End Read.

(** have_unstemmed_, have_idf_ and have_rsj_, src/idf_stats.h:36-38. *)
Record idf_have := IdfHave { have_unstemmed : bool; have_idf : bool; have_rsj : bool }.
(** src/idf_stats.cc:48-57; [get] is warren->get_parameter, None when it fails.  A call that
    fails leaves [value] as it is. *)
Definition idf_flags (get : word -> option word) : idf_have :=
  let value := [] in
  let '(u, value) := match get key_unstemmed with None => (okay value, value) | Some v => (true, v) end in
  let '(i, value) := match get key_idf with None => (okay value, value) | Some v => (true, v) end in
  let '(r, value) := match get key_rsj with None => (okay value, value) | Some v => (true, v) end in
  IdfHave u i r.
(** src/idf_stats.cc:72-82 *)
Definition idf_have_ (h : idf_have) (name : word) : bool :=
  if word_eq name key_avgl || word_eq name key_tf then true else
  if word_eq name key_unstemmed then have_unstemmed h else
  if word_eq name key_idf then have_idf h else
  if word_eq name key_rsj then have_rsj h else false.
