(** C52: files with fields. *)
From Verif Require Import Base Bytes HopperModel ArrayDefs GclSpec VectorModel UnaryProofs CodecModel PostingModel PostingSpec ShardModel
  TokenModel TokenSpec TextModel TextSpec TextBack TextWitness TsvModel TsvSpec TsvSplit TsvProofs TsvMore TsvFinal TsvWitness.

(** C52: every file has one division into lines, and it is the one that is used. *)
Theorem C52_lines : forall text, text_lines text (split_lines text) /\ forall ls, text_lines text ls -> ls = split_lines text.
Proof. exact (fun text => conj (split_lines_ok text) (fun ls H => text_lines_unique text ls H _ (split_lines_ok text))). Qed.
Print Assumptions C52_lines.
Example C52_lines_ex : text_lines file1 lines1 /\ split_lines file1 = lines1 /\ length lines1 = 3%nat.
Proof. exact (conj file1_lines (conj eq_refl eq_refl)). Qed.
(** C52: every line has one division into fields, by the separator or, without one, by
    white space; joined with the separator they give the line. *)
Theorem C52_split : forall line sep, fields_of sep line (split_tsv line sep) /\
  (forall fs, fields_of sep line fs -> fs = split_tsv line sep) /\
  (sep <> [] -> concat (record_texts sep (split_tsv line sep)) = line).
Proof.
  exact (fun line sep => conj (split_tsv_ok line sep) (conj (fun fs H => fields_unique sep line fs _ H (split_tsv_ok line sep))
    (match sep as s return s <> [] -> concat (record_texts s (split_tsv line s)) = line with
     | [] => fun N => False_ind _ (N eq_refl) | c :: s => fun _ => separated_joins (c :: s) line _ (split_tsv_ok line (c :: s)) end))).
Qed.
Print Assumptions C52_split.
Example C52_split_ex : split_tsv (lit "a, b,,c") (lit ",") = [lit "a"; lit " b"; []; lit "c"] /\ split_tsv (lit " a  bc ") [] = [lit "a"; lit "bc"] /\
  split_tsv (lit "aXXXb") (lit "XX") = [lit "a"; lit "Xb"].
Proof. vm_compute. auto. Qed.
(** C52: whatever the number of threads, the shares of the workers are the lines of the
    file, each once and in order, and each worker knows the numbers of its lines. *)
Theorem C52_shares : forall (lines : list bytes) threads, 0 < threads ->
  concat (map (fun n => lines_of lines n threads) (numbers threads)) = lines /\
  forall n k line, 0 <= n -> nth_error (lines_of lines n threads) k = Some line ->
    nth_error lines (Z.to_nat (first_line lines n threads) + k) = Some line.
Proof. exact (fun lines threads T => conj (shares lines threads T) (fun n k line N H => share_line lines n threads k line T N H)). Qed.
Print Assumptions C52_shares.
Example C52_shares_ex : map (fun n => length (lines_of (repeat (lit "x") 10) n 4)) (numbers 4) = [2; 3; 2; 3]%nat.
Proof. vm_compute. reflexivity. Qed.
(** C52: in the chunk a worker commits at address [w], field j of the records is what ":j:"
    finds: exactly the tokens of field j of each record in which it has any. *)
Theorem C52_fields : forall tokenize skip stop starts, tokenizer_laws tokenize skip stop starts ->
  forall chunk transaction sort, null_feature < chunk -> transaction <> chunk -> (forall l, sort_result l (sort l)) ->
  forall featurize path_feature header sep lines n threads records,
  records_of sep (lines_of lines n threads) records -> acceptable tokenize stop chunk featurize path_feature records ->
  let d := worker tokenize chunk featurize path_feature header sep lines n threads in
  forall w, 0 <= w -> w + tokens_before starts records <= staging -> draft_fits chunk transaction d ->
  forall seq m, ready chunk transaction sort w seq d = Ok m ->
  forall j, let f := featurize (field_name j) in
  free tokenize chunk transaction records f -> own_feature featurize records (field_name j) -> f <> path_feature ->
  exists o, fiver_hopper (f_index m) f = Ok o /\ answers (projT1 o) (projT2 o) (is_field starts w records j).
Proof. exact fields_found. Qed.
Print Assumptions C52_fields.
(** C52: and ":" finds exactly the tokens of each record but the header, "::" those of the
    header.  Missing from the full property: records with tokens in which the last field
    has none (C52_next_token_refuted). *)
Theorem C52_records_partial : forall tokenize skip stop starts, tokenizer_laws tokenize skip stop starts ->
  forall chunk transaction sort, null_feature < chunk -> transaction <> chunk -> (forall l, sort_result l (sort l)) ->
  forall featurize path_feature header sep lines n threads records,
  records_of sep (lines_of lines n threads) records -> acceptable tokenize stop chunk featurize path_feature records ->
  let d := worker tokenize chunk featurize path_feature header sep lines n threads in
  forall w, 0 <= w -> w + tokens_before starts records <= staging -> draft_fits chunk transaction d ->
  forall seq m, ready chunk transaction sort w seq d = Ok m ->
  forall is_header : bool, let name := if is_header then lit "::" else lit ":" in let f := featurize name in
  free tokenize chunk transaction records f -> own_feature featurize records name -> f <> path_feature ->
  (forall r, In r records -> ends_in_token starts r \/ tokens_in_all starts r = 0) ->
  exists o, fiver_hopper (f_index m) f = Ok o /\
    answers (projT1 o) (projT2 o) (is_record starts (fun k => (header && (first_line lines n threads + Z.of_nat k =? 0)) = is_header) w records).
Proof. exact records_found. Qed.
Print Assumptions C52_records_partial.
(** C52: and the path of the file finds the whole chunk.  Missing from the full property:
    chunks whose last line does not end in a token (C52_past_the_end_refuted). *)
Theorem C52_path_partial : forall tokenize skip stop starts, tokenizer_laws tokenize skip stop starts ->
  forall chunk transaction sort, null_feature < chunk -> transaction <> chunk -> (forall l, sort_result l (sort l)) ->
  forall featurize path_feature header sep lines n threads records,
  records_of sep (lines_of lines n threads) records -> acceptable tokenize stop chunk featurize path_feature records ->
  let d := worker tokenize chunk featurize path_feature header sep lines n threads in
  forall w, 0 <= w -> w + tokens_before starts records <= staging -> draft_fits chunk transaction d ->
  forall seq m, ready chunk transaction sort w seq d = Ok m ->
  free tokenize chunk transaction records path_feature -> (forall name, name_used records name -> featurize name <> path_feature) ->
  ends_in_token starts (last records []) ->
  exists o, fiver_hopper (f_index m) path_feature = Ok o /\
    answers (projT1 o) (projT2 o) (eq (Iv w (w + tokens_before starts records - 1) 0)).
Proof. exact path_found. Qed.
Print Assumptions C52_path_partial.
(** C52: the text of the chunk is its lines, each with a newline unless it ends in white
    space.  Missing from the full property: separators that do not end in white space
    (C52_comma_refuted). *)
Theorem C52_text_partial : forall tokenize skip stop starts, tokenizer_laws tokenize skip stop starts ->
  forall chunk transaction sort, null_feature < chunk -> transaction <> chunk -> (forall l, sort_result l (sort l)) ->
  forall featurize path_feature header sep lines n threads records,
  records_of sep (lines_of lines n threads) records -> acceptable tokenize stop chunk featurize path_feature records ->
  let d := worker tokenize chunk featurize path_feature header sep lines n threads in
  forall w, 0 <= w -> w + tokens_before starts records <= staging -> draft_fits chunk transaction d ->
  sep <> [] -> white (last sep 0) = true -> forall seq,
  let T := end_line (concat (map closed (lines_of lines n threads))) in
  exists m x, ready chunk transaction sort w seq d = Ok m /\ fiver_txt chunk m = Ok x /\
    forall l, Forall (fun pq => minf <= fst pq <= maxf /\ minf <= snd pq < maxf) l ->
      translate_all skip x l = Ok (map (fun pq => expected T (starts T) w (one_start w) (fst pq) (snd pq)) l).
Proof. exact text_of_lines. Qed.
Print Assumptions C52_text_partial.
(** All the hypotheses hold of a small file with a header. *)
Example C52_ex : tokenizer_laws tok1 (skip false) (ascii_ends false) (ascii_starts false) /\ (forall l, sort_result l (isort l)) /\
  records_of tab (lines_of lines1 0 1) records1 /\ acceptable tok1 (ascii_ends false) 99 feat1 pf1 records1 /\
  (100 + tokens_before (ascii_starts false) records1 <= staging /\ draft_fits 99 98 (work1 tab lines1 0 1)) /\
  Forall (fun name => free tok1 99 98 records1 (feat1 name) /\ own_feature feat1 records1 name /\ feat1 name <> pf1) [lit ":"; lit "::"; field_name 0; field_name 1] /\
  (free tok1 99 98 records1 pf1 /\ (forall name, name_used records1 name -> feat1 name <> pf1)) /\
  (Forall (ends_in_token (ascii_starts false)) records1 /\ ends_in_token (ascii_starts false) (last records1 [])).
Proof. exact (conj (ascii_laws feat1 false) (conj isort_ok (conj lines1_records (conj records1_ok (conj room1 (conj names1 (conj pf1_free ends1))))))). Qed.
Example C52_found_ex : let f name := find1 (work1 tab lines1 0 1) 100 (feat1 name) in
  f (lit "::") [(Mtau, 0); (Mtau, 101)] = Ok [Iv 100 101 0; Iv maxf maxf 0] /\
  f (lit ":") [(Mtau, 0); (Mtau, 103); (Mtau, 106)] = Ok [Iv 102 104 0; Iv 105 107 0; Iv maxf maxf 0] /\
  f (lit ":1:") [(Mtau, 0); (Mtau, 102); (Mtau, 104)] = Ok [Iv 101 101 0; Iv 103 104 0; Iv 106 107 0] /\
  f (lit "./a.tsv") [(Mtau, 0)] = Ok [Iv 100 107 0] /\
  text1 (work1 tab lines1 0 1) 100 [(102, 104); (106, 107); (0, 200)] =
    Ok [lit "1" ++ tab ++ lit "Ada Lovelace" ++ nl; lit "Grace Hopper" ++ nl; concat (map (fun l => l ++ nl) lines1)].
Proof. exact found1. Qed.
(** C52: a record with an empty last field is found with the first token of the next
    record. *)
Theorem C52_next_token_refuted : exists lines rs, rs = map (record tab) lines /\ records_of tab (lines_of lines 0 1) rs /\
  map (tokens_in_all (ascii_starts false)) rs = [2; 3] /\
  find1 (work1 tab ([] :: lines) 0 1) 0 (feat1 (lit ":")) [(Mtau, 0); (Mtau, 1)] = Ok [Iv 0 2 0; Iv 2 4 0] /\
  text1 (work1 tab ([] :: lines) 0 1) 0 [(0, 1); (0, 2)] = Ok [lit "1" ++ tab ++ lit "Ada" ++ tab; lit "1" ++ tab ++ lit "Ada" ++ tab ++ lit "2" ++ tab].
Proof. exact next_token. Qed.
Print Assumptions C52_next_token_refuted.
(** C52: a file that ends in an empty line is found one address past its last token. *)
Theorem C52_past_the_end_refuted : exists lines, map (tokens_in_all (ascii_starts false)) (map (record tab) lines) = [1; 0] /\
  find1 (work1 tab lines 0 1) 0 pf1 [(Mtau, 0)] = Ok [Iv 0 1 0].
Proof. exact past_the_end. Qed.
Print Assumptions C52_past_the_end_refuted.
(** C52: with a comma for a separator each field comes back on a line of its own. *)
Theorem C52_comma_refuted : exists line, text1 (work1 (lit ",") [line] 0 1) 0 [(0, 1)] = Ok [lit "1," ++ nl ++ lit "Ada" ++ nl] /\ line = lit "1,Ada".
Proof. exact commas. Qed.
Print Assumptions C52_comma_refuted.
(** C52: when appending answers true, the path and the chunk of every worker are
    committed; when it answers false, none of the chunks.  Missing from the full property:
    the path, which can be committed without the lines (C52_path_only_refuted). *)
Theorem C52_commit_partial : forall path_ok clone_ok ready_ok lines threads done parts,
  append_tsv path_ok clone_ok ready_ok lines threads = (done, parts) ->
  (done = true -> parts = Path :: (if lines =? 0 then [] else map Lines (numbers threads))) /\
  (done = false -> parts = [] \/ parts = [Path]).
Proof. exact append_tsv_ok. Qed.
Print Assumptions C52_commit_partial.
Theorem C52_path_only_refuted : append_tsv true (fun _ => true) (fun n => negb (n =? 1)) 5 2 = (false, [Path]).
Proof. exact path_only. Qed.
Print Assumptions C52_path_only_refuted.
(** C52: a stored path, read back with what follows it, is the one that is asked for
    exactly if they are the same.  Missing from the full property: paths with white space
    (C52_longer_path_refuted). *)
Theorem C52_same_path_partial : forall stored asked, stored <> [] -> Forall (fun c => ~ space c) stored -> Forall (fun c => ~ space c) asked ->
  forall rest, (rest = [] \/ exists c r, rest = c :: r /\ space c) -> path_match (stored ++ rest) asked = true <-> asked = stored.
Proof. exact path_match_ok. Qed.
Print Assumptions C52_same_path_partial.
Example C52_same_path_ex : path_match (lit "./a.txt" ++ nl) (lit "./a.txt") = true /\ path_match (lit "./a.txt.gz" ++ nl) (lit "./a.txt") = false.
Proof. vm_compute. auto. Qed.
Theorem C52_longer_path_refuted : exists stored asked, stored <> asked /\ path_match (stored ++ nl) asked = true /\ asked = lit "./a.txt" /\ stored = lit "./a.txt b".
Proof. exact longer_path. Qed.
Print Assumptions C52_longer_path_refuted.
(** C52: a path without tokens is annotated on a range that ends before it starts. *)
Theorem C52_empty_path_refuted : exists name, In (Ann (feat1 (lit "/")) (Iv (staging + 1) staging 0)) (d_annotations (path_draft tok1 99 feat1 name)) /\ name = lit "_".
Proof. exact empty_path. Qed.
Print Assumptions C52_empty_path_refuted.
