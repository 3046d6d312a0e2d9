(** C25, C39 and the text part of C17: reading back and searching committed text. *)
From Verif Require Import Base Bytes HopperModel ArrayDefs GclSpec VectorModel CodecModel UnaryProofs PostingModel PostingSpec ShardModel ShardSpec ShardProofs
  TokenModel TokenSpec TextModel TextSpec TextBack TextMerge TextShards TextIndex TextCount TextWitness.

(** C25: any edits of a transaction, committed at any address, read back by any history of
    translate calls: from the first token of each range up to the token after it.  For
    every tokenizer with the laws (the ASCII and UTF-8 ones have them: C26_ascii_laws_partial, C26_utf8_laws_partial).
    Missing from the full property: ranges that end at maxfinity
    (C25_maxfinity_refuted) and texts that leave a token open (C25_open_tag_refuted),
    for which it is false, and the other text stores. *)
Theorem C25_text_back_partial : forall tokenize skip stop starts, tokenizer_laws tokenize skip stop starts ->
  forall chunk transaction sort, null_feature < chunk -> transaction <> chunk -> (forall l, sort_result l (sort l)) ->
  forall es w seq, Forall (edit_ok tokenize stop chunk) es -> 0 <= w ->
  let T := full_text (texts es) in let os := starts T in
  w + Z.of_nat (length os) <= staging -> edits_fit tokenize chunk transaction es ->
  exists m x, ready chunk transaction sort w seq (draft_after tokenize chunk es) = Ok m /\ fiver_txt chunk m = Ok x /\
    forall l, Forall (fun pq => minf <= fst pq <= maxf /\ minf <= snd pq < maxf) l ->
      translate_all skip x l = Ok (map (fun pq => expected T os w (one_start w) (fst pq) (snd pq)) l).
Proof. exact text_back. Qed.
Print Assumptions C25_text_back_partial.
(** C25: the range returned for an appended text gives that text back: from its first
    token (from the beginning of everything, for the first token of the transaction), with
    its separator, up to the next token of what was appended after it. *)
Theorem C25_append_partial : forall tokenize skip stop starts, tokenizer_laws tokenize skip stop starts ->
  forall chunk, null_feature < chunk -> forall es1 t es2 w,
  Forall (edit_ok tokenize stop chunk) (es1 ++ Append t :: es2) -> starts t <> [] ->
  let T := full_text (texts (es1 ++ Append t :: es2)) in
  let A := concat (map closed (texts es1)) in
  let o := hd 0 (starts t) in
  exists p q B, snd (append tokenize chunk t (draft_after tokenize chunk es1)) = (p, q) /\ p <= q /\
    T = A ++ closed t ++ B /\
    expected T (starts T) w (one_start w) (p - staging + w) (q - staging + w) =
      (match starts A with [] => A ++ firstn (Z.to_nat o) (closed t) | _ => [] end) ++ skipn (Z.to_nat o) (closed t) ++
      firstn (Z.to_nat (hd (len B) (starts B))) B.
Proof. exact append_text. Qed.
Print Assumptions C25_append_partial.
(** C25, when every text starts with a token: exactly the text and its separator, and at
    the end of a transaction perhaps the newline that ends it. *)
Theorem C25_append_exact_partial : forall tokenize skip stop starts, tokenizer_laws tokenize skip stop starts ->
  forall chunk, null_feature < chunk -> forall es1 t es2 w,
  Forall (edit_ok tokenize stop chunk) (es1 ++ Append t :: es2) ->
  (forall u, In u (texts (es1 ++ Append t :: es2)) -> u <> [] -> hd (-1) (starts u) = 0) -> t <> [] ->
  let T := full_text (texts (es1 ++ Append t :: es2)) in
  exists p q, snd (append tokenize chunk t (draft_after tokenize chunk es1)) = (p, q) /\ p <= q /\
    (expected T (starts T) w (one_start w) (p - staging + w) (q - staging + w) = closed t \/
     expected T (starts T) w (one_start w) (p - staging + w) (q - staging + w) = closed t ++ [10]).
Proof. exact append_text_exact. Qed.
Print Assumptions C25_append_exact_partial.
(** C25: the number of tokens, and the range of addresses, of a committed transaction. *)
Theorem C25_count_partial : forall tokenize skip stop starts, tokenizer_laws tokenize skip stop starts ->
  forall chunk transaction sort, null_feature < chunk -> transaction <> chunk -> (forall l, sort_result l (sort l)) ->
  forall es w seq, Forall (edit_ok tokenize stop chunk) es -> 0 <= w ->
  let n := Z.of_nat (length (starts (full_text (texts es)))) in w + n <= staging -> edits_fit tokenize chunk transaction es ->
  exists m x x', ready chunk transaction sort w seq (draft_after tokenize chunk es) = Ok m /\ fiver_txt chunk m = Ok x /\
    tokens x = Ok n /\ range x = Ok (x', if 0 <? n then Some (w, w + n - 1) else None).
Proof. exact count_back. Qed.
Print Assumptions C25_count_partial.
Example C25_ex : Forall (edit_ok tok1 (ascii_ends false) 99) es1 /\
  (100 + Z.of_nat (length (ascii_starts false (full_text (texts es1)))) <= staging /\ edits_fit tok1 99 98 es1) /\
  (forall l, sort_result l (isort l)) /\
  snd (append tok1 99 (lit "one (two) hello") (draft_after tok1 99 (firstn 4 es1))) = (staging + 2, staging + 4) /\
  read_back tok1 (skip false) es1 100 [(100, 104); (100, 100); (101, 102); (103, 103); (104, 200); (0, 99)] =
  Ok [lit "Hello, McWorld one (two) hello" ++ nl; lit "Hello, "; lit "McWorld one ("; lit "two) "; lit "hello" ++ nl; []].
Proof. exact (conj es1_ok (conj es1_room (conj isort_ok (conj es1_returned es1_back)))). Qed.
(** More tokens than one chunk. *)
Example C25_long_ex : Forall (edit_ok tok1 (ascii_ends false) 99) es2 /\
  (0 + Z.of_nat (length (ascii_starts false (full_text (texts es2)))) <= staging /\ edits_fit tok1 99 98 es2) /\
  read_back tok1 (skip false) es2 0 [(510, 514); (600, 600); (601, 700)] =
  Ok [lit "ab cd-ab cd-ab "; lit "the "; lit "end" ++ nl].
Proof. exact (conj es2_ok (conj es2_room es2_back)). Qed.
(** C25 for a range that ends at maxfinity: only the first token comes back. *)
Theorem C25_maxfinity_refuted : exists es w, Forall (edit_ok tok1 (ascii_ends false) 99) es /\ 0 <= w /\
  read_back tok1 (skip false) es w [(0, maxf - 1); (0, maxf)] = Ok [full_text (texts es); lit "Hello, "] /\
  full_text (texts es) = lit "Hello, McWorld one (two) hello" ++ nl.
Proof. exact to_the_end. Qed.
Print Assumptions C25_maxfinity_refuted.
(** C25 for a text that ends in a space inside an unfinished tag: the next text does not
    come back. *)
Theorem C25_open_tag_refuted : exists es t p q, es = [Append (lit "x <a "); Append t] /\
  snd (append tok_xml 99 t (draft_after tok_xml 99 [Append (lit "x <a ")])) = (p, q) /\ p <= q /\
  read_back tok_xml (skip true) es 0 [(p - staging, q - staging)] = Ok [[]] /\ t = lit "b>".
Proof. exact tag_swallows. Qed.
Print Assumptions C25_open_tag_refuted.

(** C39: what a query on any feature finds in a committed transaction: the innermost of
    the tokens, annotations and erased ranges with that feature, at their addresses.
    Missing from the full property: different annotations of a feature that start
    together (C14_same_start_refuted). *)
Theorem C39_answers_partial : forall tokenize skip stop starts, tokenizer_laws tokenize skip stop starts ->
  forall chunk transaction, null_feature < chunk -> transaction <> chunk ->
  forall sort, (forall l, sort_result l (sort l)) ->
  forall es, Forall (edit_ok tokenize stop chunk) es -> forall w, 0 <= w -> w + token_count starts es <= staging ->
  edits_fit tokenize chunk transaction es ->
  forall seq m, ready chunk transaction sort w seq (draft_after tokenize chunk es) = Ok m ->
  forall f, f <> chunk ->
  (forall x, occurs tokenize starts transaction es w f x -> finite x) ->
  (forall x y, occurs tokenize starts transaction es w f x -> occurs tokenize starts transaction es w f y -> ip x = ip y -> x = y) ->
  (forall p, find_posting (f_index m) f = Some p -> sound_posting f p) /\
  (forall x, stored_in (f_index m) f x <->
     (occurs tokenize starts transaction es w f x /\ forall y, occurs tokenize starts transaction es w f y -> nests x y -> y = x)) /\
  exists o, fiver_hopper (f_index m) f = Ok o /\
    answers (projT1 o) (projT2 o) (fun x => occurs tokenize starts transaction es w f x /\
      forall y, occurs tokenize starts transaction es w f y -> nests x y -> y = x).
Proof. exact stored_answers. Qed.
Print Assumptions C39_answers_partial.
(** C39: searching a word, that is a feature only tokens have, finds exactly the
    addresses of its occurrences. *)
Theorem C39_search : forall tokenize skip stop starts, tokenizer_laws tokenize skip stop starts ->
  forall chunk transaction, null_feature < chunk -> transaction <> chunk ->
  forall sort, (forall l, sort_result l (sort l)) ->
  forall es, Forall (edit_ok tokenize stop chunk) es -> forall w, 0 <= w -> w + token_count starts es <= staging ->
  edits_fit tokenize chunk transaction es ->
  forall seq m, ready chunk transaction sort w seq (draft_after tokenize chunk es) = Ok m ->
  forall f, null_feature < f -> f <> chunk -> f <> transaction -> (forall p q v, ~ In (Annotate f p q v) es) ->
  exists o, fiver_hopper (f_index m) f = Ok o /\
    answers (projT1 o) (projT2 o) (fun x => exists es1 t es2 tok a, es = es1 ++ Append t :: es2 /\ In tok (tokenize t) /\ t_feature tok = f /\
      a = w + token_count starts es1 + t_address tok /\ x = Iv a a 0).
Proof. exact search_answers. Qed.
Print Assumptions C39_search.
Example C39_ex : search tok1 es1 100 (feat1 (lit "hello")) [(Mtau, 0); (Mtau, 101); (Mtau, 105)] = Ok [Iv 100 100 0; Iv 104 104 0; Iv maxf maxf 0] /\
  search tok1 es1 100 (feat1 (lit "McWorld")) [(Mtau, 0)] = Ok [Iv 101 101 0] /\
  search tok1 es1 100 (feat1 (lit "mcworld")) [(Mtau, 0)] = Ok [Iv 101 101 0] /\
  search tok1 es1 100 7 [(Mtau, 0)] = Ok [Iv 100 101 3] /\ search tok1 es1 100 98 [(Mtau, 0)] = Ok [Iv 100 104 0].
Proof. exact es1_search. Qed.

(** C17 for text: transactions committed one after the other, then merged in any way:
    any history of translate calls gives what the separate transactions give.  Missing
    from the full property: transactions whose text starts with something that is not a
    token, for which it is false (C17_leading_refuted), and gaps between addresses. *)
Theorem C17_text_partial : forall tokenize skip stop starts, tokenizer_laws tokenize skip stop starts ->
  forall chunk transaction, null_feature < chunk -> transaction <> chunk ->
  forall sort, (forall l, sort_result l (sort l)) ->
  forall ess ws a b ws', committed tokenize starts chunk transaction sort a ess ws b -> 0 <= a -> b <= staging ->
  Forall (fun es => Forall (edit_ok tokenize stop chunk) es /\ starts_well starts es /\ edits_fit tokenize chunk transaction es) ess ->
  len (text_of (pieces_of starts a ess)) <= max_len -> merge_steps sort chunk ws ws' ->
  exists xs, open_all chunk ws' = Ok xs /\
    forall l, Forall (fun pq => minf <= fst pq <= maxf /\ minf <= snd pq < maxf) l ->
      bigwig_translate_all skip xs l = Ok (map (fun pq => expected_all starts (pieces_of starts a ess) (fst pq) (snd pq)) l).
Proof. exact text_merging. Qed.
Print Assumptions C17_text_partial.
(** C17: the merge of any run of shards succeeds. *)
Theorem C17_total_partial : forall tokenize skip stop starts, tokenizer_laws tokenize skip stop starts ->
  forall chunk transaction, null_feature < chunk -> transaction <> chunk ->
  forall sort, (forall l, sort_result l (sort l)) ->
  forall ess ws a b, committed tokenize starts chunk transaction sort a ess ws b -> 0 <= a -> b <= staging ->
  Forall (fun es => Forall (edit_ok tokenize stop chunk) es /\ starts_well starts es /\ edits_fit tokenize chunk transaction es) ess ->
  len (text_of (pieces_of starts a ess)) <= max_len ->
  Forall (sound chunk) (ixs ws) -> room (ixs ws) null_feature -> erasures_apart (ixs ws) ->
  forall before run after, merge_steps sort chunk ws (before ++ run ++ after) -> run <> [] ->
  exists m, fiver_merge sort chunk run = Ok (Some m).
Proof. exact text_merge_total. Qed.
Print Assumptions C17_total_partial.
(** C17: nor does the number of tokens change. *)
Theorem C17_count_partial : forall tokenize skip stop starts, tokenizer_laws tokenize skip stop starts ->
  forall chunk transaction sort, null_feature < chunk -> transaction <> chunk -> (forall l, sort_result l (sort l)) ->
  forall ess ws a b ws', committed tokenize starts chunk transaction sort a ess ws b -> 0 <= a -> b <= staging ->
  Forall (fun es => Forall (edit_ok tokenize stop chunk) es /\ starts_well starts es /\ edits_fit tokenize chunk transaction es) ess ->
  len (text_of (pieces_of starts a ess)) <= max_len -> merge_steps sort chunk ws ws' ->
  exists xs, open_all chunk ws' = Ok xs /\ bigwig_tokens xs = Ok (b - a).
Proof. exact count_merging. Qed.
Print Assumptions C17_count_partial.
Example C17_text_ex : committed tok1 (ascii_starts false) 99 98 isort 0 three (shards_of three) 5 /\
  Forall (fun es => Forall (edit_ok tok1 (ascii_ends false) 99) es /\ starts_well (ascii_starts false) es /\ edits_fit tok1 99 98 es) three /\
  merge_steps isort 99 (shards_of three) [merged_of (shards_of three)] /\
  read_all (shards_of three) [(0, 4); (1, 2)] = Ok [lit "alpha beta" ++ nl ++ lit "gamma, delta" ++ nl ++ lit "epsilon" ++ nl; lit "beta" ++ nl ++ lit "gamma, "] /\
  read_all [merged_of (shards_of three)] [(0, 4); (1, 2)] = Ok [lit "alpha beta" ++ nl ++ lit "gamma, delta" ++ nl ++ lit "epsilon" ++ nl; lit "beta" ++ nl ++ lit "gamma, "].
Proof. exact (conj three_committed (conj three_ok (conj three_merged three_read))). Qed.
(** C17 without the condition: merging makes translate show bytes it did not. *)
Theorem C17_leading_refuted : exists ess ws b ws', committed tok1 (ascii_starts false) 99 98 isort 0 ess ws b /\ b <= staging /\
  Forall (fun es => Forall (edit_ok tok1 (ascii_ends false) 99) es /\ edits_fit tok1 99 98 es) ess /\
  merge_steps isort 99 ws ws' /\
  read_all ws [(0, 0)] = Ok [lit "alpha" ++ nl] /\ read_all ws' [(0, 0)] = Ok [lit "alpha" ++ nl ++ lit "("].
Proof. exact leading_seen. Qed.
Print Assumptions C17_leading_refuted.
