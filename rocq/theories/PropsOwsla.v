(** C17, C25, C39 and C22 over the life of a store: transactions committed one after the
    other, then merged in memory, pickled and opened again, written to files, and merged
    there, in any order and with any crashes in between. *)
From Verif Require Import Base Bytes HopperModel ArrayDefs GclSpec VectorModel CodecModel CodecSpec PostingModel PostingSpec ShardModel ShardSpec
  TokenModel TokenSpec TextModel TextSpec TextBack HazelModel HazelSpec FileModel FileSpec TextWitness FileWitness OwslaModel OwslaSpec OwslaLife OwslaWitness.

(** C17 and C25: whatever became of the shards, the store opens, and any history of
    translate calls, the number of tokens and the range of addresses are what the
    transactions make them.  Missing from the full property: texts that start with
    something that is not a token (C17_leading_refuted), and gaps between addresses. *)
Theorem C17_life_text_partial : forall tokenize skip stop starts, tokenizer_laws tokenize skip stop starts -> cut_law starts ->
  forall chunk transaction, null_feature < chunk -> chunk < maxf -> transaction <> chunk ->
  forall sort, (forall l, sort_result l (sort l)) ->
  forall cp cf ct, stores_lists cp cf -> stores_text ct ->
  forall a b ess ws l, start_ok tokenize stop starts chunk transaction sort a b ess ws -> life cp cf ct sort chunk (map Mem ws) l ->
  exists os, open_view cp cf chunk l = Ok (Some os) /\
    (forall h, Forall (fun pq => minf <= fst pq <= maxf /\ minf <= snd pq < maxf) h ->
       view_translate_all ct skip os h = Ok (map (fun pq => expected_all starts (pieces_of starts a ess) (fst pq) (snd pq)) h)) /\
    view_tokens os = Ok (b - a) /\ exists os', view_range os = Ok (os', if a <? b then Some (a, b - 1) else None).
Proof. exact life_text. Qed.
Print Assumptions C17_life_text_partial.
(** C17: and so does every query on every feature: everything visible in the transactions
    stays so, and nothing else appears unless a range that was erased straddles. *)
Theorem C17_life_index_partial : forall tokenize skip stop starts, tokenizer_laws tokenize skip stop starts ->
  forall chunk transaction, null_feature < chunk -> chunk < maxf -> transaction <> chunk ->
  forall sort, (forall l, sort_result l (sort l)) ->
  forall cp cf ct, stores_lists cp cf -> stores_text ct ->
  forall a b ess ws l, start_ok tokenize stop starts chunk transaction sort a b ess ws -> life cp cf ct sort chunk (map Mem ws) l ->
  erasures_apart (ixs ws) ->
  exists os, open_view cp cf chunk l = Ok (Some os) /\
    forall f, f <> chunk -> f <> null_feature -> exists o S, view_hopper cp cf os f = Ok o /\ answers (projT1 o) (projT2 o) S /\
      (forall x, visible (ixs ws) f x -> S x) /\ (no_straddle (ixs ws) f -> forall x, S x <-> visible (ixs ws) f x).
Proof. exact life_index. Qed.
Print Assumptions C17_life_index_partial.
(** C39: a word, that is a feature only tokens have, is found at every address where a
    transaction appended it and nowhere else, except in what was erased. *)
Theorem C39_life_search : forall tokenize skip stop starts, tokenizer_laws tokenize skip stop starts ->
  forall chunk transaction, null_feature < chunk -> chunk < maxf -> transaction <> chunk ->
  forall sort, (forall l, sort_result l (sort l)) ->
  forall cp cf ct, stores_lists cp cf -> stores_text ct ->
  forall a b ess ws l, start_ok tokenize stop starts chunk transaction sort a b ess ws -> life cp cf ct sort chunk (map Mem ws) l ->
  erases_apart starts ess a ->
  exists os, open_view cp cf chunk l = Ok (Some os) /\
    forall f, null_feature < f -> f <> chunk -> only_tokens transaction ess f ->
      exists o, view_hopper cp cf os f = Ok o /\
        answers (projT1 o) (projT2 o) (fun x => token_at tokenize starts ess a f x /\ ~ exists e, erase_at starts ess a e /\ nests e x).
Proof. exact life_search. Qed.
Print Assumptions C39_life_search.
(** C17: nothing gets stuck: any run of shards in memory can be merged, any of them can be
    written, any files open and can be merged after any attempts that ended in a crash. *)
Theorem C17_life_total : forall tokenize skip stop starts, tokenizer_laws tokenize skip stop starts ->
  forall chunk transaction, null_feature < chunk -> chunk < maxf -> transaction <> chunk ->
  forall sort, (forall l, sort_result l (sort l)) ->
  forall cp cf ct, stores_lists cp cf -> stores_text ct ->
  forall a b ess ws before run after, start_ok tokenize stop starts chunk transaction sort a b ess ws ->
  life cp cf ct sort chunk (map Mem ws) (before ++ run ++ after) ->
  (forall us, run = map Mem us -> us <> [] -> exists m, fiver_merge sort chunk us = Ok (Some m)) /\
  (forall w dna target, run = [Mem w] -> no_empty_line dna -> 0 < target <= maxf -> exists f, hazel_file cp cf ct chunk dna target w = Ok (Some f)) /\
  (forall fs, run = map File fs -> exists hs xs, opened_files cp cf chunk fs hs xs /\
     forall dna target s, no_empty_line dna -> (2 <= length fs)%nat -> Forall (fun x => ht_target x = target) xs -> attempts cp cf chunk hs (map ht_raw xs) s ->
       (forall acts0 idx0, idx_merge cp cf chunk hs (map ht_raw xs) (Files None None) = Ok (Some (acts0, idx0)) -> len idx0 <= maxf) ->
       exists acts idx f, idx_merge cp cf chunk hs (map ht_raw xs) s = Ok (Some (acts, idx)) /\ merged_file dna idx xs = Ok (Some f)).
Proof. exact life_total. Qed.
Print Assumptions C17_life_total.
(** Five transactions, two merged and pickled, the first four written to three files that
    are merged after a crash: the laws, the transactions, their life, and what is seen. *)
Example C17_life_ex : (tokenizer_laws tok1 (skip false) (ascii_ends false) (ascii_starts false) /\ cut_law (ascii_starts false)) /\
  (forall l, sort_result l (isort l)) /\ (stores_lists post_compressor (tfdf_compressor false) /\ stores_text null_compressor) /\
  start_ok tok1 (ascii_ends false) (ascii_starts false) 99 98 isort 0 9 store shards /\
  life post_compressor (tfdf_compressor false) null_compressor isort 99 (map Mem shards) grown /\
  (erases_apart (ascii_starts false) store 0 /\ only_tokens 98 store (feat1 (lit "beta"))) /\
  (old_crash <> Files None None /\ old_crash <> exec (Files None None) old_acts /\ new_acts <> old_acts /\ new_blob = old_blob /\ length (concat (map ht_map old_xs)) = 3%nat) /\
  see grown (feat1 (lit "beta")) [(Mtau, 0); (Mtau, 5); (Mtau, 7)] [(0, 3); (4, 4); (7, 20)] =
  Ok (Some ([Iv 4 4 0; Iv 6 6 0; Iv maxf maxf 0], [lit "alpha beta" ++ nl ++ lit "gamma, delta" ++ nl; lit "beta" ++ nl; lit "zeta alpha" ++ nl], 9)).
Proof.
  exact (conj (conj (TextBack.ascii_laws _ _) ascii_cut_law) (conj isort_ok (conj (conj HazelWitness.wstores null_stores) (conj store_ok (conj store_life
    (conj (conj store_erases store_words) (conj store_crash store_seen))))))).
Qed.
