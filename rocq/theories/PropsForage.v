(** C54: foraging for term statistics. *)
From Verif Require Import Base Bytes RecipeModel HopperModel GclSpec UnaryModel PostingModel VectorModel RankModel RankSpec RankTop RankWitness
  StatsModel StatsSpec StatsTop StatsSum StatsRange StatsWitness
  ForagerModel ForagerSpec ForageModel ForageSpec ForageProofs ForageRun ForageFinal ForageWitness.

(** C54: what is foraged are the results of the query that lie within the range of addresses. *)
Theorem C54_collected : forall C c SC items start stop, answers C c SC -> listed SC items -> minf <= start <= maxf -> minf <= stop <= maxf ->
  collect C c start stop = Ok (in_range start stop items).
Proof. exact collect_ok. Qed.
Print Assumptions C54_collected.
Example C54_collected_ex : (answers _ (st sitems) (set_of sitems) /\ listed (set_of sitems) sitems) /\
  collect _ (st sitems) 1 8 = Ok [Iv 4 6 0; Iv 7 8 0] /\ collect _ (st sitems) minf maxf = Ok sitems.
Proof. split; [exact (proj1 sitems_ok)|]. split; vm_compute; reflexivity. Qed.

(** C54: however many workers share the items, up to one for each, and however their calls come
    out: when foraging succeeds every worker has committed, and what they have committed together
    are the statistics of the text of the items under the label; when no call fails, it succeeds.
    (A worker that gives up early does so because another has failed.)  Missing, and refuted
    below: more workers than items, and that nothing is committed when foraging fails. *)
Theorem C54_forage_partial : forall split stem featurize name tag word_at place items workers cs,
  gclist items -> words_align word_at split items -> total_length items <= maxf ->
  (1 <= workers <= length items)%nat -> length cs = workers ->
  exists answer es, forage split stem featurize (forager_label name tag) true place items workers cs = Ok (answer, es) /\
  ((In Skipped es -> In Failed es) -> answer = true ->
     exists parts, es = map Committed parts /\
       statistics_in_parts stem featurize word_at (forager_label name tag) place items (concat parts)) /\
  ((forall x, In x cs -> x = Some (Calls true true true true true)) -> answer = true).
Proof. exact forage_ok. Qed.
Print Assumptions C54_forage_partial.
Example C54_forage_ex : gclist sitems /\ words_align sword ssplit sitems /\ total_length sitems <= maxf.
Proof. exact fitems_ok. Qed.
Example C54_forage_run : frun = Ok (true, map Committed fparts) /\ map (@length _) fparts = [10; 10]%nat /\
  noted (ffeat (tag_tf ++ [97])) fnotes = [Iv 0 0 2; Iv 7 7 1] /\ noted (ffeat (tag_df ++ [98])) fnotes = [Iv 0 0 1; Iv 4 4 1] /\
  noted (ffeat total_items_word) fnotes = [Iv 0 0 1; Iv 4 4 2] /\ noted (ffeat total_length_word) fnotes = [Iv 0 0 4; Iv 4 4 5].
Proof. exact frun_ok. Qed.

(** C54: with up to 65536 items, or as many workers as items at the most, the number of workers
    is one the theorem above speaks of. *)
Theorem C54_workers : forall hardware asked count, (1 <= count)%nat ->
  (count <= 64 * 1024 \/ (asked <= count /\ hardware + 1 <= count))%nat ->
  (1 <= thread_count hardware asked count <= count)%nat.
Proof. exact threads_ok. Qed.
Print Assumptions C54_workers.
Example C54_workers_ex : thread_count 8 4 3 = 1%nat /\ thread_count 8 5 (Z.to_nat 70000) = 5%nat /\ thread_count 8 0 (Z.to_nat 70000) = 9%nat.
Proof. repeat split; vm_compute; reflexivity. Qed.

(** C54: the description that is stored with the statistics of a query has the query, where its
    items start and end, and all other parameters as they were given. *)
Theorem C54_described : forall ps gcl items, map_of_bytes ps -> is_map ps -> of_bytes gcl -> items <> [] ->
  map_of_bytes (described ps gcl items) /\ is_map (described ps gcl items) /\
  RecipeModel.get (lit "gcl") (described ps gcl items) = Some gcl /\
  RecipeModel.get (lit "start") (described ps gcl items) = Some (dec (front_p items)) /\
  RecipeModel.get (lit "end") (described ps gcl items) = Some (dec (back_q items)) /\
  forall k, ~ In k [lit "gcl"; lit "start"; lit "end"] -> RecipeModel.get k (described ps gcl items) = RecipeModel.get k ps.
Proof. exact described_ok. Qed.
Print Assumptions C54_described.
Example C54_described_ex : map_of_bytes fps /\ is_map fps /\ of_bytes fgcl /\ sitems <> [] /\
  described fps fgcl sitems = [(lit "end", lit "8"); (lit "gcl", fgcl); (lit "id", lit ":docno:"); (lit "start", lit "0"); (lit "stemmer", lit "lower")].
Proof. exact fdescribed_ok. Qed.

(** C54: from an index that answers what was foraged, and a text that has the description where
    the label is, the statistics of the tag are found, with the query and the other parameters
    that were given and the numbers of items and of words. *)
Theorem C54_read : forall stem featurize word_at place items notes tag index translate (queries stemmers tokenizers : bytes -> bool) ps gcl t tail nuls,
  statistics_in_parts stem featurize word_at (forager_label (lit "tf-idf") tag) place items notes -> indexed index notes ->
  gclist items -> items <> [] -> Z.of_nat (length items) <= maxf -> total_length items <= maxf ->
  no_clash featurize (label_keys (forager_label (lit "tf-idf") tag) (t :: flat_map (words_of word_at stem) items)) ->
  finite place -> of_bytes tag -> map_of_bytes ps -> is_map ps -> of_bytes gcl -> white tail -> Forall (eq 0) nuls ->
  translate (ip place) (iq place) = forager2json (lit "tf-idf") tag (described ps gcl items) ++ tail ++ nuls ->
  queries gcl = true -> queries (or_else (lit ":") (RecipeModel.get (lit "container") ps)) = true ->
  stemmers (or_else (lit "porter") (RecipeModel.get (lit "stemmer") ps)) = true ->
  tokenizers (or_else (lit "ascii") (RecipeModel.get (lit "tokenizer") ps)) = true ->
  stats_make index translate featurize queries stemmers tokenizers tag =
    Ok (Some (Stats (or_else (lit ":0:") (RecipeModel.get (lit "id") ps)) gcl (or_else (lit ":") (RecipeModel.get (lit "container") ps))
         (Z.of_nat (length items)) (total_length items))).
Proof. exact read_described. Qed.
Print Assumptions C54_read.
Example C54_read_ex : statistics_in_parts slow sfeat sword flabel fplace sitems fnotes /\ indexed findex fnotes /\
  forall t, In t [[97]; [98]; [99]; [97; 98]; [120]] -> no_clash sfeat (label_keys flabel (t :: flat_map (words_of sword slow) sitems)).
Proof. exact (conj fstatistics (conj findexed fterms_ok)). Qed.
Example C54_read_run : stats_make findex (ftext (lit "x")) sfeat (fun _ => true) fstems ftokens (lit "x") =
    Ok (Some (Stats (lit ":docno:") fgcl (lit ":") 3 9)) /\
  stats_make findex (ftext (lit "x")) sfeat (fun _ => true) fstems ftokens (lit "y") = Ok None.
Proof. exact fread_run. Qed.

(** C54: the number noted for a term is that of the items with it, and the hopper of a term
    answers the items with the term, each with its number of occurrences. *)
Theorem C54_term : forall C stem featurize word_at tofval index c SC label place items notes t, tofval 0 = 0 -> answers C c SC -> listed SC items ->
  statistics_in_parts stem featurize word_at label place items notes -> indexed index notes ->
  no_clash featurize (label_keys label (t :: flat_map (words_of word_at stem) items)) ->
  length (noted (featurize (label ++ tag_tf ++ t)) notes) = length (items_with word_at stem t items) /\
  term_over (valued stem word_at tofval t items) (stats_term C (labelled featurize label) tofval index c t).
Proof. exact term_ok. Qed.
Print Assumptions C54_term.
Example C54_term_ex : valued slow sword (fun n => n) [97] sitems = [Iv 0 3 2; Iv 7 8 1] /\
  length (noted (sfeat (flabel ++ tag_tf ++ [97])) fnotes) = 2%nat.
Proof. split; vm_compute; reflexivity. Qed.

(** C54: rankings with the foraged statistics return the best items by the words of their text. *)
Theorem C54_ranking : forall C stem featurize word_at tofval index (F : Type) (zero : F) add lt sort gain c SC label place items notes depth ts,
  weak_order lt -> sorts sort -> tofval 0 = 0 -> answers C c SC -> listed SC items ->
  statistics_in_parts stem featurize word_at label place items notes -> indexed index notes ->
  (forall t, In t ts -> no_clash featurize (label_keys label (t :: flat_map (words_of word_at stem) items))) ->
  exists top, term_ranking zero add lt sort gain depth (map (stats_term C (labelled featurize label) tofval index c) ts) = Ok top /\
    best lt depth (doc_results zero add lt gain items (map (fun t => valued stem word_at tofval t items) ts)) top.
Proof. exact @foraged_ranking. Qed.
Print Assumptions C54_ranking.
Example C54_ranking_run : term_ranking 0 Z.add Z.ltb isrt sgain 3 (map fstats [[97]; [98]]) =
  Ok [res3 0 3 24; res3 4 6 18; res3 7 8 9].
Proof. exact frank_run. Qed.

(** C54: so does BM25, which skips items. *)
Theorem C54_bm25 : forall C stem featurize word_at tofval index (F : Type) (zero : F) add lt sort c SC label place items notes depth ts
    (weights : list (F * (Z -> Z -> F))),
  weak_order lt -> sorts sort -> exact zero add lt -> tofval 0 = 0 -> answers C c SC -> listed SC items ->
  (forall d, In d items -> iq d - ip d <= maxf) ->
  statistics_in_parts stem featurize word_at label place items notes -> indexed index notes ->
  (forall t, In t ts -> no_clash featurize (label_keys label (t :: flat_map (words_of word_at stem) items))) ->
  let ws := map (fun '(t, (idf, g)) => Wand idf g (stats_term C (labelled featurize label) tofval index c t)) (combine ts weights) in
  Forall2 (fun t w => bounded zero lt (valued stem word_at tofval t items)
                        (Wand (fst w) (snd w) (stats_term C (labelled featurize label) tofval index c t))) ts weights ->
  exists top, bm25_ranking zero add lt sort depth ws = Ok top /\
    best lt depth (doc_results zero add lt (wand_gain zero ws) items (map (fun t => valued stem word_at tofval t items) ts)) top.
Proof. exact @foraged_bm25. Qed.
Print Assumptions C54_bm25.
Example C54_bm25_ex : Forall2 (fun t w => bounded 0 Z.ltb (valued slow sword (fun n => n) t sitems) (Wand (fst w) (snd w) (fstats t))) [[97]; [98]] sweights.
Proof. exact fweights_ok. Qed.
Example C54_bm25_run : bm25_ranking 0 Z.add Z.ltb isrt 2 (map (fun '(t, (idf, g)) => Wand idf g (fstats t)) (combine [[97]; [98]] sweights)) =
  Ok [res3 0 3 45; res3 7 8 33].
Proof. exact fbm25_run. Qed.

(** C54: with more workers than items, one has nothing to forage; it answers that it is ready,
    is not, and committing stops the process. *)
Theorem C54_few_items_refuted : forall split stem featurize label place items workers cs c,
  (length items < workers)%nat -> (1 <= length items)%nat -> hd_error cs = Some (Some c) ->
  c_clone c = true -> c_transaction c = true -> c_label c = true -> c_annotate c = true ->
  forall answer es, forage split stem featurize label true place items workers cs = Ok (answer, es) -> In Stops es.
Proof. exact few_intervals. Qed.
Print Assumptions C54_few_items_refuted.
Example C54_few_items_run : exists es, forage ssplit slow sfeat flabel true fplace sitems 4 (repeat (Some yes) 4) = Ok (true, es) /\ In Stops es.
Proof. exact few_run. Qed.

(** C54: when a worker fails, foraging fails and what another worker has committed stays. *)
Theorem C54_not_atomic_refuted : forall split stem featurize name tag word_at place items workers cs,
  gclist items -> words_align word_at split items -> total_length items <= maxf ->
  (1 <= workers <= length items)%nat -> length cs = workers ->
  In (Some (Calls true true true true true)) cs -> In (Some (Calls false true true true true)) cs ->
  exists es notes, forage split stem featurize (forager_label name tag) true place items workers cs = Ok (false, es) /\ In (Committed notes) es.
Proof. exact some_committed. Qed.
Print Assumptions C54_not_atomic_refuted.
Example C54_not_atomic_ex : In (Some (Calls true true true true true)) [Some yes; Some (Calls false true true true true)] /\
  In (Some (Calls false true true true true)) [Some yes; Some (Calls false true true true true)].
Proof. split; [left|right; left]; reflexivity. Qed.

(** C54: statistics whose description has another name or tag, or no query, are refused. *)
Theorem C54_refused : forall index translate featurize queries stemmers tokenizers tag place name tag' ps,
  answers (projT1 (index (featurize (64 :: forager_label (lit "tf-idf") tag)))) (projT2 (index (featurize (64 :: forager_label (lit "tf-idf") tag))))
    (set_of [Iv (ip place) (iq place) 0]) -> finite place ->
  json2forager (translate (ip place) (iq place)) = Ok (Some (name, tag', ps)) ->
  name <> lit "tf-idf" \/ tag' <> tag \/ RecipeModel.get (lit "gcl") ps = None ->
  stats_make index translate featurize queries stemmers tokenizers tag = Ok None.
Proof. exact read_refused. Qed.
Print Assumptions C54_refused.
(** C54: so foraging under the empty name, which is taken for tf-idf and its label, or foraging
    intervals and no query, succeeds, and its statistics are not found. *)
Theorem C54_unread_refuted : forage ssplit slow sfeat nlabel true fplace sitems 1 [Some yes] = Ok (true, [Committed nnotes]) /\
  nlabel = forager_label (lit "tf-idf") [] /\
  stats_make nindex (fun _ _ => forager2json [] [] (described fps fgcl sitems)) sfeat (fun _ => true) fstems ftokens [] = Ok None /\
  stats_make nindex (fun _ _ => forager2json (lit "tf-idf") [] (forage_params fps sitems)) sfeat (fun _ => true) fstems ftokens [] = Ok None /\
  stats_make nindex (fun _ _ => forager2json (lit "tf-idf") [] (described fps fgcl sitems)) sfeat (fun _ => true) fstems ftokens [] =
    Ok (Some (Stats (lit ":docno:") fgcl (lit ":") 3 9)).
Proof. exact unread. Qed.
Print Assumptions C54_unread_refuted.

(** C54: a stemmer or a tokenizer that does not exist is no error: a null pointer is used. *)
Theorem C54_unknown_refuted : forall split stem featurize label place items workers cs c,
  items <> [] -> (1 <= workers)%nat -> hd_error cs = Some (Some c) -> c_clone c = true ->
  forage split stem featurize label false place items workers cs = UB.
Proof. exact not_made. Qed.
Print Assumptions C54_unknown_refuted.
Example C54_unknown_run : forage ssplit slow sfeat flabel false fplace sitems 2 [Some yes; Some yes] = UB.
Proof. vm_compute. reflexivity. Qed.
