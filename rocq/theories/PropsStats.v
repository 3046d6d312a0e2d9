(** C48: term statistics. *)
From Verif Require Import Base HopperModel GclSpec UnaryModel PostingModel VectorModel RankModel RankSpec RankTop RankWitness
  StatsModel StatsSpec StatsTop StatsRange StatsSum StatsWitness.

(** C48: the statistics made from a collection are those of its text: at each item the number
    of occurrences of each of its stemmed words, and the number of items with the word, of
    items and of words.  Asked: the text of a stretch of items splits into one word for each
    address, and no two of the annotated words have the same feature. *)
Theorem C48_made : forall C split stem featurize word_at c SC items,
  answers C c SC -> listed SC items -> aligned word_at split items ->
  (forall c d, In c items -> In d items -> iq d - ip c < maxf) -> total_length items <= maxf ->
  exists r, tf_df_annotations C split stem featurize c = Ok r /\
  match items with
  | [] => r = None
  | _ => exists notes, r = Some notes /\ statistics stem featurize word_at items notes
  end.
Proof. exact tf_df_ok. Qed.
Print Assumptions C48_made.
Example C48_made_ex : (answers _ (st sitems) (set_of sitems) /\ listed (set_of sitems) sitems) /\ aligned sword ssplit sitems /\
  (forall c d, In c sitems -> In d sitems -> iq d - ip c < maxf) /\ total_length sitems <= maxf.
Proof. exact sitems_ok. Qed.
Example C48_made_terms : forall t, In t [[97]; [98]; [99]; [97; 98]; [120]] ->
  no_clash sfeat (keys (t :: flat_map (words_of sword slow) sitems)).
Proof. exact sterms_ok. Qed.
Example C48_made_run : tf_df_annotations _ ssplit slow sfeat (st sitems) = Ok (Some snotes) /\
  noted (stf [97]) snotes = [Iv 0 0 2; Iv 7 7 1] /\ noted (stf [98]) snotes = [Iv 0 0 1; Iv 4 4 2] /\
  noted (stf [97; 98]) snotes = [Iv 7 7 1] /\ noted (sdf [98]) snotes = [Iv 0 0 2] /\
  noted (sfeat total_items_word) snotes = [Iv 0 0 3] /\ noted (sfeat total_length_word) snotes = [Iv 0 0 9].
Proof. exact snotes_run. Qed.

(** C48: totals are read from everything noted for them, so those made in several parts, by
    shard or by thread, add up. *)
Theorem C48_totals : forall T t l, answers T t (set_of l) -> gclist l -> (forall x, In x l -> 0 <= ivl x) ->
  added l <= maxf -> sum_values T t = Ok (added l).
Proof. exact sum_all. Qed.
Print Assumptions C48_totals.
Example C48_totals_ex : let l := [Iv 0 0 3; Iv 10 10 4; Iv 90 90 5] in
  answers _ (stored_start true l) (set_of l) /\ gclist l /\ (forall x, In x l -> 0 <= ivl x) /\ added l = 12 /\
  sum_values _ (stored_start true l) = Ok 12.
Proof. exact parts_ok. Qed.

(** C48: read back from an index that answers those annotations, the number of items and
    their length are right, and the hopper of a term answers the items with the term, each
    with its number of occurrences. *)
Theorem C48_read : forall C stem featurize word_at tofval index c SC items notes t,
  tofval 0 = 0 -> answers C c SC -> listed SC items -> items <> [] ->
  Z.of_nat (length items) <= maxf -> total_length items <= maxf ->
  statistics stem featurize word_at items notes -> indexed index notes ->
  no_clash featurize (keys (t :: flat_map (words_of word_at stem) items)) ->
  sum_values _ (projT2 (index (featurize total_items_word))) = Ok (Z.of_nat (length items)) /\
  sum_values _ (projT2 (index (featurize total_length_word))) = Ok (total_length items) /\
  length (noted (featurize (tag_tf ++ t)) notes) = length (items_with word_at stem t items) /\
  term_over (valued stem word_at tofval t items) (stats_term C featurize tofval index c t).
Proof. exact stats_ok. Qed.
Print Assumptions C48_read.
Example C48_read_ex : sitems <> [] /\ statistics slow sfeat sword sitems snotes /\ indexed sindex snotes.
Proof. split; [discriminate|]. exact (conj snotes_statistics sindexed). Qed.
Example C48_read_run :
  sum_values _ (projT2 (sindex (sfeat total_items_word))) = Ok 3 /\
  sum_values _ (projT2 (sindex (sfeat total_length_word))) = Ok 9 /\
  valued slow sword (fun n => n) [97] sitems = [Iv 0 3 2; Iv 7 8 1] /\
  valued slow sword (fun n => n) [120] sitems = [].
Proof. exact sread_run. Qed.

(** C48: a ranking by terms over those statistics returns the best items by the words of
    their text. *)
Theorem C48_ranking : forall C stem featurize word_at tofval index (F : Type) (zero : F) add lt sort gain c SC items notes depth ts,
  weak_order lt -> sorts sort -> tofval 0 = 0 -> answers C c SC -> listed SC items ->
  statistics stem featurize word_at items notes -> indexed index notes ->
  (forall t, In t ts -> no_clash featurize (keys (t :: flat_map (words_of word_at stem) items))) ->
  exists top, term_ranking zero add lt sort gain depth (map (stats_term C featurize tofval index c) ts) = Ok top /\
    best lt depth (doc_results zero add lt gain items (map (fun t => valued stem word_at tofval t items) ts)) top.
Proof. exact @text_ranking. Qed.
Print Assumptions C48_ranking.
Example C48_ranking_run : term_ranking 0 Z.add Z.ltb isrt sgain 3 (map sstats [[97]; [98]]) =
  Ok [res3 0 3 24; res3 4 6 18; res3 7 8 9].
Proof. exact srank_run. Qed.

(** C48: so does BM25, which skips items that cannot enter the result. *)
Theorem C48_bm25 : forall C stem featurize word_at tofval index (F : Type) (zero : F) add lt sort c SC items notes depth ts
    (weights : list (F * (Z -> Z -> F))),
  weak_order lt -> sorts sort -> exact zero add lt -> tofval 0 = 0 -> answers C c SC -> listed SC items ->
  (forall d, In d items -> iq d - ip d <= maxf) ->
  statistics stem featurize word_at items notes -> indexed index notes ->
  (forall t, In t ts -> no_clash featurize (keys (t :: flat_map (words_of word_at stem) items))) ->
  let ws := map (fun '(t, (idf, g)) => Wand idf g (stats_term C featurize tofval index c t)) (combine ts weights) in
  Forall2 (fun t w => bounded zero lt (valued stem word_at tofval t items)
                        (Wand (fst w) (snd w) (stats_term C featurize tofval index c t))) ts weights ->
  exists top, bm25_ranking zero add lt sort depth ws = Ok top /\
    best lt depth (doc_results zero add lt (wand_gain zero ws) items (map (fun t => valued stem word_at tofval t items) ts)) top.
Proof. exact @text_bm25. Qed.
Print Assumptions C48_bm25.
Example C48_bm25_ex : (forall d, In d sitems -> iq d - ip d <= maxf) /\
  Forall2 (fun t w => bounded 0 Z.ltb (valued slow sword (fun n => n) t sitems) (Wand (fst w) (snd w) (sstats t))) [[97]; [98]] sweights.
Proof. exact sweights_ok. Qed.
Example C48_bm25_run : bm25_ranking 0 Z.add Z.ltb isrt 2 (map (fun '(t, (idf, g)) => Wand idf g (sstats t)) (combine [[97]; [98]] sweights)) =
  Ok [res3 0 3 45; res3 7 8 33].
Proof. exact sbm25_run. Qed.

(** C48: the statistics of a range of addresses that starts after the lowest address and ends
    where an item ends are those of the items in it. *)
Theorem C48_range_partial : forall C split stem featurize word_at c SC items start stop,
  answers C c SC -> listed SC items -> aligned word_at split items ->
  (forall c d, In c items -> In d items -> iq d - ip c < maxf) -> total_length items <= maxf ->
  minf < start < maxf -> (exists d, In d items /\ start <= ip d /\ iq d = stop) ->
  exists notes, tf_annotations C split stem featurize c start stop = Ok (Some notes) /\
  forall t, no_clash featurize (keys (t :: flat_map (words_of word_at stem) items)) ->
    noted (featurize (tag_tf ++ t)) notes = places stem word_at t (in_range start stop items) /\
    noted (featurize total_items_word) notes = [Iv start start (Z.of_nat (length (in_range start stop items)))] /\
    noted (featurize total_length_word) notes = [Iv start start (total_length (in_range start stop items))].
Proof. exact tf_range_ok. Qed.
Print Assumptions C48_range_partial.
Example C48_range_ex : minf < 4 < maxf /\ exists d, In d sitems /\ 4 <= ip d /\ iq d = 8.
Proof. exact srange_ok. Qed.
Example C48_range_run : exists notes, tf_annotations _ ssplit slow sfeat (st sitems) 4 8 = Ok (Some notes) /\
  noted (stf [98]) notes = [Iv 4 4 2] /\ noted (stf [97]) notes = [Iv 7 7 1] /\
  noted (sfeat total_items_word) notes = [Iv 4 4 2] /\ noted (sfeat total_length_word) notes = [Iv 4 4 5].
Proof. exact srange_run. Qed.

(** C48: over the range of all addresses, the default, they are not: the items of the last
    batch are counted and their words are not. *)
Theorem C48_range_refuted : exists notes, tf_annotations _ ssplit slow sfeat (st sitems) minf maxf = Ok (Some notes) /\
  noted (sfeat total_items_word) notes = [Iv minf minf 3] /\
  (forall t, places slow sword t sitems <> [] ->
     no_clash sfeat (keys (t :: flat_map (words_of sword slow) sitems)) -> noted (stf t) notes = []) /\
  places slow sword [97] sitems = [Iv 0 0 2; Iv 7 7 1].
Proof. exact range_refuted. Qed.
Print Assumptions C48_range_refuted.

(** C48: when addresses between two items have no text, as after a transaction that became
    ready and then aborted, making the statistics reads past the end of the words, although
    the text of each item has a word for each of its addresses. *)
Theorem C48_gap_refuted : answers _ (st gitems) (set_of gitems) /\ listed (set_of gitems) gitems /\
  (forall d, In d gitems -> Z.of_nat (length (gsplit (ip d) (iq d))) = iq d - ip d + 1) /\
  tf_df_annotations _ gsplit slow sfeat (st gitems) = UB.
Proof. exact gap_refuted. Qed.
Print Assumptions C48_gap_refuted.
