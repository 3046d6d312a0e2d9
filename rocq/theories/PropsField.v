(** C67: statistics of collections with fields. *)
From Verif Require Import Base HopperModel GclSpec UnaryModel PostingModel VectorModel RankModel RankSpec RankTop RankWitness
  StatsModel StatsSpec StatsTop StatsWitness FieldModel FieldSpec FieldTop FieldChoose FieldWitness.

(** C67: the statistics made for the fields of a collection are those of the text of the
    fields.  Asked: the terms hold no colon and are not the word for lengths, and no two of
    the annotated words have the same feature (both in [field_statistics]).  A field of an
    item is the first of the field's intervals in the item (missing: the others, see
    C67_second_refuted). *)
Theorem C67_made_partial : forall C split stem featurize c SC items os fs,
  answers C c SC -> listed SC items -> (forall d, In d items -> 0 <= ip d) ->
  Forall2 (fun o f => answers (projT1 o) (projT2 o) (set_of f)) os fs -> Forall gclist fs ->
  fold_right Z.add 0 (map (fields_length fs) items) <= maxf ->
  exists r, tf_field_annotations C (classes os) split stem featurize c (states os) = Ok r /\
  match items with
  | [] => r = None
  | _ => exists notes, r = Some notes /\ field_statistics split stem featurize fs items notes
  end.
Proof. exact field_made. Qed.
Print Assumptions C67_made_partial.
Example C67_made_ex : (answers _ (st sitems) (set_of sitems) /\ listed (set_of sitems) sitems) /\ (forall d, In d sitems -> 0 <= ip d) /\
  Forall2 (fun o f => answers (projT1 o) (projT2 o) (set_of f)) fobjs ffields /\ Forall gclist ffields /\
  fold_right Z.add 0 (map (fields_length ffields) sitems) <= maxf.
Proof. exact ffields_ok. Qed.
Example C67_made_terms : forall t, In t fterms -> Forall plain (t :: all_words ssplit slow ffields sitems) /\
  no_clash sfeat (field_keys (length ffields) (t :: all_words ssplit slow ffields sitems)).
Proof. exact fterms_ok. Qed.
Example C67_made_run : tf_field_annotations _ (classes fobjs) ssplit slow sfeat (st sitems) (states fobjs) = Ok (Some fnotes) /\
  noted (ftf 0 [97]) fnotes = [Iv 0 0 1; Iv 7 7 1] /\ noted (ftf 1 [97]) fnotes = [Iv 0 0 1] /\
  noted (ftf 0 [98]) fnotes = [Iv 4 4 1] /\ noted (ftf 1 [98]) fnotes = [Iv 0 0 1; Iv 4 4 1] /\
  noted (stf [98]) fnotes = [Iv 0 0 1; Iv 4 4 2] /\ noted (sdf [98]) fnotes = [Iv 0 0 2] /\
  noted (sfeat length_word) fnotes = [Iv 0 0 4; Iv 4 4 3; Iv 7 7 2] /\
  noted (sfeat total_items_word) fnotes = [Iv 0 0 3] /\ noted (sfeat total_length_word) fnotes = [Iv 0 0 9].
Proof. exact fnotes_run. Qed.

(** C67: read back from an index that answers those annotations, the number of items, the
    length of their fields and the number of items with a term in a field are right, and the
    hopper of a term answers, to every history of calls that look ahead, the items with the
    term in one of the chosen fields, each with the sum of weight times occurrences.  Missing:
    calls that look back, see C67_back_refuted. *)
Theorem C67_read_partial : forall split stem featurize fadd fmul index C c SC items fs notes chosen wfs t,
  answers C c SC -> listed SC items ->
  Forall gclist fs -> Z.of_nat (length items) <= maxf -> fold_right Z.add 0 (map (fields_length fs) items) <= maxf ->
  field_statistics split stem featurize fs items notes -> indexed index notes ->
  (forall w, In w (map snd chosen) -> fadd 0 (fmul w 0) = 0) -> chosen <> [] -> chosen_fields fs chosen wfs ->
  Forall plain (t :: all_words split stem fs items) -> no_clash featurize (field_keys (length fs) (t :: all_words split stem fs items)) ->
  sum_values _ (projT2 (index (featurize total_items_word))) = Ok (Z.of_nat (length items)) /\
  sum_values _ (projT2 (index (featurize total_length_word))) = Ok (fold_right Z.add 0 (map (fields_length fs) items)) /\
  load_df _ (projT2 (index (featurize (tag_df ++ t)))) = Ok (Z.of_nat (length (filter (fun d => 0 <? in_fields split stem t fs d) items))) /\
  let o := field_tf_hopper featurize index fadd fmul chosen C c t in
  answers_ahead (projT1 o) (projT2 o) (set_of (weighted split stem 0 fadd fmul t wfs items)).
Proof. exact field_read. Qed.
Print Assumptions C67_read_partial.
Example C67_read_ex : (field_statistics ssplit slow sfeat ffields sitems fnotes /\ indexed findex fnotes) /\
  (forall w, In w (map snd fchosen) -> 0 + w * 0 = 0) /\ fchosen <> [] /\ chosen_fields ffields fchosen fwfs.
Proof. exact (conj (conj fnotes_statistics findexed) fchosen_ok). Qed.
Example C67_read_run :
  sum_values _ (projT2 (findex (sfeat total_items_word))) = Ok 3 /\
  sum_values _ (projT2 (findex (sfeat total_length_word))) = Ok 9 /\
  load_df _ (projT2 (findex (sdf [98]))) = Ok 2 /\ load_df _ (projT2 (findex (sdf [120]))) = Ok 0 /\
  weighted ssplit slow 0 Z.add Z.mul [97] fwfs sitems = [Iv 0 3 6; Iv 7 8 5] /\
  weighted ssplit slow 0 Z.add Z.mul [98] fwfs sitems = [Iv 0 3 1; Iv 4 6 6] /\
  (let o := field_tf_hopper sfeat findex Z.add Z.mul fchosen _ (st sitems) [98] in
   run (projT1 o) (projT2 o) [(Mtau, 0); (Mtau, 1); (Mtau, 5); (Mrho, 2); (Mrho, 4)] =
   Ok [Iv 0 3 1; Iv 4 6 6; maxr; Iv 0 3 1; Iv 4 6 6]).
Proof. exact fread_run. Qed.

(** C67: a ranking by terms over those statistics returns the best items by the weighted
    occurrences in their fields. *)
Theorem C67_ranking : forall split stem featurize fadd fmul index C c SC items fs notes chosen wfs ts,
  answers C c SC -> listed SC items -> field_statistics split stem featurize fs items notes -> indexed index notes ->
  (forall w, In w (map snd chosen) -> fadd 0 (fmul w 0) = 0) -> chosen <> [] -> chosen_fields fs chosen wfs ->
  (forall t, In t ts -> Forall plain (t :: all_words split stem fs items) /\
     no_clash featurize (field_keys (length fs) (t :: all_words split stem fs items))) ->
  forall (F : Type) (zero : F) add lt sort gain depth, weak_order lt -> sorts sort ->
  exists top, term_ranking zero add lt sort gain depth (map (field_term featurize fadd fmul index chosen C c) ts) = Ok top /\
    best lt depth (doc_results zero add lt gain items (map (fun t => weighted split stem 0 fadd fmul t wfs items) ts)) top.
Proof. exact @field_ranking. Qed.
Print Assumptions C67_ranking.
Example C67_ranking_run : term_ranking 0 Z.add Z.ltb isrt sgain 3 (map fterm [[97]; [98]]) = Ok [res3 0 3 64; res3 4 6 58; res3 7 8 49].
Proof. exact frank_run. Qed.

(** C67: so does BM25, which skips items that cannot enter the result. *)
Theorem C67_bm25 : forall split stem featurize fadd fmul index C c SC items fs notes chosen wfs ts,
  answers C c SC -> listed SC items -> field_statistics split stem featurize fs items notes -> indexed index notes ->
  (forall w, In w (map snd chosen) -> fadd 0 (fmul w 0) = 0) -> chosen <> [] -> chosen_fields fs chosen wfs ->
  (forall t, In t ts -> Forall plain (t :: all_words split stem fs items) /\
     no_clash featurize (field_keys (length fs) (t :: all_words split stem fs items))) ->
  forall (F : Type) (zero : F) add lt sort depth (weights : list (F * (Z -> Z -> F))),
  weak_order lt -> sorts sort -> exact zero add lt -> (forall d, In d items -> iq d - ip d <= maxf) ->
  let ws := map (fun '(t, (idf, g)) => Wand idf g (field_term featurize fadd fmul index chosen C c t)) (combine ts weights) in
  Forall2 (fun t w => bounded zero lt (weighted split stem 0 fadd fmul t wfs items)
                        (Wand (fst w) (snd w) (field_term featurize fadd fmul index chosen C c t))) ts weights ->
  exists top, bm25_ranking zero add lt sort depth ws = Ok top /\
    best lt depth (doc_results zero add lt (wand_gain zero ws) items (map (fun t => weighted split stem 0 fadd fmul t wfs items) ts)) top.
Proof. exact @field_bm25. Qed.
Print Assumptions C67_bm25.
Example C67_bm25_ex : (forall d, In d sitems -> iq d - ip d <= maxf) /\
  Forall2 (fun t w => bounded 0 Z.ltb (weighted ssplit slow 0 Z.add Z.mul t fwfs sitems) (Wand (fst w) (snd w) (fterm t))) [[97]; [98]] sweights.
Proof. exact fweights_ok. Qed.
Example C67_bm25_run : bm25_ranking 0 Z.add Z.ltb isrt 2 (map (fun '(t, (idf, g)) => Wand idf g (fterm t)) (combine [[97]; [98]] sweights)) =
  Ok [res3 0 3 72; res3 7 8 71].
Proof. exact fbm25_run. Qed.

(** C67: looking back, the hopper of a term is wrong: it gives the item before the last one
    with the term, with the value of the last one. *)
Theorem C67_back_refuted : let o := field_tf_hopper sfeat findex Z.add Z.mul fchosen _ (st sitems) [98] in
  weighted ssplit slow 0 Z.add Z.mul [98] fwfs sitems = [Iv 0 3 1; Iv 4 6 6] /\
  run (projT1 o) (projT2 o) [(Muat, 8)] = Ok [Iv 0 3 6] /\
  run (projT1 o) (projT2 o) [(Mohr, 7)] = Ok [Iv 0 3 6] /\
  ~ answers (projT1 o) (projT2 o) (set_of (weighted ssplit slow 0 Z.add Z.mul [98] fwfs sitems)).
Proof. exact back_wrong. Qed.
Print Assumptions C67_back_refuted.

(** C67: when a field has several intervals in an item, only the first counts: the words of
    the others are in no statistics. *)
Theorem C67_second_refuted : let f := existT St (stored_cls false parts2) (st parts2) : hobj in
  answers (projT1 f) (projT2 f) (set_of parts2) /\ gclist parts2 /\
  exists notes, tf_field_annotations _ (classes [f]) ssplit slow sfeat (st [Iv 0 3 0]) (states [f]) = Ok (Some notes) /\
    ssplit 0 1 = [[97]; [98]] /\ ssplit 2 3 = [[97]; [99]] /\
    noted (ftf 0 [97]) notes = [Iv 0 0 1] /\ noted (ftf 0 [99]) notes = [] /\ noted (sfeat length_word) notes = [Iv 0 0 2].
Proof. exact second_wrong. Qed.
Print Assumptions C67_second_refuted.

(** C67: with a weight that is a number and not negative for each field, the fields of the
    statistics are those with a positive weight, in order; there must be one. *)
Theorem C67_weights : forall stof below above qs ws vs, listing qs -> listing ws -> length ws = length qs ->
  Forall2 (fun s v => stof s = Number v /\ below v = false) ws vs ->
  field_stats_make stof below above (Some (joined qs)) (Some (joined ws)) =
  match filter (fun iw => above (snd iw)) (combine (seq 0 (length vs)) vs) with [] => Failed | c => Made c end.
Proof. exact make_all. Qed.
Print Assumptions C67_weights.
Example C67_weights_ex : listing wqueries /\ listing wstrings /\ length wstrings = length wqueries /\
  Forall2 (fun s v => wread s = Number v /\ (v <? 0) = false) wstrings [5; 0; 1] /\
  joined wstrings = [53; 9; 48; 9; 49] /\
  field_stats_make wread (fun w => w <? 0) (fun w => 0 <? w) (Some (joined wqueries)) (Some (joined wstrings)) = Made [(0%nat, 5); (2%nat, 1)].
Proof. exact weights_ok. Qed.

(** C67: a tab at the end changes nothing. *)
Theorem C67_weights_tab : forall stof below above qs ws, listing qs -> listing ws ->
  field_stats_make stof below above (Some (joined qs ++ [9])) (Some (joined ws ++ [9])) =
  field_stats_make stof below above (Some (joined qs)) (Some (joined ws)).
Proof. exact make_tab. Qed.
Print Assumptions C67_weights_tab.
Example C67_weights_tab_ex : listing wqueries /\ listing wstrings /\
  field_stats_make wread (fun w => w <? 0) (fun w => 0 <? w) (Some (joined wqueries ++ [9])) (Some (joined wstrings ++ [9])) =
  Made [(0%nat, 5); (2%nat, 1)].
Proof. exact (conj (proj1 weights_ok) (conj (proj1 (proj2 weights_ok)) eq_refl)). Qed.

(** C67: too few or too many weights, a weight that is not a number and a negative weight are
    errors. *)
Theorem C67_weights_bad : forall stof below above qs ws, listing qs -> listing ws -> (forall s, In s ws -> stof s <> Out_of_range) ->
  length ws <> length qs \/ (exists s, In s ws /\ (stof s = Invalid \/ exists w, stof s = Number w /\ below w = true)) ->
  field_stats_make stof below above (Some (joined qs)) (Some (joined ws)) = Failed.
Proof. exact make_bad. Qed.
Print Assumptions C67_weights_bad.
Example C67_weights_bad_ex : listing [[53]; [45; 49]; [49]] /\ (forall s, In s [[53]; [45; 49]; [49]] -> wread s <> Out_of_range) /\
  wread [45; 49] = Number (-1) /\ (-1 <? 0) = true.
Proof. exact weights_bad_ok. Qed.

(** C67: a warren without weights does not get the statistics without fields that the code
    means to give it: that branch is never taken, whatever the parameters are. *)
Theorem C67_no_weights_refuted : forall stof below above fields weights, field_stats_make stof below above fields weights <> As_df.
Proof. exact make_not_df. Qed.
Print Assumptions C67_no_weights_refuted.
Example C67_no_weights_run : field_stats_make wread (fun w => w <? 0) (fun w => 0 <? w) (Some (joined wqueries)) (Some []) = Failed.
Proof. exact eq_refl. Qed.

(** C67: a weight out of range is not an error but an exception that leaves make. *)
Theorem C67_range_refuted : forall stof below above qs s, listing qs -> length qs = 1%nat -> ~ In 9 s -> stof s = Out_of_range ->
  field_stats_make stof below above (Some (joined qs)) (Some s) = Thrown.
Proof. exact make_thrown. Qed.
Print Assumptions C67_range_refuted.
Example C67_range_ex : listing [[116]] /\ ~ In 9 [49; 101; 57; 57] /\ wread [49; 101; 57; 57] = Out_of_range.
Proof. exact range_ex. Qed.
