(** C68: statistics of collections with the weights of terms. *)
From Verif Require Import Base HopperModel GclSpec UnaryModel PostingModel VectorModel RankModel RankSpec RankTop RankWitness
  StatsModel StatsSpec StatsTop StatsWitness IdfModel IdfSpec IdfProofs IdfWitness.

(** C68: the statistics made are those of the text of the items: for each term the items that
    hold it, with the value for the number of occurrences; the average length; and of the
    weights those that were asked for.  Asked: no two of the annotated words have the same
    feature (in [idf_statistics]). *)
Theorem C68_made : forall C split stem featurize tofval avgl_of idf_of rsj_of above unstemmed with_idf with_rsj c SC items,
  answers C c SC -> listed SC items -> (forall d, In d items -> 0 <= ip d) -> total_length items <= maxf ->
  (with_idf || with_rsj) = true ->
  exists notes, tf_idf_annotations C split stem featurize tofval avgl_of idf_of rsj_of above unstemmed with_idf with_rsj c =
      Ok (notes, [(key_unstemmed, okay_string unstemmed); (key_idf, okay_string with_idf); (key_rsj, okay_string with_rsj); (key_statistics, key_idf)]) /\
    idf_statistics split stem featurize tofval avgl_of idf_of rsj_of above unstemmed with_idf with_rsj items notes.
Proof. exact idf_made. Qed.
Print Assumptions C68_made.
Example C68_made_ex : (answers _ (st sitems) (set_of sitems) /\ listed (set_of sitems) sitems) /\ (forall d, In d sitems -> 0 <= ip d) /\
  total_length sitems <= maxf.
Proof. exact iitems_ok. Qed.
Example C68_made_terms : forall u t, In t iterms -> no_clash sfeat (idf_keys (t :: flat_map (item_words ssplit istem u) sitems)).
Proof. exact iterms_ok. Qed.
Example C68_made_run :
  (exists ps, imake false true true = Ok (inotes false true true, ps) /\ length ps = 4%nat) /\
  noted (iitf [97]) (inotes false true true) = [Iv 0 3 20; Iv 7 8 10] /\ noted (iitf [98]) (inotes false true true) = [Iv 0 3 10; Iv 4 6 20] /\
  noted (iitf [97; 98]) (inotes false true true) = [Iv 7 8 10] /\ noted (iitf [65; 98]) (inotes false true true) = [] /\
  noted (iitf [65; 98]) (inotes true true true) = [Iv 7 8 10] /\ noted (iitf [97; 98]) (inotes true true true) = [Iv 7 8 10] /\
  noted (iwidf [98]) (inotes false true true) = [Iv 0 0 150] /\ noted (iwrsj [98]) (inotes false true true) = [] /\
  noted (iwidf [99]) (inotes false true true) = [Iv 0 0 300] /\ noted (iwrsj [99]) (inotes false true true) = [Iv 0 0 1] /\
  noted (iwidf [99]) (inotes false false true) = [] /\ noted (iwrsj [99]) (inotes false true false) = [] /\
  noted (sfeat avgl_word) (inotes false true true) = [Iv 0 0 3].
Proof. exact inotes_run. Qed.

(** C68: read back from an index that answers those annotations, the average length and the
    weights are right (0 for a term that is in no item, for a weight of type rsj that is not
    positive, and for weights that were not asked for), and the hopper of a term answers, to
    every history of calls, the items with the term. *)
Theorem C68_read : forall split stem featurize tofval avgl_of idf_of rsj_of above unstemmed with_idf with_rsj index items notes,
  gclist items -> indexed index notes ->
  idf_statistics split stem featurize tofval avgl_of idf_of rsj_of above unstemmed with_idf with_rsj items notes ->
  forall t, no_clash featurize (idf_keys (t :: flat_map (item_words split stem unstemmed) items)) ->
  idf_avgl featurize index = Ok (Some (avgl_of (total_length items) (size items))) /\
  idf_idf featurize index t = Ok (if with_idf then or_zero (idf_in split stem idf_of unstemmed t items) else 0) /\
  idf_rsj featurize index t = Ok (if with_rsj then or_zero (rsj_in split stem rsj_of above unstemmed t items) else 0) /\
  let o := idf_tf_hopper featurize index t in answers (projT1 o) (projT2 o) (set_of (holding split stem tofval unstemmed t items)).
Proof. exact idf_read. Qed.
Print Assumptions C68_read.
Example C68_read_ex : forall u i r, (i || r) = true -> indexed (iindex (inotes u i r)) (inotes u i r) /\
  idf_statistics ssplit istem sfeat (fun n => 10 * n) iavg iidf irsj ipos u i r sitems (inotes u i r).
Proof. exact (fun u i r H => conj (iindexed u i r) (inotes_statistics u i r H)). Qed.
Example C68_read_run : idf_avgl sfeat iidx = Ok (Some 3) /\ idf_idf sfeat iidx [98] = Ok 150 /\ idf_rsj sfeat iidx [98] = Ok 0 /\
  idf_rsj sfeat iidx [99] = Ok 1 /\ idf_idf sfeat iidx [120] = Ok 0 /\
  holding ssplit istem (fun n => 10 * n) false [98] sitems = [Iv 0 3 10; Iv 4 6 20] /\
  (let o := idf_tf_hopper sfeat iidx [98] in run (projT1 o) (projT2 o) [(Mtau, 0); (Mtau, 1); (Mrho, 4); (Muat, 8); (Mohr, 5)] =
   Ok [Iv 0 3 10; Iv 4 6 20; Iv 4 6 20; Iv 4 6 20; Iv 4 6 20]).
Proof. exact iread_run. Qed.

(** C68: an index without the annotation of the average length has no such statistics. *)
Theorem C68_none : forall featurize index notes, indexed index notes -> noted (featurize avgl_word) notes = [] ->
  idf_avgl featurize index = Ok None.
Proof. exact no_statistics. Qed.
Print Assumptions C68_none.
Example C68_none_ex : indexed (iindex snotes) snotes /\ noted (sfeat avgl_word) snotes = [] /\ snotes <> [].
Proof. exact snotes_none. Qed.

(** C68: a ranking by terms over those statistics returns the best items. *)
Theorem C68_ranking : forall split stem featurize tofval avgl_of idf_of rsj_of above unstemmed with_idf with_rsj index items notes,
  gclist items -> indexed index notes ->
  idf_statistics split stem featurize tofval avgl_of idf_of rsj_of above unstemmed with_idf with_rsj items notes ->
  forall ts, (forall t, In t ts -> no_clash featurize (idf_keys (t :: flat_map (item_words split stem unstemmed) items))) ->
  forall (F : Type) (zero : F) add lt sort gain depth, weak_order lt -> sorts sort ->
  exists top, term_ranking zero add lt sort gain depth (map (idf_term featurize index) ts) = Ok top /\
    best lt depth (doc_results zero add lt gain items (map (fun t => holding split stem tofval unstemmed t items) ts)) top.
Proof. exact idf_ranking. Qed.
Print Assumptions C68_ranking.
Example C68_ranking_run : term_ranking 0 Z.add Z.ltb isrt sgain 3 (map iterm [[97]; [98]]) = Ok [res3 0 3 294; res3 4 6 198; res3 7 8 99].
Proof. exact irank_run. Qed.

(** C68: so does BM25, which skips items that cannot enter the result. *)
Theorem C68_bm25 : forall split stem featurize tofval avgl_of idf_of rsj_of above unstemmed with_idf with_rsj index items notes,
  gclist items -> indexed index notes ->
  idf_statistics split stem featurize tofval avgl_of idf_of rsj_of above unstemmed with_idf with_rsj items notes ->
  forall ts, (forall t, In t ts -> no_clash featurize (idf_keys (t :: flat_map (item_words split stem unstemmed) items))) ->
  forall (F : Type) (zero : F) add lt sort depth (weights : list (F * (Z -> Z -> F))),
  weak_order lt -> sorts sort -> exact zero add lt -> (forall d, In d items -> iq d - ip d <= maxf) ->
  let ws := map (fun '(t, (idf, g)) => Wand idf g (idf_term featurize index t)) (combine ts weights) in
  Forall2 (fun t w => bounded zero lt (holding split stem tofval unstemmed t items) (Wand (fst w) (snd w) (idf_term featurize index t))) ts weights ->
  exists top, bm25_ranking zero add lt sort depth ws = Ok top /\
    best lt depth (doc_results zero add lt (wand_gain zero ws) items (map (fun t => holding split stem tofval unstemmed t items) ts)) top.
Proof. exact idf_bm25. Qed.
Print Assumptions C68_bm25.
Example C68_bm25_ex : (forall d, In d sitems -> iq d - ip d <= maxf) /\
  Forall2 (fun t w => bounded 0 Z.ltb (holding ssplit istem (fun n => 10 * n) false t sitems) (Wand (fst w) (snd w) (iterm t))) [[97]; [98]] sweights.
Proof. exact iweights_ok. Qed.
Example C68_bm25_run : bm25_ranking 0 Z.add Z.ltb isrt 2 (map (fun '(t, (idf, g)) => Wand idf g (iterm t)) (combine [[97]; [98]] sweights)) =
  Ok [res3 0 3 125; res3 7 8 83].
Proof. exact ibm25_run. Qed.

(** C68: the flags that are set as parameters can be read back; y, yes, on, true, okay and ok,
    also with a capital, and OK mean yes, and nothing else does. *)
Theorem C68_flags : (forall b, okay (okay_string b) = b) /\
  forall v, okay v = true <-> In v
    [[121]; [121; 101; 115]; [111; 110]; [116; 114; 117; 101]; [111; 107; 97; 121]; [111; 107];
     [89]; [89; 101; 115]; [79; 110]; [84; 114; 117; 101]; [79; 107; 97; 121]; [79; 107]; [79; 75]].
Proof. exact (conj okay_round okay_in). Qed.
Print Assumptions C68_flags.

(** C68: a parameter that is there counts as yes; one that cannot be read takes the value of the
    last one read before it. *)
Theorem C68_unread : forall get before key,
  In (before, key) [([], key_unstemmed); ([key_unstemmed], key_idf); ([key_unstemmed; key_idf], key_rsj)] ->
  (get key <> None -> idf_have_ (idf_flags get) key = true) /\
  (get key = None -> (idf_have_ (idf_flags get) key = true <->
    exists a k v b, before = a ++ k :: b /\ get k = Some v /\ In v okay_words /\ forall k', In k' b -> get k' = None)).
Proof. exact flags_each. Qed.
Print Assumptions C68_unread.
Example C68_unread_holds : let get k := if word_eq k key_unstemmed then Some (okay_string true) else None in
  idf_have_ (idf_flags get) key_idf = true /\ idf_have_ (idf_flags (fun _ => None)) key_idf = false.
Proof. split; reflexivity. Qed.

(** C68: the statistics do not read them: whatever the parameters hold, they say that there
    are weights of both types and unstemmed words. *)
Theorem C68_have_refuted : (forall get v1 v2 v3, get key_unstemmed = Some v1 -> get key_idf = Some v2 -> get key_rsj = Some v3 ->
    forall name, idf_have_ (idf_flags get) name = existsb (word_eq name) [key_avgl; key_tf; key_unstemmed; key_idf; key_rsj]) /\
  exists notes ps, imake false true false = Ok (notes, ps) /\
    lookup ps key_rsj = Some (okay_string false) /\ lookup ps key_unstemmed = Some (okay_string false) /\
    idf_have_ (idf_flags (lookup ps)) key_rsj = true /\ idf_have_ (idf_flags (lookup ps)) key_unstemmed = true /\
    (forall t, In t iterms -> idf_rsj sfeat (iindex notes) t = Ok 0).
Proof. exact (conj flags_always have_wrong). Qed.
Print Assumptions C68_have_refuted.

(** C68: asked for neither type of weight, nothing is made, and that is a success. *)
Theorem C68_neither : forall C split stem featurize tofval avgl_of idf_of rsj_of above unstemmed c,
  tf_idf_annotations C split stem featurize tofval avgl_of idf_of rsj_of above unstemmed false false c = Ok ([], []).
Proof. exact neither_made. Qed.
Print Assumptions C68_neither.

(** C68: without items, statistics are made all the same: their average is that of no
    lengths, a division of 0 by 0. *)
Theorem C68_empty_refuted : forall avgl_of, exists ps,
  tf_idf_annotations _ ssplit istem sfeat (fun n => n) avgl_of iidf irsj ipos false true true (st []) =
  Ok ([Ann (sfeat avgl_word) (Iv 0 0 (avgl_of 0 0))], ps).
Proof. exact empty_run. Qed.
Print Assumptions C68_empty_refuted.
