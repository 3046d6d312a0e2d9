(** C45, C46, C47: rankings. *)
From Verif Require Import Base HopperModel GclSpec VectorModel RankModel RankSpec RankFuse RankTop RankWitness.

(** C45: ranking by shortest substrings returns the [depth] best of the containers that
    start in [start, stop) and contain a solution, each once, with the sum of the weights of
    the solutions in it and the first of its shortest solutions, highest scores first, in
    whatever order std::sort puts ties.  Asked of the containers: no two overlap. *)
Theorem C45_best : forall (F : Type) (zero : F) add lt sort A C a c SA SC xs cs weight depth start stop,
  weak_order lt -> sorts sort -> answers A a SA -> answers C c SC -> listed SA xs -> listed SC cs ->
  apart SC -> weighty zero add lt weight xs -> minf <= start <= maxf -> minf <= stop <= maxf ->
  exists top, ssr_ranking zero add lt sort A C weight a c depth start stop = Ok top /\
    ssr_answer zero add lt weight xs cs start stop depth top.
Proof. exact (fun F => @ssr_best F). Qed.
Print Assumptions C45_best.
Example C45_best_ex : (weak_order Z.ltb /\ sorts isrt) /\ (answers _ (st rsols) (set_of rsols) /\ listed (set_of rsols) rsols) /\
  (answers _ (st rconts) (set_of rconts) /\ listed (set_of rconts) rconts) /\ apart (set_of rconts) /\
  weighty 0 Z.add Z.ltb rweight rsols.
Proof. exact (conj (conj z_order isrt_sorts) (conj rsols_ok (conj rconts_ok (conj rconts_apart rsols_weighty)))). Qed.
Example C45_best_run : zssr rsols rconts 2 = Ok [Res 3 3 0 9 90; Res 25 25 20 29 90] /\
  zssr rsols rconts 5 = Ok [Res 3 3 0 9 90; Res 25 25 20 29 90; Res 12 15 10 19 15].
Proof. exact rsols_run. Qed.

(** C45: split over any number of threads, the ranking returns the best containers of the
    whole collection, with the scores of the unsplit ranking. *)
Theorem C45_parallel : forall (F : Type) (zero : F) add lt sort A C a c SA SC xs cs weight depth hardware threads,
  weak_order lt -> sorts sort -> answers A a SA -> answers C c SC -> listed SA xs -> listed SC cs ->
  apart SC -> weighty zero add lt weight xs -> (forall c d, SC c -> SC d -> iq d - ip c < maxf) ->
  exists top one, parallel_ssr zero add lt sort A C weight hardware threads a c depth = Ok top /\
    ssr_ranking zero add lt sort A C weight a c depth minf maxf = Ok one /\
    ssr_answer zero add lt weight xs cs minf maxf depth top /\
    Forall2 (fun a b => lt (rscore a) (rscore b) = false /\ lt (rscore b) (rscore a) = false) top one.
Proof. exact (fun F => @parallel_best F). Qed.
Print Assumptions C45_parallel.
Example C45_parallel_ex : (answers _ (st fsols) (set_of fsols) /\ listed (set_of fsols) fsols) /\
  (answers _ (st fconts) (set_of fconts) /\ listed (set_of fconts) fconts) /\
  (apart (set_of fconts) /\ forall c d, set_of fconts c -> set_of fconts d -> iq d - ip c < maxf) /\
  weighty 0 Z.add Z.ltb rweight fsols.
Proof. exact (conj fsols_ok (conj fconts_ok (conj fconts_apart fsols_weighty))). Qed.
Example C45_parallel_run : parallel_ssr 0 Z.add Z.ltb isrt _ _ rweight 8 0 (st fsols) (st fconts) 2 =
  Ok [Res 3000005 3000005 3000000 3000009 90; Res 1500001 1500001 1500000 1500019 60].
Proof. exact fsols_run. Qed.

(** C45 is false of containers that overlap: a solution that lies in two of them is counted
    for the first one only. *)
Theorem C45_overlap_refuted : exists xs cs top,
  (answers _ (st xs) (set_of xs) /\ listed (set_of xs) xs) /\ (answers _ (st cs) (set_of cs) /\ listed (set_of cs) cs) /\
  weighty 0 Z.add Z.ltb rweight xs /\ zssr xs cs 5 = Ok top /\
  top = [Res 6 7 0 10 30; Res 14 15 5 15 30] /\ ~ ssr_answer 0 Z.add Z.ltb rweight xs cs minf maxf 5 top.
Proof. exact overlap_refuted. Qed.
Print Assumptions C45_overlap_refuted.

(** C46: ranking with a language model or by dot product returns the [depth] best of the
    documents whose score is above zero, each once, with what its terms add up to. *)
Theorem C46_terms : forall (F : Type) (zero : F) add lt sort gain docs lists depth ts,
  weak_order lt -> sorts sort -> gclist docs -> Forall (of_docs docs) lists -> Forall2 term_over lists ts ->
  exists top, term_ranking zero add lt sort gain depth ts = Ok top /\
    best lt depth (doc_results zero add lt gain docs lists) top.
Proof. exact (fun F => @terms_best F). Qed.
Print Assumptions C46_terms.
Example C46_terms_ex : gclist rdocs /\ Forall (of_docs rdocs) [rl1; rl2] /\ Forall2 term_over [rl1; rl2] [tm rl1; tm rl2].
Proof. exact rdocs_ok. Qed.
Example C46_terms_run : term_ranking 0 Z.add Z.ltb isrt rgain 3 [tm rl1; tm rl2] =
  Ok [res3 30 39 12; res3 0 9 11; res3 40 44 8].
Proof. exact rdocs_run. Qed.

(** C46: BM25 ranking skips documents it takes to be out of reach; it returns the best
    documents all the same, as if every document had been scored.  Asked of the scores:
    addition without rounding; of the terms: weights not below zero. *)
Theorem C46_bm25 : forall (F : Type) (zero : F) add lt sort docs lists depth ws,
  weak_order lt -> sorts sort -> exact zero add lt -> gclist docs -> (forall d, In d docs -> iq d - ip d <= maxf) ->
  Forall (of_docs docs) lists -> Forall2 (fun l w => term_over l (w_term w) /\ bounded zero lt l w) lists ws ->
  exists top, bm25_ranking zero add lt sort depth ws = Ok top /\
    best lt depth (doc_results zero add lt (wand_gain zero ws) docs lists) top.
Proof. exact (fun F => @wand_best F). Qed.
Print Assumptions C46_bm25.
Example C46_bm25_ex : exact 0 Z.add Z.ltb /\ (forall d, In d rdocs -> iq d - ip d <= maxf) /\
  Forall2 (fun l w => term_over l (w_term w) /\ bounded 0 Z.ltb l w) [rl1; rl2] rws.
Proof. exact (conj z_exact rws_ok). Qed.
Example C46_bm25_run : bm25_ranking 0 Z.add Z.ltb isrt 2 rws = Ok [res3 30 39 29; res3 40 44 22].
Proof. exact rws_run. Qed.

(** C46 is false of a query that gives a term a negative weight: a document without that
    term and with a score above zero is not returned. *)
Theorem C46_negative_refuted : exists ws, Forall2 (fun l w => term_over l (w_term w)) [nl1; nl2] ws /\
  Forall (of_docs rdocs) [nl1; nl2] /\ bm25_ranking 0 Z.add Z.ltb isrt 10 ws = Ok [] /\
  doc_results 0 Z.add Z.ltb (wand_gain 0 ws) rdocs [nl1; nl2] = [res3 10 29 20].
Proof. exact negative_refuted. Qed.
Print Assumptions C46_negative_refuted.

(** C46: each result is then given the container that covers it, if there is one. *)
Theorem C46_containers : forall (F : Type) C c SC cs (ranking : list (result (F := F))),
  answers C c SC -> listed SC cs -> (forall r, In r ranking -> minf < rp r < maxf /\ minf < rq r < maxf) ->
  exists out, add_container C c ranking = Ok out /\ Forall2 (contained cs) ranking out.
Proof. exact (fun F => @containers_found F). Qed.
Print Assumptions C46_containers.
Example C46_containers_ex : (answers _ (st rconts) (set_of rconts) /\ listed (set_of rconts) rconts) /\
  add_container _ (st rconts) [res3 3 3 90; res3 27 31 7; res3 12 15 15] =
  Ok [Res 3 3 0 9 90; Res 27 31 27 31 7; Res 12 15 10 19 15].
Proof. exact (conj rconts_ok contain_run). Qed.

(** C47: fusing rankings gives each start of a result once, with the sum of what its places
    in the rankings earn it, highest scores first. *)
Theorem C47_fusion : forall (F : Type) (zero : F) add lt sort, weak_order lt -> sorts sort ->
  forall reciprocal rankings, fused add lt reciprocal rankings (rrf_fusion zero add lt sort reciprocal rankings).
Proof. exact (fun F => @rrf_ok F). Qed.
Print Assumptions C47_fusion.
Example C47_fusion_ex : rrf_fusion 0 Z.add Z.ltb isrt rrecip [ra; rb; [Res 12 15 10 19 1]] =
  [Res 12 15 10 19 32; Res 3 3 0 9 16; Res 25 25 20 29 16; Res 26 27 20 29 16].
Proof. exact fuse_run. Qed.

(** C47: merging two rankings keeps one best result of each container, and of those the
    [depth] best. *)
Theorem C47_merge : forall (F : Type) (zero : F) (add : F -> F -> F) (lt : F -> F -> bool) sort stable_sort,
  weak_order lt -> sorts sort -> sorts_stably stable_sort -> forall r0 r1 depth,
  exists all, one_each lt (r0 ++ r1) all /\ best lt depth all (merge_results lt sort stable_sort r0 r1 depth).
Proof. exact (fun F => @merge_results_ok F). Qed.
Print Assumptions C47_merge.
Example C47_merge_ex : sorts_stably isrt /\ merge_results Z.ltb isrt isrt ra rb 2 = [Res 3 3 0 9 90; Res 26 27 20 29 85].
Proof. exact (conj isrt_stable merge_run). Qed.

(** C47: with a list of queries in tiers, the containers that match an earlier tier come
    before those that match only later ones, the best of each tier first, no container
    twice, and places are scored by their number from the end. *)
Theorem C47_tiers : forall (F : Type) (zero : F) add lt sort C c SC cs weight fake depth (tiers : list hobj) sols,
  weak_order lt -> sorts sort -> answers C c SC -> listed SC cs -> apart SC ->
  Forall2 (fun t xs => weighty zero add lt weight xs /\ exists S, answers (projT1 t) (projT2 t) S /\ listed S xs) tiers sols ->
  exists out picks alls,
    tiered_ranking (tier_rank zero add lt sort weight C c depth) fake depth tiers = Ok out /\
    Forall2 (fun xs all => Forall2 (ssr_result zero add weight xs) (matching xs cs minf maxf) all) sols alls /\
    tiered lt depth alls [] picks /\ map place out = map place picks /\
    forall i r, nth_error out i = Some r -> rscore r = fake (depth - i)%nat.
Proof. exact (fun F => @tiers_best F). Qed.
Print Assumptions C47_tiers.
Example C47_tiers_ex : Forall2 (fun t xs => weighty 0 Z.add Z.ltb rweight xs /\ exists S, answers (projT1 t) (projT2 t) S /\ listed S xs)
  [existT St _ (st [Iv 12 15 0]); existT St _ (st rsols)] [[Iv 12 15 0]; rsols].
Proof. exact tiers_sols. Qed.
Example C47_tiers_run :
  tiered_ranking (tier_rank 0 Z.add Z.ltb isrt rweight _ (st rconts) 5) Z.of_nat 5
    [existT St _ (st [Iv 12 15 0]); existT St _ (st rsols)] =
  Ok [Res 12 15 10 19 5; Res 3 3 0 9 4; Res 25 25 20 29 3].
Proof. exact tiers_run. Qed.
