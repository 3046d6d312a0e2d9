(** C59 to C61: the evaluation of rankings.  These theorems are about real numbers and rest on
    the axioms of Coq's Reals. *)
From Coq Require Import Reals.
From Verif Require Import Base Bytes RecipeModel RankerSpec JsonlSpec EvalModel EvalSpec EvalProofs EvalGain EvalFinal EvalMore EvalMed EvalLoad EvalQrels EvalWitness.
Local Open Scope R_scope.

(** C59: precision at 5, 10 and 20, average precision, precision, recall and the counts are
    those of the ranking [results]. *)
Theorem C59_counts : forall sort g results m, graded g ->
  let l := map fst results in let e := eval sort g results m in
  get (lit "ap") e = Some (Some (average_precision g l)) /\
  get (lit "p05") e = Some (Some (precision_at g 5 l)) /\
  get (lit "p10") e = Some (Some (precision_at g 10 l)) /\
  get (lit "p20") e = Some (Some (precision_at g 20 l)) /\
  get (lit "ret") e = Some (Some (many l)) /\
  get (lit "rel") e = Some (Some (many (relevants g (map fst g)))) /\
  get (lit "rel-ret") e = Some (Some (many (relevants g l))) /\
  get (lit "precision") e = Some (Some (over (many (relevants g l)) (many l))) /\
  get (lit "recall") e = Some (Some (over (many (relevants g l)) (many (relevants g (map fst g))))).
Proof. exact eval_counts. Qed.
Print Assumptions C59_counts.
Example C59_counts_ex : graded wg /\ get (lit "p05") (eval down_sort wg wr []) = Some (Some (2 / 5)) /\
  get (lit "ap") (eval down_sort wg wr []) = Some (Some (5 / 6)) /\ get (lit "recall") (eval down_sort wg wr []) = Some (Some 1).
Proof. exact (conj (proj1 wg_ok) w_counts). Qed.
(** C59: for a ranking without repetitions, average precision and recall are from 0 to 1. *)
Theorem C59_shares : forall g l, graded g -> NoDup l ->
  0 <= average_precision g l <= 1 /\ 0 <= over (many (relevants g l)) (many (relevants g (map fst g))) <= 1.
Proof. exact (fun g l G D => conj (ap_range g l G D) (over_range _ _ (conj (pos_INR _) (shares g l G D)))). Qed.
Print Assumptions C59_shares.
Example C59_shares_ex : graded wg /\ NoDup (map fst wr).
Proof. exact (conj (proj1 wg_ok) wr_ok). Qed.
(** C59 is false of repetitions: a ranking that lists an item twice has recall 2. *)
Theorem C59_repeats_refuted : exists g results, graded g /\ get (lit "recall") (eval down_sort g results []) = Some (Some 2).
Proof. exact (ex_intro _ _ (ex_intro _ _ repeats_recall)). Qed.
Print Assumptions C59_repeats_refuted.
(** C59 is false of the reciprocal rank: what is stored as rr is the average precision. *)
Theorem C59_rr_refuted :
  (forall sort g results m, graded g -> get (lit "rr") (eval sort g results m) = Some (Some (average_precision g (map fst results)))) /\
  exists g results, graded g /\ reciprocal_rank g (map fst results) 1 /\ get (lit "rr") (eval down_sort g results []) = Some (Some (1 / 2)).
Proof. exact (conj eval_rr (ex_intro _ _ (ex_intro _ _ rr_refuted))). Qed.
Print Assumptions C59_rr_refuted.
(** C59: the discounted gain at each depth is that of the ranking, and the normalised one its
    part of the largest gain any ranking can have. *)
Theorem C59_gains : forall sort g results m, sorts_down sort -> graded g -> not_negative g -> forall name nname k, In (name, nname, k) gains ->
  get name (eval sort g results m) = Some (Some (dcg g (cut k (map fst results)))) /\
  exists b, best_gain g k b /\ get nname (eval sort g results m) = Some (Some (over (dcg g (cut k (map fst results))) b)).
Proof. exact eval_gains. Qed.
Print Assumptions C59_gains.
Example C59_gains_ex : sorts_down down_sort /\ graded wg /\ not_negative wg /\ In (lit "dcg05", lit "ndcg05", Some 5%nat) gains.
Proof. exact (conj down_sorts (conj (proj1 wg_ok) (conj (proj1 (proj2 wg_ok)) (or_intror (or_introl eq_refl))))). Qed.
(** C59: for a ranking without repetitions the normalised gain is from 0 to 1. *)
Theorem C59_normalised : forall g k b l, graded g -> not_negative g -> best_gain g k b -> NoDup l -> 0 <= over (dcg g (cut k l)) b <= 1.
Proof. exact ndcg_range. Qed.
Print Assumptions C59_normalised.
Example C59_normalised_ex : best_gain wg (Some 5%nat) (discounted 0 (cut (Some 5%nat) (down_sort (map snd wg)))) /\ NoDup (map fst wr).
Proof. exact (conj (best_ok wg (proj1 wg_ok) (proj1 (proj2 wg_ok)) _ (proj1 (down_sorts _)) (proj2 (down_sorts _)) (Some 5%nat)) wr_ok). Qed.
(** C59: rank-biased precision and time-biased gain are those of the ranking. *)
Theorem C59_biased : forall sort g results m, graded g ->
  get (lit "rbp50") (eval sort g results m) = Some (Some (rbp (1 / 2) g (map fst results))) /\
  get (lit "rbp95") (eval sort g results m) = Some (Some (rbp (95 / 100) g (map fst results))) /\
  get (lit "tbg") (eval sort g results m) = Some (Some (time_biased g 0 results)).
Proof. exact eval_rbp. Qed.
Print Assumptions C59_biased.
Example C59_biased_ex : graded wg.
Proof. exact (proj1 wg_ok). Qed.
(** C59: rank-biased precision is from 0 to 1 if the grades are. *)
Theorem C59_rbp_range : forall p g l, 0 < p < 1 -> graded g -> grades_within 0 1 g -> 0 <= rbp p g l <= 1.
Proof. exact rbp_range. Qed.
Print Assumptions C59_rbp_range.
Example C59_rbp_range_ex : graded wg /\ grades_within 0 1 wg.
Proof. exact (conj (proj1 wg_ok) (proj2 (proj2 wg_ok))). Qed.

(** C60: the differences med gives for two rankings without repetitions are the largest that
    any judgments can make. *)
Theorem C60_difference : forall sort one two m, sorts_down sort -> NoDup (map fst one) -> NoDup (map fst two) ->
  forall name measure, In (name, measure) med_names ->
  exists x, get name (med sort one two m) = Some (Some x) /\ largest_difference measure (map fst one) (map fst two) x.
Proof. exact med_ok. Qed.
Print Assumptions C60_difference.
Example C60_difference_ex : sorts_down down_sort /\ (NoDup (map fst m_one) /\ NoDup (map fst m_two)) /\
  get (lit "med-rbp50") (med down_sort m_one m_two []) = Some (Some (5 / 8)).
Proof. exact (conj down_sorts (conj m_ok m_value)). Qed.
(** C60: med-ndcg is med-dcg over the gain of a ranking of that depth with only relevant items. *)
Theorem C60_normalised : forall sort one two m, sorts_down sort -> NoDup (map fst one) -> NoDup (map fst two) -> one <> [] \/ two <> [] ->
  exists x d, get (lit "med-dcg") (med sort one two m) = Some (Some d) /\ get (lit "med-ndcg") (med sort one two m) = Some (Some x) /\
    x = d / discounted 0 (repeat 1 (Nat.max (length one) (length two))) /\ 0 <= x <= 1.
Proof. exact med_ndcg_ok. Qed.
Print Assumptions C60_normalised.
Example C60_normalised_ex : (NoDup (map fst m_one) /\ NoDup (map fst m_two)) /\ (m_one <> [] \/ m_two <> []).
Proof. split; [exact m_ok | left; discriminate]. Qed.
(** C60 is false of two empty rankings: med-ndcg is not a number. *)
Theorem C60_empty_refuted : get (lit "med-ndcg") (med down_sort [] [] []) = Some None.
Proof. exact med_empty. Qed.
Print Assumptions C60_empty_refuted.
(** C60 is false of repetitions: some judgments make a larger difference. *)
Theorem C60_repeats_refuted : exists one two g x, get (lit "med-rbp95") (med down_sort one two []) = Some (Some x) /\ graded g /\ grades_within 0 1 g /\
  x < Rabs (rbp (95 / 100) g (map fst one) - rbp (95 / 100) g (map fst two)).
Proof. exact (ex_intro _ _ (ex_intro _ _ (ex_intro _ _ med_repeats))). Qed.
Print Assumptions C60_repeats_refuted.
(** C60: calling mean for one map of measures after the other gives the mean of each measure of
    the first map, and their number, if the others have these measures too. *)
Theorem C60_mean_partial : forall m0 ms, (forall m k, In m (m0 :: ms) -> In k (map fst m0) -> k <> lit "n" -> known k m) ->
  exists r, means (m0 :: ms) [] = Ok r /\ get (lit "n") r = Some (Some (INR (length (m0 :: ms)))) /\
  (forall k, In k (map fst r) <-> k = lit "n" \/ In k (map fst m0)) /\
  (forall k, k <> lit "n" -> In k (map fst m0) -> exists x, get k r = Some (Some x) /\ mean_of k (m0 :: ms) x).
Proof. exact means_ok. Qed.
Print Assumptions C60_mean_partial.
Example C60_mean_ex : forall m k, In m [mm1; mm2] -> In k (map fst mm1) -> k <> lit "n" -> known k m.
Proof. exact mm_ok. Qed.
(** C60 is false of a measure that a later map lacks: the loop goes on from an entry it has erased. *)
Theorem C60_missing_refuted :
  (forall m acc n k v, get (lit "n") acc = Some (Some n) -> 0 < n -> In (k, v) acc -> k <> lit "n" -> get k m = None -> mean m acc = UB) /\
  means [mm2; mm1] [] = UB.
Proof. exact (conj mean_missing mean_ub). Qed.
Print Assumptions C60_missing_refuted.

(** C61: from a file of judgments, all of whose items are found, every item of a topic gets the
    grade of its last line, scaled by the highest grade of the file, its length and its name. *)
Theorem C61_load_partial : forall container identifier solve atof, let place := translate_docno container identifier solve in
  forall text ls xs microsoft, file_lines text ls -> Forall2 (reads atof) ls xs -> Forall (fun x => place (l_item x) <> None) xs ->
  exists q n d, load_trec_qrels container identifier solve atof (Some text) microsoft (Loaded (Some []) (Some []) (Some [])) = (true, Loaded (Some q) (Some n) (Some d)) /\
  (forall t p v, holds2 q t p v <-> exists x, last_line place xs t p x /\ v = rated microsoft (highest xs) (l_grade x)) /\
  (forall t p k, holds2 n t p k <-> exists x e, last_line place xs t p x /\ place (l_item x) = Some (p, e) /\ k = (e - p + 1)%Z) /\
  (forall t p i, holds2 d t p i <-> exists x, last_line place xs t p x /\ i = l_item x).
Proof. exact load_ok. Qed.
Print Assumptions C61_load_partial.
Example C61_load_ex : file_lines w_text w_lines /\ Forall2 (reads w_atof) w_lines w_xs /\ Forall (fun x => w_place (l_item x) <> None) w_xs /\ highest w_xs = 4.
Proof. exact (conj w_file (conj w_reads (conj w_placed w_high))). Qed.
(** C61: the grades are then from 0 to 1. *)
Theorem C61_range : forall atof ls xs microsoft x v, Forall2 (reads atof) ls xs -> In x xs -> rated microsoft (highest xs) (l_grade x) = Some v -> 0 <= v <= 1.
Proof. exact (rated_range [] None (fun _ => None)). Qed.
Print Assumptions C61_range.
Example C61_range_ex : Forall2 (reads w_atof) w_lines w_xs /\ In (Line (lit "7") (lit "b") 1) w_xs.
Proof. exact (conj w_reads (or_intror (or_introl eq_refl))). Qed.
(** C61: a file that cannot be opened or that has an item that is not found is refused. *)
Theorem C61_missing : forall container identifier solve atof, let place := translate_docno container identifier solve in
  forall microsoft l, fst (load_trec_qrels container identifier solve atof None microsoft l) = false /\
  forall text ls xs, file_lines text ls -> Forall2 (reads atof) ls xs -> ~ Forall (fun x => place (l_item x) <> None) xs ->
  fst (load_trec_qrels container identifier solve atof (Some text) microsoft l) = false.
Proof. exact (fun c i s a m l => conj eq_refl (fun text ls xs => load_missing c i s a text ls xs m l)). Qed.
Print Assumptions C61_missing.
Example C61_missing_ex : w_place (lit "zz") = None.
Proof. vm_compute. reflexivity. Qed.
(** C61: an item is looked for as the first container with an identifier with its name. *)
Theorem C61_query : forall container id solve docno, container <> [] -> id <> [] ->
  translate_docno container (Some id) solve docno =
  match solve (lit "(>> " ++ container ++ lit " (>> " ++ id ++ lit " """ ++ docno ++ lit """))") with
  | Some (p, q) => if Z.eqb p maxf then None else Some (p, q) | None => None end.
Proof. intros [|c container] [|i id] solve docno; intros C I; try contradiction; exact eq_refl. Qed.
Print Assumptions C61_query.
Example C61_query_ex : w_place (lit "b") = Some (20, 24)%Z.
Proof. vm_compute. reflexivity. Qed.
(** C61 is false if all grades are 0: they become not a number. *)
Theorem C61_zero_refuted : load_trec_qrels (lit "(.. <D> </D>)") (Some (lit "id:")) w_solve w_atof (Some (lit "7 0 a 0")) false (Loaded (Some []) None None)
  = (true, Loaded (Some [(lit "7", [(10%Z, None)])]) None None).
Proof. exact zero_refuted. Qed.
Print Assumptions C61_zero_refuted.
(** C61 is false of a second file: the grades of the first are scaled again. *)
Theorem C61_twice_refuted : load_trec_qrels (lit "(.. <D> </D>)") (Some (lit "id:")) w_solve w_atof (Some (lit "8 0 b 2")) false
    (Loaded (Some [(lit "7", [(10%Z, Some 1)])]) None None)
  = (true, Loaded (Some [(lit "7", [(10%Z, Some (1 / 2))]); (lit "8", [(20%Z, Some (2 / 2))])]) None None).
Proof. exact twice_refuted. Qed.
Print Assumptions C61_twice_refuted.
(** C61 is false of lines without a topic that start with white space: they are accepted. *)
Theorem C61_leading_refuted :
  fst (load_trec_qrels (lit "(.. <D> </D>)") (Some (lit "id:")) w_solve w_atof (Some (lit " 0 a 1")) false (Loaded (Some []) None None)) = true.
Proof. exact (proj2 leading_refuted). Qed.
Print Assumptions C61_leading_refuted.
(** C61: the identifier in a text is its first word, without tags and quotes. *)
Theorem C61_docno : forall text, exists t w, untagged text t /\ first_word t w /\ trec_docno text = unquoted w.
Proof. exact docno_ok. Qed.
Print Assumptions C61_docno.
Example C61_docno_ex : trec_docno (lit " <DOCNO> FT911-3 </DOCNO> x") = lit "FT911-3".
Proof. exact (proj1 w_ids). Qed.
(** C61: an identifier between tags, or between quotes, comes back. *)
Theorem C61_identifier : forall id s, plain_id id -> ends s ->
  (forall w1 w2 w3, Forall (fun c => is_space c = true) (w1 ++ w2 ++ w3) -> trec_docno (w1 ++ open_tag ++ w2 ++ id ++ w3 ++ close_tag ++ s) = id) /\
  (forall w, Forall (fun c => is_space c = true) w -> trec_docno (w ++ 34%Z :: id ++ 34%Z :: s) = id).
Proof. exact (fun id s I E => conj (fun w1 w2 w3 W => docno_tagged w1 w2 w3 id s W I E) (fun w W => docno_quoted w id s W I E)). Qed.
Print Assumptions C61_identifier.
Example C61_identifier_ex : plain_id (lit "FT911-3").
Proof. exact (proj2 (proj2 w_ids)). Qed.
