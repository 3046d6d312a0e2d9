(** C73: feedback for question answering. *)
From Verif Require Import Base Bytes RankModel RankSpec RankWitness RankerModel RankerSpec RankerWitness QaModel QaSpec QaProofs QaWitness.
From Verif Require Import RecipeModel.
From Coq Require Import Sorting.Sorted.

(** C73: of the tokens near more than one of the first [depth] passages of different containers,
    qa_prf returns the [expansions] that are worth most, most first, and leaves these with what they
    are worth as the weighted query. *)
Theorem C73_terms : forall (F : Type) (zero one : F) add lt default sort, sorts sort -> weak_order lt ->
  forall size_of addr_of translate wsplit expect gain ranking ps q, ranking <> [] -> a_map ps ->
  exists terms q' e d w, qa_prf zero one add lt default sort size_of addr_of translate wsplit expect gain ranking ps q = Ok (map fst terms, q') /\
    parameter_value default (lit "kld") (lit "expansions") ps e /\ parameter_value default (lit "kld") (lit "depth") ps d /\
    parameter_value default (lit "kld") (lit "window") ps w /\
    best_of lt (size_of e) (qa_candidate one add lt translate wsplit expect gain (addr_of w) (firstn (Nat.max 1 (size_of d)) (firsts [] ranking))) terms /\
    StronglySorted (fun a b => lt (snd a) (snd b) = false) terms /\
    a_map q' /\ forall t v, In (t, v) q' <-> In (t, v) terms.
Proof. exact (fun F zero one add lt default sort SO WO => qa_ok zero one add lt default sort SO WO). Qed.
Print Assumptions C73_terms.
Example C73_terms_ex : (sorts isrt /\ weak_order Z.ltb) /\ a_map aparams /\ aranking <> [].
Proof. exact (conj (conj isrt_sorts z_order) aparams_ok). Qed.
Example C73_terms_run : aqa aranking aparams [(lit "men", 4)] = Ok ([lit "bite"; lit "ants"], [(lit "ants", 198); (lit "bite", 200)]).
Proof. exact aqa_run. Qed.

(** C73: the query given is forgotten, unlike in the other methods of feedback (C57): the outcome
    is the same for any other. *)
Theorem C73_forgets_refuted : forall (F : Type) (zero one : F) add lt default sort size_of addr_of translate wsplit expect gain ranking ps q1 q2,
  ranking <> [] ->
  qa_prf zero one add lt default sort size_of addr_of translate wsplit expect gain ranking ps q1 =
  qa_prf zero one add lt default sort size_of addr_of translate wsplit expect gain ranking ps q2.
Proof. exact (fun F => @replaced F). Qed.
Print Assumptions C73_forgets_refuted.

(** C73: a word after a passage counts as nearer than those in it; after one of a single word its
    gap is 0, so that it is expected never and worth infinitely much. *)
Theorem C73_after_refuted : exists r : result (F := Z), In r aranking /\ atrans (rp r) (rq r) = lit "ants" /\ atrans (rq r + 1) (rq r + 1) = lit "bite" /\
  get (lit "ants") (qa_range atrans wwords 4 r) = Some 1 /\ get (lit "bite") (qa_range atrans wwords 4 r) = Some 0.
Proof. exact after_closer. Qed.
Print Assumptions C73_after_refuted.

(** C73: the last word of a passage at the end of its container counts as one after it. *)
Theorem C73_end_refuted : atrans 8 9 = lit "bite dogs" /\
  get (lit "bite") (qa_range atrans wwords 4 (Res 8 9 5 9 0)) = Some 2 /\ get (lit "dogs") (qa_range atrans wwords 4 (Res 8 9 5 9 0)) = Some 1.
Proof. exact end_closer. Qed.
Print Assumptions C73_end_refuted.
