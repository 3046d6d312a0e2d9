(** C72: answers cut from the text around the best passages. *)
From Verif Require Import Base HopperModel GclSpec UnaryModel VectorModel RankModel RankSpec RankWitness
  IcoverModel IcoverSpec IcoverWitness QapModel QapSpec QapProofs QapTop.

(** C72: qap returns at most [depth] answers, each from the text around another of the best
    passages (C70) and best first by the weights of their distinct words; a possible answer that is
    left out is no better than the one from its passage or than all of [depth].  Nothing undefined
    happens.  Asked: the hoppers answer, addresses are not negative and leave room for the window, and
    tokens come one after the other in the text. *)
Theorem C72_answers : forall (F : Type) (zero : F) add lt sort stable_sort cube rare penal translate split tokenize
    weight hopper E query chop (C : iv -> Prop) depth len passages window,
  weak_order lt -> sorts sort -> sorts_stably stable_sort -> (0 < passages)%nat -> (0 < len)%nat -> 0 <= window ->
  (forall t, In t (split query) -> answers (projT1 (hopper t)) (projT2 (hopper t)) (E t)) ->
  (forall t a, In t (split query) -> E t a -> 0 <= ip a) -> answers (projT1 chop) (projT2 chop) C ->
  (forall c, C c -> 0 <= ip c /\ iq c + window <= maxf) ->
  (forall p q, in_order (tokenize (translate p q)) (translate p q) /\ Z.of_nat (length (translate p q)) < 18446744073709551616) ->
  exists covers out,
    qap zero add lt sort cube rare translate split tokenize stable_sort penal weight hopper query (Some chop) depth len passages window = Ok out /\
    ranking_of zero add lt penal (map (fun t => (weight t, E t)) (split query)) C passages covers /\
    answers_of zero add lt cube rare translate split tokenize depth len window query covers out.
Proof. exact (fun F z a l s ss c r p t sp tk => @qap_ok F z a l s ss c r p t sp tk). Qed.
Print Assumptions C72_answers.
Example C72_answers_ex : weak_order Z.ltb /\ sorts isrt /\ sorts_stably isrt /\ qap_usable qtext qconts [1;2] 3.
Proof. exact (conj z_order (conj isrt_sorts (conj isrt_stable qtext_ok))). Qed.
Example C72_answers_run : zqap qtext qconts [1;2] 3 2 5 3 = Ok [[12;13]; [12;22]].
Proof. exact qtext_run. Qed.

(** C72: past the first [window] positions of the collection, a word has the distance of its first
    occurrence around the passage. *)
Theorem C72_first : forall (F : Type) translate split window (r : result (F := F)) t,
  passage_fits window r -> window <= around_from window r -> 1 <= around_from window r ->
  qap_where translate split window r t =
  match places t (split (around translate window r)) (around_from window r) with [] => None | p :: _ => Some (distance r p) end.
Proof. exact (fun F => @first_counts F). Qed.
Print Assumptions C72_first.
Example C72_first_ex : passage_fits 6 nres /\ 6 <= around_from 6 nres /\ 1 <= around_from 6 nres.
Proof. exact nres_fits. Qed.

(** C72: not the nearest: a word in the passage has distance 4 because it also occurs 4 positions
    before it. *)
Theorem C72_nearest_refuted : zcovers ntext [Iv 0 112 0] [1;2] 5 = Ok [nres] /\ nth_error ntext 105 = Some 7 /\ distance nres 105 = 0 /\
  qap_where (ztrans ntext) zsplit 6 nres [7] = Some 4.
Proof. exact nearest_wrong. Qed.
Print Assumptions C72_nearest_refuted.

(** C72: after the passage (104 to 106) all words have distance 1. *)
Theorem C72_after_refuted : nth_error ntext 107 = Some 31 /\ nth_error ntext 112 = Some 36 /\
  qap_where (ztrans ntext) zsplit 6 nres [31] = Some 1 /\ qap_where (ztrans ntext) zsplit 6 nres [36] = Some 1.
Proof. exact after_wrong. Qed.
Print Assumptions C72_after_refuted.

(** C72: the last [len] words around a passage are never an answer, also if they score best. *)
Theorem C72_last_refuted : exists covers r s1 s2, zcovers rtext [Iv 0 9 0] [1;2] 5 = Ok covers /\ covers = [r] /\
  zqap rtext [Iv 0 9 0] [1;2] 1 2 5 2 = Ok [[10;11]] /\
  around (ztrans rtext) 2 r = [10;11;1;2] ++ [12;13] /\
  zscored rtext 2 [1;2] covers [10;11] s1 /\ zscored rtext 2 [1;2] covers [12;13] s2 /\ s1 < s2.
Proof. exact last_wrong. Qed.
Print Assumptions C72_last_refuted.

(** C72: the same text around two passages gives the same answer twice. *)
Theorem C72_repeated_refuted : exists c, zqap rtext qconts [1;2] 2 2 5 3 = Ok [c; c].
Proof. exact repeated_wrong. Qed.
Print Assumptions C72_repeated_refuted.

(** C72: asked for answers of no words, it reads before the first token as soon as there is a passage
    with words around it. *)
Theorem C72_zero_refuted : forall (F : Type) (zero : F) add lt sort cube rare translate split tokenize depth window query r covers,
  tokenize (qap_fragment translate window r) <> [] ->
  qap_answers zero add lt sort cube rare translate split tokenize depth 0 window query (r :: covers) = UB.
Proof. exact (fun F z a l s c r t sp tk => @length_zero F z a l s c r t sp tk). Qed.
Print Assumptions C72_zero_refuted.
Example C72_zero_ex : ztokens (qap_fragment (ztrans ntext) 6 nres) <> [].
Proof. vm_compute. discriminate. Qed.
