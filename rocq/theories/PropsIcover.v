(** C70: ranking by the shortest passages with many words of the query. *)
From Verif Require Import Base HopperModel GclSpec UnaryModel VectorModel RankModel RankSpec RankWitness
  IcoverModel IcoverSpec IcoverTop IcoverWitness.

(** C70: icover_ranking returns at most [depth] passages, best first and no container twice.
    Each is a shortest interval that holds some of the words of the query, has the score of
    these words and this length, and comes with the first container it lies in; nothing
    undefined happens.  Asked: the hoppers answer for the words and for the containers, and
    addresses are not negative. *)
Theorem C70_passages : forall (F : Type) (zero : F) add lt sort stable_sort penal (T : Type) (terms : list T) weight hopper E chop C depth,
  weak_order lt -> sorts sort -> sorts_stably stable_sort -> (0 < depth)%nat ->
  (forall t, In t terms -> answers (projT1 (hopper t)) (projT2 (hopper t)) (E t)) ->
  (forall t a, In t terms -> E t a -> 0 <= ip a) -> answers (projT1 chop) (projT2 chop) C ->
  exists out, icover_ranking zero add lt sort stable_sort penal terms weight hopper (Some chop) depth = Ok out /\
    ranking_of zero add lt penal (map (fun t => (weight t, E t)) terms) C depth out /\
    (* a passage with all the words (two at least) and a score above zero: its container has that
       score or a better one, or there are [depth] others that have; the order of adding the
       weights may matter in floating point *)
    ((2 <= length terms)%nat -> forall x c, cover (map (fun t => (weight t, E t)) terms) x -> first_container C x c ->
      exists order, Permutation (map (fun t => (weight t, E t)) terms) order /\
        (lt zero (cover_score zero add penal order (iq x - ip x)) = true ->
         placed lt depth out (ip c) (cover_score zero add penal order (iq x - ip x)))) /\
    (* something is found if a word is in a container *)
    ((exists t a c, In t terms /\ E t a /\ C c /\ nests c a) -> out <> []).
Proof. exact (fun F z a l s ss p T => @icover_ok F z a l s ss p T). Qed.
Print Assumptions C70_passages.
Example C70_passages_holds : weak_order Z.ltb /\ sorts isrt /\ sorts_stably isrt /\ usable clists cconts /\
  (cover (cwords clists) (Iv 12 18 0) /\ first_container (set_of cconts) (Iv 12 18 0) (Iv 10 19 0)).
Proof. exact (conj z_order (conj isrt_sorts (conj isrt_stable (conj clists_ok ccover)))). Qed.
Example C70_passages_run : zcover clists cconts 3 = Ok [Res 4 5 0 9 100; Res 12 18 10 19 80; Res 22 22 20 29 70].
Proof. exact clists_run. Qed.

(** C70: asked for no results, every query of two words or more reads the last element of an
    empty vector. *)
Theorem C70_none_refuted : forall (F : Type) (zero : F) add lt sort stable_sort penal (T : Type) (terms : list T) weight hopper chop,
  (2 <= length terms)%nat ->
  icover_ranking zero add lt sort stable_sort penal terms weight hopper (Some chop) 0 = UB.
Proof. exact (fun F z a l s ss p T => @depth_zero F z a l s ss p T). Qed.
Print Assumptions C70_none_refuted.

(** C70: once there are [depth] results, light words are dropped that could still be part of a
    better passage: it is left out for a worse one. *)
Theorem C70_dropped_refuted : usable dlists dconts /\ exists out r, zcover dlists dconts 1 = Ok out /\
  passage 0 Z.add cpenal (cwords dlists) (set_of dconts) r /\ ~ placed Z.ltb 1 out (rcp r) (rscore r).
Proof. exact dropped_wrong. Qed.
Print Assumptions C70_dropped_refuted.

(** C70: occurrences of a word in one container use up the room for others: a container that
    holds the word is left out although there is room. *)
Theorem C70_crowded_refuted : usable elists dconts /\ exists out r, zcover elists dconts 2 = Ok out /\
  passage 0 Z.add cpenal (cwords elists) (set_of dconts) r /\ (length out < 2)%nat /\ ~ In (rcp r) (map rcp out).
Proof. exact crowded_wrong. Qed.
Print Assumptions C70_crowded_refuted.

(** C70: without words, or without containers to look in, there are no results. *)
Theorem C70_nothing : forall (F : Type) (zero : F) add lt sort stable_sort penal (T : Type) (terms : list T) weight hopper chopper depth,
  terms = [] \/ chopper = None ->
  icover_ranking zero add lt sort stable_sort penal terms weight hopper chopper depth = Ok [].
Proof. exact nothing_asked. Qed.
Print Assumptions C70_nothing.
