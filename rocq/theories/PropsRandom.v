(** C71: random rankings. *)
From Verif Require Import Base HopperModel GclSpec UnaryModel RankModel RankSpec RankTop RankWitness RandomModel RandomSpec RandomProofs.

(** C71: random_ranking draws a number for each container in order and returns the [depth]
    containers with the highest numbers, highest first; only numbers above zero count. *)
Theorem C71_best : forall (F : Type) (zero : F) lt sort C c SC cs draw depth,
  weak_order lt -> sorts sort -> answers C c SC -> listed SC cs ->
  exists out, random_ranking zero lt sort C draw c depth = Ok out /\ best lt depth (drawn zero lt draw 0 cs) out.
Proof. exact random_best. Qed.
Print Assumptions C71_best.
Example C71_best_ex : weak_order Z.ltb /\ sorts isrt /\ answers _ (st rconts) (set_of rconts) /\ listed (set_of rconts) rconts.
Proof. exact (conj z_order (conj isrt_sorts rconts_ok)). Qed.
Example C71_best_run : random_ranking 0 Z.ltb isrt _ zdraw (st rconts) 2 = Ok [res3 20 29 9; res3 0 9 5].
Proof. exact random_run. Qed.

(** C71: with room for all of them, and numbers above zero, it is a permutation of the
    containers. *)
Theorem C71_all : forall (F : Type) (zero : F) lt sort C c SC cs draw depth,
  weak_order lt -> sorts sort -> answers C c SC -> listed SC cs -> (length cs <= depth)%nat ->
  (forall i, exists s, draw i = Some s /\ lt zero s = true) ->
  exists out, random_ranking zero lt sort C draw c depth = Ok out /\
    Permutation (map (fun c => (ip c, iq c)) cs) (map (fun r => (rp r, rq r)) out).
Proof. exact random_all. Qed.
Print Assumptions C71_all.
Example C71_all_ex : (length rconts <= 5)%nat /\ forall i, exists s, Some (Z.of_nat i + 1) = Some s /\ (0 <? s) = true.
Proof. exact (conj (le_S _ _ (le_n _)) (fun i => ex_intro _ _ (conj eq_refl (proj2 (Z.ltb_lt _ _) (Zle_lt_succ _ _ (Nat2Z.is_nonneg i)))))). Qed.
