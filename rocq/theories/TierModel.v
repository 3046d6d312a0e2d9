(** Model of the tiers built from the words of a query, and of the ranking by
    them: build_tiers and tiered_ranking of src/ranking.cc. *)
From Verif Require Import Base Bytes HopperModel VectorModel QueryModel RankModel.

Section Tiers.
Context {F : Type}.
(** 0.0, + and > of fval, and [w - v < delta] at src/ranking.cc:206 for the delta read at
    src/ranking.cc:144 (ranking_parameter is C56's). *)
Variables (zero : F) (add : F -> F -> F) (gt : F -> F -> bool) (near : F -> F -> bool).
(** Tokenizer::split; std::sort. *)
Variable split : bytes -> list bytes.
Variable sort : sorter.
(** src/ranking.cc:158-163: std::log((tokens + vocab) / (count + 1.0)) for the count of the
    term's feature: a function of the term, since the index does not change meanwhile. *)
Variable rarity : bytes -> F.

(** std::map<std::string, fval> weights; an assignment puts the pair in front. *)
Definition weights : Type := list (bytes * F).
(** [weights[key]]: 0.0 for a key that is not there. *)
Fixpoint weight_of (w : weights) (key : bytes) : F :=
  match w with
  | [] => zero
  | (k, v) :: r => if eqb_bytes k key then v else weight_of r key
  end.

(** src/ranking.cc:149-155: the words of the query, each once. *)
Fixpoint fresh (seen : list bytes) (raw : list bytes) : list bytes :=
  match raw with
  | [] => []
  | t :: r => if existsb (eqb_bytes t) seen then fresh seen r else t :: fresh (t :: seen) r
  end.
(** src/ranking.cc:159-163 *)
Definition term_weights (terms : list bytes) : weights :=
  fold_left (fun w t => (t, rarity t) :: w) terms [].
(** src/ranking.cc:164-167 and 196-199: the order of the two sorts. *)
Definition heavier (w : weights) (a b : bytes) : bool := gt (weight_of w a) (weight_of w b).
(** src/ranking.cc:168-170 *)
Definition SANE : nat := 16.

(** src/ranking.cc:174-183: the terms that the bits of [i] choose, and their weight.
    terms[j] past the end is undefined. *)
Fixpoint choose (terms : list bytes) (w : weights) (i : positive) (j : nat) (current : list bytes) (weight : F)
  : res (list bytes * F) :=
  let take := match nth_error terms j with
              | Some t => Ok (current ++ [t], add weight (weight_of w t))
              | None => UB
              end in
  match i with
  | xH => take
  | xO i' => choose terms w i' (S j) current weight
  | xI i' => let* (c, v) := take in choose terms w i' (S j) c v
  end.
(** src/ranking.cc:184-192; [current] is not empty when m > 0. *)
Definition subquery_text (current : list bytes) : bytes :=
  match current with
  | [t] => lit "(... " ++ t ++ lit " " ++ t ++ lit ")"
  | _ => lit "(^" ++ flat_map (fun t => 32 :: t) current ++ lit " )"
  end.
(** src/ranking.cc:171-195: the loop over m from n to 1. *)
Fixpoint subqueries (terms : list bytes) (m : nat) (subs : list bytes) (w : weights) : res (list bytes * weights) :=
  match m with
  | O => Ok (subs, w)
  | S m' =>
      let* (current, weight) := choose terms w (Pos.of_succ_nat m') 0 [] zero in
      let s := subquery_text current in
      subqueries terms m' (subs ++ [s]) ((s, weight) :: w)
  end.
(** src/ranking.cc:209-213 and 225-229: the text of a tier of several subqueries; 218 and
    231: of one. *)
Definition tier_text (current : list bytes) : bytes :=
  match current with
  | [s] => s
  | _ => lit "(+" ++ flat_map (fun s => 32 :: s) current ++ lit ")"
  end.
(** src/ranking.cc:200-233 *)
Fixpoint group (w : weights) (subs : list bytes) (current : list bytes) (weight : F) (tiers : list bytes) : list bytes :=
  match subs with
  | [] => match current with [] => tiers | _ => tiers ++ [tier_text current] end
  | s :: r =>
      match current with
      | [] => group w r [s] (weight_of w s) tiers
      | _ => if near weight (weight_of w s) then group w r (current ++ [s]) weight tiers
             else group w r [s] (weight_of w s) (tiers ++ [tier_text current])
      end
  end.
(** src/ranking.cc:141-234: build_tiers. *)
Definition build_tiers (query : bytes) : res (list bytes) :=
  match split query with
  | [] => Ok []
  | raw =>
      let terms := fresh [] raw in
      let w := term_weights terms in
      let terms := firstn SANE (sort _ (heavier w) terms) in
      let* (subs, w) := subqueries terms (Nat.pow 2 (length terms) - 1) [] w in
      Ok (group w (sort _ (heavier w) subs) [] zero [])
  end.
End Tiers.

Section Ranking.
Context {F : Type}.
Variables (zero : F) (add : F -> F -> F) (lt gt near : F -> F -> bool) (split : bytes -> list bytes) (sort : sorter).
Variable rarity : bytes -> F.
(** The index and whether the optimizer is on, for gcl::hopper. *)
Variables (idx : bytes -> hobj) (count : bytes -> Z) (enabled : bool).
(** src/ranking.cc:308-367: ssr_ranking by the text of the query; a text that does not
    compile ranks nothing (324-325).  The container has been compiled here. *)
Definition ssr_by_text (weight : Z -> Z -> F) (C : hcls) (c : St C) (depth : nat) (text : bytes) : res (list result) :=
  if Nat.eqb depth 0 then Ok [] else
  let* o := gcl_hopper idx count enabled split text in
  match o with
  | None => Ok []
  | Some o => ssr_ranking zero add lt sort (projT1 o) C weight (projT2 o) c depth minf maxf
  end.
(** src/ranking.cc:275-281: tiered_ranking by the text of the query. *)
Definition tiered_by_text (weight : Z -> Z -> F) (fake : nat -> F) (C : hcls) (c : St C) (depth : nat) (query : bytes) : res (list result) :=
  let* tiers := build_tiers zero add gt near split sort rarity query in
  tiered_ranking (ssr_by_text weight C c depth) fake depth tiers.
End Ranking.
