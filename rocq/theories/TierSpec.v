(** What the tiers of a query are, independent of the code that builds them. *)
From Verif Require Import Base Bytes HopperModel GclSpec QueryModel QuerySpec RankModel RankSpec.

(** A word that can stand in a query as it is. *)
Definition plain (t : bytes) : Prop :=
  t <> [] /\ forallb is_term_char t = true /\ is_quote_char (peek t) = false.
(** [c] is part of [l], in the order of [l]. *)
Inductive part {A : Type} : list A -> list A -> Prop :=
| part_nil : part [] []
| part_skip x c l : part c l -> part c (x :: l)
| part_keep x c l : part c l -> part (x :: c) (x :: l).

Section Weights.
Context {F : Type} (zero : F) (add : F -> F -> F) (gt near : F -> F -> bool) (rarity : bytes -> F).
(** The weight of a set of words: the sum of their rarities. *)
Definition total (c : list bytes) : F := fold_left (fun s t => add s (rarity t)) c zero.
(** [kept] are the (at most 16) rarest of the distinct words of the query, rarest first. *)
Definition rarest (raw kept : list bytes) : Prop :=
  exists left_out,
    NoDup (kept ++ left_out) /\ (forall t, In t (kept ++ left_out) <-> In t raw) /\
    (length kept <= 16)%nat /\ (left_out <> [] -> length kept = 16%nat) /\
    StronglySorted (fun a b => gt (rarity b) (rarity a) = false) kept /\
    forall k t, In k kept -> In t left_out -> gt (rarity t) (rarity k) = false.
(** Cut into tiers: in a tier every set is near the first, and the first of the next tier is
    not. *)
Fixpoint cut (groups : list (list (list bytes))) : Prop :=
  match groups with
  | [] => True
  | g :: rest =>
      match g with
      | [] => False
      | c :: r =>
          Forall (fun d => near (total c) (total d) = true) r /\
          match rest with (d :: _) :: _ => near (total c) (total d) = false | _ => True end
      end /\ cut rest
  end.
(** The tiers for the words [raw]: every set of the words kept is in one tier, heavier sets
    before lighter ones. *)
Definition tiers_of (raw : list bytes) (groups : list (list (list bytes))) : Prop :=
  exists kept, rarest raw kept /\
    NoDup (concat groups) /\ (forall c, In c (concat groups) <-> c <> [] /\ part c kept) /\
    StronglySorted (fun a b => gt (total b) (total a) = false) (concat groups) /\
    cut groups.
End Weights.

(** The query for a set of words: all of them in any order; for one word, the word twice. *)
Definition word_query (t : bytes) : sexpr := SX TERM t 0 [].
Definition set_query (c : list bytes) : sexpr :=
  match c with
  | [t] => SX FOLLOWED_BY [] 0 [word_query t; word_query t]
  | _ => SX ALL_OF [] 0 (map word_query c)
  end.
(** The query for a tier: one of its sets. *)
Definition tier_query (g : list (list bytes)) : sexpr :=
  match g with
  | [c] => set_query c
  | _ => SX ONE_OF [] 0 (map set_query g)
  end.
(** The interval [d] holds the set [c] when [E t] is where the word [t] stands: each of the
    words; of one word, two occurrences. *)
Definition holds (E : bytes -> iv -> Prop) (d : iv) (c : list bytes) : Prop :=
  match c with
  | [t] => exists a b, E t a /\ E t b /\ nests d a /\ nests d b /\ iq a < ip b
  | _ => forall t, In t c -> exists a, E t a /\ nests d a
  end.

Section Results.
Context {F : Type} (zero : F) (add : F -> F -> F).
(** The results of the tier [g] among the containers [cs]: of those that hold one of its
    sets, each with the score and the passage for the solutions [xs] of the tier's query. *)
Definition tier_results (E : bytes -> iv -> Prop) (weight : Z -> Z -> F) (cs : list iv) (g : list (list bytes))
           (all : list result) : Prop :=
  exists xs keep, listed (meaning E (tier_query g)) xs /\
    Forall2 (ssr_result zero add weight xs) (filter keep cs) all /\
    forall d, In d cs -> (keep d = true <-> exists c, In c g /\ holds E d c).
End Results.
