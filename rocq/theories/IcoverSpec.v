(** What the passages of icover_ranking are, independent of its code. *)
From Verif Require Import Base HopperModel GclSpec RankModel RankSpec.

Section Spec.
Context {F : Type} (zero : F) (add : F -> F -> F) (lt : F -> F -> bool) (penal : F -> nat -> Z -> F).
Notation result := (result (F := F)).
(** A word of a query: its weight and its occurrences. *)
Notation word := (F * (iv -> Prop))%type.

(** The shortest intervals with an occurrence of each of these words. *)
Definition cover (chosen : list word) : iv -> Prop :=
  innermost (fun x => forall w, In w chosen -> exists a, snd w a /\ nests x a).
(** The score of such an interval of [len] + 1 positions: the sum of the
    weights less the penalty for its length; of one word, its weight. *)
Definition cover_score (chosen : list word) (len : Z) : F :=
  match chosen with
  | [] => zero
  | [w] => fst w
  | w :: rest => penal (fold_left add (map fst rest) (fst w)) (length chosen) len
  end.
(** The first of the containers that [x] lies in. *)
Definition first_container (C : iv -> Prop) (x c : iv) : Prop :=
  C c /\ nests c x /\ forall d, C d -> nests d x -> ip c <= ip d.
(** A result: some of the words of the query, in some order, a shortest
    interval holding them, its container, and its score. *)
Definition passage (words : list word) (C : iv -> Prop) (r : result) : Prop :=
  exists chosen rest, Permutation words (chosen ++ rest) /\ chosen <> [] /\
    cover chosen (Iv (rp r) (rq r) 0) /\
    rscore r = cover_score chosen (rq r - rp r) /\
    exists c, first_container C (Iv (rp r) (rq r) 0) c /\ rcp r = ip c /\ rcq r = iq c.
(** At most [depth] passages, best first, no container twice. *)
Definition ranking_of (words : list word) (C : iv -> Prop) (depth : nat) (out : list result) : Prop :=
  (length out <= depth)%nat /\
  StronglySorted (fun a b => lt (rscore a) (rscore b) = false) out /\
  NoDup (map rcp out) /\ Forall (passage words C) out.
(** The container that starts at [c] is in the ranking with at least the score
    [s], or there are [depth] others with at least that score. *)
Definition placed (depth : nat) (out : list result) (c : Z) (s : F) : Prop :=
  (exists r, In r out /\ rcp r = c /\ lt (rscore r) s = false) \/
  (length out = depth /\ forall r, In r out -> lt (rscore r) s = false).
End Spec.
