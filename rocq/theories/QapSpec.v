(** What the answers of qap are, independent of its code. *)
From Coq Require Export Permutation Sorted.
From Verif Require Import Base HopperModel RankModel.

(** The order of texts: by the first byte that differs, a beginning before the
    whole. *)
Definition text_before (a b : list Z) : Prop :=
  (exists x m, b = a ++ x :: m) \/
  exists c x y l m, a = c ++ x :: l /\ b = c ++ y :: m /\ x < y.
(** The distinct words of a text, in order. *)
Definition distinct (tokens words : list (list Z)) : Prop :=
  StronglySorted text_before words /\ forall t, In t words <-> In t tokens.

Section Spec.
Context {F : Type} (zero : F) (add : F -> F -> F) (lt : F -> F -> bool) (cube : F -> F) (rare : list Z -> Z -> F).
Context (translate : Z -> Z -> list Z) (split : list Z -> list (list Z)) (tokenize : list Z -> list (Z * Z)).
Notation result := (result (F := F)).

(** The text around a passage: [window] positions more on both sides, within
    its container. *)
Definition around_from (window : Z) (r : result) : Z := Z.max (rcp r) (rp r - window).
Definition around (window : Z) (r : result) : list Z :=
  translate (around_from window r) (Z.min (rcq r) (rq r + window)).
(** The distance of a position from the passage as the code has it: that to
    its start before it, 0 in it and 1 after it. *)
Definition distance (r : result) (place : Z) : Z :=
  if place <? rp r then rp r - place else if place <=? rq r then 0 else 1.
(** The positions of a word among tokens that start at [from]. *)
Fixpoint places (t : list Z) (tokens : list (list Z)) (from : Z) : list Z :=
  match tokens with
  | [] => []
  | u :: rest => (if list_eq_dec Z.eq_dec t u then [from] else []) ++ places t rest (from + 1)
  end.
(** The distance of its first occurrence counts; a later one replaces it if its
    position is less than the distance so far. *)
Definition settle (r : result) (ps : list Z) (d : Z) : Z :=
  fold_left (fun d p => if p <? d then distance r p else d) ps d.
Definition word_distance (window : Z) (r : result) (t : list Z) : option Z :=
  match places t (split (around window r)) (around_from window r) with
  | [] => None
  | p :: ps => Some (settle r ps (distance r p))
  end.
(** The weight of a word: the cube of what it earns around the passages it
    occurs at; none for the words of the query and words that do not occur. *)
Definition earnings (window : Z) (t : list Z) (covers : list result) : list F :=
  flat_map (fun r => match word_distance window r t with Some d => [rare t d] | None => [] end) covers.
Definition weight_of (window : Z) (query : list Z) (covers : list result) (t : list Z) : option F :=
  if in_dec (list_eq_dec Z.eq_dec) t (split query) then None
  else match earnings window t covers with
       | [] => None
       | g :: gs => Some (cube (fold_left add gs g))
       end.
(** The score of a text: the weights of its distinct words. *)
Definition scored (window : Z) (query : list Z) (covers : list result) (c : list Z) (s : F) : Prop :=
  exists words, distinct (split c) words /\
    s = fold_left (fun s t => match weight_of window query covers t with Some w => add s w | None => s end) words zero.

(** Tokens lie in the text, one after the other. *)
Definition in_order (tokens : list (Z * Z)) (text : list Z) : Prop :=
  (forall o l, In (o, l) tokens -> 0 <= o /\ 0 <= l /\ o + l <= Z.of_nat (length text)) /\
  forall i j a b, (i < j)%nat -> nth_error tokens i = Some a -> nth_error tokens j = Some b -> fst a + snd a <= fst b.
(** A possible answer: the text if it has no more than [len] tokens, else a run
    of [len] of its tokens that does not go to the last. *)
Definition candidate (len : nat) (text c : list Z) : Prop :=
  let tokens := tokenize text in
  ((length tokens <= len)%nat /\ c = text) \/
  exists i a b x y, (i + len < length tokens)%nat /\
    nth_error tokens i = Some a /\ nth_error tokens (i + len - 1) = Some b /\
    text = x ++ c ++ y /\ Z.of_nat (length x) = fst a /\ Z.of_nat (length (x ++ c)) = fst b + snd b.
(** At most [depth] answers, from different passages, best first, and no better
    one left out. *)
Definition answers_of (depth len : nat) (window : Z) (query : list Z) (covers : list result) (out : list (list Z)) : Prop :=
  exists picks : list (nat * list Z * F),
    out = map (fun x => snd (fst x)) picks /\ (length picks <= depth)%nat /\
    NoDup (map (fun x => fst (fst x)) picks) /\
    StronglySorted (fun a b => lt (snd a) (snd b) = false) picks /\
    (forall j c s, In (j, c, s) picks -> exists r, nth_error covers j = Some r /\
       candidate len (around window r) c /\ scored window query covers c s) /\
    forall j r c, nth_error covers j = Some r -> candidate len (around window r) c ->
      exists s, scored window query covers c s /\
        ((exists c' s', In (j, c', s') picks /\ lt s' s = false) \/
         (length picks = depth /\ forall x, In x picks -> lt (snd x) s = false)).
End Spec.
