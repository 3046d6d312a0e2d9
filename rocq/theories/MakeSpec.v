(** Specification vocabulary for featurizers made from names and recipes. *)
From Verif Require Import Base Bytes RecipeModel RecipeSpec MakeModel.

(** Every tag is text that a configuration keeps: no quotation mark, no backslash, no zero,
    and not itself a configuration. *)
Fixpoint kept_tags (f : featurizer) : Prop :=
  match f with
  | Hashing | Nothing => True
  | Tagging base tag => clean tag /\ cook tag = None /\ kept_tags base
  | Json wrapped | Vocab wrapped => kept_tags wrapped
  end.
(** The same features for every text, and the same translations. *)
Definition alike (f g : featurizer) : Prop :=
  (forall key, feature f key = feature g key) /\ (forall n, name_back f n = name_back g n).
(** [r] and [r'] say the same. *)
Definition same_says (r r' : bytes) : Prop := forall t, says r t <-> says r' t.
(** The ten characters that mark structure in JSON, U+FDD0 to U+FDD9. *)
Definition structural (key : bytes) : Prop := exists c, 144 <= c <= 153 /\ key = [239; 183; c].
(** How often a key is in a list. *)
Definition times (k : bytes) (keys : list bytes) : Z := Z.of_nat (length (filter (eqb_bytes k) keys)).
(** The lines of the vocabulary, as a list of text: feature, count and term. *)
Definition vocab_line (line : bytes) (f c : Z) (t : bytes) : Prop := line = dec f ++ lit " " ++ dec c ++ lit " " ++ t ++ [10].
