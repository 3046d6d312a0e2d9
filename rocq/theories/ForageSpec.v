(** What foraging for term statistics is to leave, independent of the code. *)
From Verif Require Import Base HopperModel GclSpec PostingModel StatsModel StatsSpec.

(** The text of each item has one word for each address. *)
Definition words_align (word_at : Z -> word) (split : Z -> Z -> list word) (items : list iv) : Prop :=
  forall d, In d items -> split (ip d) (iq d) = map word_at (addresses (ip d) (iq d)).
(** The words that name what is annotated under a label: for the terms [ts] and the two
    totals, and for the label itself. *)
Definition label_keys (label : word) (ts : list word) : list word :=
  [64] :: (64 :: label) :: map (fun k => label ++ k) (keys ts).
(** The annotations hold the statistics under the label, perhaps in parts: at each item the
    number of occurrences of the term; values for the number of items with the term, of items
    and of words that add up, in lists an index can answer; and the label, once. *)
Definition statistics_in_parts (stem : word -> word) (featurize : word -> Z) (word_at : Z -> word) (label : word) (place : iv)
    (items : list iv) (notes : list annotation) : Prop :=
  forall t, no_clash featurize (label_keys label (t :: flat_map (words_of word_at stem) items)) ->
    let at_word w := noted (featurize (label ++ w)) notes in
    at_word (tag_tf ++ t) = places stem word_at t items /\
    added (at_word (tag_df ++ t)) = Z.of_nat (length (items_with word_at stem t items)) /\
    added (at_word total_items_word) = Z.of_nat (length items) /\
    added (at_word total_length_word) = total_length items /\
    (forall w, In w [tag_df ++ t; total_items_word; total_length_word] -> gclist (at_word w) /\ forall x, In x (at_word w) -> 0 <= ivl x) /\
    noted (featurize (64 :: label)) notes = [Iv (ip place) (iq place) 0].
