(** What term statistics are, independent of the code that makes them. *)
From Verif Require Import Base HopperModel PostingModel StatsModel.

(** The addresses p, p+1, ..., q. *)
Definition addresses (p q : Z) : list Z := map (fun i => p + Z.of_nat i) (seq 0 (Z.to_nat (q - p + 1))).

Section Spec.
(** The word at each address, and the stemmer. *)
Context (word_at : Z -> word) (stem : word -> word).

(** The stemmed words of an item, in order. *)
Definition words_of (d : iv) : list word := map (fun j => stem (word_at j)) (addresses (ip d) (iq d)).
(** How often the term [t] occurs in the item [d]. *)
Definition occurrences (t : word) (d : iv) : Z := Z.of_nat (count_occ (list_eq_dec Z.eq_dec) (words_of d) t).
(** The items that the term occurs in. *)
Definition items_with (t : word) (items : list iv) : list iv := filter (fun d => 0 <? occurrences t d) items.
(** Those items with the number of occurrences as value. *)
Definition frequencies (t : word) (items : list iv) : list iv :=
  map (fun d => Iv (ip d) (iq d) (occurrences t d)) (items_with t items).
(** The number of words of all items. *)
Definition total_length (items : list iv) : Z := fold_right (fun d n => iq d - ip d + 1 + n) 0 items.

(** The words of a stretch of text from the start of an item to the end of
    one: one word for each address. *)
Definition aligned (split : Z -> Z -> list word) (items : list iv) : Prop :=
  forall c d, In c items -> In d items -> ip c <= iq d -> split (ip c) (iq d) = map word_at (addresses (ip c) (iq d)).

(** The keys of the annotations for terms [ts]. *)
Definition keys (ts : list word) : list word :=
  total_items_word :: total_length_word :: map (fun t => tag_tf ++ t) ts ++ map (fun t => tag_df ++ t) ts.
(** No two of the words [ws] have the same feature. *)
Definition no_clash (featurize : word -> Z) (ws : list word) : Prop :=
  forall a b, In a ws -> In b ws -> featurize a = featurize b -> a = b.

(** The intervals annotated with the feature [f]. *)
Definition noted (f : Z) (notes : list annotation) : list iv := map aiv (filter (fun a => afeat a =? f) notes).
End Spec.

Section Statistics.
Context (stem : word -> word) (featurize : word -> Z) (word_at : Z -> word).

(** The items a term occurs in, each as its first address with the number of occurrences. *)
Definition places (t : word) (items : list iv) : list iv :=
  map (fun d => Iv (ip d) (ip d) (occurrences word_at stem t d)) (items_with word_at stem t items).

(** The annotations hold the statistics of every term [t] whose features are no
    other word's: at each item with the term the number of occurrences; at
    address 0 the number of items with the term, of all items and of all words. *)
Definition statistics (items : list iv) (notes : list annotation) : Prop :=
  forall t, no_clash featurize (keys (t :: flat_map (words_of word_at stem) items)) ->
     noted (featurize (tag_tf ++ t)) notes = places t items /\
     noted (featurize (tag_df ++ t)) notes =
       match length (items_with word_at stem t items) with O => [] | n => [Iv 0 0 (Z.of_nat n)] end /\
     noted (featurize total_items_word) notes = [Iv 0 0 (Z.of_nat (length items))] /\
     noted (featurize total_length_word) notes = [Iv 0 0 (total_length items)].
End Statistics.

(** The items with the term, each with the number of occurrences, as [tofval]
    reads it, as value. *)
Definition valued (stem : word -> word) (word_at : Z -> word) (tofval : Z -> Z) (t : word) (items : list iv) : list iv :=
  map (fun x => Iv (ip x) (iq x) (tofval (ivl x))) (frequencies word_at stem t items).

(** The items that start at or after [start] and end at or before [stop]. *)
Definition in_range (start stop : Z) (items : list iv) : list iv :=
  filter (fun d => (start <=? ip d) && (iq d <=? stop)) items.

(** The values of a list added up. *)
Definition added (l : list iv) : Z := fold_right Z.add 0 (map ivl l).
