(** What the statistics with weights of a collection are. *)
From Verif Require Import Base HopperModel GclSpec PostingModel StatsModel StatsSpec IdfModel.

Section Spec.
(** The words of the text of a stretch of addresses; the stem of a word and whether the
    stemmer says that it changed the word; the feature of a key. *)
Context (words : Z -> Z -> list word) (stem : word -> word * bool) (featurize : word -> Z).
(** The value for a number of occurrences, the average for a length and a number of items,
    the weights of a term that n of N items hold, and which weights are positive. *)
Context (value : Z -> Z) (average idf_weight rsj_weight : Z -> Z -> Z) (above : Z -> bool).

(** What counts as a word of an item: the stems; or, if words are kept unstemmed, the words
    and the stems of those that the stemmer changed. *)
Definition item_words (unstemmed : bool) (d : iv) : list word :=
  flat_map (fun w => if unstemmed then w :: (if snd (stem w) then [fst (stem w)] else []) else [fst (stem w)])
    (words (ip d) (iq d)).
(** How often the term occurs in the item, and the items it occurs in. *)
Definition times (unstemmed : bool) (t : word) (d : iv) : Z :=
  Z.of_nat (count_occ (list_eq_dec Z.eq_dec) (item_words unstemmed d) t).
Definition holders (unstemmed : bool) (t : word) (items : list iv) : list iv :=
  filter (fun d => 0 <? times unstemmed t d) items.
(** Those items with the value of the number of occurrences. *)
Definition holding (unstemmed : bool) (t : word) (items : list iv) : list iv :=
  map (fun d => Iv (ip d) (iq d) (value (times unstemmed t d))) (holders unstemmed t items).
Definition size {A : Type} (l : list A) : Z := Z.of_nat (length l).
(** The weights of a term; none for a term that is in no item. *)
Definition idf_in (unstemmed : bool) (t : word) (items : list iv) : option Z :=
  if 0 <? size (holders unstemmed t items) then Some (idf_weight (size items) (size (holders unstemmed t items))) else None.
(** Only positive ones. *)
Definition rsj_in (unstemmed : bool) (t : word) (items : list iv) : option Z :=
  let w := rsj_weight (size items) (size (holders unstemmed t items)) in
  if (0 <? size (holders unstemmed t items)) && above w then Some w else None.

(** The keys of the annotations for the terms [ts]. *)
Definition idf_keys (ts : list word) : list word :=
  avgl_word :: map (app tag_tf) ts ++ map (app tag_idf) ts ++ map (app tag_rsj) ts.
(** A weight as it is read: 0 if there is none. *)
Definition or_zero (v : option Z) : Z := match v with None => 0 | Some v => v end.
(** A value as it is noted. *)
Definition at_zero (v : option Z) : list iv := match v with None => [] | Some v => [Iv 0 0 v] end.

(** The annotations hold the statistics of every term whose features are no other word's:
    each item with the term, with the value of the number of occurrences; at address 0 the
    average length and those of the weights that were asked for. *)
Definition idf_statistics (unstemmed with_idf with_rsj : bool) (items : list iv) (notes : list annotation) : Prop :=
  forall t, no_clash featurize (idf_keys (t :: flat_map (item_words unstemmed) items)) ->
    noted (featurize (tag_tf ++ t)) notes = holding unstemmed t items /\
    noted (featurize (tag_idf ++ t)) notes = (if with_idf then at_zero (idf_in unstemmed t items) else []) /\
    noted (featurize (tag_rsj ++ t)) notes = (if with_rsj then at_zero (rsj_in unstemmed t items) else []) /\
    noted (featurize avgl_word) notes = [Iv 0 0 (average (total_length items) (size items))].
End Spec.
