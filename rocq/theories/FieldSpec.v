(** What the statistics of a collection with fields are. *)
From Verif Require Import Base HopperModel GclSpec PostingModel StatsModel StatsSpec FieldModel.

Section Spec.
(** The words of the text of a stretch of addresses, the stemmer, and the feature of a key. *)
Context (words : Z -> Z -> list word) (stem : word -> word) (featurize : word -> Z).

(** A field is the list of its intervals.  The part of the item [d] that is the field: the
    first of its intervals within the item. *)
Definition part (f : list iv) (d : iv) : option iv := find (fun x => (ip d <=? ip x) && (iq x <=? iq d)) f.
Definition part_words (f : list iv) (d : iv) : list word :=
  match part f d with Some x => map stem (words (ip x) (iq x)) | None => [] end.
Definition part_length (f : list iv) (d : iv) : Z :=
  match part f d with Some x => iq x - ip x + 1 | None => 0 end.
(** How often the term occurs in a field of the item and in all its fields. *)
Definition in_field (t : word) (f : list iv) (d : iv) : Z :=
  Z.of_nat (count_occ (list_eq_dec Z.eq_dec) (part_words f d) t).
Definition in_fields (t : word) (fs : list (list iv)) (d : iv) : Z := fold_right Z.add 0 (map (fun f => in_field t f d) fs).
(** The lengths of the fields of an item, added up. *)
Definition fields_length (fs : list (list iv)) (d : iv) : Z := fold_right Z.add 0 (map (fun f => part_length f d) fs).
(** The first addresses of the items for which [n] is positive, with that as value. *)
Definition spots (n : iv -> Z) (items : list iv) : list iv :=
  map (fun d => Iv (ip d) (ip d) (n d)) (filter (fun d => 0 <? n d) items).

(** The words of all fields of all items. *)
Definition all_words (fs : list (list iv)) (items : list iv) : list word :=
  flat_map (fun d => flat_map (fun f => part_words f d) fs) items.
(** The keys of the annotations for the terms [ts] when there are [n] fields. *)
Definition field_keys (n : nat) (ts : list word) : list word :=
  length_word :: keys ts ++ flat_map (fun i => map (fun t => tag_field i ++ t) ts) (seq 0 n).
(** Terms do not hold a colon and are not the word for lengths. *)
Definition plain (t : word) : Prop := ~ In 58 t /\ t <> [35].

(** The annotations hold the statistics of every term whose features are no other word's:
    for each field, at each item with the term in that field, the number of occurrences
    there; at each item with the term in a field, the number of occurrences in its fields;
    at address 0 the number of such items; the length of each item and the totals. *)
Definition field_statistics (fs : list (list iv)) (items : list iv) (notes : list annotation) : Prop :=
  forall t, Forall plain (t :: all_words fs items) -> no_clash featurize (field_keys (length fs) (t :: all_words fs items)) ->
    (forall i f, nth_error fs i = Some f -> noted (featurize (tag_field i ++ t)) notes = spots (in_field t f) items) /\
    noted (featurize (tag_tf ++ t)) notes = spots (in_fields t fs) items /\
    noted (featurize (tag_df ++ t)) notes =
      match length (filter (fun d => 0 <? in_fields t fs d) items) with O => [] | n => [Iv 0 0 (Z.of_nat n)] end /\
    noted (featurize length_word) notes = map (fun d => Iv (ip d) (ip d) (fields_length fs d)) items /\
    noted (featurize total_items_word) notes = [Iv 0 0 (Z.of_nat (length items))] /\
    noted (featurize total_length_word) notes = [Iv 0 0 (fold_right Z.add 0 (map (fields_length fs) items))].

(** The items with the term in one of the fields [fs], each field with its weight: the value
    is the sum, in the order of the fields, of weight times occurrences over the fields with
    the term. *)
Section Weighted.
Context (fzero : Z) (fadd fmul : Z -> Z -> Z).
Definition weight_of (t : word) (wfs : list (Z * list iv)) (d : iv) : Z :=
  fold_left (fun v '(w, f) => if 0 <? in_field t f d then fadd v (fmul w (in_field t f d)) else v) wfs fzero.
Definition weighted (t : word) (wfs : list (Z * list iv)) (items : list iv) : list iv :=
  map (fun d => Iv (ip d) (iq d) (weight_of t wfs d)) (filter (fun d => 0 <? in_fields t (map snd wfs) d) items).
End Weighted.
End Spec.

(** Every answer to a history of calls that only look ahead (tau, rho and R) is right. *)
Definition ahead (m : meth) : bool := match m with Mtau | Mrho | MR => true | _ => false end.
Definition answers_ahead (C : hcls) (s0 : St C) (S : iv -> Prop) : Prop :=
  GC S /\ forall h, Forall (fun mk => minf <= snd mk <= maxf /\ ahead (fst mk) = true) h ->
  exists rs, run C s0 h = Ok rs /\ Forall2 (answer S) h rs.

(** The fields chosen, by number and weight, are those with these weights and intervals. *)
Definition chosen_fields (fs : list (list iv)) (chosen : list (nat * Z)) (wfs : list (Z * list iv)) : Prop :=
  Forall2 (fun iw wf => snd iw = fst wf /\ nth_error fs (fst iw) = Some (snd wf)) chosen wfs.

(** A list of strings as a parameter of a warren: with tabs between them. *)
Fixpoint joined (l : list word) : word :=
  match l with [] => [] | [s] => s | s :: r => s ++ 9 :: joined r end.
(** Lists that a parameter can hold: not empty, no tabs, and the last of several strings is
    not empty. *)
Definition listing (l : list word) : Prop :=
  l <> [] /\ Forall (fun s => ~ In 9 s) l /\ (length l = 1%nat \/ last l [] <> []).
