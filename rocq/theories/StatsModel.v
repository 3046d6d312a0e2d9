(** Model of the term statistics that the rankings use: src/tf_hopper.h,
    src/df_stats.cc and the functions of src/ranking.cc that make the
    annotations they read. *)
From Verif Require Import Base HopperModel PostingModel.

(* ------------------------------------------------------------------ *)
(** * The list of a term: src/tf_hopper.h *)
Section Tf.
(** src/tf_hopper.h:52-53: the hopper of the term's counts and the hopper of
    the items. *)
Variables T C : hcls.
Let X := (St T * St C)%type.
(** (fval)tf, as a bit pattern. *)
Variable tofval : Z -> Z.

(** src/tf_hopper.h:26-31 *)
Definition tf_tau_ (s : mst X) (k : Z) : res (mst X * iv) :=
  let* (s1, x) := on_left (h_tau T) s k in
  let* (s2, y) := on_right (h_tau C) s1 (ip x) in
  Ok (s2, Iv (ip y) (iq y) (tofval (ivl x))).
(** src/tf_hopper.h:32-38 *)
Definition tf_rho_ (s : mst X) (k : Z) : res (mst X * iv) :=
  let* (s1, c) := on_right (h_rho C) s k in
  let* (s2, x) := on_left (h_tau T) s1 (ip c) in
  let* (s3, y) := on_right (h_tau C) s2 (ip x) in
  Ok (s3, Iv (ip y) (iq y) (tofval (ivl x))).
(** src/tf_hopper.h:39-45 *)
Definition tf_uat_ (s : mst X) (k : Z) : res (mst X * iv) :=
  let* (s1, c) := on_right (h_uat C) s k in
  let* (s2, x) := on_left (h_ohr T) s1 (ip c) in
  let* (s3, y) := on_right (h_ohr C) s2 (ip x) in
  Ok (s3, Iv (ip y) (iq y) (tofval (ivl x))).
(** src/tf_hopper.h:46-51 *)
Definition tf_ohr_ (s : mst X) (k : Z) : res (mst X * iv) :=
  let* (s1, x) := on_left (h_ohr T) s k in
  let* (s2, y) := on_right (h_ohr C) s1 (ip x) in
  Ok (s2, Iv (ip y) (iq y) (tofval (ivl x))).
(** src/tf_hopper.h:12-54, class TfHopper; L and R are the default ones. *)
Definition tf_hopper : hcls :=
  HC (mst X) (memo_tau tf_tau_) (memo_rho tf_rho_) (memo_uat tf_uat_) (memo_ohr tf_ohr_)
     (base_L (memo_uat tf_uat_)) (base_R (memo_tau tf_tau_)).
Definition tf_init (t : St T) (c : St C) : St tf_hopper := fresh (t, c).
End Tf.

(* ------------------------------------------------------------------ *)
(** * Making the annotations *)
Notation word := (list Z).
Definition word_eq (a b : word) : bool :=
  if list_eq_dec Z.eq_dec a b then true else false.

(** std::map<K, addr>, counting: a missing key gets 1, a present one is
    incremented; src/ranking.cc:808-812, 902-906, 916-920.  The entries stand in the order
    in which the keys were first seen, not in the order of the keys: only the
    order in which annotations of different features are made depends on it. *)
Fixpoint bump {K : Type} (eqb : K -> K -> bool) (k : K) (m : list (K * Z)) : list (K * Z) :=
  match m with
  | [] => [(k, 1)]
  | (k', n) :: r => if eqb k k' then (k', n + 1) :: r else (k', n) :: bump eqb k r
  end.

(** "tf:", "df:", "total:", "items" and "length". *)
Definition tag_tf : word := [116; 102; 58].
Definition tag_df : word := [100; 102; 58].
Definition total_items_word : word := [116; 111; 116; 97; 108; 58; 105; 116; 101; 109; 115].
Definition total_length_word : word := [116; 111; 116; 97; 108; 58; 108; 101; 110; 103; 116; 104].

Section Make.
(** The hopper of the items: warren->hopper_from_gcl(content_query). *)
Context (C : hcls).
(** warren->tokenizer()->split(warren->txt()->translate(p, q)). *)
Context (split : Z -> Z -> list word).
(** warren->stemmer()->stem *)
Context (stem : word -> word).
(** warren->featurizer()->featurize.  TaggingFeaturizer puts its tag and a
    colon in front (src/tagging_featurizer.h:21-22, 33-36). *)
Context (featurize : word -> Z).

(** src/ranking.cc:900-907: the words of one item, [n] of them from address [j]
    on; [base] is ps[0].  tokens[i] past the end is undefined. *)
Fixpoint count_words (tokens : list word) (base j : Z) (n : nat) (tf : list (word * Z))
  : res (list (word * Z)) :=
  match n with
  | O => Ok tf
  | S n' =>
      match nth_error tokens (Z.to_nat (j - base)) with
      | None => UB
      | Some t => count_words tokens base (j + 1) n' (bump word_eq (stem t) tf)
      end
  end.

(** src/ranking.cc:908-921: the annotations of one item, and the document
    frequencies. *)
Definition item_notes (p : Z) (tf : list (word * Z)) : list annotation :=
  map (fun '(t, n) => Ann (featurize (tag_tf ++ t)) (Iv p p n)) tf.
Definition item_dfs (tf : list (word * Z)) (df : list (Z * Z)) : list (Z * Z) :=
  fold_left (fun df '(t, _) => bump Z.eqb (featurize (tag_df ++ t)) df) tf df.

(** src/ranking.cc:898-922: the items of one batch. *)
Fixpoint batch_notes (tokens : list word) (base : Z) (items : list iv)
         (notes : list annotation) (df : list (Z * Z)) : res (list annotation * list (Z * Z)) :=
  match items with
  | [] => Ok (notes, df)
  | d :: rest =>
      let* tf := count_words tokens base (ip d) (Z.to_nat (iq d - ip d + 1)) [] in
      batch_notes tokens base rest (notes ++ item_notes (ip d) tf) (item_dfs tf df)
  end.

(** src/ranking.cc:884, HUGE. *)
Definition huge : Z := 1014 * 1024.
Definition back_q (items : list iv) : Z := match rev items with d :: _ => iq d | [] => 0 end.
Definition front_p (items : list iv) : Z := match items with d :: _ => ip d | [] => 0 end.

(** The local variables of src/ranking.cc:883-886. *)
Record tfdf := TfDf {
  td_hop : St C; td_p : Z; td_batch : list iv; td_notes : list annotation;
  td_df : list (Z * Z); td_items : Z; td_length : Z }.

(** src/ranking.cc:896-924: translate, split and count one batch. *)
Definition flush (batch : list iv) (notes : list annotation) (df : list (Z * Z))
  : res (list annotation * list (Z * Z)) :=
  batch_notes (split (front_p batch) (back_q batch)) (front_p batch) batch notes df.

(** src/ranking.cc:887-926, one turn of the loop. *)
Definition tfdf_body (s : tfdf) : res (tfdf + tfdf) :=
  if td_p s <? maxf then
    let* k := chk (td_p s + 1) in
    let* (h, d) := h_tau C (td_hop s) k in
    let* (batch, items, total) :=
      if ip d <? maxf then
        let* len := chk (iq d - ip d + 1) in
        let* total := chk (td_length s + len) in
        Ok (td_batch s ++ [d], td_items s + 1, total)
      else Ok (td_batch s, td_items s, td_length s) in
    let* full :=
      if ip d =? maxf then Ok true
      else let* span := chk (back_q batch - front_p batch) in Ok (huge <? span) in
    if match batch with [] => false | _ => full end then
      let* (notes, df) := flush batch (td_notes s) (td_df s) in
      Ok (inl (TfDf h (ip d) [] notes df items total))
    else Ok (inl (TfDf h (ip d) batch (td_notes s) (td_df s) items total))
  else Ok (inr s).

(** src/ranking.cc:855-959, tf_df_annotations, from the item hopper on: the
    annotations it makes, or none when there are no items.  Failures of the
    annotator and of the transaction are not modelled. *)
Definition tf_df_annotations (c : St C) : res (option (list annotation)) :=
  let* s := loop tfdf_body (TfDf c minf [] [] [] 0 0) in
  if td_items s =? 0 then Ok None else
  Ok (Some (td_notes s ++
            map (fun '(f, n) => Ann f (Iv 0 0 n)) (td_df s) ++
            [Ann (featurize total_items_word) (Iv 0 0 (td_items s));
             Ann (featurize total_length_word) (Iv 0 0 (td_length s))])).

(** src/ranking.cc:805-813, tf_annotations: the same counts, kept by feature. *)
Fixpoint count_features (tokens : list word) (base j : Z) (n : nat) (tf : list (Z * Z))
  : res (list (Z * Z)) :=
  match n with
  | O => Ok tf
  | S n' =>
      match nth_error tokens (Z.to_nat (j - base)) with
      | None => UB
      | Some t => count_features tokens base (j + 1) n' (bump Z.eqb (featurize (tag_tf ++ stem t)) tf)
      end
  end.
(** src/ranking.cc:803-820 *)
Fixpoint range_notes (tokens : list word) (base : Z) (items : list iv)
         (notes : list annotation) : res (list annotation) :=
  match items with
  | [] => Ok notes
  | d :: rest =>
      let* tf := count_features tokens base (ip d) (Z.to_nat (iq d - ip d + 1)) [] in
      range_notes tokens base rest (notes ++ map (fun '(f, n) => Ann f (Iv (ip d) (ip d) n)) tf)
  end.
(** The local variables of src/ranking.cc:785-788: the hopper and its last
    answer, and the rest. *)
Record tfr := Tfr {
  tr_hop : St C; tr_iv : iv; tr_batch : list iv; tr_notes : list annotation;
  tr_items : Z; tr_length : Z }.
(** src/ranking.cc:791-824, one turn of the for loop. *)
Definition tfr_body (stop : Z) (s : tfr) : res (tfr + tfr) :=
  let d := tr_iv s in
  if (iq d <=? stop) && (iq d <? maxf) then
    let* len := chk (iq d - ip d + 1) in
    let* total := chk (tr_length s + len) in
    let batch := tr_batch s ++ [d] in
    let* span := chk (back_q batch - front_p batch) in
    let* (batch', notes) :=
      if (iq d =? maxf) || (stop <=? iq d) || (huge <? span) then
        let* notes := range_notes (split (front_p batch) (back_q batch)) (front_p batch)
                        batch (tr_notes s) in
        Ok ([], notes)
      else Ok (batch, tr_notes s) in
    let* k := chk (ip d + 1) in
    let* (h, d') := h_tau C (tr_hop s) k in
    Ok (inl (Tfr h d' batch' notes (tr_items s + 1) total))
  else Ok (inr s).
(** src/ranking.cc:761-851, tf_annotations, from the item hopper on. *)
Definition tf_annotations (c : St C) (start stop : Z) : res (option (list annotation)) :=
  let p := if start =? minf then start + 1 else start in
  let* (h, d) := h_tau C c p in
  let* s := loop (tfr_body stop) (Tfr h d [] [] 0 0) in
  if tr_items s =? 0 then Ok None else
  Ok (Some (tr_notes s ++
            [Ann (featurize total_items_word) (Iv start start (tr_items s));
             Ann (featurize total_length_word) (Iv start start (tr_length s))])).
End Make.

(* ------------------------------------------------------------------ *)
(** * Reading them: src/df_stats.cc *)
(** src/df_stats.cc:35-38, 49-52: the values of a list added up. *)
Definition sum_body (T : hcls) (s : St T * Z * Z) : res ((St T * Z * Z) + Z) :=
  let '(t, k, total) := s in
  let* (t', x) := h_tau T t k in
  if ip x <? maxf then
    let* total' := chk (total + ivl x) in
    let* k' := chk (ip x + 1) in
    Ok (inl (t', k', total'))
  else Ok (inr total).
Definition sum_values (T : hcls) (t : St T) : res Z := loop (sum_body T) (t, minf + 1, 0).
