(** Model of the statistics of a collection whose items have fields: tf_field_annotations
    (src/ranking.cc) makes them, src/field_stats.cc reads them. *)
From Coq Require Import Decimal.
From Verif Require Import Base HopperModel PostingModel VectorModel StatsModel.

(** std::to_string of a size_t *)
Fixpoint digits_of (u : uint) : word :=
  match u with
  | Nil => []
  | D0 u => 48 :: digits_of u | D1 u => 49 :: digits_of u | D2 u => 50 :: digits_of u
  | D3 u => 51 :: digits_of u | D4 u => 52 :: digits_of u | D5 u => 53 :: digits_of u
  | D6 u => 54 :: digits_of u | D7 u => 55 :: digits_of u | D8 u => 56 :: digits_of u
  | D9 u => 57 :: digits_of u
  end.
Definition to_string (i : nat) : word := digits_of (Nat.to_uint i).
(** src/ranking.cc:1680-1682, src/field_stats.cc:60-61: the tag of the i-th field, with the
    colons that TaggingFeaturizer adds (src/tagging_featurizer.h:21-22, 33-36). *)
Definition tag_field (i : nat) : word := tag_tf ++ to_string i ++ [58].
(** src/ranking.cc:1674: the word for the length of an item. *)
Definition length_word : word := tag_tf ++ [35].

(* ------------------------------------------------------------------ *)
(** * Making the annotations: src/ranking.cc:1643-1773 *)
Section Make.
(** The hopper of the items and those of the fields: content_hopper and
    warren->hopper_from_gcl of each field's query. *)
Context (C : hcls) (Fs : list hcls).
(** warren->tokenizer()->split(warren->txt()->translate(p, q)). *)
Context (split : Z -> Z -> list word).
Context (stem : word -> word) (featurize : word -> Z).

(** src/ranking.cc:1704-1716: the words of a field, counted for the item in [tf] and for the
    field in [ftf]. *)
Fixpoint count_tokens (tokens : list word) (tf ftf : list (word * Z)) : list (word * Z) * list (word * Z) :=
  match tokens with
  | [] => (tf, ftf)
  | t :: r => count_tokens r (bump word_eq (stem t) tf) (bump word_eq (stem t) ftf)
  end.
(** What is known of an item: the counts of its words, its length, and the annotations. *)
Definition item_state : Type := list (word * Z) * Z * list annotation.
(** src/ranking.cc:1696-1725: the fields of the item [d], from the [i]-th on. *)
Fixpoint item_fields (i : nat) (Fs : list hcls) (d : iv) : tup Fs -> item_state -> res (tup Fs * item_state) :=
  match Fs return tup Fs -> item_state -> res (tup Fs * item_state) with
  | [] => fun s a => Ok (s, a)
  | F :: r => fun s a =>
      let* (f, x) := h_tau F (fst s) (ip d) in
      let* a' :=
        if iq x <=? iq d then
          let '(tf, len, notes) := a in
          let* n := chk (iq x - ip x + 1) in
          let* len' := chk (len + n) in
          let (tf', ftf) := count_tokens (split (ip x) (iq x)) tf [] in
          Ok (tf', len', notes ++ map (fun '(t, n) => Ann (featurize (tag_field i ++ t)) (Iv (ip d) (ip d) n)) ftf)
        else Ok a in
      let* (s', a'') := item_fields (S i) r d (snd s) a' in
      Ok ((f, s'), a'')
  end.

(** The local variables of src/ranking.cc:1687-1690: the hoppers, the current item and the
    rest. *)
Record fields_state := FieldsState {
  fs_hop : St C; fs_fields : tup Fs; fs_iv : iv; fs_notes : list annotation;
  fs_df : list (Z * Z); fs_items : Z; fs_length : Z }.
(** src/ranking.cc:1691-1742, one turn of the loop. *)
Definition fields_body (s : fields_state) : res (fields_state + fields_state) :=
  let d := fs_iv s in
  if ip d <? maxf then
    let* (f, a) := item_fields 0 Fs d (fs_fields s) ([], 0, fs_notes s) in
    let '(tf, len, notes) := a in
    let* total := chk (fs_length s + len) in
    let* k := chk (ip d + 1) in
    let* (h, d') := h_tau C (fs_hop s) k in
    Ok (inl (FieldsState h f d'
               (notes ++ item_notes featurize (ip d) tf ++ [Ann (featurize length_word) (Iv (ip d) (ip d) len)])
               (item_dfs featurize tf (fs_df s)) (fs_items s + 1) total))
  else Ok (inr s).
(** src/ranking.cc:1643-1773, tf_field_annotations, from the hoppers on.  Failures of the
    annotator and of the transaction are not modelled; the entries of a map stand in the
    order in which they were made. *)
Definition tf_field_annotations (c : St C) (f : tup Fs) : res (option (list annotation)) :=
  let* (h, d) := h_tau C c 0 in
  let* s := loop fields_body (FieldsState h f d [] [] 0 0) in
  if fs_items s =? 0 then Ok None else
  Ok (Some (fs_notes s ++
            map (fun '(f, n) => Ann f (Iv 0 0 n)) (fs_df s) ++
            [Ann (featurize total_items_word) (Iv 0 0 (fs_items s));
             Ann (featurize total_length_word) (Iv 0 0 (fs_length s))])).
End Make.

(* ------------------------------------------------------------------ *)
(** * Reading them: src/field_stats.cc *)
(** src/field_stats.cc:139-147: load_df, before the conversion. *)
Definition load_df (T : hcls) (t : St T) : res Z := let* (_, x) := h_tau T t 0 in Ok (ivl x).

(** A call of every hopper of a vector, with the same address. *)
Fixpoint every (m : forall C, St C -> Z -> res (St C * iv)) (Cs : list hcls) : tup Cs -> Z -> res (tup Cs * list iv) :=
  match Cs return tup Cs -> Z -> res (tup Cs * list iv) with
  | [] => fun s _ => Ok (s, [])
  | C :: r => fun s k =>
      let* (a, x) := m C (fst s) k in
      let* (b, l) := every m r (snd s) k in
      Ok ((a, b), x :: l)
  end.

Section Tf.
(** src/field_stats.cc:238-240: the hoppers of the term's counts in the fields, the hopper of
    the items and the weights. *)
Variable Cs : list hcls.
Variable C : hcls.
Variable weights : list Z.
(** 0.0, addition, and the product of a weight and a count, on the bit patterns of fval. *)
Variable fzero : Z.
Variable fadd fmul : Z -> Z -> Z.
Let X := (tup Cs * St C)%type.

(** src/field_stats.cc:204-207, 226-229: what the lists that stand at [at_p] add up to. *)
Fixpoint weigh (at_p : Z) (ws : list Z) (xs : list iv) (tf : Z) : Z :=
  match ws, xs with
  | w :: ws, x :: xs => weigh at_p ws xs (if ip x =? at_p then fadd tf (fmul w (ivl x)) else tf)
  | _, _ => tf
  end.
(** src/field_stats.cc:194-210 *)
Definition ft_tau_ (s : mst X) (k : Z) : res (mst X * iv) :=
  let* (s1, xs) := on_left (every h_tau Cs) s k in
  let min_p := fold_left Z.min (map ip xs) maxf in
  let* (s2, y) := on_right (h_tau C) s1 min_p in
  Ok (s2, Iv (ip y) (iq y) (weigh min_p weights xs fzero)).
(** src/field_stats.cc:211-215; tau is the public method. *)
Definition ft_rho_ (s : mst X) (k : Z) : res (mst X * iv) :=
  let* (s1, c) := on_right (h_rho C) s k in
  memo_tau ft_tau_ s1 (ip c).
(** src/field_stats.cc:216-232 *)
Definition ft_uat_ (s : mst X) (k : Z) : res (mst X * iv) :=
  let* (s1, xs) := on_left (every h_uat Cs) s k in
  let max_p := fold_left Z.max (map ip xs) minf in
  let* (s2, y) := on_right (h_uat C) s1 max_p in
  Ok (s2, Iv (ip y) (iq y) (weigh max_p weights xs fzero)).
(** src/field_stats.cc:233-237; uat is the public method. *)
Definition ft_ohr_ (s : mst X) (k : Z) : res (mst X * iv) :=
  let* (s1, c) := on_right (h_ohr C) s k in
  memo_uat ft_uat_ s1 (iq c).
(** src/field_stats.cc:171-241, class TfHopper; L and R are the default ones. *)
Definition ft_hopper : hcls :=
  HC (mst X) (memo_tau ft_tau_) (memo_rho ft_rho_) (memo_uat ft_uat_) (memo_ohr ft_ohr_)
     (base_L (memo_uat ft_uat_)) (base_R (memo_tau ft_tau_)).
Definition ft_init (t : tup Cs) (c : St C) : St ft_hopper := fresh (t, c).
End Tf.

(** src/field_stats.cc:244-251, FieldStats::tf_hopper: the fields chosen for the statistics,
    with their numbers and weights, and the hopper of a feature, warren->idx()->hopper. *)
Definition field_hoppers (featurize : word -> Z) (index : Z -> hobj) (chosen : list (nat * Z)) (t : word) : list hobj :=
  map (fun iw => index (featurize (tag_field (fst iw) ++ t))) chosen.
Definition field_tf_hopper (featurize : word -> Z) (index : Z -> hobj) (fadd fmul : Z -> Z -> Z) (chosen : list (nat * Z))
    (C : hcls) (c : St C) (t : word) : hobj :=
  let os := field_hoppers featurize index chosen t in
  existT _ (ft_hopper (classes os) C (map snd chosen) 0 fadd fmul) (ft_init (classes os) C (map snd chosen) 0 fadd fmul (states os) c).

(* ------------------------------------------------------------------ *)
(** * Choosing the fields: src/field_stats.cc:17-74 *)
(** std::sregex_token_iterator with the pattern of a tab and -1: the pieces between tabs.
    A string without tabs is one piece, also when it is empty; an empty piece after the last
    tab is left out. *)
Fixpoint pieces (cur : word) (s : word) : list word :=
  match s with
  | [] => [cur]
  | c :: r => if c =? 9 then cur :: pieces [] r else pieces (cur ++ [c]) r
  end.
Definition tokens (s : word) : list word :=
  match rev (pieces [] s) with
  | [] :: ((_ :: _) as r) => rev r
  | _ => pieces [] s
  end.
(** std::stof: a number, std::invalid_argument or std::out_of_range. *)
Inductive number := Number (w : Z) | Invalid | Out_of_range.
(** nullptr, the statistics of "df", an exception that is not caught, or statistics of the
    fields with these numbers and weights. *)
Inductive made := Failed | As_df | Thrown | Made (l : list (nat * Z)).
Section Choose.
Context (stof : word -> number).
(** w < 0.0 and w > 0.0 *)
Context (below above : Z -> bool).
(** src/field_stats.cc:52-74 *)
Fixpoint choose (i : nat) (ws : list word) (chosen : list (nat * Z)) : made :=
  match ws with
  | [] => match chosen with [] => Failed | _ => Made chosen end
  | s :: r =>
      match stof s with
      | Invalid => Failed
      | Out_of_range => Thrown
      | Number w =>
          if below w then Failed else
          choose (S i) r (if above w then chosen ++ [(i, w)] else chosen)
      end
  end.
(** src/field_stats.cc:27-74: the parameters of the warren are given, None when they cannot be
    read.  The statistics that are read at the end of make are those of load_df and
    sum_values. *)
Definition field_stats_make (fields weights : option word) : made :=
  match fields with
  | None => Failed
  | Some fields =>
      match tokens fields with
      | [] => Failed
      | fs =>
          match weights with
          | None => Failed
          | Some weights =>
              match tokens weights with
              | [] => As_df
              | ws => if Nat.eqb (length ws) (length fs) then choose 0 ws [] else Failed
              end
          end
      end
  end.
End Choose.
