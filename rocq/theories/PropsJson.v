(** C36: JSON values stored and read back. *)
From Verif Require Import Base Bytes HopperModel CodecModel PostingModel PostingSpec ShardModel TokenModel TokenSpec TextModel TextSpec TextWitness
  Utf8Model Utf8Spec JsonModel JsonSpec JsonBack JsonUtf8 JsonInput JsonWitness.
From Verif Require JsonTxtModel.

(** C36, for all values whose strings are clean, scribed one after the other in one
    transaction and committed at [w]: translating the range json_scribe returned gives JSON
    text that spells the value; every value inside is annotated with its path, every member
    with its name, translating the annotated range gives JSON text that spells it, and the
    annotation carries its value (the number, the truth value, the size of the array); and
    every annotation is one of these, or of a token, or a text chunk.  Missing: strings
    with control characters and reserved codepoints, for which it is false
    (C36_newline_refuted, C36_control_refuted, C36_reserved_refuted). *)
Theorem C36_values_partial : forall featurize to_string reads chunk transaction sort, null_feature < chunk -> transaction <> chunk -> (forall l, sort_result l (sort l)) ->
  forall vs w seq, Forall (clean reads to_string) vs -> Forall (avoids (utokenize featurize) featurize to_string chunk) vs -> 0 <= w ->
  let d := scribe_all (utokenize featurize) chunk featurize to_string vs draft_init in
  w + (d_address d - staging) <= staging ->
  Z.of_nat (length (d_annotations (appender_ready chunk transaction d))) <= 2305843009213693951 ->
  exists m x (show : Z * Z -> bytes), ready chunk transaction sort w seq d = Ok m /\ fiver_txt chunk m = Ok x /\
    (forall l, Forall (fun pq => minf <= fst pq <= maxf /\ minf <= snd pq < maxf) l -> translate_all uskip x l = Ok (map show l)) /\
    (forall us v rest, vs = us ++ v :: rest ->
      (exists p q, snd (do_json (utokenize featurize) chunk featurize to_string v (lit ":") (scribe_all (utokenize featurize) chunk featurize to_string us draft_init)) = (p, q) /\
         staging <= p <= q /\ q < d_address d /\ spells reads (json_translate (show (p - staging + w, q - staging + w))) v) /\
      (forall u path, inside v (lit ":") u path -> null_feature < featurize path ->
         exists p q y, In (Ann (featurize path) (Iv p q y)) (d_annotations d) /\ carried u y /\ spells reads (json_translate (show (p - staging + w, q - staging + w))) u) /\
      (forall u key, member_of v (lit ":") u key -> null_feature < featurize (key ++ lit ":") ->
         exists p q y, In (Ann (featurize (key ++ lit ":")) (Iv p q y)) (d_annotations d) /\ double_of 0 y /\ spells reads (json_translate (show (p - staging + w, q - staging + w))) u)) /\
    (forall f p q y, In (Ann f (Iv p q y)) (d_annotations d) -> f <> chunk ->
      (exists v t k, In v vs /\ In t (pieces to_string v) /\ In k (utokenize featurize t) /\ f = t_feature k) \/
      (exists v u, In v vs /\ spells reads (json_translate (show (p - staging + w, q - staging + w))) u /\
         ((exists path, inside v (lit ":") u path /\ f = featurize path /\ carried u y) \/ (exists key, member_of v (lit ":") u key /\ f = featurize (key ++ lit ":") /\ double_of 0 y)))).
Proof. exact json_back. Qed.
Print Assumptions C36_values_partial.
Example C36_values_ex : (clean reads2 print2 doc /\ clean reads2 print2 doc2) /\ (avoids utok2 feat2 print2 99 doc /\ avoids utok2 feat2 print2 99 doc2) /\
  (let d := scribe_all utok2 99 feat2 print2 [doc; doc2] draft_init in
   50 + (d_address d - staging) <= staging /\ Z.of_nat (length (d_annotations (appender_ready 99 98 d))) <= 2305843009213693951) /\
  (inside doc (lit ":") (Str [97; 34; 195; 164; 92]) (lit ":k:[1]:") /\ member_of doc2 (lit ":") (Str []) (lit "k")).
Proof. exact (conj doc_clean (conj doc_avoids (conj doc_room doc_inside))). Qed.
Example C36_values_read : snd (do_json utok2 99 feat2 print2 doc2 (lit ":") (scribe_all utok2 99 feat2 print2 [doc] draft_init)) = (staging + 26, staging + 37) /\
  read_json [doc; doc2] [(50, 75); (76, 87); (55, 67); (61, 64); (84, 85)] =
  Ok [lit "{ " ++ [34] ++ lit "k" ++ [34] ++ lit ": [ 1.000000 , " ++ [34; 97; 92; 34; 195; 164; 92; 92; 34] ++ lit " , true ] , " ++ [34] ++ lit "e" ++ [34] ++ lit ": { } }";
      lit "[ null , { " ++ [34] ++ lit "k" ++ [34] ++ lit ": " ++ [34; 34] ++ lit " } ]";
      lit "[ 1.000000 , " ++ [34; 97; 92; 34; 195; 164; 92; 92; 34] ++ lit " , true ]";
      [34; 97; 92; 34; 195; 164; 92; 92; 34]; [34; 34]].
Proof. exact doc_reads. Qed.
Example C36_values_carried : carried (Arr [Null; Null; Null]) 4613937818241073152 /\ ~ carried (Arr [Null; Null; Null]) 4611686018427387904.
Proof.
  split.
  - intros _. right. exists 1, (2 ^ 51). repeat split; vm_compute; congruence.
  - intros H. destruct (H eq_refl) as [[H1 _]|(e & m & H1 & H2 & H3 & H4)]; [discriminate H1|]. change (Z.of_nat (length [Null; Null; Null])) with 3 in H4.
    assert (e = 1) by lia. subst e. lia.
Qed.
(** C36, which inputs give clean strings: any text of codepoints, none a NUL or a
    backslash.  Missing: texts with escapes. *)
Theorem C36_input_partial : forall reads cs v w t w', Forall (fun c => 0 < c < 2097152 /\ c <> 92) cs -> prepared (encode cs) = w ++ t ++ w' -> blank w -> blank w' -> spells reads t v ->
  strings clean_string v.
Proof. exact input_clean. Qed.
Print Assumptions C36_input_partial.
Example C36_input_ex : exists cs, encode cs = [32; 91; 34; 239; 183; 149; 34; 93] /\ Forall (fun c => 0 < c < 2097152 /\ c <> 92) cs /\
  prepared (encode cs) = [32] ++ (91 :: ([] ++ (34 :: [239; 191; 189] ++ [34]) ++ []) ++ [93]) ++ [].
Proof. exists [32; 91; 34; 64981; 34; 93]. split; [vm_compute; reflexivity|]. split; [repeat (constructor; [lia|]); constructor|vm_compute; reflexivity]. Qed.
(** C36, what is done to the text before it is parsed: FDD0 to FDFF are replaced, and
    nothing else is touched. *)
Theorem C36_prepared : forall cs, Forall (fun c => 0 < c < 2097152) cs -> prepared (encode cs) = encode (map mapped cs).
Proof. exact prepared_encode. Qed.
Print Assumptions C36_prepared.
(** C36, json_encode: for every byte string, the text between the string marks is a JSON
    string that stands for it. *)
Theorem C36_encode : forall s, Forall is_byte s -> exists t, json_encode s = open_string ++ t ++ close_string /\ chars t s.
Proof. exact json_encode_ok. Qed.
Print Assumptions C36_encode.
Example C36_encode_ex : json_encode [7; 34; 195; 10] = open_string ++ lit "\u0007\" ++ [34; 195] ++ lit "\n" ++ close_string.
Proof. vm_compute. reflexivity. Qed.

(** C36 is false for a newline in a string: it comes back as a space. *)
Theorem C36_newline_refuted : json_translate (stored (pieces print2 (Str [97; 10; 98]))) = [34; 97; 32; 98; 34].
Proof. exact newline_lost. Qed.
Print Assumptions C36_newline_refuted.
(** C36 is false for other control characters: what comes back is not JSON. *)
Theorem C36_control_refuted : json_translate (stored (pieces print2 (Str [9]))) = [34; 9; 34] /\ forall reads v, ~ spells reads [34; 9; 34] v.
Proof. exact tab_raw. Qed.
Print Assumptions C36_control_refuted.
(** C36 is false for reserved codepoints, which an escape can bring in: what comes back is
    not JSON, or is other JSON. *)
Theorem C36_reserved_refuted : json_translate (stored (pieces print2 (Str [239; 183; 149]))) = [34; 34; 34] /\ forall reads v, ~ spells reads [34; 34; 34] v.
Proof. exact reserved_breaks. Qed.
Print Assumptions C36_reserved_refuted.
Theorem C36_forged_refuted : json_translate (stored (pieces print2 (Str [97; 239; 183; 149; 239; 183; 151; 239; 183; 148; 98]))) = [34; 97; 34; 44; 34; 98; 34].
Proof. exact reserved_forges. Qed.
Print Assumptions C36_forged_refuted.
(** A letter that is no noncharacter, FDFA, is replaced. *)
Theorem C36_letter_refuted : prepared (encode [65018]) = encode [65533].
Proof. exact ligature_replaced. Qed.
Print Assumptions C36_letter_refuted.
(** json_translate escapes what json_encode has escaped once more. *)
Theorem C36_twice_refuted : json_translate (json_encode [34]) = [34; 92; 92; 92; 34; 34] /\ chars [92; 92; 92; 34] [92; 34] /\ json_translate (stored (pieces print2 (Str [34]))) = [34; 92; 34; 34].
Proof. exact encoded_twice. Qed.
Print Assumptions C36_twice_refuted.
(** The recipe of a JSON view does not ask for a JSON view. *)
Theorem C36_recipe_refuted : JsonTxtModel.should_wrap (lit "json") = true /\ JsonTxtModel.should_wrap (JsonTxtModel.json_recipe []) = false.
Proof. split; vm_compute; reflexivity. Qed.
Print Assumptions C36_recipe_refuted.
