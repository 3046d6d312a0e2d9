(** Examples and counterexamples for JSON. *)
From Verif Require Import Base Bytes HopperModel CodecModel PostingModel PostingSpec ShardModel TokenModel TokenSpec TextModel TextSpec TextBack TextWitness
  Utf8Table Utf8Model Utf8Spec Utf8Laws Utf8Words JsonModel JsonSpec JsonBack JsonStore JsonRead JsonUtf8.

Definition feat2 (t : bytes) : Z := 1000 + Z.abs (fold_left (fun a c => 256 * a + c) t 0).
Definition utok2 : bytes -> list token := utokenize feat2.
Definition print2 (v : Z) : bytes := if v =? one then lit "1.000000" else lit "0.000000".
Definition reads2 (t : bytes) (v : Z) : Prop := t = print2 v /\ (v = one \/ v = zero).
(** An object: k is the array of 1, a string with a quote and a backslash, and true; e is an empty object. *)
Definition doc : json := Obj [(lit "k", Arr [Num one; Str [97; 34; 195; 164; 92]; Boolean true]); (lit "e", Obj [])].
Definition doc2 : json := Arr [Null; Obj [(lit "k", Str [])]].
Definition read_json (vs : list json) (l : list (Z * Z)) : res (list bytes) :=
  let* m := ready 99 98 isort 50 0 (scribe_all utok2 99 feat2 print2 vs draft_init) in
  let* x := fiver_txt 99 m in let* bs := translate_all uskip x l in Ok (map json_translate bs).
Lemma clean_string_check cs : forallb (fun c => (32 <=? c) && (c <? 2097152) && negb ((64976 <=? c) && (c <=? 64985))) cs = true -> clean_string (encode cs).
Proof. intros H. exists cs. split; [reflexivity|]. rewrite forallb_forall in H. apply Forall_forall. intros c I. specialize (H c I). lia. Qed.
Lemma one_number : number_text (print2 one) /\ reads2 (print2 one) one /\ one <> minf.
Proof.
  split; [|split; [split; [reflexivity|left; reflexivity]|discriminate]]. exists [], [49], (46 :: lit "000000"), []. split; [reflexivity|]. split; [left; reflexivity|].
  split; [split; [discriminate|repeat constructor; lia]|]. split; [discriminate|]. split; [|left; reflexivity]. right. exists (lit "000000"). split; [reflexivity|]. split; [discriminate|].
  unfold lit. cbn. repeat (apply Forall_cons; [lia|]). apply Forall_nil.
Qed.
Lemma doc_clean : clean reads2 print2 doc /\ clean reads2 print2 doc2.
Proof.
  split.
  - constructor. constructor; [|constructor; [|constructor]]; (split; cbn [fst snd]).
    + exact (clean_string_check [107] eq_refl).
    + constructor. constructor; [|constructor; [|constructor; [|constructor]]].
      * constructor; apply one_number.
      * constructor. exact (clean_string_check [97; 34; 228; 92] eq_refl).
      * constructor.
    + exact (clean_string_check [101] eq_refl).
    + constructor. constructor.
  - constructor. constructor; [constructor|]. constructor; [|constructor]. constructor. constructor; [|constructor]. split; cbn [fst snd].
    + exact (clean_string_check [107] eq_refl).
    + constructor. exact (clean_string_check [] eq_refl).
Qed.
Lemma feat2_big t : 1000 <= feat2 t. Proof. unfold feat2. lia. Qed.
Lemma avoids_check v : forallb (fun t => forallb (fun k => 1000 <=? t_feature k) (utok2 t)) (pieces print2 v) = true -> avoids utok2 feat2 print2 99 v.
Proof.
  intros H. split; [|split].
  - intros t k Ht Hk. rewrite forallb_forall in H. specialize (H t Ht). rewrite forallb_forall in H. specialize (H k Hk). lia.
  - intros u p _. pose proof (feat2_big p). lia.
  - intros u key _. pose proof (feat2_big (key ++ lit ":")). lia.
Qed.
Lemma doc_avoids : avoids utok2 feat2 print2 99 doc /\ avoids utok2 feat2 print2 99 doc2.
Proof. split; apply avoids_check; vm_compute; reflexivity. Qed.
Lemma doc_room : let d := scribe_all utok2 99 feat2 print2 [doc; doc2] draft_init in
  50 + (d_address d - staging) <= staging /\ Z.of_nat (length (d_annotations (appender_ready 99 98 d))) <= 2305843009213693951.
Proof. split; vm_compute; discriminate. Qed.
(** The documents, the array at :k: and the strings at :k:[1]: and :[1]:k: read back. *)
Lemma doc_reads : snd (do_json utok2 99 feat2 print2 doc2 (lit ":") (scribe_all utok2 99 feat2 print2 [doc] draft_init)) = (staging + 26, staging + 37) /\
  read_json [doc; doc2] [(50, 75); (76, 87); (55, 67); (61, 64); (84, 85)] =
  Ok [lit "{ " ++ [34] ++ lit "k" ++ [34] ++ lit ": [ 1.000000 , " ++ [34; 97; 92; 34; 195; 164; 92; 92; 34] ++ lit " , true ] , " ++ [34] ++ lit "e" ++ [34] ++ lit ": { } }";
      lit "[ null , { " ++ [34] ++ lit "k" ++ [34] ++ lit ": " ++ [34; 34] ++ lit " } ]";
      lit "[ 1.000000 , " ++ [34; 97; 92; 34; 195; 164; 92; 92; 34] ++ lit " , true ]";
      [34; 97; 92; 34; 195; 164; 92; 92; 34]; [34; 34]].
Proof. split; [vm_compute; reflexivity|]. vm_compute. reflexivity. Qed.
Lemma doc_inside : inside doc (lit ":") (Str [97; 34; 195; 164; 92]) (lit ":k:[1]:") /\ member_of doc2 (lit ":") (Str []) (lit "k").
Proof.
  split.
  - apply (In_member _ _ (lit "k") (Arr [Num one; Str [97; 34; 195; 164; 92]; Boolean true])); [left; reflexivity|].
    apply (In_element _ _ 1 (Str [97; 34; 195; 164; 92])); [reflexivity|]. apply (In_here _ (lit ":k:[1]:")).
  - exists [(lit "k", Str [])], (lit ":[1]:"). split; [|left; reflexivity]. apply (In_element _ _ 1 (Obj [(lit "k", Str [])])); [reflexivity|]. apply (In_here _ (lit ":[1]:")).
Qed.
(** * What does not come back *)
Notation comes_back s := (json_translate (stored (pieces print2 (Str s)))).
Lemma newline_lost : comes_back [97; 10; 98] = [34; 97; 32; 98; 34].
Proof. vm_compute. reflexivity. Qed.
Lemma chars_bytes t s : chars t s -> Forall (fun c => 32 <= c) t.
Proof.
  induction 1 as [|c t s H1 H2 H3 H IH|e c t s E H IH|a b c d v t s H1 H2 H IH|a b c d v a' b' c' d' v' t s H1 H2 H3 H4 H IH]; [constructor|constructor; assumption|..].
  - constructor; [lia|]. constructor; [destruct E; lia|exact IH].
  - destruct H1 as (x & y & z & w & K1 & K2 & K3 & K4 & _). unfold hex_value in *. repeat (constructor; [lia|]). exact IH.
  - destruct H1 as (x & y & z & w & K1 & K2 & K3 & K4 & _). destruct H3 as (x' & y' & z' & w' & L1 & L2 & L3 & L4 & _). unfold hex_value in *. repeat (constructor; [lia|]). exact IH.
Qed.
Lemma tab_raw : comes_back [9] = [34; 9; 34] /\ forall reads v, ~ spells reads [34; 9; 34] v.
Proof.
  split; [vm_compute; reflexivity|]. intros reads v H. inversion H as [| | |t w N R|t s C E1 E2|w B E|t l B E|w B E|t l B E]; subst.
  - destruct N as (m & i & f & e & E & M & (I1 & I2) & _). destruct M as [->| ->]; cbn [app] in E; [|discriminate]. destruct i as [|c i]; [contradiction|]. injection E as <- _. inversion I2; lia.
  - change [9; 34] with ([9] ++ [34]) in E1. apply app_inj_tail in E1. destruct E1 as [-> _]. apply chars_bytes in C. inversion C; lia.
Qed.
Lemma reserved_breaks : comes_back [239; 183; 149] = [34; 34; 34] /\ forall reads v, ~ spells reads [34; 34; 34] v.
Proof.
  split; [vm_compute; reflexivity|]. intros reads v H. inversion H as [| | |t w N R|t s C E1 E2|w B E|t l B E|w B E|t l B E]; subst.
  - destruct N as (m & i & f & e & E & M & (I1 & I2) & _). destruct M as [->| ->]; cbn [app] in E; [|discriminate]. destruct i as [|c i]; [contradiction|]. injection E as <- _. inversion I2; lia.
  - change [34; 34] with ([34] ++ [34]) in E1. apply app_inj_tail in E1. destruct E1 as [-> _]. inversion C; subst; lia.
Qed.
(** A string with a reserved codepoint can pass as two strings. *)
Lemma reserved_forges : comes_back ([97; 239; 183; 149; 239; 183; 151; 239; 183; 148; 98]) = [34; 97; 34; 44; 34; 98; 34].
Proof. vm_compute. reflexivity. Qed.
Lemma ligature_replaced : prepared (encode [65018]) = encode [65533]. Proof. vm_compute. reflexivity. Qed.
Lemma encoded_twice : json_translate (json_encode [34]) = [34; 92; 92; 92; 34; 34] /\ chars [92; 92; 92; 34] [92; 34] /\ comes_back [34] = [34; 92; 34; 34].
Proof.
  split; [vm_compute; reflexivity|]. split; [|vm_compute; reflexivity]. apply (Chars_escape 92 92); [constructor|]. apply (Chars_escape 34 34); [constructor|]. constructor.
Qed.
