(** C26 and C25 for the UTF-8 tokenizer. *)
From Coq Require Import Sorting.Sorted.
From Verif Require Import Base Bytes CodecModel PostingModel TokenModel TokenSpec TextModel TextSpec FileSpec TextWitness Utf8Table Utf8Model Utf8Spec Utf8Proofs Utf8Laws Utf8Words Utf8Witness.

(** C26 for the UTF-8 tokenizer and every byte string, well formed or not: one list of
    words explains tokenize, split and skip; split gives its terms up to a NUL.  With a
    NUL in the text split and tokenize do not agree (C26_utf8_nul_refuted). *)
Theorem C26_utf8_agree_partial : forall featurize s, exists ws,
  laid_out 0 ws (Z.of_nat (length s)) /\
  (exists rest, map w_term ws = usplit s ++ rest /\ (~ In 0 s -> rest = [])) /\
  reported featurize 0 ws (utokenize featurize s) /\
  (forall n, uskip s n = match nth_error ws (Z.to_nat n) with Some w => w_offset w | None => Z.of_nat (length s) end).
Proof. exact utf8_agree. Qed.
Print Assumptions C26_utf8_agree_partial.
(** C26, encoded text: the tokens are exactly the longest runs of letters and the single
    symbols, in order, at the offsets of their encodings, indexed by their folded form. *)
Theorem C26_utf8_words : forall featurize cs, Forall codepoint cs -> exists ws : list (nat * nat),
  (forall i n, In (i, n) ws <-> is_term cs i n) /\ StronglySorted (fun x y => (fst x < fst y)%nat) ws /\
  length (utokenize featurize (encode cs)) = length ws /\
  forall a i n, nth_error ws a = Some (i, n) -> exists ds, Forall2 folds_to (part cs i n) ds /\
    nth_error (utokenize featurize (encode cs)) a =
      Some (Token (featurize (encode ds)) (Z.of_nat a) (Z.of_nat (length (encode (firstn i cs)))) (Z.of_nat (length (encode (part cs i n))))).
Proof. exact utf8_words. Qed.
Print Assumptions C26_utf8_words.
(** C26, what storing text relies on, so that C25, C39 and C17 hold with this tokenizer for
    all texts that are complete, as encoded texts are, followed by a separator. *)
Theorem C26_utf8_laws_partial : forall featurize, tokenizer_laws (utokenize featurize) uskip utf8_ends utf8_starts.
Proof. exact utf8_laws. Qed.
Print Assumptions C26_utf8_laws_partial.
Theorem C26_utf8_cut : cut_law utf8_starts.
Proof. exact utf8_cut. Qed.
Print Assumptions C26_utf8_cut.
Theorem C26_utf8_complete : forall cs, Forall codepoint cs -> complete (encode cs) /\ Forall is_byte (encode cs).
Proof. exact encode_complete. Qed.
Print Assumptions C26_utf8_complete.
(** C26 with a NUL in the text: split misses words. *)
Theorem C26_utf8_nul_refuted : exists s, usplit s = [lit "a"] /\ map t_feature (utok s) = [feat1 (lit "a"); feat1 (lit "b")] /\ s = [97; 0; 98].
Proof. exact nul_hides. Qed.
Print Assumptions C26_utf8_nul_refuted.
(** C25 for a text whose last codepoint is cut off: the next text does not come back. *)
Theorem C25_cut_off_refuted : exists es t p q, es = [Append [97; 195]; Append t] /\
  snd (append utok 99 t (draft_after utok 99 [Append [97; 195]])) = (p, q) /\ p <= q /\
  read_back utok uskip es 0 [(p - staging, q - staging)] = Ok [[]] /\ t = lit "b".
Proof. exact cut_off_swallows. Qed.
Print Assumptions C25_cut_off_refuted.
Example C26_utf8_ex : (Forall codepoint cs1 /\ encode cs1 = text1) /\
  (usplit text1 = [[195; 164; 114; 103; 101; 114]; [226; 152; 131]; [120]] /\
   utok text1 = [Token (feat1 [195; 164; 114; 103; 101; 114]) 0 0 6; Token (feat1 [226; 152; 131]) 1 7 3; Token (feat1 [120]) 2 10 1] /\
   uskip text1 2 = 10 /\
   utok [65; 240; 159; 98] = [Token (feat1 [97]) 0 0 1; Token (feat1 [98]) 1 3 1] /\
   usplit [65; 240; 159; 98] = [[97]; [98]]) /\
  ends_well utf8_ends text1 /\ Forall (fun k => t_feature k <> 99) (utok text1) /\ utf8_starts text1 = [0; 7; 10].
Proof. exact (conj codepoints1 (conj utokens_ex text1_ends)). Qed.
