(** C26: the operations of the ASCII tokenizer agree. *)
From Verif Require Import Base Bytes TokenModel TokenSpec TokenProofs LexProofs LexWords TextSpec TextBack TextWitness.

(** C26 for the ASCII tokenizer, with and without markup: one list of words explains
    tokenize, split and skip.  Missing from the full property: the UTF-8 tokenizer (PropsUtf8.v). *)
Theorem C26_ascii_agree_partial : forall featurize xml s, exists ws,
  laid_out 0 ws (Z.of_nat (length s)) /\
  split xml s = map w_term ws /\
  reported featurize 0 ws (tokenize featurize xml s) /\
  (forall n, skip xml s n = match nth_error ws (Z.to_nat n) with Some w => w_offset w | None => Z.of_nat (length s) end).
Proof. exact ascii_agree. Qed.
Print Assumptions C26_ascii_agree_partial.
(** C26, ASCII without markup: the words are exactly the longest runs of letters and
    digits, indexed by their lower case form and, when mixed, as written. *)
Theorem C26_ascii_words_partial : forall featurize s, exists ws,
  laid_out 0 ws (Z.of_nat (length s)) /\
  (forall o m, (exists t, In (Word o m t) ws) <-> is_word s o m) /\
  (forall f a o m, In (Token f a o m) (tokenize featurize false s) <->
     exists w, 0 <= a /\ nth_error ws (Z.to_nat a) = Some w /\ o = w_offset w /\ m = w_length w /\ word_feature featurize s w f) /\
  (forall n, skip false s n = match nth_error ws (Z.to_nat n) with Some w => w_offset w | None => Z.of_nat (length s) end).
Proof. exact ascii_words. Qed.
Print Assumptions C26_ascii_words_partial.
(** C26, what storing text relies on: tokenizing from the start of a token finds the
    tokens from there on, and texts joined at a stop are tokenized independently. *)
Theorem C26_ascii_laws_partial : forall featurize xml, tokenizer_laws (tokenize featurize xml) (skip xml) (ascii_ends xml) (ascii_starts xml).
Proof. exact ascii_laws. Qed.
Print Assumptions C26_ascii_laws_partial.
Example C26_ex : split false (lit "The McDonald's 2nd") = [lit "the"; lit "McDonald"; lit "s"; lit "2nd"] /\
  tok1 (lit "The McDonald's") = [Token (feat1 (lit "the")) 0 0 3; Token (feat1 (lit "McDonald")) 1 4 8; Token (feat1 (lit "mcdonald")) 1 4 8; Token (feat1 (lit "s")) 2 13 1] /\
  skip false (lit "The McDonald's 2nd") 3 = 15 /\
  split true (lit "<DOC id=4>R&amp;D <b x</DOC>") = [lit "<DOC>"; lit "r"; lit "d"; lit "<b>"] /\
  skip true (lit "<DOC id=4>R&amp;D <b x</DOC>") 3 = 18.
Proof. exact tokens_ex. Qed.
