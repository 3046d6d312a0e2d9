(** C28 and C43: the text of a single-file index. *)
From Verif Require Import Base Bytes CodecModel CodecSpec ChunkModel ChunkSpec ChunkWitness TokenModel TokenSpec PlainModel PlainSpec PlainTop PlainRange PlainWitness.
From Verif Require Import Utf8Model.
From Verif Require TextSpec FileSpec TextBack Utf8Laws.

(** C28: whatever was asked before, translating a range gives the text from its first token
    to the token after it, and the number of tokens is right: for every text, every text
    store that serves it, every tokenizer with the laws of C26 and every sequence of
    questions, answered with the help of records of every 1024th token and of the memo of
    the last answer.  The text has no NUL where tokens are counted. *)
Theorem C28_reading : forall c cs held tokenize skip stop starts split d T records l,
  TextSpec.tokenizer_laws tokenize skip stop starts -> FileSpec.cut_law starts -> split_law split starts ->
  serves c cs held d T -> len T <= maxf -> recorded starts T records ->
  (In Tokens l -> ~ In 0 T) -> (forall p q, In (Translate p q) l -> q <= maxf) ->
  exists x, txt_make c cs held d records = Ok (Some x) /\
    asks c cs held skip split l x = Ok (map (answers starts T) l).
Proof. exact reader_ok. Qed.
Print Assumptions C28_reading.

(** The two tokenizers have these laws. *)
Theorem C28_laws : (forall xml, FileSpec.cut_law (TextBack.ascii_starts xml) /\ split_law (TokenModel.split xml) (TextBack.ascii_starts xml)) /\
  FileSpec.cut_law Utf8Laws.utf8_starts /\ split_law usplit Utf8Laws.utf8_starts.
Proof. exact reader_laws. Qed.
Print Assumptions C28_laws.
Example C28_reading_ex : serves backwards 4000 never (fst sample_files) sample /\ recorded starts sample (snd sample_files) /\
  length (snd sample_files) = 2%nat /\ ~ In 0 sample /\
  map (answers starts sample) sample_asks =
    [Said (lit "ab cd-ab cd-"); Said (lit "ab cd-ab "); Said (lit "cd-"); Counted 1202; Said (lit "ab cd-");
     Said (concat (repeat (lit "ab cd-") 50) ++ lit "the End" ++ [10]); Said []].
Proof. exact sample_case. Qed.

(** C43: the texts given to a builder, and then those of all committed transactions, get
    consecutive addresses in the order they were added, their tokens are handed to the
    index at these addresses, and translating gives them back.  Missing: texts that
    contain a NUL, or leave a token open; words with several features at an address that
    is a multiple of 1024 (both refuted below); what C27 leaves out. *)
Theorem C43_life_partial : forall c cs held tokenize skip stop starts split ts l, suitable c cs ->
  TextSpec.tokenizer_laws tokenize skip stop starts -> FileSpec.cut_law starts -> split_law split starts -> features_ok tokenize ->
  Forall (text_ok stop) ts -> len (whole ts) <= maxf -> all_permitted c cs tokenize stop starts l (Burrow ts None false) ->
  exists b b' d records, builder_make c cs held = Ok b /\
    add_all c cs held tokenize ts b = Ok (ranges_of starts [] ts, b') /\ b_tokens b' = all_words tokenize starts [] ts /\
    finalize c cs held b' = Ok (d, records) /\
    exists a, calls c cs held tokenize split l (appender_make d records false) = Ok (fst (burrow_run tokenize starts l (Burrow ts None false)), a) /\
    let end_ := snd (burrow_run tokenize starts l (Burrow ts None false)) in
    (open end_ = None -> forall la, (forall p q, In (Translate p q) la -> q <= maxf) ->
     exists x, txt_make c cs held (disk_of a) (a_txt a) = Ok (Some x) /\
               asks c cs held skip split la x = Ok (map (answers starts (whole (kept end_))) la)).
Proof. exact life_ok. Qed.
Print Assumptions C43_life_partial.
Example C43_life_ex : suitable backwards 100 /\ features_ok tok /\ Forall (text_ok stop) first_texts /\
  all_permitted backwards 100 tok stop starts story (Burrow first_texts None false) /\
  burrow_run tok starts story (Burrow first_texts None false) =
    ([Yes true; Range (Some (1205, 1206)) [(feat (lit "three"), 1205); (feat (lit "four"), 1206)]; Yes true; Nothing; Nothing;
      Yes true; Range (Some (1207, 1207)) [(feat (lit "gone"), 1207)]; Nothing;
      Yes true; Yes false; Range (Some (1207, 1208)) [(feat (lit "five"), 1207); (feat (lit "six"), 1208)]; Range (Some (1210, 1209)) []; Yes true; Nothing; Range None []],
     Burrow (first_texts ++ [lit "three four"; lit "  five six"; lit "- -"]) None false) /\
  ranges_of starts [] first_texts = [(0, 1); (3, 2); (2, 1201); (1202, 1204)] /\
  map (answers starts (whole (first_texts ++ [lit "three four"; lit "  five six"; lit "- -"]))) [Translate 1204 1207; Translate 1205 1206; Translate 1208 maxf; Tokens] =
    [Said (lit "hello" ++ [10] ++ lit "three four" ++ [10] ++ lit "  five "); Said (lit "three four" ++ [10] ++ lit "  "); Said (lit "six" ++ [10] ++ lit "- -" ++ [10]); Counted 1209].
Proof. exact (conj (backwards_suitable 100 eq_refl) (conj tok_features (conj first_ok (conj story_ok (conj (proj1 story_told) (conj (proj2 story_told) story_answers)))))). Qed.

(** C43: the range that adding a text returns translates to that text, from its first
    token, and to the bytes before the first token of what was added later. *)
Theorem C43_range : forall tokenize skip stop starts, TextSpec.tokenizer_laws tokenize skip stop starts ->
  forall ts t us, Forall (text_ok stop) (ts ++ t :: us) -> starts (TextSpec.closed t) <> [] ->
  answers starts (whole (ts ++ t :: us)) (Translate (fst (range_of starts ts t)) (snd (range_of starts ts t))) =
  Said (skipn (Z.to_nat (lead starts (TextSpec.closed t))) (TextSpec.closed t) ++ firstn (Z.to_nat (lead starts (whole us))) (whole us)).
Proof. exact range_text. Qed.
Print Assumptions C43_range.
Example C43_range_ex : Forall (text_ok stop) ([lit "one"; lit "- two Three"; lit " (four)"]) /\ starts (TextSpec.closed (lit "- two Three")) <> [] /\
  answers starts (whole [lit "one"; lit "- two Three"; lit " (four)"]) (Translate 1 2) = Said (lit "two Three" ++ [10] ++ lit " (").
Proof. exact range_case. Qed.

(** C43: with the UTF-8 tokenizer no word has several features. *)
Theorem C43_utf8 : forall f, (forall t, 0 <= f t) -> features_ok (utokenize f) /\ forall t a, single (utokenize f) t a.
Proof. exact (fun f Hf => conj (utf8_features f Hf) (fun t a => utf8_single f t a Hf)). Qed.
Print Assumptions C43_utf8.

(** C43 is false of texts that contain a NUL: a later transaction is given addresses
    that are taken. *)
Theorem C43_nul_refuted : exists t u, Forall is_byte t /\ TextSpec.ends_well stop t /\ text_ok stop u /\ range_of starts [t] u = (3, 3) /\
  exists x, after [t] [Transaction; Text u; Ready; Commits] = Ok ([Yes true; Range (Some (1, 1)) [(feat u, 1)]; Yes true; Nothing], Some x).
Proof. exact nul_found. Qed.
Print Assumptions C43_nul_refuted.

(** C43 is false of a word with upper case letters that gets an address that is a multiple
    of 1024 in a transaction: afterwards the index cannot be opened; or, at address 0,
    translating divides by zero. *)
Theorem C43_mixed_refuted : (exists t u, text_ok stop t /\ text_ok stop u /\ exists r, after [t] [Transaction; Text u; Ready; Commits] = Ok (r, None)) /\
  exists t u, text_ok stop t /\ text_ok stop u /\ after [t] [Transaction; Text u; Ready; Commits] = UB.
Proof. exact mixed_found. Qed.
Print Assumptions C43_mixed_refuted.
