(** C44: building a single-file index. *)
From Verif Require Import Base HopperModel GclSpec Bytes CodecModel CodecSpec PostingModel PostingSpec ShardModel ShardSpec ShardProofs HazelSpec HazelWitness SingleModel SingleSpec SingleWitness BuildModel BuildSpec BuildTop BuildWitness.
From Verif Require TokenModel TokenSpec TextSpec TextBack FileSpec ChunkModel ChunkSpec ChunkWitness PlainModel PlainSpec.

(** C44: whatever texts and annotations a builder is given, in whatever batches it writes
    them, each text gets the addresses after those of the texts before it, the finished
    index finds under every feature exactly its words at their addresses and its
    annotations, and its text reads back.  Asked of the caller: annotations of a feature in
    the order of their starts unless they fit one batch, none inside another, none with the
    feature of a word, and not annotations without any word (see the refutations). *)
Theorem C44_found : forall cp cf tsort sort tok_limit ann_limit c cs held tokenize skip stop starts l d,
  stores_lists cp cf -> (forall l, tok_sorted l (tsort l)) -> (forall l, start_sorted l (sort l)) ->
  ChunkSpec.suitable c cs -> TextSpec.tokenizer_laws tokenize skip stop starts ->
  let W := PlainSpec.all_words tokenize starts [] (texts l) in let N := notes_of l in
  Forall (PlainSpec.text_ok stop) (texts l) -> len (PlainSpec.whole (texts l)) <= maxf ->
  Forall word_ok W -> Forall note_ok N -> decent N -> separate W N ->
  (in_order N \/ (length N <= ann_limit)%nat) -> (W <> [] \/ forall f x, ~ taken N f x) -> Z.of_nat (length W + length N) <= 288230376151711743 ->
  tidy d ->
  exists r fs, build cp cf tsort sort tok_limit ann_limit c cs held tokenize l = Ok (r, fs) /\ ranges r = PlainSpec.ranges_of starts [] (texts l) /\
    (d Idx = Some (f_idx fs) -> d Pst = Some (f_pst fs) -> len (f_pst fs) <= maxf ->
     exists ix, kept_in cp cf ix d /\ index_ok ix /\ serves cp cf d ix /\ (forall f, eqs (stored_in ix f) (found W N f)) /\ forall f, fiver_count ix f <= Z.of_nat (length W + length N)) /\
    forall split la, FileSpec.cut_law starts -> PlainSpec.split_law split starts -> (forall p q, In (PlainModel.Translate p q) la -> q <= maxf) ->
      exists x, PlainModel.txt_make c cs held (f_disk fs) (f_txt fs) = Ok (Some x) /\
                PlainModel.asks c cs held skip split la x = Ok (map (PlainSpec.answers starts (PlainSpec.whole (texts l))) la).
Proof. exact (fun cp cf tsort sort tl al c cs held tokenize skip stop starts l d s t u v w => built_serves cp cf s tsort t sort u tl al c cs held tokenize skip stop starts v w l d). Qed.
Print Assumptions C44_found.
Example C44_found_ex : Forall (PlainSpec.text_ok stop) (texts work) /\ len (PlainSpec.whole (texts work)) <= maxf /\ Forall word_ok work_words /\ Forall note_ok (notes_of work) /\ decent (notes_of work) /\
  separate work_words (notes_of work) /\ in_order (notes_of work) /\ work_words <> [].
Proof. exact work_ok. Qed.
Example C44_found_ex2 : (forall l, tok_sorted l (tisort l)) /\ (forall l, start_sorted l (isort l)) /\ make 1 1 work = Ok work_files /\ ranges (fst work_files) = [(0, 1); (2, 4)] /\
  tidy work_dir /\ len (f_pst (snd work_files)) <= maxf /\ exists x, open work_dir = Some x /\
  single_vocab x = 7 /\ map (single_count x) [feat (lit "hello"); 5; 6; feat (lit "mcworld"); feat (lit "two"); 7] = [Ok 2; Ok 3; Ok 1; Ok 1; Ok 1; Ok 0].
Proof. exact (conj tisorts (conj isorts (conj (proj1 work_made) (conj (proj2 work_made) work_found)))). Qed.

(** C44 and C42: annotations committed to the index afterwards are found beside what was
    built, innermost first. *)
Theorem C44_life : forall cp cf tsort sort tok_limit ann_limit c cs held tokenize skip stop starts l d0 L d a fs r limit sort',
  stores_lists cp cf -> (forall l, tok_sorted l (tsort l)) -> (forall l, start_sorted l (sort l)) ->
  ChunkSpec.suitable c cs -> TextSpec.tokenizer_laws tokenize skip stop starts -> (forall l, start_sorted l (sort' l)) ->
  let W := PlainSpec.all_words tokenize starts [] (texts l) in let N := notes_of l in
  Forall (PlainSpec.text_ok stop) (texts l) -> len (PlainSpec.whole (texts l)) <= maxf ->
  Forall word_ok W -> Forall note_ok N -> decent N -> separate W N ->
  (in_order N \/ (length N <= ann_limit)%nat) -> (W <> [] \/ forall f x, ~ taken N f x) ->
  Forall decent L -> Z.of_nat (length W + length N + length (concat L)) <= 288230376151711743 ->
  build cp cf tsort sort tok_limit ann_limit c cs held tokenize l = Ok (r, fs) -> len (f_pst fs) <= maxf ->
  tidy d0 -> d0 Idx = Some (f_idx fs) -> d0 Pst = Some (f_pst fs) -> life cp cf sort' limit d0 L d a ->
  exists ix, serves cp cf d ix /\ forall f, eqs (stored_in ix f) (sem_inner (found W N f :: map (fun anns => taken anns f) L)).
Proof. exact (fun cp cf tsort sort tl al c cs held tokenize skip stop starts l d0 L d a fs r limit sort' s t u v w => built_life cp cf s tsort t sort u tl al c cs held tokenize skip stop starts v w l d0 L d a fs r limit sort'). Qed.
Print Assumptions C44_life.
Example C44_life_ex : decent extra /\ life wcp wcf isort 0 work_dir [extra] (exec work_dir (snd (fst extra_p) ++ fst extra_c)) (snd extra_c).
Proof. exact extra_life. Qed.

(** C44 is false of annotations without any word: they are dropped, and building succeeds. *)
Theorem C44_lost_refuted : exists l r fs, Forall (PlainSpec.text_ok stop) (texts l) /\ decent (notes_of l) /\ Forall note_ok (notes_of l) /\ in_order (notes_of l) /\
  taken (notes_of l) 5 (Iv 0 0 0) /\ make 1 1 l = Ok (r, fs) /\ f_idx fs = [] /\ f_pst fs = [].
Proof. destruct lone_lost as (A & B & C & D & E & r & fs & F). exact (ex_intro _ lone (ex_intro _ r (ex_intro _ fs (conj A (conj B (conj C (conj D (conj E F)))))))). Qed.
Print Assumptions C44_lost_refuted.

(** Annotations of a feature that are not given in the order of their starts fail an
    assertion, or not, as they fall into batches; so does an annotation with the feature of
    a word. *)
Theorem C44_order_refuted : (exists l, Forall (PlainSpec.text_ok stop) (texts l) /\ decent (notes_of l) /\ separate (PlainSpec.all_words tok starts [] (texts l)) (notes_of l) /\
    (exists r fs, make 3 3 l = Ok (r, fs)) /\ make 3 1 l = UB) /\
  exists l, Forall (PlainSpec.text_ok stop) (texts l) /\ decent (notes_of l) /\ in_order (notes_of l) /\ make 3 3 l = UB.
Proof. exact (conj (ex_intro _ mixed mixed_fails) (ex_intro _ shared shared_fails)). Qed.
Print Assumptions C44_order_refuted.
