(** C32, C37: the files of a shard. *)
From Verif Require Import Base HopperModel Bytes CodecModel CodecSpec PostingModel PostingSpec ShardModel ShardSpec HazelModel HazelSpec FileModel FileSpec FileProofs FileWitness.
From Verif Require RecipeModel.

(** C37: a shard that is written to a jar and loaded from it has the same text,
    sequence numbers and lists. *)
Theorem C37_pickle : forall cp cf ct w, can_pickle cp cf ct w ->
  exists jar w', pickle cp cf ct w = Ok jar /\ unpickle cp cf ct jar = Ok (Some w') /\ same_shard w w' /\
    storage_estimate w' = storage_estimate (Fiver (f_text w) (in_order (f_index w)) (f_start w) (f_end w)).
Proof. exact pickle_back. Qed.
Print Assumptions C37_pickle.
Example C37_ex : can_pickle post_compressor (tfdf_compressor false) null_compressor wjar.
Proof. exact wjar_ok. Qed.
Example C37_ex_back : len wjar_bytes = 161 /\ f_text wjar_back = lit "one two three four" /\ map fst (f_index wjar_back) = [7; 9] /\ f_start wjar_back = 3 /\ f_end wjar_back = 5 /\
  fiver_count (f_index wjar_back) 7 = 3.
Proof. exact wjar_says. Qed.
(** C37: with the compressors a shard uses for its lists, every index a commit or a merge
    makes can be pickled; the text compressor has to be lossless. *)
Theorem C37_default_compressors : forall ct t ix a b, index_ok ix -> (forall f, fiver_count ix f <= 288230376151711743) -> is_addr a -> is_addr b ->
  0 <= extra ct (len t) -> len t + extra ct (len t) <= maxf -> lossless ct t ->
  can_pickle post_compressor (tfdf_compressor false) ct (Fiver t ix a b).
Proof. exact index_pickles. Qed.
Print Assumptions C37_default_compressors.
(** C37: a jar cut short inside its text is not recognised: what is read of the text is
    decompressed together with memory that was never written. *)
Theorem C37_truncated_refuted : exists k, (k < length wjar_bytes)%nat /\ unpickle post_compressor (tfdf_compressor false) null_compressor (firstn k wjar_bytes) = UB.
Proof. exact wjar_cut. Qed.
Print Assumptions C37_truncated_refuted.

(** C32: reading back a dictionary gives, for every name, the last blob with it,
    whatever follows in the file. *)
Theorem C32_dictionary : forall dna bs rest, no_empty_line dna -> Forall blob_fits bs -> len bs <= maxf ->
  exists m, read_blob_dictionary (file_head dna ++ blob_dictionary bs ++ rest) = Ok (Some m) /\ forall name, RecipeModel.get name m = last_named name bs.
Proof. exact file_dictionary. Qed.
Print Assumptions C32_dictionary.
(** C32: no file other than such a one is read: there is no undefined behaviour, and what
    is accepted starts with a configuration text and a dictionary. *)
Theorem C32_foreign : forall file, Forall is_byte file ->
  read_blob_dictionary file = Ok None \/
  exists dna bs rest m, read_blob_dictionary file = Ok (Some m) /\ file = file_head dna ++ blob_dictionary bs ++ rest /\
    no_empty_line dna /\ Forall blob_fits bs /\ len bs <= maxf /\ forall name, RecipeModel.get name m = last_named name bs.
Proof. exact file_foreign. Qed.
Print Assumptions C32_foreign.
(** C32: a file cut anywhere before the end of its dictionary is rejected. *)
Theorem C32_truncated : forall dna bs (k : nat), no_empty_line dna -> Forall blob_fits bs -> len bs <= maxf ->
  (k < length (file_head dna ++ blob_dictionary bs))%nat -> read_blob_dictionary (firstn k (file_head dna ++ blob_dictionary bs)) = Ok None.
Proof. exact file_short. Qed.
Print Assumptions C32_truncated.
(** C32: the configuration text of the file is read back by Warren::make and skipped by
    Hazel::make. *)
Theorem C32_dna : forall dna rest, no_empty_line dna ->
  burrow_dna (file_head dna ++ rest) = Some dna /\ skip_dna (file_head dna ++ rest) = Some rest.
Proof. exact head_back. Qed.
Print Assumptions C32_dna.
Example C32_ex : Forall blob_fits wblobs /\ len wblobs <= maxf /\ no_empty_line wdna.
Proof. split; [exact (proj1 wblobs_fit)|]. split; [exact (proj2 wblobs_fit)|exact wdna_ok]. Qed.
Example C32_ex_read : exists m, read_blob_dictionary (file_head wdna ++ blob_dictionary wblobs ++ lit "tail") = Ok (Some m) /\ length m = 2%nat /\
  RecipeModel.get (lit "idx") m = Some (Blob (lit "idx") 0 maxf) /\ RecipeModel.get (lit "txt") m = Some (Blob (lit "txt") 4120 77) /\ RecipeModel.get (lit "dct") m = None.
Proof. exact wfile_says. Qed.
