(** Property theorems C23 and C24: Hazel index files, and merging them with any number
    of crashes.  Vocabulary: HazelSpec.v, ShardSpec.v, GclSpec.v. *)
From Verif Require Import Base HopperModel ArrayDefs GclSpec Bytes CodecModel CodecSpec PostingModel PostingSpec PostingWitness
  ShardModel ShardSpec HazelModel HazelSpec HazelProofs HazelMerge HazelWitness.

(** C24: an index written into a file, wherever it stands in it, answers every lookup
    of every feature as the index in memory does. *)
Theorem C24_lookup : forall cp cf ix, writable cp cf ix ->
  exists blob, (forall before, write_idx_blob cp cf before ix = Ok (before ++ blob, len before, len blob)) /\
    (len blob <= maxf -> forall before after, exists h,
       load (before ++ blob ++ after) (len before) (len blob) = Ok (Some h) /\ answers_as cp cf h ix).
Proof. exact blob_answers. Qed.
Print Assumptions C24_lookup.
(** C24: with the compressors a shard uses, every index a commit or a merge makes. *)
Theorem C24_default_compressors : forall ix, index_ok ix -> (forall f, fiver_count ix f <= 288230376151711743) ->
  writable post_compressor (tfdf_compressor false) ix.
Proof. exact (fun ix => index_writable _ _ ix wstores). Qed.
Print Assumptions C24_default_compressors.
Example C24_ex : writable wcp wcf wix1 /\ index_ok wix1 /\ len (wfile wix1) = 274.
Proof. split; [exact wwritable|]. split; [exact (Forall_inv wix_ok)|vm_compute; reflexivity]. Qed.

(** C23: whatever crashes came before, and whatever part of the checkpoint files they
    left, the merge ends and writes the same blob: the one of an index that holds the
    innermost erased ranges, of every other feature the innermost annotations that are
    not inside one of them, and the text chunks moved. *)
Theorem C23_resume : forall cp cf chunk ixs hs lengths, stores_lists cp cf -> Forall index_ok ixs ->
  Forall2 (shelved cp cf) ixs hs -> null_feature <> chunk -> chunks_apart chunk ixs -> merge_fits chunk ixs lengths ->
  exists rows blob, index_ok rows /\ (forall f, fiver_count rows f <= bigwig_count ixs f) /\
    (forall x, stored_in rows null_feature x <-> innermost_of ixs null_feature x) /\
    (forall f x, f <> null_feature -> f <> chunk ->
       (stored_in rows f x <-> sem_nin (innermost_of ixs f) (innermost_of ixs null_feature) x)) /\
    (forall x, stored_in rows chunk x <-> moved_chunks chunk ixs lengths 0 x) /\
    (forall before, write_idx_blob cp cf before rows = Ok (before ++ blob, len before, len blob)) /\
    (exists acts, idx_merge cp cf chunk hs lengths (Files None None) = Ok (Some (acts, blob))) /\
    (len blob <= maxf -> forall s, attempts cp cf chunk hs lengths s ->
       exists acts, idx_merge cp cf chunk hs lengths s = Ok (Some (acts, blob))).
Proof. exact resume. Qed.
Print Assumptions C23_resume.
Example C23_ex : stores_lists wcp wcf /\ Forall index_ok [wix1; wix2] /\ Forall2 (shelved wcp wcf) [wix1; wix2] whs /\
  null_feature <> wchunk /\ chunks_apart wchunk [wix1; wix2] /\ merge_fits wchunk [wix1; wix2] wlen.
Proof.
  split; [exact wstores|]. split; [exact wix_ok|]. split; [exact wshelved|]. split; [discriminate|]. split; [exact wapart|exact wfits].
Qed.
Example C23_ex_crash : attempts wcp wcf wchunk whs wlen wcrash /\ wcrash <> exec (Files None None) wacts /\ wcrash <> Files None None /\
  exists acts, idx_merge wcp wcf wchunk whs wlen wcrash = Ok (Some (acts, wblob)) /\ acts <> wacts /\ len wblob = 313.
Proof. exact wresume. Qed.
Example C23_ex_merged : exists h, load wblob 0 (len wblob) = Ok (Some h) /\
  hazel_vocab h = 4 /\ hazel_count h 0 = Ok 1 /\ hazel_count h 7 = Ok 3 /\ hazel_count h 9 = Ok 1 /\ hazel_count h 8 = Ok 0 /\ hazel_count h 20 = Ok 2 /\
  (exists p, hazel_posting wcp wcf h 7 = Ok (Some p) /\ contents p = Ok [Iv 1 1 0; Iv 9 12 3; Iv 15 15 0]) /\
  (exists p, hazel_posting wcp wcf h 20 = Ok (Some p) /\ contents p = Ok [Iv 0 12 0; Iv 13 30 60]).
Proof. exact wmerged. Qed.
