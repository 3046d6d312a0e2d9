(** Concrete jars and dictionaries. *)
From Verif Require Import Base HopperModel ArrayDefs GclSpec Bytes CodecModel CodecSpec CodecProofs BitsProofs PostingModel PostingSpec PostingProofs PostingIO PostingWitness
  ShardModel ShardSpec TextModel HazelModel HazelSpec HazelProofs HazelMerge HazelWitness FileModel FileSpec FileProofs.
From Verif Require RecipeModel.

(** The shards of any index in order, with the compressors a shard uses for lists. *)
Lemma index_pickles ct t ix a b : index_ok ix -> (forall f, fiver_count ix f <= 288230376151711743) -> is_addr a -> is_addr b ->
  0 <= extra ct (len t) -> len t + extra ct (len t) <= maxf -> lossless ct t ->
  can_pickle post_compressor (tfdf_compressor false) ct (Fiver t ix a b).
Proof.
  intros O C Ha Hb E0 Em L. destruct (index_writable _ _ ix wstores O C) as [_ W]. repeat (split; [assumption|]). cbn [f_index].
  eapply Forall_impl; [|exact W]. cbn beta. intros r (H1 & H2 & l & H3 & _). eauto.
Qed.
Definition wjar : fiver := Fiver (lit "one two three four") [mk 9 [Iv 14 14 0]; mk 7 [Iv 1 1 0; Iv 6 6 0; Iv 9 12 3]] 3 5.
Lemma wjar_ok : can_pickle post_compressor (tfdf_compressor false) null_compressor wjar.
Proof.
  assert (K : can_pickle post_compressor (tfdf_compressor false) null_compressor (Fiver (lit "one two three four") [mk 7 [Iv 1 1 0; Iv 6 6 0; Iv 9 12 3]; mk 9 [Iv 14 14 0]] 3 5)).
  { apply index_pickles; try (cbn; unfold is_addr, minf, maxf; lia).
    - split; [cbn; lia|]. repeat (constructor; [row|]). constructor.
    - intros f. unfold fiver_count. cbn [find_posting mk fst]. destruct (7 =? f); [vm_compute; discriminate|]. destruct (9 =? f); vm_compute; discriminate.
    - apply null_lossless. vm_compute. repeat (constructor; [split; [discriminate|reflexivity]|]). constructor. }
  destruct K as (A & B & C & D & E & F). repeat (split; [assumption|]). cbn [f_index wjar] in *. inversion F as [|? ? F1 F2]; subst. inversion F2 as [|? ? F3 _]; subst. constructor; [exact F3|]. constructor; [exact F1|constructor].
Qed.
Definition wjar_bytes : bytes := match pickle post_compressor (tfdf_compressor false) null_compressor wjar with Ok b => b | _ => [] end.
Definition wjar_back : fiver := match unpickle post_compressor (tfdf_compressor false) null_compressor wjar_bytes with Ok (Some w) => w | _ => Fiver [] [] 0 0 end.
Lemma wjar_says : len wjar_bytes = 161 /\ f_text wjar_back = lit "one two three four" /\ map fst (f_index wjar_back) = [7; 9] /\ f_start wjar_back = 3 /\ f_end wjar_back = 5 /\
  fiver_count (f_index wjar_back) 7 = 3.
Proof. vm_compute. repeat split; reflexivity. Qed.

Definition wblobs : list blob := [Blob (lit "idx") 120 4000; Blob (lit "txt") 4120 77; Blob (lit "idx") 0 maxf].
Definition wdna : bytes := lit "[" ++ [10] ++ lit "  warren:hazel," ++ [10] ++ lit "]" ++ [10].
Lemma wblobs_fit : Forall blob_fits wblobs /\ len wblobs <= maxf.
Proof. split; [|vm_compute; discriminate]. unfold blob_fits. repeat constructor; vm_compute; discriminate. Qed.
Lemma wdna_ok : no_empty_line wdna.
Proof.
  exists [lit "["; lit "  warren:hazel,"; lit "]"]. split; [reflexivity|].
  repeat (constructor; [split; [discriminate|vm_compute; intuition discriminate]|]). constructor.
Qed.
Lemma wfile_says : exists m, read_blob_dictionary (file_head wdna ++ blob_dictionary wblobs ++ lit "tail") = Ok (Some m) /\ length m = 2%nat /\
  RecipeModel.get (lit "idx") m = Some (Blob (lit "idx") 0 maxf) /\ RecipeModel.get (lit "txt") m = Some (Blob (lit "txt") 4120 77) /\ RecipeModel.get (lit "dct") m = None.
Proof. eexists. split; [vm_compute; reflexivity|]. vm_compute. auto. Qed.
(** A file that is no dictionary at all: a configuration text with an empty line hides
    what follows. *)
Lemma empty_line_hides : burrow_dna (file_head (lit "a" ++ [10; 10] ++ lit "b" ++ [10])) = Some (lit "a" ++ [10]).
Proof. vm_compute. reflexivity. Qed.
(** A jar cut inside its text. *)
Lemma wjar_cut : exists k, (k < length wjar_bytes)%nat /\ unpickle post_compressor (tfdf_compressor false) null_compressor (firstn k wjar_bytes) = UB.
Proof. exists 40%nat. vm_compute. split; [lia|reflexivity]. Qed.
