(** C27: the chunked text store of a single-file index. *)
From Verif Require Import Base Bytes CodecModel CodecSpec ChunkModel ChunkSpec ChunkTop ChunkWitness.

(** C27: for every lossless compressor, every chunk size, whatever the stream holds back in
    its buffer, and every history of appends, reads, transactions and reopenings, the store
    answers as a flat file would: reads return its bytes, aborting goes back to the text at
    the beginning of the transaction.  Missing: beginning a transaction on an empty store
    or after appends that were not flushed, closing with a transaction open, and aborting
    unflushed appends when a longer chunk can compress to fewer bytes. *)
Theorem C27_flat_file_partial : forall c cs held l, suitable c cs -> all_allowed c cs l (Flat [] None false) ->
  exists w w', opened c cs held blank = Ok w /\
    run c cs held l w = Ok (fst (flat_run l (Flat [] None false)), w').
Proof. exact (fun c cs held l s => flat_file c cs held (proj1 s) (proj1 (proj2 s)) (proj2 (proj2 s)) l). Qed.
Print Assumptions C27_flat_file_partial.
Example C27_flat_file_ex : suitable null_compressor 4 /\ all_allowed null_compressor 4 story (Flat [] None false) /\
  nth 12 (fst (flat_run story (Flat [] None false))) Done = Bytes [1; 2; 3; 4; 5; 6; 7; 8; 9; 10; 20; 21; 22; 23; 24; 25].
Proof. exact (conj (null_suitable 4 eq_refl) (conj story_allowed eq_refl)). Qed.

(** C27: a program that dies during any call, at any operation on the files, leaves a store
    in which the text of the last commit can be read, and, if it died while committing,
    possibly the new text instead.  Recovery, itself interrupted any number of times, then
    gives a store that behaves like a flat file with that text.  Missing: as above, and
    text appended outside transactions. *)
Theorem C27_crash_partial : forall c cs held l e w0 a w b w' os d1, suitable c cs ->
  all_allowed c cs l (Flat [] None false) -> allowed c cs e (snd (flat_run l (Flat [] None false))) ->
  guarded e (snd (flat_run l (Flat [] None false))) ->
  opened c cs held blank = Ok w0 -> run c cs held l w0 = Ok (a, w) -> run1 c cs held e w = Ok (b, w') ->
  done (s_ w') = done (s_ w) ++ os -> crashed (dk (s_ w)) os d1 ->
  exists t, (t = committed (snd (flat_run l (Flat [] None false))) \/
             (e = Commit /\ t = text (snd (flat_run l (Flat [] None false))))) /\
    shows c cs held d1 t /\ (exists ops, recover c cs false d1 = Ok ops) /\
    forall d2, recovers c cs false d1 d2 -> serves c cs held d2 t.
Proof. exact (fun c cs held l e w0 a w b w' os d1 s => crash_safe c cs held (proj1 s) (proj1 (proj2 s)) (proj2 (proj2 s)) l e w0 a w b w' os d1). Qed.
Print Assumptions C27_crash_partial.
Example C27_crash_ex : all_allowed null_compressor 4 before (Flat [] None false) /\ guarded Commit (snd (flat_run before (Flat [] None false))) /\
  committed (snd (flat_run before (Flat [] None false))) = [1; 2; 3; 4; 5] /\ text (snd (flat_run before (Flat [] None false))) = [1; 2; 3; 4; 5; 6; 7] /\
  opened null_compressor 4 never blank = Ok open0 /\ (exists a, run null_compressor 4 never before open0 = Ok (a, at_crash)) /\
  run1 null_compressor 4 never Commit at_crash = Ok (Flag true, after) /\ done (s_ after) = done (s_ at_crash) ++ commit_ops /\
  commit_ops = [WriteAt 4 [5; 6; 7]; MapLast 7; RmTemp; RmLimits; RmLock] /\
  crashed (dk (s_ at_crash)) commit_ops torn /\ limits torn = Some (2, [5]).
Proof. exact crash_case. Qed.

(** C27: a commit that was ready, everything being flushed, can always be completed by
    recovery, wherever the program died and however often recovery is interrupted. *)
Theorem C27_ready : forall c cs held l w0 a w b w' os d1 d2, suitable c cs ->
  all_allowed c cs l (Flat [] None false) -> unflushed (snd (flat_run l (Flat [] None false))) = false ->
  opened c cs held blank = Ok w0 -> run c cs held l w0 = Ok (a, w) -> run1 c cs held Commit w = Ok (b, w') ->
  done (s_ w') = done (s_ w) ++ os -> crashed (dk (s_ w)) os d1 -> recovers c cs true d1 d2 ->
  serves c cs held d2 (text (snd (flat_run l (Flat [] None false)))).
Proof. exact (fun c cs held l w0 a w b w' os d1 d2 s => crash_ready c cs held (proj1 s) (proj1 (proj2 s)) (proj2 (proj2 s)) l w0 a w b w' os d1 d2). Qed.
Print Assumptions C27_ready.
Example C27_ready_ex : all_allowed null_compressor 4 before_ready (Flat [] None false) /\ unflushed (snd (flat_run before_ready (Flat [] None false))) = false /\
  (exists a, run null_compressor 4 never before_ready open0 = Ok (a, at_ready)) /\
  run1 null_compressor 4 never Commit at_ready = Ok (Flag true, after_ready) /\ done (s_ after_ready) = done (s_ at_ready) ++ unlock_ops /\
  crashed (dk (s_ at_ready)) unlock_ops torn_ready /\ recovers null_compressor 4 true torn_ready recovered.
Proof. exact ready_case. Qed.

(** C27: a reader that opens the store while a transaction is open reads the text of the
    last commit, and goes on doing so whatever the writer does, even between the
    operations of one of the writer's calls.  Missing: readers that opened the store
    when no transaction was open. *)
Theorem C27_reader_partial : forall c cs held l w0 a w t, suitable c cs -> all_allowed c cs l (Flat [] None false) ->
  opened c cs held blank = Ok w0 -> run c cs held l w0 = Ok (a, w) ->
  mark (snd (flat_run l (Flat [] None false))) = Some t ->
  exists r, make c cs held (dk (s_ w)) = Ok r /\
    forall ts, all_allowed c cs (writes ts) (snd (flat_run l (Flat [] None false))) -> reads_allowed ts ->
    interleaved c cs held ts w r = Ok (expected ts t).
Proof. exact (fun c cs held l w0 a w t s => reader_ok c cs held (proj1 s) (proj1 (proj2 s)) (proj2 (proj2 s)) l w0 a w t). Qed.
Print Assumptions C27_reader_partial.
Example C27_reader_ex : all_allowed null_compressor 4 before (Flat [] None false) /\ mark (snd (flat_run before (Flat [] None false))) = Some [1; 2; 3; 4; 5] /\
  all_allowed null_compressor 4 (writes turns) (snd (flat_run before (Flat [] None false))) /\ reads_allowed turns /\
  expected turns [1; 2; 3; 4; 5] = [[1; 2; 3; 4; 5]; [4; 5]; [5]; [1; 2; 3; 4; 5]; [5]].
Proof. exact reader_case. Qed.

(** C27 fails: beginning a transaction on an empty store reads a member that was never
    assigned. *)
Theorem C27_begin_empty_refuted : exists c cs held w, opened c cs held blank = Ok w /\ run1 c cs held Begin w = UB.
Proof. exact (ex_intro _ null_compressor (ex_intro _ 4 (ex_intro _ never begin_empty))). Qed.
Print Assumptions C27_begin_empty_refuted.

(** C27 fails: a transaction begun on text that was not flushed and aborted at once changes
    that text. *)
Theorem C27_unflushed_refuted : exists c cs held w w', suitable c cs /\ grows c cs /\ opened c cs held blank = Ok w /\
  run c cs held [Append [8]; Append [5]; Begin; Abort; Dump] w = Ok ([Done; Done; Flag true; Done; Bytes [8; 8]], w').
Proof.
  exact (match early_wrong with conj s (conj g (ex_intro _ w (ex_intro _ w' (conj o (conj r _))))) =>
    ex_intro _ backwards (ex_intro _ 4 (ex_intro _ always (ex_intro _ w (ex_intro _ w' (conj s (conj g (conj o r))))))) end).
Qed.
Print Assumptions C27_unflushed_refuted.

(** C27 fails: with a compressor that can make a longer chunk shorter, aborting puts bytes
    of the aborted transaction over the restored text. *)
Theorem C27_abort_refuted : exists c cs held w w', suitable c cs /\ opened c cs held blank = Ok w /\
  run c cs held [Append [9]; Flush; Begin; Append [5]; Append [6]; Abort; Dump] w =
    Ok ([Done; Done; Flag true; Done; Done; Done; Bytes [1]], w').
Proof.
  exact (match shrink_wrong with conj s (ex_intro _ w (ex_intro _ w' (conj o (conj r _)))) =>
    ex_intro _ swapping (ex_intro _ 2 (ex_intro _ always (ex_intro _ w (ex_intro _ w' (conj s (conj o r)))))) end).
Qed.
Print Assumptions C27_abort_refuted.

(** C27 fails for a reader that opened the store before the transaction began: it reads a
    chunk that the transaction has rewritten in place. *)
Theorem C27_early_reader_refuted : exists c cs held l ts w0 a w r, suitable c cs /\
  all_allowed c cs l (Flat [] None false) /\ all_allowed c cs (writes ts) (snd (flat_run l (Flat [] None false))) /\
  opened c cs held blank = Ok w0 /\ run c cs held l w0 = Ok (a, w) /\ make c cs held (dk (s_ w)) = Ok r /\
  text (snd (flat_run l (Flat [] None false))) = [1; 2; 3] /\ expected ts [1; 2; 3] = [[1]; [3]] /\
  interleaved c cs held ts w r = Ok [[1]; [4]].
Proof.
  exact (match reader_wrong with conj s (conj a1 (conj a2 (ex_intro _ w0 (ex_intro _ a (ex_intro _ w (ex_intro _ r (conj o (conj ru (conj m (conj i e)))))))))) =>
    ex_intro _ backwards (ex_intro _ 2 (ex_intro _ never (ex_intro _ base (ex_intro _ turns2 (ex_intro _ w0 (ex_intro _ a (ex_intro _ w (ex_intro _ r
      (conj s (conj a1 (conj a2 (conj o (conj ru (conj m (conj eq_refl (conj e i)))))))))))))))) end).
Qed.
Print Assumptions C27_early_reader_refuted.
