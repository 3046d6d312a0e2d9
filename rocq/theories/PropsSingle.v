(** The single-file index: crashes (C35) and what is found after commit (C42). *)
From Verif Require Import Base HopperModel GclSpec Bytes CodecModel CodecSpec PostingModel PostingSpec ShardModel ShardSpec HazelSpec HazelWitness SingleModel SingleSpec SingleLife SingleWitness.

(** C35: a transaction on an index that stands in its files gets as far as commit.  A
    crash anywhere before commit, and any number of recoveries that crash before one that
    rolls back to its end, leave the old index.  A crash anywhere in commit, and recoveries
    that roll forward, leave the same new index as commit without a crash.  Missing: that
    recovery finds out by itself which of the two to do (see the refutations). *)
Theorem C35_recovery_partial : forall cp cf sort limit d a ix anns,
  stores_lists cp cf -> (forall l, start_sorted l (sort l)) ->
  kept_in cp cf ix d -> index_ok ix -> tidy d -> quiet a -> decent anns ->
  (forall f, fiver_count ix f + Z.of_nat (length anns) <= 288230376151711743) ->
  exists ops a' c a'', prepare cp cf sort limit d a anns = Ok (true, ops, a') /\ commit a' = Ok (c, a'') /\
    (forall d' d'', crashed d ops d' -> recovers false d' d'' -> kept_in cp cf ix d'' /\ tidy d'' /\ serves cp cf d'' ix) /\
    (fits ops -> exists ix', updated ix anns ix' /\
       (let d' := exec d (ops ++ c) in kept_in cp cf ix' d' /\ tidy d' /\ quiet a'' /\ serves cp cf d' ix') /\
       forall d' d'', crashed (exec d ops) c d' -> recovers true d' d'' -> kept_in cp cf ix' d'' /\ tidy d'' /\ serves cp cf d'' ix').
Proof. exact (fun cp cf sort limit d a ix anns s t => crash_safe cp cf sort limit s t d a ix anns). Qed.
Print Assumptions C35_recovery_partial.
Example C35_recovery_ex : kept_in wcp wcf [] d0 /\ index_ok [] /\ tidy d0 /\ decent anns2 /\ (forall l, start_sorted l (isort l)) /\
  crashed (exec d1 ops2) c2 d2 /\ recovers true d2 d3 /\ life wcp wcf isort 0 d0 [anns1; anns2] d3 annotator_init.
Proof.
  destruct d0_kept as (A & B & C). split; [exact A|]. split; [exact B|]. split; [exact C|]. split; [exact anns2_decent|]. split; [exact isorts|].
  split; [exact d2_crashed|]. split; [constructor|exact life2].
Qed.

(** C35 fails when nobody recovers, or recovers the wrong way: opening after a crash
    between the renames of commit; rolling forward after a crash between the renames of
    ready; rolling back after a crash between the renames of commit.  Each leaves the new
    idx with the old pst, which is neither index. *)
Theorem C35_open_refuted : exists cp cf sort limit d ix a anns ops a' c a'',
  kept_in cp cf ix d /\ index_ok ix /\ tidy d /\ quiet a /\ decent anns /\
  prepare cp cf sort limit d a anns = Ok (true, ops, a') /\ commit a' = Ok (c, a'') /\
  (exists d', crashed (exec d ops) c d' /\ ~ serves cp cf d' ix /\ forall ix', updated ix anns ix' -> ~ serves cp cf d' ix') /\
  (exists d' d'', crashed d ops d' /\ recovers true d' d'' /\ ~ serves cp cf d'' ix /\ forall ix', updated ix anns ix' -> ~ serves cp cf d'' ix') /\
  (exists d' d'', crashed (exec d ops) c d' /\ recovers false d' d'' /\ ~ serves cp cf d'' ix /\ forall ix', updated ix anns ix' -> ~ serves cp cf d'' ix').
Proof. exact (ex_intro _ wcp (ex_intro _ wcf (ex_intro _ isort (ex_intro _ 0%nat mixtures)))). Qed.
Print Assumptions C35_open_refuted.

(** C42: through any number of transactions, committed, aborted or ended by a crash and
    the recovery that fits it, and any number of openings, the index answers with the
    innermost of what it held at the start and of all that was committed, the latest of
    those with the same range, however the annotations were cut into batches.  Missing:
    transactions in which an annotation contains another of the same feature. *)
Theorem C42_committed_partial : forall cp cf sort limit d0 ix0 L d a,
  stores_lists cp cf -> (forall l, start_sorted l (sort l)) ->
  kept_in cp cf ix0 d0 -> index_ok ix0 -> tidy d0 -> Forall decent L ->
  (forall f, fiver_count ix0 f + Z.of_nat (length (concat L)) <= 288230376151711743) ->
  life cp cf sort limit d0 L d a ->
  exists ix, serves cp cf d ix /\
    forall f x, stored_in ix f x <-> sem_inner (stored_in ix0 f :: map (fun anns => taken anns f) L) x.
Proof. exact (fun cp cf sort limit d0 ix0 L d a s t => life_serves cp cf sort limit s t d0 ix0 L d a). Qed.
Print Assumptions C42_committed_partial.
Example C42_committed_ex : Forall decent [anns1; anns2] /\ life wcp wcf isort 0 d0 [anns1; anns2] d3 annotator_init /\
  exists x, open d3 = Some x /\ single_vocab x = 2 /\ single_count x 5 = Ok 2 /\ single_count x 3 = Ok 3.
Proof. split; [exact (Forall_cons _ anns1_decent (Forall_cons _ anns2_decent (Forall_nil _)))|]. split; [exact life2|exact d3_found]. Qed.

(** C42 fails for nested annotations: sorted by start, the inner one is dropped and the
    outer kept, and with smaller batches it is the other way round. *)
Theorem C42_nested_refuted : exists cp cf sort d anns, stores_lists cp cf /\ (forall l, start_sorted l (sort l)) /\
  kept_in cp cf [] d /\ tidy d /\ anns = [Ann 5 (Iv 1 9 0); Ann 5 (Iv 3 4 0)] /\
  (exists ops a c a' x p, prepare cp cf sort 10 d annotator_init anns = Ok (true, ops, a) /\ commit a = Ok (c, a') /\
     open (exec d (ops ++ c)) = Some x /\ load_list cp cf x 5 = Ok (Some p) /\ psize p = 1 /\ get p 0 = Ok (Some (Iv 1 9 0))) /\
  (exists ops a c a' x p, prepare cp cf sort 0 d annotator_init anns = Ok (true, ops, a) /\ commit a = Ok (c, a') /\
     open (exec d (ops ++ c)) = Some x /\ load_list cp cf x 5 = Ok (Some p) /\ psize p = 1 /\ get p 0 = Ok (Some (Iv 3 4 0))).
Proof. exact nested_lost. Qed.
Print Assumptions C42_nested_refuted.
