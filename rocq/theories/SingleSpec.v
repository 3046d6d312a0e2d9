(** Specification vocabulary for the single-file index. *)
From Verif Require Import Base HopperModel GclSpec Bytes CodecModel CodecSpec PostingModel PostingSpec ShardModel ShardSpec HazelSpec SingleModel.

(** The files of an index: pst holds its lists one after the other, idx each feature with
    the place where its list ends. *)
Inductive filed (cp cf : compressor) : Z -> index -> list (Z * Z) -> bytes -> Prop :=
| Filed_nil : forall o, filed cp cf o [] [] []
| Filed_cons : forall o f p b ix m out, write cp cf p = Ok b -> filed cp cf (o + len b) ix m out ->
    filed cp cf o ((f, p) :: ix) ((f, o + len b) :: m) (b ++ out).
(** The burrow [d] holds the index [ix]. *)
Definition kept_in (cp cf : compressor) (ix : index) (d : dir) : Prop :=
  exists m out, filed cp cf 0 ix m out /\ len out <= maxf /\ d Idx = Some (map_bytes m) /\ d Pst = Some out.
(** Nothing is left of a transaction. *)
Definition tidy (d : dir) : Prop :=
  d Idx_new = None /\ d Pst_new = None /\ d Lock = None /\ d Idx_NEW = None /\ d Pst_NEW = None.

(** What a crash during [l] leaves: some of it is done, and of the next, when it writes a
    file, a first part. *)
Inductive crashed (d : dir) : list op -> dir -> Prop :=
| Crash_between : forall done rest, crashed d (done ++ rest) (exec d done)
| Crash_within : forall done a b c rest, crashed d (done ++ Put a (b ++ c) :: rest) (exec d (done ++ [Put a b])).
(** Any number of recoveries that crashed, and one that did not. *)
Inductive recovers (commit : bool) (d : dir) : dir -> Prop :=
| Recover_done : recovers commit d (exec d (recover commit))
| Recover_again : forall d' d'', crashed d (recover commit) d' -> recovers commit d' d'' -> recovers commit d d''.
(** Any number of openings that crashed, and one that did not. *)
Inductive opens (d : dir) : dir -> Prop :=
| Open_done : opens d (exec d (open_ops d))
| Open_again : forall d' d'', crashed d (open_ops d) d' -> opens d' d'' -> opens d d''.

(** An annotation the index takes: of a feature, with an address range. *)
Definition taken (l : list annotation) (f : Z) (x : iv) : Prop := In (Ann f x) l /\ 0 < f /\ 0 <= ip x <= iq x.
(** None of the annotations contains another of the same feature. *)
Definition apart (l : list annotation) : Prop :=
  forall f x y, taken l f x -> taken l f y -> nests x y -> x = y.
(** Features, addresses and values in their ranges. *)
Definition in_range (a : annotation) : Prop :=
  afeat a < maxf /\ iq (aiv a) < maxf /\ is_addr (ivl (aiv a)) /\ value_ok (aiv a).

(** A transaction an index can take without loss. *)
Definition decent (anns : list annotation) : Prop := Forall in_range anns /\ apart anns.
(** What a transaction makes of an index. *)
Definition updated (ix : index) (anns : list annotation) (ix' : index) : Prop :=
  index_ok ix' /\ (forall f, fiver_count ix' f <= fiver_count ix f + Z.of_nat (length anns)) /\
  forall f x, stored_in ix' f x <-> sem_inner [stored_in ix f; taken anns f] x.

(** Every file written has a length that fits. *)
Definition fits (l : list op) : Prop := forall a b, In (Put a b) l -> len b <= maxf.
(** An annotator with no transaction under way. *)
Definition quiet (a : annotator) : Prop := adding a = false /\ isready a = false /\ added a = [] /\ files a = [].

(** A transaction up to commit: begin, annotate, ready. *)
Definition prepare (cp cf : compressor) (sort : list annotation -> list annotation) (limit : nat) (d : dir) (a : annotator) (anns : list annotation)
  : res (bool * list op * annotator) :=
  let '(ok, o1, a) := transaction d a in
  if negb ok then Ok (false, o1, a) else
  let* (o2, a) := annotate_all cp cf sort limit anns a in
  let* (r, a) := ready cp cf sort limit (exec d (o1 ++ o2)) a in
  Ok (fst r, o1 ++ o2 ++ snd r, a).

(** The life of an index: what was committed, and what the burrow holds now.  A
    transaction commits, aborts before or after ready, or ends in a crash; after a crash before commit recovery
    rolls back, after one in commit it rolls forward.  A crash forgets the annotator. *)
Inductive life (cp cf : compressor) (sort : list annotation -> list annotation) (limit : nat) (d0 : dir)
  : list (list annotation) -> dir -> annotator -> Prop :=
| Life_start : life cp cf sort limit d0 [] d0 annotator_init
| Life_commit : forall L d a anns ops a' c a'', life cp cf sort limit d0 L d a ->
    prepare cp cf sort limit d a anns = Ok (true, ops, a') -> fits ops -> commit a' = Ok (c, a'') ->
    life cp cf sort limit d0 (L ++ [anns]) (exec d (ops ++ c)) a''
| Life_drop : forall L d a anns o1 a1 o2 a2, life cp cf sort limit d0 L d a ->
    transaction d a = (true, o1, a1) -> annotate_all cp cf sort limit anns a1 = Ok (o2, a2) ->
    life cp cf sort limit d0 L (exec d (o1 ++ o2 ++ fst (abort a2))) (snd (abort a2))
| Life_abort : forall L d a anns ops a', life cp cf sort limit d0 L d a ->
    prepare cp cf sort limit d a anns = Ok (true, ops, a') ->
    life cp cf sort limit d0 L (exec d (ops ++ fst (abort a'))) (snd (abort a'))
| Life_lost : forall L d a anns ops a' d' d'', life cp cf sort limit d0 L d a ->
    prepare cp cf sort limit d a anns = Ok (true, ops, a') -> crashed d ops d' -> recovers false d' d'' ->
    life cp cf sort limit d0 L d'' annotator_init
| Life_saved : forall L d a anns ops a' c a'' d' d'', life cp cf sort limit d0 L d a ->
    prepare cp cf sort limit d a anns = Ok (true, ops, a') -> fits ops -> commit a' = Ok (c, a'') ->
    crashed (exec d ops) c d' -> recovers true d' d'' ->
    life cp cf sort limit d0 (L ++ [anns]) d'' annotator_init
| Life_open : forall L d a d', life cp cf sort limit d0 L d a -> opens d d' -> life cp cf sort limit d0 L d' annotator_init.

(** Opened, the burrow answers every lookup as the index [ix] does. *)
Definition serves (cp cf : compressor) (d : dir) (ix : index) : Prop :=
  exists x, open d = Some x /\ single_vocab x = len ix /\
    forall f, single_count x f = Ok (fiver_count ix f) /\
      exists o, single_hopper cp cf x f = Ok o /\ answers (projT1 o) (projT2 o) (stored_in ix f).
