(** C66: crashes of the text of a single-file index, and of the whole index. *)
From Verif Require Import Base Bytes CodecModel CodecSpec ChunkModel ChunkSpec ChunkWitness TokenModel PlainModel PlainSpec PlainWitness.
From Verif Require Import TextCrashModel TextCrashSpec TextCrashProofs TextCrashTop TextCrashWitness WarrenCrashSpec WarrenCrashProofs.
From Verif Require TextSpec FileSpec HazelSpec PostingModel ShardModel SingleModel SingleSpec SingleWitness HazelWitness.

(** C66: texts were built and appended in any number of transactions.  Whatever calls
    follow, as long as none of them commits, a crash anywhere in what they do to the files,
    which may lose any last part of what was written to txt.new, can be recovered from; and
    recovery that rolls back, however often it is interrupted and started again, leaves
    files that hold exactly the texts committed before: reading answers with those, and an
    appender goes on from those. *)
Theorem C66_rolled_back : forall c cs held tokenize skip stop starts split, suitable c cs ->
  TextSpec.tokenizer_laws tokenize skip stop starts -> FileSpec.cut_law starts -> split_law split starts -> features_ok tokenize ->
  forall ts l, Forall (text_ok stop) ts -> len (whole ts) <= maxf -> all_permitted c cs tokenize stop starts l (Burrow ts None false) ->
  let before := snd (burrow_run tokenize starts l (Burrow ts None false)) in
  forall a l2, reached c cs held tokenize split ts l a -> all_permitted c cs tokenize stop starts l2 before -> Forall undecided l2 ->
  exists ops a', trace c cs held tokenize split l2 a = Ok (ops, a') /\ fexec (files_of a) ops = files_of a' /\
    forall all f1, file_crash all (files_of a) ops f1 ->
      (exists f2, file_recovers c cs false f1 f2) /\
      forall f2, file_recovers c cs false f1 f2 -> holds_texts c cs held tokenize skip stop starts split f2 (kept before).
Proof. exact back_ok. Qed.
Print Assumptions C66_rolled_back.
Example C66_rolled_back_ex : suitable backwards 100 /\ features_ok tok /\ Forall (text_ok stop) texts0 /\
  all_permitted backwards 100 tok stop starts calls1 (Burrow texts0 None false) /\ reached backwards 100 never tok chop texts0 calls1 app1 /\
  all_permitted backwards 100 tok stop starts calls2 (snd (burrow_run tok starts calls1 (Burrow texts0 None false))) /\ Forall undecided calls2 /\
  trace backwards 100 never tok chop calls2 app1 = Ok (ops2, app0) /\ file_crash false (files_of app1) ops2 torn /\
  contents (f_store torn) <> contents (f_store (files_of app1)) /\ file_recovers backwards 100 false torn mended.
Proof.
  destruct mended_files as (T & _ & N & _).
  exact (conj (backwards_suitable 100 eq_refl) (conj tok_features (conj texts0_ok (conj calls1_ok (conj reach1 (conj (proj1 calls2_ok)
    (conj (proj2 calls2_ok) (conj T (conj torn_crash (conj N torn_mended)))))))))).
Qed.

(** C66: a crash anywhere in commit, and recovery that rolls forward, leave files that hold
    the texts of the transaction too.  Missing: crashes that lose something written to
    txt.new (refuted below). *)
Theorem C66_rolled_forward_partial : forall c cs held tokenize skip stop starts split, suitable c cs ->
  TextSpec.tokenizer_laws tokenize skip stop starts -> FileSpec.cut_law starts -> split_law split starts -> features_ok tokenize ->
  forall ts l, Forall (text_ok stop) ts -> len (whole ts) <= maxf -> all_permitted c cs tokenize stop starts l (Burrow ts None false) ->
  let before := snd (burrow_run tokenize starts l (Burrow ts None false)) in
  forall a more, reached c cs held tokenize split ts l a -> open before = Some more -> sure before = true ->
  exists a', call1 c cs held tokenize split Commits a = Ok (Nothing, a') /\ fexec (files_of a) (call_ops Commits a a') = files_of a' /\
    forall f1, file_crash true (files_of a) (call_ops Commits a a') f1 ->
      (exists f2, file_recovers c cs true f1 f2) /\
      forall f2, file_recovers c cs true f1 f2 -> holds_texts c cs held tokenize skip stop starts split f2 (kept before ++ more).
Proof. exact forward_ok. Qed.
Print Assumptions C66_rolled_forward_partial.
Example C66_rolled_forward_ex : all_permitted backwards 100 tok stop starts calls0 (Burrow texts0 None false) /\
  reached backwards 100 never tok chop texts0 calls0 app0 /\
  snd (burrow_run tok starts calls0 (Burrow texts0 None false)) = Burrow (texts0 ++ [lit "three four"]) (Some [lit "five six"]) true /\
  file_crash true (files_of app0) (call_ops Commits app0 app_done) half.
Proof. exact (conj calls0_ok (conj reach0 (conj now_is half_crash))). Qed.

(** C66 fails when a crash loses what was written to txt.new: ready does not flush it.
    After a successful ready, recovery that rolls forward then leaves texts that are neither
    the old nor the new ones; here nothing at all is read. *)
Theorem C66_ready_refuted : exists ts l a more, reached backwards 100 never tok chop ts l a /\
  all_permitted backwards 100 tok stop starts l (Burrow ts None false) /\
  let before := snd (burrow_run tok starts l (Burrow ts None false)) in
  open before = Some more /\ sure before = true /\
  exists a', call1 backwards 100 never tok chop Commits a = Ok (Nothing, a') /\
  exists f1 f2, file_crash false (files_of a) (call_ops Commits a a') f1 /\ file_recovers backwards 100 true f1 f2 /\
    ~ has_texts f2 (kept before) /\ ~ has_texts f2 (kept before ++ more) /\ told_of f2 [Translate 0 maxf] = Ok (Some [Said []]).
Proof. exact (ex_intro _ texts0 (ex_intro _ calls0 (ex_intro _ app0 (ex_intro _ _ (conj reach0 (conj calls0_ok (conj eq_refl (conj eq_refl short_case)))))))). Qed.
Print Assumptions C66_ready_refuted.

(** C66 fails when recovery rolls back after a crash in commit: nothing in the files says
    that commit had begun.  Between the text store and txt the text of the transaction
    stays. *)
Theorem C66_direction_refuted : exists ts l a more, reached backwards 100 never tok chop ts l a /\
  all_permitted backwards 100 tok stop starts l (Burrow ts None false) /\
  let before := snd (burrow_run tok starts l (Burrow ts None false)) in
  open before = Some more /\ sure before = true /\
  exists a', call1 backwards 100 never tok chop Commits a = Ok (Nothing, a') /\
  exists f1 f2, file_crash true (files_of a) (call_ops Commits a a') f1 /\ file_recovers backwards 100 false f1 f2 /\
    ~ has_texts f2 (kept before) /\ told_of f2 [Tokens] = Ok (Some [Counted (count starts (kept before) + 2)]).
Proof. exact (ex_intro _ texts0 (ex_intro _ calls0 (ex_intro _ app0 (ex_intro _ _ (conj reach0 (conj calls0_ok (conj eq_refl (conj eq_refl half_case)))))))). Qed.
Print Assumptions C66_direction_refuted.

(** C66, for text and index together: a transaction appends texts and makes annotations, in
    any order.  A crash anywhere before commit, and recovery of both that rolls back, leave
    the texts and the index from before. *)
Theorem C66_warren_back : forall c cs held tokenize skip stop starts split, suitable c cs ->
  TextSpec.tokenizer_laws tokenize skip stop starts -> FileSpec.cut_law starts -> split_law split starts -> features_ok tokenize ->
  forall ts l, Forall (text_ok stop) ts -> len (whole ts) <= maxf -> all_permitted c cs tokenize stop starts l (Burrow ts None false) ->
  let before := snd (burrow_run tokenize starts l (Burrow ts None false)) in
  forall cp cf sort limit, HazelSpec.stores_lists cp cf -> (forall l, SingleModel.start_sorted l (sort l)) ->
  forall a l2 d an ix anns, reached c cs held tokenize split ts l a -> all_permitted c cs tokenize stop starts l2 before -> Forall undecided l2 ->
  SingleSpec.kept_in cp cf ix d -> HazelSpec.index_ok ix -> SingleSpec.tidy d -> SingleSpec.quiet an -> SingleSpec.decent anns ->
  (forall f, ShardModel.fiver_count ix f + Z.of_nat (length anns) <= 288230376151711743) ->
  exists tops a' iops an', trace c cs held tokenize split l2 a = Ok (tops, a') /\ SingleSpec.prepare cp cf sort limit d an anns = Ok (true, iops, an') /\
    forall ops all f1 d1 f2 d2, on_text ops = tops -> on_index ops = iops -> both_crash all (files_of a) d ops f1 d1 ->
      both_recover c cs false f1 d1 f2 d2 ->
      holds_texts c cs held tokenize skip stop starts split f2 (kept before) /\ SingleSpec.serves cp cf d2 ix.
Proof. exact both_back. Qed.
Print Assumptions C66_warren_back.
Example C66_warren_back_ex : reached backwards 100 never tok chop texts0 calls1 app1 /\
  (exists ix, SingleSpec.kept_in HazelWitness.wcp HazelWitness.wcf ix SingleWitness.d1 /\ HazelSpec.index_ok ix /\ SingleSpec.tidy SingleWitness.d1 /\
     SingleSpec.quiet SingleWitness.b1 /\ forall f, ShardModel.fiver_count ix f + Z.of_nat (length SingleWitness.anns2) <= 288230376151711743) /\
  let ops := map OnIndex SingleWitness.ops2 ++ map OnText ops2 in
  on_text ops = ops2 /\ on_index ops = SingleWitness.ops2 /\
  both_crash false (files_of app1) SingleWitness.d1 ops torn (SingleModel.exec SingleWitness.d1 SingleWitness.ops2) /\
  exists d2, both_recover backwards 100 false torn (SingleModel.exec SingleWitness.d1 SingleWitness.ops2) mended d2.
Proof. exact (conj reach1 (conj SingleWitness.d1_kept back_case)). Qed.

(** C66, for text and index together: a crash anywhere in commit, which does the text first,
    and recovery of both that rolls forward, leave the texts and the index of the
    transaction.  Missing: as above. *)
Theorem C66_warren_forward_partial : forall c cs held tokenize skip stop starts split, suitable c cs ->
  TextSpec.tokenizer_laws tokenize skip stop starts -> FileSpec.cut_law starts -> split_law split starts -> features_ok tokenize ->
  forall ts l, Forall (text_ok stop) ts -> len (whole ts) <= maxf -> all_permitted c cs tokenize stop starts l (Burrow ts None false) ->
  let before := snd (burrow_run tokenize starts l (Burrow ts None false)) in
  forall cp cf sort limit, HazelSpec.stores_lists cp cf -> (forall l, SingleModel.start_sorted l (sort l)) ->
  forall a more d an ix anns, reached c cs held tokenize split ts l a -> open before = Some more -> sure before = true ->
  SingleSpec.kept_in cp cf ix d -> HazelSpec.index_ok ix -> SingleSpec.tidy d -> SingleSpec.quiet an -> SingleSpec.decent anns ->
  (forall f, ShardModel.fiver_count ix f + Z.of_nat (length anns) <= 288230376151711743) ->
  exists a' iops an' cops an'', call1 c cs held tokenize split Commits a = Ok (Nothing, a') /\
    SingleSpec.prepare cp cf sort limit d an anns = Ok (true, iops, an') /\ SingleModel.commit an' = Ok (cops, an'') /\
    (SingleSpec.fits iops -> exists ix', SingleSpec.updated ix anns ix' /\
     forall f1 d1 f2 d2, both_crash true (files_of a) (SingleModel.exec d iops) (map OnText (call_ops Commits a a') ++ map OnIndex cops) f1 d1 ->
      both_recover c cs true f1 d1 f2 d2 ->
      holds_texts c cs held tokenize skip stop starts split f2 (kept before ++ more) /\ SingleSpec.serves cp cf d2 ix').
Proof. exact both_forward. Qed.
Print Assumptions C66_warren_forward_partial.
(** A crash after the text is committed and within the commit of the index. *)
Example C66_warren_ex : reached backwards 100 never tok chop texts0 calls0 app0 /\
  SingleSpec.prepare HazelWitness.wcp HazelWitness.wcf SingleWitness.isort 0 SingleWitness.d1 SingleWitness.b1 SingleWitness.anns2 = Ok (true, SingleWitness.ops2, SingleWitness.a2) /\
  SingleSpec.decent SingleWitness.anns2 /\ length SingleWitness.c2 = 3%nat /\
  exists f1 d1, both_crash true (files_of app0) (SingleModel.exec SingleWitness.d1 SingleWitness.ops2)
    (map OnText (call_ops Commits app0 app_done) ++ map OnIndex SingleWitness.c2) f1 d1 /\ f1 = files_of app_done /\
    d1 = SingleModel.exec (SingleModel.exec SingleWitness.d1 SingleWitness.ops2) (firstn 1 SingleWitness.c2).
Proof. exact (conj reach0 warren_case). Qed.

(** C66: a transaction that cannot begin, because one is open in this appender, or another
    program has one open in the appender's files or in those of the text store, answers
    false, and after all it does to the files they are as before. *)
Theorem C66_refused : forall c cs held tokenize split a r a', call1 c cs held tokenize split Transaction a = Ok (r, a') ->
  (a_started a = false -> a_adding a = false) ->
  a_started a = true \/ f_lock (files_of a) = true \/ lock (f_store (files_of a)) = true ->
  r = Yes false /\ fexec (files_of a) (call_ops Transaction a a') = files_of a /\ files_of a' = files_of a.
Proof. exact refused_ok. Qed.
Print Assumptions C66_refused.
Example C66_refused_ex : exists a, call1 backwards 100 never tok chop Transaction elsewhere = Ok (Yes false, a) /\
  (a_started elsewhere = false -> a_adding elsewhere = false) /\ lock (f_store (files_of elsewhere)) = true /\
  call_ops Transaction elsewhere a = [Link; Unlink].
Proof. exact elsewhere_run. Qed.

(** C66: txt is opened for reading only if it ends with a whole record. *)
Theorem C66_whole : forall c cs held f x, open_txt c cs held f = Ok (Some x) -> snd (f_txt f) = false.
Proof. exact whole_records. Qed.
Print Assumptions C66_whole.
Example C66_whole_ex : exists x, open_txt backwards 100 never (files_of app1) = Ok (Some x).
Proof. exact app1_opens. Qed.
