(** Crashes of a whole single-file warren, part by part. *)
From Verif Require Import Base Bytes CodecModel CodecSpec ChunkModel ChunkSpec TokenModel PlainModel PlainSpec TextCrashModel TextCrashSpec TextCrashTop WarrenCrashSpec.
From Verif Require TextSpec FileSpec HazelSpec PostingModel PostingSpec ShardSpec ShardModel SingleModel SingleSpec SingleLife.

Lemma text_side all f d l f' d' : both_crash all f d l f' d' -> file_crash all f (on_text l) f'.
Proof.
  induction 1 as [f d l f' L|f d p b l k f' L|f d n b c l f' L|f d o l f' d' H IH|f d o l f' d' H IH].
  - apply file_crash_now. exact L.
  - cbn. eapply file_crash_torn. exact L.
  - apply file_crash_now. exact L.
  - cbn. apply file_crash_later. exact IH.
  - exact IH.
Qed.
Lemma crash_more o d l d' : SingleSpec.crashed (SingleModel.exec d [o]) l d' -> SingleSpec.crashed d (o :: l) d'.
Proof.
  intros H. inversion H; subst.
  - change (o :: done ++ rest) with ((o :: done) ++ rest). replace (SingleModel.exec (SingleModel.exec d [o]) done) with (SingleModel.exec d (o :: done)) by reflexivity. constructor.
  - change (o :: done ++ SingleModel.Put a (b ++ c) :: rest) with ((o :: done) ++ SingleModel.Put a (b ++ c) :: rest).
    replace (SingleModel.exec (SingleModel.exec d [o]) (done ++ [SingleModel.Put a b])) with (SingleModel.exec d ((o :: done) ++ [SingleModel.Put a b])) by reflexivity. constructor.
Qed.
Lemma index_side all f d l f' d' : both_crash all f d l f' d' -> SingleSpec.crashed d (on_index l) d'.
Proof.
  induction 1 as [f d l f' L|f d p b l k f' L|f d n b c l f' L|f d o l f' d' H IH|f d o l f' d' H IH].
  - exact (SingleSpec.Crash_between d [] (on_index l)).
  - exact (SingleSpec.Crash_between d [] _).
  - exact (SingleSpec.Crash_within d [] n b c (on_index l)).
  - exact IH.
  - cbn. apply crash_more. exact IH.
Qed.

Lemma in_turn t i : on_text (map OnText t ++ map OnIndex i) = t /\ on_index (map OnText t ++ map OnIndex i) = i.
Proof.
  assert (Q : on_text (map OnIndex i) = [] /\ on_index (map OnIndex i) = i).
  { induction i as [|y i [I1 I2]]; [split; reflexivity|]. split; [exact I1|]. cbn. unfold on_index in I2. rewrite I2. reflexivity. }
  induction t as [|x t [I1 I2]]; [exact Q|]. split; [|exact I2]. cbn. unfold on_text in I1. rewrite I1. reflexivity.
Qed.

Section Both.
Variable c : compressor.
Variable cs : Z.
Variable held : Z -> bool.
Variable tokenize : bytes -> list token.
Variable skip : bytes -> Z -> Z.
Variable stop : bytes -> Prop.
Variable starts : bytes -> list Z.
Variable split : bytes -> list bytes.
Hypothesis good : suitable c cs.
Hypothesis laws : TextSpec.tokenizer_laws tokenize skip stop starts.
Hypothesis Hcut : FileSpec.cut_law starts.
Hypothesis Hsplit : split_law split starts.
Hypothesis Hfeat : features_ok tokenize.
Variable ts : list bytes.
Variable l : list call.
Hypothesis Hts : Forall (text_ok stop) ts.
Hypothesis Hlen : len (whole ts) <= maxf.
Hypothesis Hp : all_permitted c cs tokenize stop starts l (Burrow ts None false).
Notation end_ := (snd (burrow_run tokenize starts l (Burrow ts None false))).
Variables cp cf : compressor.
Variable sort : list PostingModel.annotation -> list PostingModel.annotation.
Variable limit : nat.
Hypothesis Hst : HazelSpec.stores_lists cp cf.
Hypothesis Hsort : forall l, SingleModel.start_sorted l (sort l).

Lemma both_back a l2 d an ix anns : reached c cs held tokenize split ts l a -> all_permitted c cs tokenize stop starts l2 end_ -> Forall undecided l2 ->
  SingleSpec.kept_in cp cf ix d -> HazelSpec.index_ok ix -> SingleSpec.tidy d -> SingleSpec.quiet an -> SingleSpec.decent anns ->
  (forall f, ShardModel.fiver_count ix f + Z.of_nat (length anns) <= 288230376151711743) ->
  exists tops a' iops an', trace c cs held tokenize split l2 a = Ok (tops, a') /\ SingleSpec.prepare cp cf sort limit d an anns = Ok (true, iops, an') /\
    forall ops all f1 d1 f2 d2, on_text ops = tops -> on_index ops = iops -> both_crash all (files_of a) d ops f1 d1 ->
      both_recover c cs false f1 d1 f2 d2 ->
      holds_texts c cs held tokenize skip stop starts split f2 (kept end_) /\ SingleSpec.serves cp cf d2 ix.
Proof.
  intros R P U K Iok T Q D F.
  destruct (back_ok c cs held tokenize skip stop starts split good laws Hcut Hsplit Hfeat ts l Hts Hlen Hp a l2 R P U) as (tops & a' & Et & _ & Ht).
  destruct (SingleLife.crash_safe cp cf sort limit Hst Hsort d an ix anns K Iok T Q D F) as (iops & an' & cc & an'' & Ei & _ & Hi & _).
  exists tops, a', iops, an'. split; [exact Et|]. split; [exact Ei|]. intros ops all f1 d1 f2 d2 <- <- C [R1 R2]. split.
  - exact (proj2 (Ht all f1 (text_side _ _ _ _ _ _ C)) f2 R1).
  - exact (proj2 (proj2 (Hi d1 d2 (index_side _ _ _ _ _ _ C) R2))).
Qed.
Lemma both_forward a more d an ix anns : reached c cs held tokenize split ts l a -> open end_ = Some more -> sure end_ = true ->
  SingleSpec.kept_in cp cf ix d -> HazelSpec.index_ok ix -> SingleSpec.tidy d -> SingleSpec.quiet an -> SingleSpec.decent anns ->
  (forall f, ShardModel.fiver_count ix f + Z.of_nat (length anns) <= 288230376151711743) ->
  exists a' iops an' cops an'', call1 c cs held tokenize split Commits a = Ok (Nothing, a') /\
    SingleSpec.prepare cp cf sort limit d an anns = Ok (true, iops, an') /\ SingleModel.commit an' = Ok (cops, an'') /\
    (SingleSpec.fits iops -> exists ix', SingleSpec.updated ix anns ix' /\
     forall f1 d1 f2 d2, both_crash true (files_of a) (SingleModel.exec d iops) (map OnText (call_ops Commits a a') ++ map OnIndex cops) f1 d1 ->
      both_recover c cs true f1 d1 f2 d2 ->
      holds_texts c cs held tokenize skip stop starts split f2 (kept end_ ++ more) /\ SingleSpec.serves cp cf d2 ix').
Proof.
  intros R O S K Iok T Q D F.
  destruct (forward_ok c cs held tokenize skip stop starts split good laws Hcut Hsplit Hfeat ts l Hts Hlen Hp a more R O S) as (a' & Ec & _ & Ht).
  destruct (SingleLife.crash_safe cp cf sort limit Hst Hsort d an ix anns K Iok T Q D F) as (iops & an' & cc & an'' & Ei & Ecc & _ & Hi).
  exists a', iops, an', cc, an''. split; [exact Ec|]. split; [exact Ei|]. split; [exact Ecc|]. intros Fi. destruct (Hi Fi) as (ix' & Up & _ & Hx).
  exists ix'. split; [exact Up|]. intros f1 d1 f2 d2 C [R1 R2].
  destruct (in_turn (call_ops Commits a a') cc) as [E1 E2].
  pose proof (text_side _ _ _ _ _ _ C) as C1. pose proof (index_side _ _ _ _ _ _ C) as C2. rewrite E1 in C1. rewrite E2 in C2. split.
  - exact (proj2 (Ht f1 C1) f2 R1).
  - exact (proj2 (proj2 (Hx d1 d2 C2 R2))).
Qed.
End Both.
