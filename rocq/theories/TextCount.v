(** Counting tokens and the range of addresses of a text. *)
From Verif Require Import Base Bytes HopperModel ArrayDefs GclSpec HopperProofs ArrayProofs UnaryProofs AnswerProofs VectorModel CodecModel
  PostingModel PostingSpec PostingProofs AnnProofs ShardModel ShardSpec ShardProofs TokenModel
  TextModel TextSpec TextProofs DraftProofs TextStore TextBack TextMerge TextShards.

Lemma contig_end pre y : forall r a b, contig (pre ++ y :: r) a b -> match r with [] => iq y + 1 = b | z :: _ => ip z = iq y + 1 end.
Proof. induction pre as [|x pre IH]; intros r a b H; [destruct r; cbn in H; lia|]. cbn in H. exact (IH _ _ _ (proj2 (proj2 H))). Qed.
Lemma tokens_chunked (o : hobj) t cs a b : answers (projT1 o) (projT2 o) (set_of cs) -> contig cs a b -> 0 <= a -> b <= maxf -> tokens (o, t) = Ok (b - a).
Proof.
  intros [G I] Ct Ha Hb. unfold tokens. pose proof (contig_le _ _ _ Ct) as Lab. set (C := projT1 o) in *.
  pose proof (implements_step C (set_of cs) (projT2 o) Mtau 0 I ltac:(unfold minf, maxf; lia)) as H1. apply wp_exists in H1.
  destruct H1 as ([s1 x0] & H1 & I1 & A1). cbn [call] in H1. rewrite H1. cbn [bind].
  assert (E0 : x0 = match cs with [] => Iv maxf maxf 0 | y :: _ => y end).
  { apply (tau_next cs a b [] cs 0 x0 Ct eq_refl); [unfold minf, maxf; lia|exact Hb|intros y []| |exact A1].
    destruct cs as [|y r]; [exact Logic.I|]. cbn in Ct. lia. }
  set (body := fun '(s, x, n) => _).
  assert (W : wp (loop body (s1, x0, 0)) (fun n => n = b - a)).
  { apply (loop_rule (fun '(s, x, n) => implements C s (set_of cs) /\ exists pre rest, cs = pre ++ rest /\
             x = match rest with [] => Iv maxf maxf 0 | y :: _ => y end /\ n = (match rest with [] => b | y :: _ => ip y end) - a)
           (fun '(s, x, acc) => maxf - ip x)).
    - intros [[s' x] n] (_ & pre & rest & Ec & -> & _). destruct rest as [|y r]; [cbn; lia|].
      assert (Iy : In y cs) by (rewrite Ec; apply in_or_app; right; left; reflexivity). pose proof (contig_in _ _ _ _ Ct Iy). lia.
    - intros [[s' x] n] (I' & pre & rest & Ec & -> & ->). unfold body. destruct rest as [|y r].
      + cbn [ip]. replace (maxf <? maxf) with false by lia. cbn. reflexivity.
      + assert (Iy : In y cs) by (rewrite Ec; apply in_or_app; right; left; reflexivity). pose proof (contig_in _ _ _ _ Ct Iy) as Cy.
        replace (ip y <? maxf) with true by lia. rewrite chk_ok by (unfold minf, maxf in *; lia). cbn [bind]. rewrite chk_ok by (unfold minf; lia). cbn [bind].
        pose proof (implements_step C (set_of cs) s' Mtau (ip y + 1) I' ltac:(unfold minf; lia)) as H2. apply wp_exists in H2.
        destruct H2 as ([s2 x2] & H2 & I2 & A2). cbn [call] in H2. rewrite H2. cbn [bind wp].
        pose proof Ct as Ct'. rewrite Ec in Ct'. destruct (contig_step _ _ _ _ _ Ct') as [P1 P2]. pose proof (contig_end _ _ _ _ _ Ct') as Ce.
        assert (E2 : x2 = match r with [] => Iv maxf maxf 0 | z :: _ => z end).
        { destruct (Z.eq_dec (ip y + 1) maxf) as [Em|Em].
          - assert (r = []) as ->. { destruct r as [|z r]; [reflexivity|]. assert (Iz : In z cs) by (rewrite Ec; apply in_or_app; right; right; left; reflexivity). pose proof (contig_in _ _ _ _ Ct Iz). lia. }
            rewrite Em in A2. destruct A2 as [[A2 _]|[_ [(S0 & K0 & _)|[K _]]]]; [unfold minf, maxf in A2; lia| |exact K].
            pose proof (contig_in _ _ _ _ Ct S0). lia.
          - apply (tau_next cs a b (pre ++ [y]) r (ip y + 1) x2 Ct); [rewrite <- app_assoc; exact Ec|unfold minf; lia|exact Hb|exact P1|exact P2|exact A2]. }
        split; [split; [exact I2|]|].
        * exists (pre ++ [y]), r. rewrite <- app_assoc. split; [exact Ec|]. split; [exact E2|]. destruct r; lia.
        * rewrite E2. destruct r as [|z r]; cbn [ip]; lia.
    - split; [exact I1|]. exists [], cs. split; [reflexivity|]. split; [exact E0|]. destruct cs as [|y r]; cbn in Ct; lia.
    - rewrite E0. destruct cs as [|y r]; [cbn; unfold BIG, maxf; lia|]. cbn in Ct. unfold BIG, maxf. lia. }
  apply wp_exists in W. destruct W as (l & -> & ->). reflexivity.
Qed.
Lemma range_chunked (o : hobj) t cs a b : answers (projT1 o) (projT2 o) (set_of cs) -> contig cs a b -> 0 <= a -> b < maxf ->
  exists o', answers (projT1 o') (projT2 o') (set_of cs) /\
    range (o, t) = Ok ((o', t), if a <? b then Some (a, b - 1) else None).
Proof.
  intros [G I] Ct Ha Hb. unfold range. pose proof (contig_le _ _ _ Ct) as Lab. set (C := projT1 o) in *.
  pose proof (implements_step C (set_of cs) (projT2 o) Mtau (minf + 1) I ltac:(unfold minf, maxf; lia)) as H1. apply wp_exists in H1.
  destruct H1 as ([s1 x0] & H1 & I1 & A1). cbn [call] in H1. rewrite H1. cbn [bind].
  assert (E0 : x0 = match cs with [] => Iv maxf maxf 0 | y :: _ => y end).
  { apply (tau_next cs a b [] cs (minf + 1) x0 Ct eq_refl); [unfold minf, maxf; lia|lia|intros y []| |exact A1].
    destruct cs as [|y r]; [exact Logic.I|]. cbn in Ct. unfold minf. lia. }
  rewrite E0. destruct cs as [|y r].
  - cbn [ip]. replace (maxf <? maxf) with false by lia. cbn in Ct. replace (a <? b) with false by lia. eexists. split; [|reflexivity]. split; assumption.
  - assert (Ry : ip y = a /\ a < b). { cbn in Ct. destruct Ct as (A & B & D). apply contig_le in D. lia. }
    replace (ip y <? maxf) with true by lia. replace (a <? b) with true by lia.
    pose proof (implements_step C (set_of (y :: r)) s1 Muat (maxf - 1) I1 ltac:(unfold minf, maxf; lia)) as H2. apply wp_exists in H2.
    destruct H2 as ([s2 x2] & H2 & I2 & A2). cbn [call] in H2. rewrite H2. cbn [bind].
    destruct (contig_find _ _ _ (b - 1) Ct ltac:(lia)) as (z & Iz & Bz). pose proof (contig_in _ _ _ _ Ct Iz) as Cz.
    destruct A2 as [[A2 _]|[_ A2]]; [unfold minf, maxf in A2; lia|]. cbn in A2.
    destruct A2 as [(S0 & K0 & M0)|[_ N0]].
    + assert (iq x2 = b - 1). { specialize (M0 z Iz ltac:(lia)). pose proof (contig_in _ _ _ _ Ct S0) as C2. lia. }
      exists (existT _ C s2 : hobj). split; [split; assumption|]. rewrite H, (proj1 Ry). reflexivity.
    + specialize (N0 z Iz). lia.
Qed.

Section Count.
Context (tokenize : bytes -> list token) (skip : bytes -> Z -> Z) (stop : bytes -> Prop) (starts : bytes -> list Z).
Context (Laws : tokenizer_laws tokenize skip stop starts).
(** A committed transaction has as many tokens as its text, from its address on. *)
Theorem count_back : forall chunk transaction sort, null_feature < chunk -> transaction <> chunk -> (forall l, sort_result l (sort l)) ->
  forall es w seq, Forall (edit_ok tokenize stop chunk) es -> 0 <= w ->
  let n := Z.of_nat (length (starts (full_text (texts es)))) in w + n <= staging ->
  Z.of_nat (length (d_annotations (appender_ready chunk transaction (draft_after tokenize chunk es)))) <= 2305843009213693951 ->
  exists m x x', ready chunk transaction sort w seq (draft_after tokenize chunk es) = Ok m /\ fiver_txt chunk m = Ok x /\
    tokens x = Ok n /\ range x = Ok (x', if 0 <? n then Some (w, w + n - 1) else None).
Proof.
  intros chunk transaction sort Hc Ht Hs es w seq He Hw n Hw2 Hr.
  destruct (ready_txt tokenize skip stop starts Laws chunk transaction Hc Ht sort Hs es He w Hw Hw2 Hr seq) as (m & o & cs & E & _ & F & A & C & _).
  pose proof (ch_contig _ _ _ _ _ _ C) as Ct. fold n in Ct. assert (Hm : w + n < maxf) by (unfold staging, maxf in *; lia).
  destruct (range_chunked o (full_text (texts es)) cs w (w + n) A Ct Hw Hm) as (o' & _ & R).
  exists m, (o, full_text (texts es)), (o', full_text (texts es)). split; [exact E|]. split; [exact F|]. split.
  - rewrite (tokens_chunked o _ cs w (w + n) A Ct Hw ltac:(lia)). f_equal. lia.
  - rewrite R. replace (w <? w + n) with (0 <? n) by lia. reflexivity.
Qed.
(** After any merging too. *)
Theorem count_merging : forall chunk transaction sort, null_feature < chunk -> transaction <> chunk -> (forall l, sort_result l (sort l)) ->
  forall ess ws a b ws', committed tokenize starts chunk transaction sort a ess ws b -> 0 <= a -> b <= staging ->
  Forall (fun es => Forall (edit_ok tokenize stop chunk) es /\ starts_well starts es /\ edits_fit tokenize chunk transaction es) ess ->
  len (text_of (pieces_of starts a ess)) <= max_len -> merge_steps sort chunk ws ws' ->
  exists xs, open_all chunk ws' = Ok xs /\ bigwig_tokens xs = Ok (b - a).
Proof.
  intros chunk transaction sort Hc Ht Hs ess ws a b ws' H Ha Hb F Hl St.
  destruct (committed_row tokenize skip stop starts Laws chunk transaction Hc Ht sort Hs ess a ws b H Ha Hb F) as (pss & R & Ep).
  assert (Bm : b < maxf) by (unfold staging, maxf in *; lia).
  rewrite <- Ep in *. destruct (steps_row tokenize skip stop starts Laws chunk transaction Hc Ht sort Hs ws ws' St pss a b R Ha Bm Hl) as (pss' & R' & _).
  clear - Laws R' Bm Ha. revert pss' a R' Ha. induction ws' as [|w ws IH]; intros pss a R Ha; inversion R; subst.
  - exists []. split; [reflexivity|]. cbn. f_equal. lia.
  - match goal with K : row _ _ ws _ _ _ |- _ => pose proof (row_lo tokenize skip stop starts Laws chunk _ _ _ _ K) as Lo; rename K into Rw end.
    match goal with K : is_shard _ _ w _ _ _ |- _ => rename K into Sh end.
    pose proof (pieces_le tokenize skip stop starts Laws _ _ _ (sh_pieces _ _ _ _ _ _ Sh)) as L1. pose proof (pieces_end tokenize skip stop starts Laws _ _ _ (sh_pieces _ _ _ _ _ _ Sh)) as L2.
    destruct (shard_open starts chunk _ _ _ _ Sh) as (o & cs & Eo & Ao & Ch).
    destruct (IH _ _ Rw ltac:(lia)) as (xs & Ex & Tx). cbn [open_all]. rewrite Eo, Ex. cbn [bind]. eexists. split; [reflexivity|].
    cbn [bigwig_tokens]. pose proof (ch_contig _ _ _ _ _ _ Ch) as Ct. rewrite <- L2 in Ct.
    rewrite (tokens_chunked o _ cs _ _ Ao Ct ltac:(lia) ltac:(lia)). cbn [bind]. rewrite Tx. cbn [bind]. rewrite chk_ok by (unfold minf, maxf in *; lia). f_equal. lia.
Qed.
End Count.
