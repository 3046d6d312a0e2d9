(** Proofs: what a view of shards of both kinds answers. *)
From Verif Require Import Base HopperModel ArrayDefs GclSpec HopperProofs ArrayProofs UnaryModel UnaryProofs AnswerProofs VectorModel
  Bytes CodecModel CodecSpec PostingModel PostingSpec PostingProofs ShardModel ShardSpec ShardProofs TokenModel TextModel TextSpec
  HazelModel HazelSpec HazelProofs HazelSources HazelMerge FileModel FileSpec OwslaModel OwslaSpec.

Lemma holds_fun p l l' : holds p l -> holds p l' -> l = l'.
Proof.
  intros (_ & _ & A) (_ & _ & B). assert (E : forall i, nth_error l i = nth_error l' i).
  { intros i. specialize (A i). specialize (B i). congruence. }
  clear A B. revert l' E. induction l as [|x l IH]; intros [|y l'] E; [reflexivity|specialize (E O); discriminate|specialize (E O); discriminate|].
  pose proof (E O) as E0. cbn in E0. injection E0 as ->. f_equal. apply IH. intros i. exact (E (S i)).
Qed.

Section Idx.
Variables cp cf : compressor.

(** [o] answers as the index [ix]. *)
Record answering (o : owsla) (ix : index) : Prop := {
  an_count : forall f, owsla_count o f = Ok (fiver_count ix f);
  an_posting : forall f, owsla_posting cp cf o f = Ok (find_posting ix f);
  an_hopper : forall f l, lst_of f ix l -> Z.of_nat (length l) <= max_len ->
    exists b, owsla_hopper cp cf o f = Ok b /\ answers (projT1 b) (projT2 b) (set_of l) }.

Lemma memory_answering w t : answering (In_memory w t) (f_index w).
Proof. split; [reflexivity|reflexivity|]. intros f l Hl L. exact (fiver_hopper_lst f (f_index w) l Hl L). Qed.
Lemma disk_answering ix h x s : source cp cf ix h -> answering (On_disk h x s) (read_ix ix).
Proof.
  intros [pre post body d W L ->]. pose proof (locate_ok cp cf ix body d pre post L W) as Lo. cbn zeta in Lo.
  destruct W as [Wo Wr].
  assert (Psz : forall p l, holds p l -> Forall value_ok l -> psize (as_read p) = psize p).
  { intros p l H V. rewrite (holds_psize _ _ (as_read_holds p l H V)), (holds_psize _ _ H). reflexivity. }
  assert (No : forall f, locate (hx_dir (hidx_of pre post body d)) f = Ok None -> hazel_count (hidx_of pre post body d) f = Ok 0 /\
     hazel_posting cp cf (hidx_of pre post body d) f = Ok None /\ hazel_hopper cp cf (hidx_of pre post body d) f = Ok empty_obj).
  { intros f E. unfold hazel_count, hazel_posting, hazel_hopper. rewrite E. cbn [bind]. auto. }
  split; cbn [owsla_count owsla_posting owsla_hopper].
  - intros f. specialize (Lo f). unfold fiver_count. rewrite find_read. destruct (find_posting ix f) as [p|] eqn:E; cbn [option_map].
    + destruct (find_good cp cf ix f p Wr E) as (F & St & l & H & N & V). cbn [fst snd] in *. destruct Lo as (i & e & El & Ef & En & Ee).
      rewrite (Psz p l H V). exact (entry_count cp cf _ f p l i e H V Ee El).
    + apply No, Lo.
  - intros f. specialize (Lo f). rewrite find_read. destruct (find_posting ix f) as [p|] eqn:E; cbn [option_map].
    + destruct (find_good cp cf ix f p Wr E) as (F & St & l & H & N & V). cbn [fst snd] in *. destruct Lo as (i & e & El & Ef & En & Ee).
      exact (entry_posting cp cf _ f p l i e F St H Ee El).
    + apply No, Lo.
  - intros f l Hl Ll. specialize (Lo f). destruct (find_posting ix f) as [p|] eqn:E.
    + destruct (find_good cp cf ix f p Wr E) as (F & St & l0 & H & N & V). cbn [fst snd] in *. destruct Lo as (i & e & El & Ef & En & Ee).
      assert (l = l0).
      { destruct Hl as [Q|p' l Q A B C D G]; rewrite find_read, E in Q; cbn in Q; [discriminate|]. injection Q as <-.
        exact (holds_fun _ _ _ B (as_read_holds p l0 H V)). }
      subst l0. apply (entry_hopper cp cf _ f p l i e F St H N V Ee El); [|exact Ll]. destruct Hl as [|? ? ? ? ? ? G]; [contradiction|exact G].
    + destruct Hl as [Q|p' l Q]; [|rewrite find_read, E in Q; discriminate]. destruct (No f Lo) as (_ & _ & ->). eexists. split; [reflexivity|].
      apply empty_obj_ok. intros y. unfold set_of. cbn. tauto.
Qed.

Lemma count_view os ws f : Forall2 answering os ws -> view_count os f = Ok (bigwig_count ws f).
Proof.
  induction 1 as [|o w r t A _ IH]; [reflexivity|]. cbn [view_count]. rewrite (an_count _ _ A), IH. reflexivity.
Qed.
Lemma contrib_view os ws f : Forall2 answering os ws -> exists cs, owsla_contributors os f = Ok cs /\ Forall2 answering cs (contributors ws f).
Proof.
  induction 1 as [|o w r t A _ (cs & E & F)]; [exists []; split; [reflexivity|constructor]|]. cbn [owsla_contributors].
  rewrite (an_count _ _ A), E. cbn [bind]. unfold contributors in *. cbn [filter]. destruct (0 <? fiver_count w f); eexists; (split; [reflexivity|]); [constructor|]; assumption.
Qed.
Lemma erasing_view os ws : Forall2 answering os ws -> owsla_erasing os = Ok (erasing ws).
Proof.
  induction 1 as [|o w r t A _ IH]; [reflexivity|]. cbn [owsla_erasing]. rewrite (an_count _ _ A). cbn [bind]. unfold erasing in *. cbn [existsb].
  destruct (negb (fiver_count w null_feature =? 0)); [reflexivity|exact IH].
Qed.
Lemma postings_view os ws f : Forall2 answering os ws -> owsla_postings cp cf os f = Ok (postings_of ws f).
Proof.
  induction 1 as [|o w r t A _ IH]; [reflexivity|]. cbn [owsla_postings]. rewrite (an_posting _ _ A), IH. cbn [bind]. unfold postings_of. cbn [flat_map].
  destruct (find_posting w f); reflexivity.
Qed.
Lemma raw_view os ws f ls : Forall2 answering os ws -> Forall2 (lst_of f) ws ls -> Z.of_nat (length (concat ls)) <= max_len ->
  exists o, owsla_raw cp cf os f = Ok o /\ answers (projT1 o) (projT2 o) (sem_inner (map set_of ls)).
Proof.
  intros Ho H L. destruct (raw_hopper_lst f ws ls H L) as (b & Eb & Ab). unfold raw_hopper in Eb. unfold owsla_raw.
  destruct (contrib_view os ws f Ho) as (cs & E & F). rewrite E. cbn [bind]. pose proof (lsts_contrib f ws ls H) as C.
  pose proof (inner_lists_drop_empty ls) as D. fold full in D. rewrite <- concat_full in L. remember (filter full ls) as ls' eqn:Els. clear Els.
  destruct F as [|o1 w1 r t A1 F].
  - exists b. split; [exact Eb|exact Ab].
  - destruct F as [|o2 w2 r t A2 F].
    + inversion C as [|w' l' t' ls2 Hl C2]; subst. inversion C2; subst. cbn [concat] in L. rewrite app_nil_r in L.
      destruct (an_hopper _ _ A1 f l' Hl L) as (o & Eo & A). exists o. split; [exact Eo|]. apply (answers_eqs _ _ (set_of l')); [|exact A].
      apply eqs_sym. exact (eqs_trans _ _ _ D (inner_one l' (lst_gcdup _ _ _ Hl))).
    + exists b. split; [|exact Ab]. unfold owsla_fill. rewrite (postings_view (o1 :: o2 :: r) (w1 :: w2 :: t) f); [exact Eb|]. constructor; [|constructor]; assumption.
Qed.
(** As C16_view. *)
Theorem view_answers : forall chunk os ws f, Forall2 answering os ws -> Forall (sound chunk) ws -> null_feature <> chunk -> f <> chunk ->
  room ws f -> room ws null_feature ->
  exists o, view_hopper cp cf os f = Ok o /\
    answers (projT1 o) (projT2 o)
      (if f =? null_feature then innermost_of ws null_feature
       else sem_nin (innermost_of ws f) (innermost_of ws null_feature)).
Proof.
  intros chunk os ws f Ho H N Nf Rf Rn.
  assert (Raw : forall g, g <> chunk -> room ws g -> exists o, owsla_raw cp cf os g = Ok o /\ answers (projT1 o) (projT2 o) (innermost_of ws g)).
  { intros g Ng Rg. destruct (lsts_exist chunk ws g H Ng) as [ls Hls]. unfold room in Rg. rewrite (lsts_count _ _ _ Hls) in Rg.
    destruct (raw_view os ws g ls Ho Hls Rg) as (o & E & A). exists o. split; [exact E|].
    apply (answers_eqs _ _ _ _ (eqs_sym _ _ (lsts_inner _ _ _ Hls)) A). }
  destruct (Raw f Nf Rf) as (a & Ea & Aa). destruct (Raw null_feature N Rn) as (b & Eb & Ab).
  unfold view_hopper. rewrite (erasing_view os ws Ho). cbn [bind]. destruct (f =? null_feature) eqn:En.
  - apply Z.eqb_eq in En. rewrite andb_false_r. exists a. split; [exact Ea|]. rewrite <- En. exact Aa.
  - cbn [negb]. rewrite andb_true_r. destruct (erasing ws) eqn:Ee.
    + rewrite Ea, Eb. cbn [bind]. eexists. split; [reflexivity|]. cbn [projT1 projT2]. apply nin_answers; assumption.
    + exists a. split; [exact Ea|]. apply (answers_eqs _ _ (innermost_of ws f)); [|exact Aa]. intros x. unfold sem_nin.
      split; [|tauto]. intros Hx. split; [exact Hx|]. intros (e & He & _). apply innermost_stored in He. exact (erasing_false chunk ws H N Ee e He).
Qed.
Theorem view_shows : forall chunk os ws f, Forall2 answering os ws -> Forall (sound chunk) ws -> null_feature <> chunk ->
  f <> chunk -> f <> null_feature -> room ws f -> room ws null_feature -> erasures_apart ws ->
  exists o, view_hopper cp cf os f = Ok o /\ answers (projT1 o) (projT2 o) (visible ws f).
Proof.
  intros chunk os ws f Ho H N Nf Nn Rf Rn Ap. destruct (view_answers chunk os ws f Ho H N Nf Rf Rn) as (o & E & A).
  exists o. split; [exact E|]. apply Z.eqb_neq in Nn. rewrite Nn in A. revert A. apply answers_eqs.
  intros x. unfold sem_nin, visible. rewrite (erased_inner chunk ws H N Ap x). tauto.
Qed.
End Idx.
