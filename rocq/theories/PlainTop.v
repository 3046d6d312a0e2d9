(** The text of a single-file index: from adding to reading. *)
From Verif Require Import Base Bytes CodecModel CodecSpec ChunkModel ChunkSpec ChunkLife ChunkStep TokenModel PlainModel PlainSpec PlainWrite PlainLife.
From Verif Require TextSpec FileSpec PlainRead.

Section Reader.
Variable c : compressor.
Variable cs : Z.
Variable held : Z -> bool.
Definition reads (rs : list (Z * Z)) : list event := map (fun x => Read (fst x) (snd x)) rs.
Definition fine (T : bytes) (x : Z * Z) : Prop := 0 <= fst x /\ 0 <= snd x /\ fst x + snd x <= maxf.
Lemma reads_allowed T rs : Forall (fine T) rs -> all_allowed c cs (reads rs) (Flat T None false).
Proof.
  induction 1 as [|[p n] rs H _ IH]; [exact I|]. split; [|exact IH]. unfold fine in H. cbn in *. unfold minf. lia.
Qed.
Lemma run_snoc l e : forall w, run c cs held (l ++ [e]) w =
  let* (r, w) := run c cs held l w in let* (a, w) := run1 c cs held e w in Ok (r ++ [a], w).
Proof.
  induction l as [|x l IH]; intros w; cbn [app run bind].
  - destruct (run1 c cs held e w) as [[a w']| |]; reflexivity.
  - destruct (run1 c cs held x w) as [[a w']| |]; cbn [bind]; try reflexivity. rewrite IH.
    destruct (run c cs held l w') as [[r w2]| |]; cbn [bind]; try reflexivity.
    destruct (run1 c cs held e w2) as [[a2 w3]| |]; reflexivity.
Qed.
Lemma flat_reads T rs : snd (flat_run (reads rs) (Flat T None false)) = Flat T None false.
Proof. induction rs as [|x rs IH]; [reflexivity|]. cbn [reads map flat_run flat1 text mark]. fold (reads rs). destruct (flat_run (reads rs) (Flat T None false)). exact IH. Qed.
Lemma flat_snoc l e f : flat_run (l ++ [e]) f =
  (fst (flat_run l f) ++ [fst (flat1 e (snd (flat_run l f)))], snd (flat1 e (snd (flat_run l f)))).
Proof.
  revert f. induction l as [|x l IH]; intros f; cbn [app flat_run].
  - cbn [fst snd]. destruct (flat1 e f); reflexivity.
  - destruct (flat1 x f) as [a f1]. rewrite IH. destruct (flat_run l f1). reflexivity.
Qed.
Lemma serves_reads d T : serves c cs held d T -> len T <= maxf ->
  exists w0 (J : program -> Prop), opened c cs held d = Ok w0 /\ J w0 /\ io_size w0 = len T /\
    forall w p n, J w -> 0 <= p -> 0 <= n -> p + n <= len T ->
      exists w', io_read c cs held p n w = Ok (TextSpec.between T p (p + n), w') /\ J w'.
Proof.
  intros S HT. destruct (S [Size]) as (w0 & w' & O & R); [split; exact I|].
  exists w0, (fun w => exists rs a, Forall (fine T) rs /\ run c cs held (reads rs) w0 = Ok (a, w)).
  split; [exact O|]. split; [exists [], []; split; [constructor|reflexivity]|]. split.
  { cbn [run run1 bind flat_run flat1 fst text] in R. injection R as R _. exact R. }
  intros w p n (rs & a & Hrs & Er) Hp Hn Hpn.
  assert (Hrs' : Forall (fine T) (rs ++ [(p, n)])) by (apply Forall_app; split; [exact Hrs|constructor; [unfold fine; cbn; lia|constructor]]).
  destruct (S (reads (rs ++ [(p, n)])) (reads_allowed T _ Hrs')) as (w1 & w2 & O1 & R1).
  assert (w1 = w0) by congruence. subst w1. unfold reads in R1. rewrite map_app in R1. cbn [map fst snd] in R1. fold (reads rs) in R1.
  assert (R2 := R1). rewrite run_snoc, Er, flat_snoc, flat_reads in R1. cbn [bind flat1 fst text] in R1. unfold io_read.
  destruct (run1 c cs held (Read p n) w) as [[b w3]| |]; cbn [bind] in R1; try discriminate R1.
  injection R1 as R1 ->. apply app_inj_tail in R1. destruct R1 as [_ ->]. cbn [bind].
  exists w2. split; [unfold TextSpec.between; do 3 f_equal; lia|].
  exists (rs ++ [(p, n)]). eexists. split; [exact Hrs'|]. unfold reads. rewrite map_app. cbn [map fst snd]. fold (reads rs). exact R2.
Qed.
Lemma reader_ok tokenize skip stop starts split d T l la :
  TextSpec.tokenizer_laws tokenize skip stop starts -> FileSpec.cut_law starts -> split_law split starts ->
  serves c cs held d T -> len T <= maxf -> recorded starts T l ->
  (In Tokens la -> ~ In 0 T) -> (forall p q, In (Translate p q) la -> q <= maxf) ->
  exists x, txt_make c cs held d l = Ok (Some x) /\ asks c cs held skip split la x = Ok (map (answers starts T) la).
Proof.
  intros laws Hcut Hsplit S HT Hrec H0 Hq. destruct (serves_reads d T S HT) as (w & J & O & Jw & Sz & HJ).
  unfold txt_make. rewrite O. cbn [bind]. rewrite (PlainRead.checked starts T l Hrec). eexists. split; [reflexivity|].
  apply (PlainRead.asks_ok c cs held tokenize skip stop starts split laws Hcut Hsplit T HT J HJ l Hrec); [|exact H0|exact Hq].
  apply (PlainRead.made_ok starts T J l w Jw Sz).
Qed.
End Reader.

Lemma life_ok c cs held tokenize skip stop starts split ts l :
  suitable c cs -> TextSpec.tokenizer_laws tokenize skip stop starts -> FileSpec.cut_law starts -> split_law split starts -> features_ok tokenize ->
  Forall (text_ok stop) ts -> len (whole ts) <= maxf -> all_permitted c cs tokenize stop starts l (Burrow ts None false) ->
  exists b b' d records, builder_make c cs held = Ok b /\
    add_all c cs held tokenize ts b = Ok (ranges_of starts [] ts, b') /\ b_tokens b' = all_words tokenize starts [] ts /\
    finalize c cs held b' = Ok (d, records) /\
    exists a, calls c cs held tokenize split l (appender_make d records false) = Ok (fst (burrow_run tokenize starts l (Burrow ts None false)), a) /\
    let end_ := snd (burrow_run tokenize starts l (Burrow ts None false)) in
    (open end_ = None -> forall la, (forall p q, In (Translate p q) la -> q <= maxf) ->
     exists x, txt_make c cs held (disk_of a) (a_txt a) = Ok (Some x) /\
               asks c cs held skip split la x = Ok (map (answers starts (whole (kept end_))) la)).
Proof.
  intros (Hcs & Hloss & Hfit) laws Hcut Hsplit Hfeat Hts Hlen Hp.
  destruct (build_all c cs held Hcs Hloss Hfit tokenize skip stop starts laws ts Hts) as (b & b' & d & E1 & E2 & E3 & E4 & E5 & E6 & E7).
  exists b, b', d, (b_txt b'). split; [exact E1|]. split; [exact E2|]. split; [exact E3|]. split; [exact E4|].
  destruct (calls_ok c cs held Hcs Hloss Hfit tokenize skip stop starts split laws Hsplit Hfeat l (appender_make d (b_txt b') false) (Burrow ts None false)) as (a & Ea & Ia); [|exact Hp|].
  { split; [reflexivity|]. split; [exact Hts|]. split; [exact E7|]. cbn [open kept]. rewrite app_nil_r. split; [exact Hlen|].
    unfold state_ok. cbn. auto. }
  exists a. split; [exact Ea|]. cbv zeta. intros Ho la Hq.
  destruct (ainv_rest c cs held Hcs Hloss Hfit stop starts a _ Ia Ho) as (S & Rec & Hk & Hm).
  apply (reader_ok c cs held tokenize skip stop starts split _ _ _ la laws Hcut Hsplit S Hm Rec); [|exact Hq].
  intros _. eapply whole_clean; exact Hk.
Qed.
