(** The text of shards of both kinds. *)
From Verif Require Import Base Bytes HopperModel ArrayDefs GclSpec HopperProofs ArrayProofs UnaryProofs AnswerProofs VectorModel CodecModel
  PostingModel PostingSpec PostingProofs AnnProofs ShardModel ShardSpec ShardProofs TokenModel
  TextModel TextSpec TextProofs DraftProofs TextStore TextBack TextMerge TextShards TextCount HazelModel HazelSpec FileModel FileSpec CodecProofs HazelProofs HazelText HazelWrite OwslaModel OwslaSpec.

Section Views.
Context (tokenize : bytes -> list token) (skip : bytes -> Z -> Z) (stop : bytes -> Prop) (starts : bytes -> list Z).
Context (Laws : tokenizer_laws tokenize skip stop starts) (Cut : cut_law starts).
Context (ct : compressor).
Notation pieces_at := (pieces_at starts).
Notation chunked ps a cs := (chunked starts (text_of ps) (starts (text_of ps)) a (first_of ps) cs).
Notation hazel_text ps a cs x := (hazel_text ct (text_of ps) (starts (text_of ps)) a cs x).

(** Each piece starts with a token. *)
Lemma pieces_early ps : forall a b x o, pieces_at ps a b -> first_of ps x = Some o -> o = token_start (text_of ps) (starts (text_of ps)) a x.
Proof.
  induction ps as [|[t c] r IH]; intros a b x o H F; [discriminate|]. pose proof (first_in tokenize skip stop starts Laws _ _ _ _ _ H F) as Rx.
  cbn in H, F. destruct H as (-> & B & (u & Eu & At) & D). destruct (pieces_nonempty starts t B) as (l & El).
  unfold text_of. cbn [map concat fst]. unfold token_start.
  rewrite At.
  destruct (Z.eqb_spec x a) as [->|N].
  - injection F as <-. rewrite Z.sub_diag, El. reflexivity.
  - destruct (first_of r x) as [o'|] eqn:E; [|discriminate]. injection F as <-.
    pose proof (first_in tokenize skip stop starts Laws _ _ _ _ _ D E) as R2. specialize (IH _ _ _ _ D E). rewrite IH. unfold token_start, text_of.
    rewrite app_nth2 by lia. replace (Z.to_nat (x - a) - length (starts t))%nat with (Z.to_nat (x - (a + Z.of_nat (length (starts t))))) by lia.
    rewrite len_app. symmetry. apply nth_map_add.
Qed.

(** An opened shard shows the pieces [ps]. *)
Definition opens_to (o : owsla) (ps : list piece) (a b : Z) : Prop :=
  0 <= a /\ b < maxf /\ pieces_at ps a b /\
  match o with
  | In_memory w t => snd t = text_of ps /\ exists cs, answers (projT1 (fst t)) (projT2 (fst t)) (set_of cs) /\ chunked ps a cs
  | On_disk h x s => exists cs, chunked ps a cs /\ hazel_text ps a cs x /\ answers (projT1 (fst s)) (projT2 (fst s)) (set_of cs) /\ cached x (text_of ps) (snd s)
  end.
Definition same_kind (o o' : owsla) : Prop :=
  match o, o' with In_memory w _, In_memory w' _ => w = w' | On_disk h x _, On_disk h' x' _ => h = h' /\ x = x' | _, _ => False end.
Lemma opens_translate o ps a b p q : opens_to o ps a b -> minf <= p <= maxf -> minf <= q < maxf ->
  exists o', owsla_translate ct skip o p q = Ok (o', expected_all starts ps p q) /\ opens_to o' ps a b /\ same_kind o o'.
Proof.
  intros (A & B & P & H) Hp Hq. destruct o as [w [o t]|h x [o c]]; cbn [fst snd] in H.
  - destruct H as (E & cs & An & Ch). subst t.
    destruct (translate_chunked tokenize skip stop starts Laws _ _ _ _ _ Ch o p q An Hp Hq) as (o' & T & D').
    rewrite (expected_pieces tokenize skip stop starts Laws ps a b p q A P) in T.
    exists (In_memory w (o', text_of ps)). cbn [owsla_translate]. rewrite T. cbn [bind]. split; [reflexivity|]. split; [|reflexivity].
    split; [exact A|]. split; [exact B|]. split; [exact P|]. cbn [fst snd]. split; [reflexivity|]. exists cs. auto.
  - destruct H as (cs & Ch & Hz & An & Ca).
    destruct (hazel_chunked tokenize skip stop starts Laws Cut ct _ _ _ _ cs Ch (fun k o0 _ F => pieces_early ps a b k o0 P F) x o c p q Hz An Ca) as (o' & c' & T & An' & Ca').
    rewrite (expected_pieces tokenize skip stop starts Laws ps a b p q A P) in T.
    exists (On_disk h x (o', c')). cbn [owsla_translate]. rewrite T. cbn [bind]. split; [reflexivity|]. split; [|split; reflexivity].
    split; [exact A|]. split; [exact B|]. split; [exact P|]. exists cs. cbn [fst snd]. auto.
Qed.
Lemma opens_tokens o ps a b : opens_to o ps a b -> owsla_tokens o = Ok (b - a).
Proof.
  intros (A & B & P & H). pose proof (pieces_end tokenize skip stop starts Laws _ _ _ P) as E. destruct o as [w [o t]|h x [o c]]; cbn [fst snd] in H.
  - destruct H as (_ & cs & An & Ch). pose proof (ch_contig _ _ _ _ _ _ Ch) as Ct. rewrite <- E in Ct. cbn [owsla_tokens].
    exact (tokens_chunked o t cs a b An Ct A ltac:(lia)).
  - destruct H as (cs & Ch & Hz & _). cbn [owsla_tokens]. destruct (hazel_counts starts ct _ _ _ _ cs Ch (fun k o0 _ F => pieces_early ps a b k o0 P F) x Hz) as [T _]. rewrite T. f_equal. lia.
Qed.
Lemma opens_range o ps a b : opens_to o ps a b ->
  exists o', owsla_range o = Ok (o', if a <? b then Some (a, b - 1) else None) /\ opens_to o' ps a b.
Proof.
  intros (A & B & P & H). pose proof (pieces_end tokenize skip stop starts Laws _ _ _ P) as E. destruct o as [w [o t]|h x [o c]]; cbn [fst snd] in H.
  - destruct H as (-> & cs & An & Ch). pose proof (ch_contig _ _ _ _ _ _ Ch) as Ct. rewrite <- E in Ct. cbn [owsla_range].
    destruct (range_chunked o (text_of ps) cs a b An Ct A B) as (o' & An' & R). rewrite R. cbn [bind].
    exists (In_memory w (o', text_of ps)). split; [reflexivity|]. split; [exact A|]. split; [exact B|]. split; [exact P|]. cbn [fst snd]. split; [reflexivity|]. exists cs. auto.
  - pose proof H as (cs & Ch & Hz & _). cbn [owsla_range]. destruct (hazel_counts starts ct _ _ _ _ cs Ch (fun k o0 _ F => pieces_early ps a b k o0 P F) x Hz) as [_ R]. rewrite R, <- E.
    exists (On_disk h x (o, c)). split; [reflexivity|]. split; [exact A|]. split; [exact B|]. split; [exact P|exact H].
Qed.

(** Opened shards one after the other. *)
Inductive opened_row : list owsla -> list (list piece) -> Z -> Z -> Prop :=
| Opened_none : forall a, opened_row [] [] a a
| Opened_next : forall o os ps pss a b c, opens_to o ps a b -> opened_row os pss b c -> opened_row (o :: os) (ps :: pss) a c.
Lemma orow_le os pss a b : opened_row os pss a b -> a <= b.
Proof. induction 1 as [a|o os ps pss a b c (_ & _ & P & _) _ IH]; [lia|]. pose proof (pieces_le tokenize skip stop starts Laws _ _ _ P). lia. Qed.
Lemma orow_translate os pss a b p q : opened_row os pss a b -> minf <= p <= maxf -> minf <= q < maxf ->
  exists os', view_translate ct skip os p q = Ok (os', expected_all starts (concat pss) p q) /\ opened_row os' pss a b.
Proof.
  intros H Hp Hq. induction H as [a|o os ps pss a b c H R IH]; [exists []; split; [reflexivity|constructor]|].
  destruct (opens_translate o ps a b p q H Hp Hq) as (o' & E & O & _). destruct IH as (os' & E' & O'). exists (o' :: os').
  split; [|econstructor; eassumption]. cbn [view_translate]. rewrite E. cbn [bind]. rewrite E'. cbn [bind].
  unfold expected_all. cbn [concat]. rewrite map_app, concat_app. reflexivity.
Qed.
Lemma orow_history l : forall os pss a b, opened_row os pss a b -> Forall (fun pq => minf <= fst pq <= maxf /\ minf <= snd pq < maxf) l ->
  view_translate_all ct skip os l = Ok (map (fun pq => expected_all starts (concat pss) (fst pq) (snd pq)) l).
Proof.
  induction l as [|[p q] r IH]; intros os pss a b H F; [reflexivity|].
  assert (F1 : minf <= p <= maxf /\ minf <= q < maxf) by (inversion F; assumption).
  cbn [view_translate_all map fst snd]. destruct (orow_translate os pss a b p q H (proj1 F1) (proj2 F1)) as (os' & E & O). rewrite E. cbn [bind].
  rewrite (IH os' pss a b O); [reflexivity|inversion F; assumption].
Qed.
Lemma orow_tokens os pss a b : opened_row os pss a b -> 0 <= a -> b < maxf -> view_tokens os = Ok (b - a).
Proof.
  induction 1 as [a|o os ps pss a b c H R IH]; intros Ha Hb; [cbn; f_equal; lia|]. pose proof (orow_le _ _ _ _ R) as L.
  cbn [view_tokens]. rewrite (opens_tokens o ps a b H). cbn [bind]. pose proof H as (_ & _ & P & _).
  pose proof (pieces_le tokenize skip stop starts Laws _ _ _ P) as L2.
  rewrite IH by lia. cbn [bind]. rewrite chk_ok by (unfold minf, maxf in *; lia). f_equal. lia.
Qed.
(** Ranges. *)
Lemma orow_empty os pss a : opened_row os pss a a -> exists os', first_range os = Ok (os', None).
Proof.
  intros H. remember a as b eqn:E in H at 2. revert E. induction H as [a|o os ps pss a b c H R IH]; intros E; [exists []; reflexivity|].
  pose proof (orow_le _ _ _ _ R) as L. pose proof H as (_ & _ & P & _). pose proof (pieces_le tokenize skip stop starts Laws _ _ _ P) as L2.
  cbn [first_range]. destruct (opens_range o ps a b H) as (o' & Er & _). rewrite Er. replace (a <? b) with false by lia. cbn [bind].
  destruct (IH ltac:(lia)) as (os' & ->). cbn [bind]. eexists. reflexivity.
Qed.
Lemma orow_first os pss a b : opened_row os pss a b -> a < b -> exists os' i c, first_range os = Ok (os', Some (a, c - 1, i)) /\
  exists pss', opened_row (skipn (S i) os') pss' c b.
Proof.
  induction 1 as [a|o os ps pss a b c H R IH]; intros L; [lia|]. cbn [first_range]. destruct (opens_range o ps a b H) as (o' & Er & _). rewrite Er.
  pose proof H as (_ & _ & P & _). pose proof (pieces_le tokenize skip stop starts Laws _ _ _ P) as L2.
  destruct (Z.ltb_spec a b) as [Lt|Ge]; cbn [bind].
  - exists (o' :: os), O, b. split; [reflexivity|]. exists pss. exact R.
  - assert (b = a) by lia. subst b. destruct (IH L) as (os' & i & d & E & pss' & K). rewrite E. cbn [bind].
    exists (o' :: os'), (S i), d. split; [reflexivity|]. exists pss'. exact K.
Qed.
Lemma orow_snoc os : forall pss a b o, opened_row (os ++ [o]) pss a b -> exists pss' ps m, opened_row os pss' a m /\ opens_to o ps m b.
Proof.
  induction os as [|o1 os IH]; intros pss a b o H; cbn [app] in H.
  - inversion H; subst. match goal with K : opened_row [] _ _ _ |- _ => inversion K; subst end. exists [], ps, a. split; [constructor|assumption].
  - inversion H; subst. match goal with K : opened_row (os ++ _) _ _ _ |- _ => destruct (IH _ _ _ _ K) as (p' & p1 & m & R & O) end.
    exists (ps :: p'), p1, m. split; [econstructor; eassumption|exact O].
Qed.
Lemma orow_last n : forall os pss a b, length os = n -> opened_row os pss a b -> exists os', last_range (rev os) = Ok (os', if a <? b then Some (b - 1) else None).
Proof.
  induction n as [|n IH]; intros os pss a b Ln H.
  - destruct os; [|discriminate]. inversion H; subst. exists []. cbn. rewrite Z.ltb_irrefl. reflexivity.
  - destruct os as [|o0 os0] using rev_ind; [discriminate|]. clear IHos0. rewrite rev_app_distr. cbn [rev app last_range].
    rewrite app_length in Ln. cbn in Ln. destruct (orow_snoc os0 _ _ _ _ H) as (pss' & ps & m & R & O). pose proof (orow_le _ _ _ _ R) as L.
    destruct (opens_range o0 ps m b O) as (o' & Er & _). rewrite Er. pose proof O as (_ & _ & P & _). pose proof (pieces_le tokenize skip stop starts Laws _ _ _ P) as L2.
    destruct (Z.ltb_spec m b) as [Lt|Ge]; cbn [bind].
    + replace (a <? b) with true by lia. eexists. reflexivity.
    + destruct (IH os0 pss' a m ltac:(lia) R) as (os' & ->). cbn [bind]. replace m with b by lia. eexists. reflexivity.
Qed.
Lemma orow_range os pss a b : opened_row os pss a b -> exists os', view_range os = Ok (os', if a <? b then Some (a, b - 1) else None).
Proof.
  intros H. pose proof (orow_le _ _ _ _ H) as L. unfold view_range. destruct (Z.ltb_spec a b) as [Lt|Ge].
  - destruct (orow_first os pss a b H Lt) as (os' & i & c & E & pss' & R). rewrite E. cbn [bind]. pose proof (orow_le _ _ _ _ R) as L2.
    destruct (orow_last _ _ _ _ _ eq_refl R) as (os2 & ->). cbn [bind]. eexists. f_equal. f_equal. f_equal. f_equal. destruct (Z.ltb_spec c b); lia.
  - assert (b = a) by lia. subst b. destruct (orow_empty os pss a H) as (os' & ->). cbn [bind]. eexists. reflexivity.
Qed.
End Views.
