(** The life of a store: shards merged, pickled, written to files and merged there. *)
From Verif Require Import Base Bytes HopperModel ArrayDefs GclSpec HopperProofs ArrayProofs UnaryProofs AnswerProofs VectorModel CodecModel CodecSpec CodecProofs
  PostingModel PostingSpec PostingProofs AnnProofs ShardModel ShardSpec ShardProofs TokenModel
  TextModel TextSpec TextProofs DraftProofs TextStore TextBack TextMerge TextShards TextCount TextIndex
  HazelModel HazelSpec HazelProofs HazelSources HazelMerge FileModel FileSpec FileProofs HazelText HazelWrite
  OwslaModel OwslaSpec OwslaIdx OwslaFile OwslaText OwslaLater.

Section Life.
Context (tokenize : bytes -> list token) (skip : bytes -> Z -> Z) (stop : bytes -> Prop) (starts : bytes -> list Z).
Context (Laws : tokenizer_laws tokenize skip stop starts) (Cut : cut_law starts).
Context (chunk transaction : Z) (Hchunk : null_feature < chunk) (Hmax : chunk < maxf) (Htrans : transaction <> chunk).
Context (sort : list annotation -> list annotation) (Hsort : forall l, sort_result l (sort l)).
Context (cp cf ct : compressor) (SL : stores_lists cp cf) (ST : stores_text ct).
Notation pieces_at := (pieces_at starts).
Notation chunked ps a cs := (chunked starts (text_of ps) (starts (text_of ps)) a (first_of ps) cs).
Notation hazel_text ps a cs x := (hazel_text ct (text_of ps) (starts (text_of ps)) a cs x).
Notation row := (TextShards.row starts chunk).
Notation is_shard := (is_shard starts chunk).

(** * Files *)
(** The text and index of an opened file. *)
Record kept (ix : index) (h : hidx) (x : htxt) (ps : list piece) (a b : Z) (cs : list iv) : Prop := {
  kp_index : index_ok ix;
  kp_writable : writable cp cf ix;
  kp_shelved : shelved cp cf ix h;
  kp_text : exists bt, holds_text ct x (text_of ps) bt;
  kp_target : 0 < ht_target x <= maxf;
  kp_range : if a <? b then ht_first x = a /\ ht_last x = b - 1 else ht_first x = maxf;
  kp_ends : forall e, In e (ht_map x) -> te_raw e = len (text_of ps) \/ exists c, In c cs /\ te_raw e = ivl c }.
(** A shard of either kind with the index [ix], in the view, and the text [ps]. *)
Definition lives (s : stored) (ix : index) (ps : list piece) (a b : Z) : Prop :=
  0 <= a /\ b < maxf /\ pieces_at ps a b /\ Forall is_byte (text_of ps) /\ rows_ok ix /\
  exists cs, chunked ps a cs /\ (forall x, stored_in ix chunk x <-> In x cs) /\
  match s with
  | Mem w => f_index w = ix /\ f_text w = text_of ps
  | File f => exists ix0 h x o, ix = read_ix ix0 /\ kept ix0 h x ps a b cs /\
      open_file cp cf chunk f = Ok (Some (h, x, (o, map (fun _ => None) (ht_map x)))) /\ answers (projT1 o) (projT2 o) (set_of cs)
  end.

Lemma kept_source ix h x ps a b cs : kept ix h x ps a b cs -> source cp cf ix h.
Proof.
  intros [_ W S _ _ _ _]. destruct (shelved_laid cp cf ix h W S) as (pre & post & body & d & L & E & _). exact (Source cp cf ix h pre post body d W L E).
Qed.
Lemma ends_positive d : forall p hi e, ends p d hi -> In e d -> p < te_raw e.
Proof.
  induction d as [|x r IH]; intros p hi e H K; [destruct K|]. cbn in H. destruct H as [H1 H2], K as [->|K]; [exact H1|].
  specialize (IH _ _ _ H2 K). lia.
Qed.
Lemma kept_hazel ix h x ps a b cs : pieces_at ps a b -> chunked ps a cs -> kept ix h x ps a b cs -> hazel_text ps a cs x.
Proof.
  intros P Ch [_ _ _ (bt & Ht) _ Rg En]. pose proof (pieces_end tokenize skip stop starts Laws _ _ _ P) as Eb.
  split; [exact (holds_shows ct x _ bt Ht)| |rewrite <- Eb; exact Rg].
  rewrite Forall_forall. intros e He. rewrite <- Eb. destruct (En e He) as [K|(c & Hc & K)]; [left; exact K|right].
  pose proof (ends_positive _ _ _ _ (sw_ends _ _ _ (holds_shows ct x _ bt Ht)) He) as Pe.
  pose proof (ch_contig _ _ _ _ _ _ Ch) as Ct. rewrite <- Eb in Ct. pose proof (contig_in _ _ _ _ Ct Hc) as Cc.
  pose proof (ch_offset _ _ _ _ _ _ Ch c Hc) as Of.
  assert (Na : ip c <> a).
  { intros E. destruct (pieces_hd starts _ _ _ P) as [->|[_ F]]; [cbn in P; lia|]. unfold text_start in Of. rewrite E, F in Of. lia. }
  exists (ip c). split; [lia|]. split; [|exists c; auto]. rewrite K, Of. unfold text_start. destruct (first_of ps (ip c)) as [o|] eqn:F; [|reflexivity].
  exact (pieces_early tokenize skip stop starts Laws ps a b (ip c) o P F).
Qed.

(** A file that was just written. *)
Lemma new_file dna ix body d ps a b cs bt td target : no_empty_line dna -> index_ok ix -> writable cp cf ix -> laid cp cf header_length ix body d ->
  (forall f, fiver_count ix f <= big) -> (forall x, stored_in ix chunk x <-> In x cs) ->
  0 <= a -> b < maxf -> pieces_at ps a b -> Forall is_byte (text_of ps) -> len (text_of ps) <= maxf -> chunked ps a cs ->
  laid_text ct (text_of ps) bt 0 0 td (len (text_of ps)) -> 0 < target <= maxf ->
  (forall e, In e td -> te_raw e = len (text_of ps) \/ exists c, In c cs /\ te_raw e = ivl c) ->
  let f := OwslaFile.shard_file dna (blob_of body d) (tblob (text_of ps) bt td target) in len f <= maxf ->
  lives (File f) (read_ix ix) ps a b.
Proof.
  intros Nd Ix W L Cn Ck Ha Hb P By Lt Ch Lx Tg En f Lf. pose proof (pieces_end tokenize skip stop starts Laws _ _ _ P) as Eb.
  pose proof (ch_contig _ _ _ _ _ _ Ch) as Ct. rewrite <- Eb in Ct.
  assert (Ho : forall pre post, exists o, hazel_hopper cp cf (hidx_of pre post body d) chunk = Ok o /\ answers (projT1 o) (projT2 o) (set_of cs)).
  { intros pre post. destruct (index_lst ix chunk Ix) as (l & Hl & _).
    assert (So : source cp cf ix (hidx_of pre post body d)) by exact (Source cp cf ix _ pre post body d W L eq_refl).
    pose proof (disk_answering cp cf ix _ (Htxt [] 0 0 0 [] 0 0) (empty_obj, []) So) as A.
    destruct (an_hopper cp cf _ _ A chunk l (lst_read _ _ _ Hl)) as (o & Eo & Ao).
    { specialize (Cn chunk). rewrite (lst_count _ _ _ Hl) in Cn. unfold big, max_len in *. lia. }
    exists o. split; [exact Eo|]. revert Ao. apply answers_eqs. intros x. rewrite <- (lst_stored _ _ _ Hl x). apply Ck. }
  destruct (open_ok cp cf ct chunk dna ix body d (text_of ps) bt td target cs a b Nd W L Lx Tg Lt Ct Ha Hb Ho Lf)
    as (h & x & o & pre & post & Eo & Eh & Lb & Ao & Ht & Er & Et & Em & Ef & El).
  split; [exact Ha|]. split; [exact Hb|]. split; [exact P|]. split; [exact By|]. split; [apply rows_read, index_rows, Ix|].
  exists cs. split; [exact Ch|]. split.
  { intros y. rewrite <- Ck. apply (same_read ix (index_rows ix Ix)). }
  exists ix, h, x, o. split; [reflexivity|]. split; [|rewrite Em; split; [exact Eo|exact Ao]].
  split; [exact Ix|exact W| |exists bt; exact Ht|rewrite Et; exact Tg| |rewrite Em; exact En].
  - exists pre, post, (blob_of body d). split; [apply (write_blob_ok cp cf ix body d pre L)|]. split; [exact Lb|]. rewrite Eh. apply (load_ok cp cf ix body d pre post L); [|exact Lb].
    apply W.
  - destruct (Z.ltb_spec a b) as [Lab|Lab]; [|exact Ef]. split; [exact Ef|exact (El Lab)].
Qed.

(** * Rows of shards *)
Inductive life_row : list stored -> list index -> list (list piece) -> Z -> Z -> Prop :=
| Life_none : forall a, life_row [] [] [] a a
| Life_next : forall s l ix ixs ps pss a b c, lives s ix ps a b -> life_row l ixs pss b c -> life_row (s :: l) (ix :: ixs) (ps :: pss) a c.
Lemma lrow_split l1 : forall l2 ixs pss a c, life_row (l1 ++ l2) ixs pss a c -> exists ixs1 ixs2 pss1 pss2 b,
  ixs = ixs1 ++ ixs2 /\ pss = pss1 ++ pss2 /\ life_row l1 ixs1 pss1 a b /\ life_row l2 ixs2 pss2 b c.
Proof.
  induction l1 as [|s l IH]; intros l2 ixs pss a c H; [exists [], ixs, [], pss, a; repeat split; [constructor|exact H]|].
  cbn [app] in H. inversion H as [|? ? ix ixs' ps pss' ? b ? L R]; subst. destruct (IH _ _ _ _ _ R) as (x1 & x2 & p1 & p2 & m & -> & -> & R1 & R2).
  exists (ix :: x1), x2, (ps :: p1), p2, m. split; [reflexivity|]. split; [reflexivity|]. split; [econstructor; eassumption|exact R2].
Qed.
Lemma lrow_app l1 ixs1 pss1 a b : life_row l1 ixs1 pss1 a b -> forall l2 ixs2 pss2 c, life_row l2 ixs2 pss2 b c -> life_row (l1 ++ l2) (ixs1 ++ ixs2) (pss1 ++ pss2) a c.
Proof. induction 1 as [|s l ix ixs ps pss a b m L R IH]; intros l2 i2 p2 c H; [exact H|]. cbn [app]. econstructor; [exact L|]. apply IH, H. Qed.
Lemma lives_le s ix ps a b : lives s ix ps a b -> a <= b.
Proof. intros (_ & _ & P & _). rewrite (pieces_end tokenize skip stop starts Laws _ _ _ P). lia. Qed.
Lemma lrow_le l ixs pss a b : life_row l ixs pss a b -> a <= b.
Proof. induction 1 as [|s l ix ixs ps pss a b c L R IH]; [lia|]. pose proof (lives_le _ _ _ _ _ L). lia. Qed.
Lemma lrow_rows l ixs pss a b : life_row l ixs pss a b -> Forall rows_ok ixs.
Proof. induction 1 as [|s l ix ixs ps pss a b c L R IH]; [constructor|]. destruct L as (_ & _ & _ & _ & K & _). constructor; [exact K|exact IH]. Qed.
Lemma lrow_pieces l ixs pss a b : life_row l ixs pss a b -> pieces_at (concat pss) a b.
Proof.
  induction 1 as [|s l ix ixs ps pss a b c L R IH]; [reflexivity|]. destruct L as (_ & _ & P & _). cbn [concat]. exact (pieces_app _ _ _ _ _ _ P IH).
Qed.
Lemma lrow_bytes l ixs pss a b : life_row l ixs pss a b -> Forall is_byte (text_of (concat pss)).
Proof.
  induction 1 as [|s l ix ixs ps pss a b c L R IH]; [constructor|]. destruct L as (_ & _ & _ & P & _). cbn [concat]. rewrite text_of_app. apply Forall_app. split; assumption.
Qed.
Lemma chunked_clean ps a b cs : pieces_at ps a b -> chunked ps a cs -> 0 <= a -> len (text_of ps) <= maxf -> Forall clean_at cs.
Proof.
  intros P Ch Ha Lt. rewrite Forall_forall. intros x Hx. pose proof (ch_contig _ _ _ _ _ _ Ch) as Ct. destruct (contig_in _ _ _ _ Ct Hx) as (C1 & _).
  pose proof (chunk_offset_range tokenize skip stop starts Laws _ _ _ _ _ _ Ch Hx) as C2. split; [lia|]. unfold is_addr, minf. lia.
Qed.

(** * Opening *)
Lemma life_open l ixs pss a b : life_row l ixs pss a b -> (forall f, bigwig_count ixs f <= big) ->
  exists os, open_view cp cf chunk l = Ok (Some os) /\ opened_row starts ct os pss a b /\ Forall2 (answering cp cf) os ixs.
Proof.
  induction 1 as [|s l ix ixs ps pss a b c L R IH]; intros Cn; [exists []; repeat split; constructor|].
  destruct IH as (os & Eo & Ro & Ao). { intros f. specialize (Cn f). rewrite count_cons in Cn. pose proof (count_nonneg ix f). lia. }
  assert (K : exists o, open_stored cp cf chunk s = Ok (Some o) /\ opens_to starts ct o ps a b /\ answering cp cf o ix).
  { destruct L as (Ha & Hb & P & By & Rw & cs & Ch & St & K). destruct s as [w|f].
    - destruct K as [<- Et]. destruct (rows_lst (f_index w) chunk Rw) as (l0 & Hl & _).
      pose proof (memory_answering cp cf w (empty_obj, [])) as A.
      destruct (an_hopper cp cf _ _ A chunk l0 Hl) as (o & Eh & Ho).
      { specialize (Cn chunk). rewrite count_cons in Cn. pose proof (counts_nonneg ixs chunk). rewrite (lst_count _ _ _ Hl) in Cn. unfold big, max_len in *. lia. }
      exists (In_memory w (o, f_text w)). cbn [open_stored]. unfold fiver_txt. cbn [owsla_hopper] in Eh. rewrite Eh. cbn [bind].
      split; [reflexivity|]. split; [|apply memory_answering]. split; [exact Ha|]. split; [exact Hb|]. split; [exact P|]. cbn [fst snd].
      split; [exact Et|]. exists cs. split; [|exact Ch]. revert Ho. apply answers_eqs. intros x. rewrite <- (lst_stored _ _ _ Hl x). apply St.
    - destruct K as (ix0 & h & x & o & -> & Kp & Eo' & An). exists (On_disk h x (o, map (fun _ => None) (ht_map x))).
      cbn [open_stored]. rewrite Eo'. cbn [bind]. split; [reflexivity|]. split; [|apply disk_answering; exact (kept_source _ _ _ _ _ _ _ Kp)].
      split; [exact Ha|]. split; [exact Hb|]. split; [exact P|]. exists cs. split; [exact Ch|]. split; [exact (kept_hazel _ _ _ _ _ _ _ P Ch Kp)|].
      cbn [fst snd]. split; [exact An|apply fresh_cached]. }
  destruct K as (o & E1 & R1 & A1). exists (o :: os). cbn [open_view]. rewrite E1. cbn [bind]. rewrite Eo. cbn [bind]. split; [reflexivity|].
  split; [econstructor; eassumption|constructor; assumption].
Qed.

(** * Steps *)
Lemma lrow_mem run : forall ixs pss a b, life_row (map Mem run) ixs pss a b -> (forall f, bigwig_count ixs f <= big) -> row run pss a b /\ ShardSpec.ixs run = ixs.
Proof.
  induction run as [|w run IH]; intros ixs pss a b H Cn; cbn [map] in H; inversion H as [|? ? ix ixs' ps pss' ? m ? L R]; subst; [split; [constructor|reflexivity]|].
  assert (Cr : forall f, bigwig_count ixs' f <= big) by (intros f; specialize (Cn f); rewrite count_cons in Cn; pose proof (count_nonneg ix f); lia).
  destruct (IH _ _ _ _ R Cr) as [K1 K2].
  destruct L as (Ha & Hb & P & By & Rw & cs & Ch & St & <- & Et). split; [|cbn; f_equal; exact K2].
  econstructor; [|exact K1]. destruct (rows_lst (f_index w) chunk Rw) as (l0 & Hl & _).
  split; [exact P|exact Ha|exact Hb|exact Et|]. exists cs, l0. split; [exact Ch|]. split; [exact Hl|]. split.
  - specialize (Cn chunk). rewrite count_cons in Cn. pose proof (counts_nonneg ixs' chunk). rewrite (lst_count _ _ _ Hl) in Cn. unfold big, max_len in *. lia.
  - intros x. rewrite <- (lst_stored _ _ _ Hl x). apply St.
Qed.
Lemma rows_sounds ixs : Forall rows_ok ixs -> Forall (sound chunk) ixs.
Proof. intros H. eapply Forall_impl; [|exact H]. intros w. apply rows_sound. Qed.
Lemma step_memory run ixs pss a b m A D : life_row (map Mem run) ixs pss a b -> 0 <= a -> b < maxf -> len (text_of (concat pss)) <= big ->
  (forall f, bigwig_count ixs f <= big) -> Forall rows_ok (A ++ ixs ++ D) -> fiver_merge sort chunk run = Ok (Some m) ->
  lives (Mem m) (f_index m) (concat pss) a b /\ later chunk (A ++ ixs ++ D) (A ++ f_index m :: D).
Proof.
  intros H Ha Hb Lt Cn Rw Em. destruct (lrow_mem run ixs pss a b H Cn) as [Rr Ex]. pose proof (lrow_rows _ _ _ _ _ H) as Ri.
  assert (Lx : len (text_of (concat pss)) <= max_len) by (unfold big, max_len in *; lia).
  destruct (merge_shard_count tokenize skip stop starts Laws chunk transaction Hchunk Htrans sort Hsort run pss a b m Rr Ha Hb Lx Em) as [[P _ _ Et (cs & l & Ch & Hl & _ & Il)] Cc].
  assert (Nn : null_feature <> chunk) by lia.
  assert (Rp : replaces chunk ixs (f_index m)).
  { rewrite <- Ex. apply (fiver_replaces sort chunk run m Em Nn); rewrite Ex; [apply rows_sounds, Ri|]. specialize (Cn null_feature). unfold room, big in *. lia. }
  rewrite Ex in Cc. split; [|apply later_replaces; auto using rows_sounds].
  assert (Cl : Forall clean_at l).
  { assert (Lm : len (text_of (concat pss)) <= maxf) by (unfold big, maxf in *; lia). pose proof (chunked_clean _ _ _ _ P Ch Ha Lm) as K. rewrite Forall_forall in *. intros x Hx. apply K, Il, Hx. }
  split; [exact Ha|]. split; [exact Hb|]. split; [exact P|]. split; [exact (lrow_bytes _ _ _ _ _ H)|].
  split; [apply (replaces_rows chunk ixs (f_index m) l Nn); [unfold null_feature in *; lia|exact Ri|exact Rp|exact Hl|exact Cl]|].
  exists cs. split; [exact Ch|]. split; [intros x; rewrite (lst_stored _ _ _ Hl x); apply Il|]. split; [reflexivity|exact Et].
Qed.

(** A jar. *)
Lemma put_before f p m : Forall (fun x : Z * posting => f < fst x) m -> map_put f p m = (f, p) :: m.
Proof. destruct m as [|[g q] r]; [reflexivity|]. intros H. inversion H as [|? ? K _]; subst. cbn in K. cbn [map_put]. replace (f <? g) with true by lia. reflexivity. Qed.
Lemma order_sorted m : sorted_rows m -> in_order m = m.
Proof.
  induction m as [|[f p] r IH]; [reflexivity|]. cbn [sorted_rows]. intros [A S]. unfold in_order. cbn [fold_right fst snd]. fold (in_order r). rewrite (IH S). exact (put_before f p r A).
Qed.
Lemma step_again w w' jar ps a b : lives (Mem w) (f_index w) ps a b -> (forall f, fiver_count (f_index w) f <= big) -> is_addr (f_start w) -> is_addr (f_end w) ->
  len (f_text w) + extra ct (len (f_text w)) <= maxf -> pickle cp cf ct w = Ok jar -> unpickle cp cf ct jar = Ok (Some w') ->
  lives (Mem w') (f_index w') ps a b /\ same_ix (f_index w) (f_index w').
Proof.
  intros (Ha & Hb & P & By & Rw & cs & Ch & St & _ & Et) Cn As Ae Lt Ep Eu.
  set (v := Fiver (f_text w) (in_order (f_index w)) (f_start w) (f_end w)).
  assert (Ev : pickle cp cf ct v = pickle cp cf ct w). { unfold pickle, v. cbn [f_text f_index f_start f_end]. rewrite (order_sorted _ (in_order_sorted (f_index w))). reflexivity. }
  pose proof (order_index _ Rw) as Ix.
  assert (Co : forall f, fiver_count (in_order (f_index w)) f <= 288230376151711743) by (intros f; specialize (Cn f); unfold fiver_count, big in *; rewrite find_in_order; exact Cn).
  destruct (index_writable cp cf _ SL Ix Co) as [_ Fw].
  assert (Cp : can_pickle cp cf ct v).
  { rewrite <- Et in By. destruct (ST (f_text w) By) as [E1 E2]. split; [exact As|]. split; [exact Ae|]. split; [exact E1|]. split; [exact Lt|]. split; [exact E2|].
    eapply Forall_impl; [|exact Fw]. intros r (R1 & R2 & l & R3 & _). split; [exact R1|]. split; [exact R2|]. exists l. exact R3. }
  destruct (pickle_back cp cf ct v Cp) as (jar' & w2 & E1 & E2 & (S1 & _ & _ & S4) & _).
  assert (jar' = jar) as -> by congruence. assert (w2 = w') as -> by congruence.
  assert (Sm : same_ix (f_index w) (f_index w')).
  { apply same_find. intros f. rewrite S4. apply find_in_order. }
  split; [|exact Sm]. split; [exact Ha|]. split; [exact Hb|]. split; [exact P|]. split; [exact By|]. split.
  - intros f p F. apply (Rw f p). rewrite S4 in F. unfold v in F. cbn [f_index] in F. rewrite find_in_order in F. exact F.
  - exists cs. split; [exact Ch|]. split; [|split; [reflexivity|rewrite S1; exact Et]]. intros x. rewrite (proj1 Sm chunk x). apply St.
Qed.

(** A file. *)
Lemma closed_pieces ps a b : pieces_at ps a b -> closed_text (text_of ps) = text_of ps.
Proof.
  intros P. assert (K : ps = [] \/ exists u, text_of ps = u ++ [10]).
  { revert a b P. induction ps as [|[t c] r IH]; intros a b P; [auto|right]. cbn in P. destruct P as (_ & _ & (u & -> & _) & P).
    destruct (IH _ _ P) as [->|(v & E)]; [exists u; unfold text_of; cbn; apply app_nil_r|]. unfold text_of in *. cbn [map concat fst]. rewrite E. exists ((u ++ [10]) ++ v). apply app_assoc. }
  destruct K as [->|(u & ->)]; [reflexivity|]. unfold closed_text. rewrite last_last. destruct (u ++ [10]) eqn:E; [reflexivity|]. reflexivity.
Qed.
Lemma chunk_head ps a b cs : pieces_at ps a b -> chunked ps a cs -> match cs with [] => True | x :: _ => ivl x = 0 end.
Proof.
  intros P Ch. destruct cs as [|x r]; [exact Logic.I|]. pose proof (ch_contig _ _ _ _ _ _ Ch) as Ct. pose proof (contig_in _ _ _ x Ct (or_introl eq_refl)) as Cx.
  rewrite (ch_offset _ _ _ _ _ _ Ch x (or_introl eq_refl)). cbn in Ct. destruct Ct as [-> _].
  destruct (pieces_hd starts _ _ _ P) as [->|[_ F]]; [|unfold text_start; rewrite F; reflexivity].
  rewrite <- (pieces_end tokenize skip stop starts Laws _ _ _ P) in Cx. cbn in P. lia.
Qed.
Lemma write_lives w ps a b dna target : lives (Mem w) (f_index w) ps a b -> (forall f, fiver_count (f_index w) f <= big) -> len (text_of ps) <= maxf ->
  no_empty_line dna -> 0 < target <= maxf -> exists f, hazel_file cp cf ct chunk dna target w = Ok (Some f) /\
  (len f <= maxf -> exists ix, lives (File f) ix ps a b /\ same_ix (f_index w) ix).
Proof.
  intros (Ha & Hb & P & By & Rw & cs & Ch & St & _ & Et) Cn Lt Nd Tg. pose proof (order_index _ Rw) as Ix.
  assert (Co : forall f, fiver_count (in_order (f_index w)) f <= 288230376151711743) by (intros g; specialize (Cn g); unfold fiver_count, big in *; rewrite find_in_order; exact Cn).
  pose proof (index_writable cp cf _ SL Ix Co) as W. destruct (laid_exists cp cf _ (proj2 W) header_length) as (body & d & L).
  destruct (rows_lst (f_index w) chunk Rw) as (l0 & Hl & _).
  destruct (an_hopper cp cf _ _ (memory_answering cp cf w (empty_obj, [])) chunk l0 Hl) as (o & Eh & Ho).
  { specialize (Cn chunk). rewrite (lst_count _ _ _ Hl) in Cn. unfold big, max_len in *. lia. }
  cbn [owsla_hopper] in Eh.
  assert (Ao : answers (projT1 o) (projT2 o) (set_of cs)) by (revert Ho; apply answers_eqs; intros x; rewrite <- (lst_stored _ _ _ Hl x); apply St).
  pose proof (ch_contig _ _ _ _ _ _ Ch) as Ct. rewrite <- (pieces_end tokenize skip stop starts Laws _ _ _ P) in Ct.
  assert (Tp : 0 < target) by lia.
  assert (Bo : Forall (fun x => 0 <= ivl x <= len (text_of ps)) cs) by (rewrite Forall_forall; intros x Hx; exact (chunk_offset_range tokenize skip stop starts Laws _ _ _ _ _ _ Ch Hx)).
  assert (Cx : closed_text (f_text w) = text_of ps) by (rewrite Et; exact (closed_pieces ps a b P)).
  destruct (hazel_file_ok cp cf ct chunk dna target w (in_order (f_index w)) body d (text_of ps) o cs a b eq_refl L ST By Cx Eh Ao Ct Ha ltac:(lia) Tp Bo (chunk_head _ _ _ _ P Ch))
    as (bt & td & E & Lx & En).
  eexists. split; [exact E|]. intros Lf. exists (read_ix (in_order (f_index w))). split.
  - apply (new_file dna (in_order (f_index w)) body d ps a b cs bt td target); auto.
    intros x. rewrite <- St. apply (same_find (f_index w) (in_order (f_index w))). intros g. apply find_in_order.
  - apply (same_trans _ (in_order (f_index w))); [apply same_find; intros g; apply find_in_order|apply same_read, index_rows, Ix].
Qed.
Lemma step_written w ps a b dna target f : lives (Mem w) (f_index w) ps a b -> (forall f, fiver_count (f_index w) f <= big) -> len (text_of ps) <= maxf ->
  no_empty_line dna -> target <= maxf -> hazel_file cp cf ct chunk dna target w = Ok (Some f) -> len f <= maxf ->
  exists ix, lives (File f) ix ps a b /\ same_ix (f_index w) ix.
Proof.
  intros L Cn Lt Nd Tg Ef Lf.
  assert (Tp : 0 < target). { destruct (Z.leb_spec target 0) as [T|T]; [|exact T]. unfold hazel_file in Ef. replace (target <=? 0) with true in Ef by lia. discriminate. }
  destruct (write_lives w ps a b dna target L Cn Lt Nd) as (f' & E & K); [lia|]. assert (f' = f) as -> by congruence. exact (K Lf).
Qed.

(** * Merging files *)
Inductive kept_row : list index -> list hidx -> list htxt -> list (list piece) -> list (list iv) -> Z -> Z -> Prop :=
| Kept_none : forall a, kept_row [] [] [] [] [] a a
| Kept_next : forall ix h x ps cs ixs hs xs pss css a b c, 0 <= a -> b < maxf -> pieces_at ps a b -> chunked ps a cs ->
    (forall x, stored_in ix chunk x <-> In x cs) -> kept ix h x ps a b cs -> kept_row ixs hs xs pss css b c ->
    kept_row (ix :: ixs) (h :: hs) (x :: xs) (ps :: pss) (cs :: css) a c.
Lemma lrow_files fs hs xs : opened_files cp cf chunk fs hs xs -> forall ixs pss a b, life_row (map File fs) ixs pss a b ->
  exists ix0s css, ixs = map read_ix ix0s /\ kept_row ix0s hs xs pss css a b.
Proof.
  induction 1 as [|f h x s fs hs xs Eo _ IH]; intros ixs pss a b H; cbn [map] in H; inversion H as [|? ? ix ixs' ps pss' ? m ? L R]; subst.
  - exists [], []. split; [reflexivity|constructor].
  - destruct (IH _ _ _ _ R) as (ix0s & css & -> & K). destruct L as (Ha & Hb & P & By & Rw & cs & Ch & St & ix0 & h' & x' & o & -> & Kp & Eo' & An).
    rewrite Eo in Eo'. injection Eo' as <- <- ->. exists (ix0 :: ix0s), (cs :: css). split; [reflexivity|]. econstructor; try eassumption.
    intros y. rewrite <- St. symmetry. apply (same_read ix0). apply index_rows, Kp.
Qed.
Fixpoint joined (pss : list (list piece)) (css : list (list iv)) : list iv :=
  match pss, css with
  | ps :: pss, cs :: css => cs ++ map (shifted (len (text_of ps))) (joined pss css)
  | _, _ => []
  end.
Lemma krow_le ixs hs xs pss css a b : kept_row ixs hs xs pss css a b -> a <= b.
Proof. induction 1 as [|ix h x ps cs ixs hs xs pss css a b c Ha Hb P Ch St Kp R IH]; [lia|]. pose proof (pieces_le tokenize skip stop starts Laws _ _ _ P). lia. Qed.
Lemma krow_pieces ixs hs xs pss css a b : kept_row ixs hs xs pss css a b -> pieces_at (concat pss) a b.
Proof. induction 1 as [|ix h x ps cs ixs hs xs pss css a b c Ha Hb P Ch St Kp R IH]; [reflexivity|]. cbn [concat]. exact (pieces_app _ _ _ _ _ _ P IH). Qed.
Lemma krow_chunked ixs hs xs pss css a b : kept_row ixs hs xs pss css a b -> 0 <= a -> b < maxf -> chunked (concat pss) a (joined pss css).
Proof.
  induction 1 as [|ix h x ps cs ixs hs xs pss css a b c Ha Hb P Ch St Kp R IH]; intros A0 B0; [apply (chunked_none tokenize skip stop starts Laws a); lia|].
  cbn [concat joined]. pose proof (pieces_le tokenize skip stop starts Laws _ _ _ P). assert (B1 : 0 <= b) by lia.
  exact (chunked_join tokenize skip stop starts Laws ps (concat pss) a b c cs (joined pss css) P (krow_pieces _ _ _ _ _ _ _ R) B0 Ch (IH B1 B0)).
Qed.
Lemma raw_kept ix h x ps a b cs : kept ix h x ps a b cs -> ht_raw x = len (text_of ps).
Proof. intros [_ _ _ (bt & K) _ _ _]. exact (ho_raw _ _ _ _ K). Qed.
Lemma krow_moved ixs hs xs pss css a b : kept_row ixs hs xs pss css a b -> forall base x, moved_chunks chunk ixs (map ht_raw xs) base x <-> In x (map (shifted base) (joined pss css)).
Proof.
  induction 1 as [|ix h x ps cs ixs hs xs pss css a b c Ha Hb P Ch St Kp R IH]; intros base y; [reflexivity|].
  cbn [map moved_chunks joined]. rewrite IH, map_app, map_map, in_app_iff, (raw_kept _ _ _ _ _ _ _ Kp). apply or_iff_compat_r || idtac.
  assert (E1 : (exists v, ivl y = v + base /\ stored_in ix chunk (Iv (ip y) (iq y) v)) <-> In y (map (shifted base) cs)).
  { rewrite in_map_iff. split.
    - intros (v & Ev & K). exists (Iv (ip y) (iq y) v). split; [|apply St, K]. unfold shifted. cbn [ip iq ivl]. rewrite <- Ev. destruct y; reflexivity.
    - intros (z & <- & K). exists (ivl z). unfold shifted. cbn [ip iq ivl]. split; [reflexivity|]. apply St. destruct z; exact K. }
  assert (E2 : In y (map (shifted (base + len (text_of ps))) (joined pss css)) <-> In y (map (fun x => shifted base (shifted (len (text_of ps)) x)) (joined pss css))).
  { rewrite !in_map_iff. split; intros (z & E & K); exists z; (split; [|exact K]); rewrite <- E; unfold shifted; cbn [ip iq ivl]; f_equal; lia. }
  rewrite E1, E2. tauto.
Qed.
Lemma krow_inside ixs hs xs pss css a b : kept_row ixs hs xs pss css a b -> forall j ix x, nth_error ixs j = Some ix -> stored_in ix chunk x -> a <= ip x /\ ip x <= iq x /\ iq x < b.
Proof.
  induction 1 as [|ix h x ps cs ixs hs xs pss css a b c Ha Hb P Ch St Kp R IH]; intros j iy y Hj Hy; [destruct j; discriminate|].
  pose proof (krow_le _ _ _ _ _ _ _ R). pose proof (pieces_le tokenize skip stop starts Laws _ _ _ P). destruct j as [|j]; cbn in Hj.
  - injection Hj as <-. apply St in Hy. pose proof (ch_contig _ _ _ _ _ _ Ch) as Ct. rewrite <- (pieces_end tokenize skip stop starts Laws _ _ _ P) in Ct. pose proof (contig_in _ _ _ _ Ct Hy). lia.
  - specialize (IH _ _ _ Hj Hy). lia.
Qed.
Lemma krow_apart ixs hs xs pss css a b : kept_row ixs hs xs pss css a b -> chunks_apart chunk ixs.
Proof.
  induction 1 as [|ix h x ps cs ixs hs xs pss css a b c Ha Hb P Ch St Kp R IH]; intros i j ia ib y z Hij Hi Hj Hy Hz; [destruct i; discriminate|].
  destruct j as [|j]; [lia|]. cbn in Hj. destruct i as [|i]; cbn in Hi.
  - injection Hi as <-. apply St in Hy. pose proof (ch_contig _ _ _ _ _ _ Ch) as Ct. rewrite <- (pieces_end tokenize skip stop starts Laws _ _ _ P) in Ct. pose proof (contig_in _ _ _ _ Ct Hy).
    pose proof (krow_inside _ _ _ _ _ _ _ R j ib z Hj Hz). lia.
  - apply (IH i j ia ib y z); auto. lia.
Qed.
Lemma krow_shelved ixs hs xs pss css a b : kept_row ixs hs xs pss css a b -> Forall index_ok ixs /\ Forall2 (shelved cp cf) ixs hs /\
  Forall2 (fun x u => exists b, holds_text ct x u b) xs (map text_of pss) /\ length xs = length ixs /\ Forall (fun x => 0 < ht_target x <= maxf) xs.
Proof.
  induction 1 as [|ix h x ps cs ixs hs xs pss css a b c Ha Hb P Ch St Kp R (I1 & I2 & I3 & I4 & I5)]; [repeat split; constructor|].
  destruct Kp as [K1 K2 K3 K4 K5 _ _]. repeat apply conj; [constructor; assumption..|cbn; congruence|constructor; assumption].
Qed.
Lemma text_concat pss : text_of (concat pss) = concat (map text_of pss).
Proof. induction pss as [|ps pss IH]; [reflexivity|]. cbn [concat map]. rewrite text_of_app, IH. reflexivity. Qed.
Lemma krow_ends ixs hs xs pss css a b : kept_row ixs hs xs pss css a b -> 0 <= a -> b < maxf -> forall k x e, nth_error xs k = Some x -> In e (ht_map x) ->
  len (concat (firstn k (map text_of pss))) + te_raw e = len (text_of (concat pss)) \/
  exists c, In c (joined pss css) /\ len (concat (firstn k (map text_of pss))) + te_raw e = ivl c.
Proof.
  induction 1 as [|ix h x ps cs ixs hs xs pss css a b c Ha Hb P Ch St Kp R IH]; intros A0 B0 k y e Hk He; [destruct k; discriminate|].
  pose proof (pieces_le tokenize skip stop starts Laws _ _ _ P) as Le. assert (B1 : 0 <= b) by lia. cbn [concat joined]. rewrite text_of_app, len_app.
  destruct k as [|k]; cbn in Hk.
  - injection Hk as <-. cbn [firstn concat]. change (len []) with 0. destruct (kp_ends _ _ _ _ _ _ _ Kp e He) as [K|(z & Hz & K)].
    + pose proof (krow_chunked _ _ _ _ _ _ _ R B1 B0) as Cj. pose proof (krow_pieces _ _ _ _ _ _ _ R) as Pj. pose proof (chunk_head _ _ _ _ Pj Cj) as Hd.
      destruct (joined pss css) as [|z r] eqn:Ej.
      * left. pose proof (ch_contig _ _ _ _ _ _ Cj) as Ct. cbn in Ct. destruct (pieces_hd starts _ _ _ Pj) as [->|[F _]]; [change (len (text_of [])) with 0; lia|].
        destruct (starts (text_of (concat pss))); cbn in F, Ct; lia.
      * right. exists (shifted (len (text_of ps)) z). split; [apply in_or_app; right; left; reflexivity|]. unfold shifted. cbn [ivl]. lia.
    + right. exists z. split; [apply in_or_app; auto|]. lia.
  - cbn [map firstn concat]. rewrite len_app. destruct (IH B1 B0 k y e Hk He) as [K|(z & Hz & K)]; [left; lia|right].
    exists (shifted (len (text_of ps)) z). split; [apply in_or_app; right; apply in_map, Hz|]. unfold shifted. cbn [ivl]. lia.
Qed.
Lemma read_same ixs : Forall index_ok ixs -> Forall2 same_ix ixs (map read_ix ixs).
Proof. induction 1 as [|ix ixs H _ IH]; cbn [map]; constructor; [apply same_read, index_rows, H|exact IH]. Qed.
Lemma same_counts xs ys f : Forall2 same_ix xs ys -> bigwig_count ys f = bigwig_count xs f.
Proof. induction 1 as [|x y xs ys [_ S] _ IH]; [reflexivity|]. rewrite !count_cons, S, IH. reflexivity. Qed.
Lemma merged_some dna idx xs f : merged_file dna idx xs = Ok (Some f) -> exists x0, (2 <= length xs)%nat /\ In x0 xs /\ Forall (fun x => ht_target x = ht_target x0) xs.
Proof.
  unfold merged_file, merge_txt_blob. destruct xs as [|x0 [|x1 r]]; [discriminate..|]. intros H.
  destruct (forallb (fun t => ht_target t =? ht_target x0) (x0 :: x1 :: r)) eqn:E; [|cbn [negb bind] in H; discriminate].
  exists x0. split; [cbn; lia|]. split; [left; reflexivity|]. rewrite forallb_forall in E. rewrite Forall_forall. intros x Hx. specialize (E x Hx). lia.
Qed.
Lemma merge_lives fs hs xs ixs pss a b A D dna s target : life_row (map File fs) ixs pss a b -> 0 <= a -> b < maxf -> len (text_of (concat pss)) <= big ->
  (forall f, bigwig_count ixs f <= big) -> Forall rows_ok (A ++ ixs ++ D) -> opened_files cp cf chunk fs hs xs ->
  attempts cp cf chunk hs (map ht_raw xs) s ->
  (forall acts0 idx0, idx_merge cp cf chunk hs (map ht_raw xs) (Files None None) = Ok (Some (acts0, idx0)) -> len idx0 <= maxf) ->
  no_empty_line dna -> (2 <= length fs)%nat -> Forall (fun x => ht_target x = target) xs ->
  exists acts idx f, idx_merge cp cf chunk hs (map ht_raw xs) s = Ok (Some (acts, idx)) /\ merged_file dna idx xs = Ok (Some f) /\
  (len f <= maxf -> exists ix, lives (File f) ix (concat pss) a b /\ later chunk (A ++ ixs ++ D) (A ++ ix :: D)).
Proof.
  intros H Ha Hb Lt Cn Rw Op At Small Nd L2 Et. destruct (lrow_files fs hs xs Op ixs pss a b H) as (ix0s & css & -> & K).
  destruct (krow_shelved _ _ _ _ _ _ _ K) as (Ix & Sh & Ht & Ln & Tg). pose proof (read_same ix0s Ix) as Sm.
  pose proof (krow_chunked _ _ _ _ _ _ _ K Ha Hb) as Ch. pose proof (krow_pieces _ _ _ _ _ _ _ K) as P.
  assert (Nn : null_feature <> chunk) by lia.
  assert (Cm : forall x, moved_chunks chunk ix0s (map ht_raw xs) 0 x <-> In x (joined pss css)).
  { intros x. rewrite (krow_moved _ _ _ _ _ _ _ K 0 x). replace (map (shifted 0) (joined pss css)) with (joined pss css); [reflexivity|].
    rewrite <- (map_id (joined pss css)) at 1. apply map_ext. intros [p q v]. unfold shifted. cbn [ip iq ivl]. f_equal. lia. }
  assert (Lm : len (text_of (concat pss)) <= maxf) by (unfold big, maxf in *; lia).
  assert (Ft : merge_fits chunk ix0s (map ht_raw xs)).
  { split; [intros g; rewrite <- (same_counts _ _ g Sm); apply Cn|]. split; [rewrite map_length; exact Ln|]. intros x Hx. apply Cm in Hx.
    pose proof (chunk_offset_range tokenize skip stop starts Laws _ _ _ _ _ _ Ch Hx). unfold is_addr, value_ok, minf. lia. }
  destruct (resume cp cf chunk ix0s hs (map ht_raw xs) SL Ix Sh Nn (krow_apart _ _ _ _ _ _ _ K) Ft)
    as (rows & blob & Ri & Rc & Rn & Rf & Rk & Rb & (acts0 & E0) & Rs).
  pose proof (Small _ _ E0) as Lb. destruct (Rs Lb s At) as (acts1 & E1). clear Rs.
  assert (Lo : length xs = length fs) by (clear - Op; induction Op; cbn; congruence). rewrite <- Lo in L2.
  assert (Lc : len (concat (map text_of pss)) <= maxf) by (rewrite <- text_concat; exact Lm).
  destruct (merged_file_ok ct dna blob xs (map text_of pss) target Ht Et L2 Lc) as (bt & td & E2 & Lx & En).
  exists acts1, blob. eexists. split; [exact E1|]. split; [exact E2|]. intros Lf. clear E1 E2. rewrite <- text_concat in *.
  assert (Rc2 : forall g, fiver_count rows g <= 288230376151711743) by (intros g; specialize (Rc g); specialize (Cn g); rewrite (same_counts _ _ g Sm) in Cn; unfold big in Cn; lia).
  pose proof (index_writable cp cf rows SL Ri Rc2) as W. destruct (laid_exists cp cf rows (proj2 W) header_length) as (body & d & L).
  assert (blob = blob_of body d) as ->. { pose proof (write_blob_ok cp cf rows body d [] L) as E3. rewrite (Rb []) in E3. cbn [app] in E3. congruence. }
  exists (read_ix rows). split.
  - apply (new_file dna rows body d (concat pss) a b (joined pss css) bt td target); auto.
    + intros x. rewrite Rk. apply Cm.
    + exact (lrow_bytes _ _ _ _ _ H).
    + destruct xs as [|x0 r]; [cbn in L2; lia|]. inversion Et; subst. inversion Tg; assumption.
    + intros e He. destruct (En e He) as (k & x & e' & Hk & Hi & ->). exact (krow_ends _ _ _ _ _ _ _ K Ha Hb k x e' Hk Hi).
  - pose proof (same_read rows (index_rows rows Ri)) as [S1 S2]. apply later_replaces; [exact Nn|apply rows_sounds, Rw| |].
    + right. split; [apply rows_sound, rows_read, index_rows, Ri|]. split; [|split].
      * intros x. rewrite S1, Rn. symmetry. apply (inner_same _ _ _ Sm).
      * intros g Ng N0 x. rewrite S1, (Rf g x N0 Ng). unfold sem_nin.
        assert (Eg : forall y, innermost_of (map read_ix ix0s) g y <-> innermost_of ix0s g y) by (apply (inner_same _ _ _ Sm)).
        assert (En0 : forall y, innermost_of (map read_ix ix0s) null_feature y <-> innermost_of ix0s null_feature y) by (apply (inner_same _ _ _ Sm)).
        rewrite Eg. split; intros [K1 K2]; (split; [exact K1|]); intros (e & He & Ne); apply K2; exists e; (split; [apply En0, He|exact Ne]).
      * intros g _. rewrite S2, (same_counts _ _ g Sm). apply Rc.
    + rewrite S2, (same_counts _ _ chunk Sm). apply Rc.
Qed.
Lemma step_files fs hs xs ixs pss a b A D dna s acts idx f : life_row (map File fs) ixs pss a b -> 0 <= a -> b < maxf -> len (text_of (concat pss)) <= big ->
  (forall f, bigwig_count ixs f <= big) -> Forall rows_ok (A ++ ixs ++ D) -> opened_files cp cf chunk fs hs xs ->
  attempts cp cf chunk hs (map ht_raw xs) s -> idx_merge cp cf chunk hs (map ht_raw xs) s = Ok (Some (acts, idx)) ->
  (forall acts0 idx0, idx_merge cp cf chunk hs (map ht_raw xs) (Files None None) = Ok (Some (acts0, idx0)) -> len idx0 <= maxf) ->
  no_empty_line dna -> merged_file dna idx xs = Ok (Some f) -> len f <= maxf ->
  exists ix, lives (File f) ix (concat pss) a b /\ later chunk (A ++ ixs ++ D) (A ++ ix :: D).
Proof.
  intros H Ha Hb Lt Cn Rw Op At Em Small Nd Ef Lf. destruct (merged_some _ _ _ _ Ef) as (x0 & L2 & X0 & Et).
  assert (Lo : length xs = length fs) by (clear - Op; induction Op; cbn; congruence). rewrite Lo in L2.
  destruct (merge_lives fs hs xs ixs pss a b A D dna s _ H Ha Hb Lt Cn Rw Op At Small Nd L2 Et) as (acts1 & idx1 & f1 & E1 & E2 & K).
  assert (idx1 = idx) as -> by congruence. assert (f1 = f) as -> by congruence. exact (K Lf).
Qed.

(** * Everything *)
Lemma count_part A R D f : bigwig_count (A ++ R ++ D) f <= big -> bigwig_count R f <= big.
Proof. rewrite !count_app. pose proof (counts_nonneg A f). pose proof (counts_nonneg D f). lia. Qed.
Lemma text_part pss1 pss2 pss3 n : len (text_of (concat (pss1 ++ pss2 ++ pss3))) <= n -> len (text_of (concat pss2)) <= n.
Proof.
  rewrite !concat_app, !text_of_app, !len_app. pose proof (CodecProofs.len_nonneg (text_of (concat pss1))). pose proof (CodecProofs.len_nonneg (text_of (concat pss3))). lia.
Qed.
Lemma life_move l l' ixs pss a b : life_row l ixs pss a b -> 0 <= a -> b < maxf -> (forall f, bigwig_count ixs f <= big) -> len (text_of (concat pss)) <= big ->
  life_step cp cf ct sort chunk l l' ->
  exists ixs' pss', life_row l' ixs' pss' a b /\ concat pss' = concat pss /\ later chunk ixs ixs'.
Proof.
  intros H Ha Hb Cn Lt St.
  assert (Cut3 : forall x y z, l = x ++ y ++ z -> exists i1 i2 i3 p1 p2 p3 c d, ixs = i1 ++ i2 ++ i3 /\ pss = p1 ++ p2 ++ p3 /\
            life_row x i1 p1 a c /\ life_row y i2 p2 c d /\ life_row z i3 p3 d b /\ 0 <= c /\ d < maxf /\
            (forall f, bigwig_count i2 f <= big) /\ len (text_of (concat p2)) <= big /\
            forall s ix ps, concat [ps] = concat p2 -> lives s ix ps c d -> later chunk ixs (i1 ++ ix :: i3) ->
              exists ixs' pss', life_row (x ++ s :: z) ixs' pss' a b /\ concat pss' = concat pss /\ later chunk ixs ixs').
  { intros x y z ->. destruct (lrow_split _ _ _ _ _ _ H) as (i1 & i23 & p1 & p23 & c & -> & -> & R1 & R23).
    destruct (lrow_split _ _ _ _ _ _ R23) as (i2 & i3 & p2 & p3 & d & -> & -> & R2 & R3).
    exists i1, i2, i3, p1, p2, p3, c, d. pose proof (lrow_le _ _ _ _ _ R1). pose proof (lrow_le _ _ _ _ _ R3).
    split; [reflexivity|]. split; [reflexivity|]. split; [exact R1|]. split; [exact R2|]. split; [exact R3|]. split; [lia|]. split; [lia|].
    split; [intros f; exact (count_part i1 i2 i3 f (Cn f))|]. split; [exact (text_part p1 p2 p3 big Lt)|].
    intros s ix ps Ep Lv La. exists (i1 ++ ix :: i3), (p1 ++ ps :: p3). split; [|split; [|exact La]].
    - apply (lrow_app _ _ _ _ _ R1). econstructor; [exact Lv|exact R3].
    - change (ps :: p3) with ([ps] ++ p3). rewrite !concat_app, Ep. reflexivity. }
  pose proof (lrow_rows _ _ _ _ _ H) as Rw.
  destruct St as [before run after m Em|before w after jar w' A1 A2 A3 Ep Eu|before w after dna target f Nd Tg Ef Lf|before fs after hs xs dna s acts idx f Op At Em Sm Nd Ef Lf].
  - destruct (Cut3 _ _ _ eq_refl) as (i1 & i2 & i3 & p1 & p2 & p3 & c & d & -> & -> & R1 & R2 & R3 & C0 & D0 & Cs & Ls & Go).
    destruct (step_memory run i2 p2 c d m i1 i3 R2 C0 D0 Ls Cs Rw Em) as [Lv La]. apply (Go _ (f_index m) (concat p2)); [apply app_nil_r|exact Lv|exact La].
  - destruct (Cut3 before [Mem w] after eq_refl) as (i1 & i2 & i3 & p1 & p2 & p3 & c & d & -> & -> & R1 & R2 & R3 & C0 & D0 & Cs & Ls & Go).
    inversion R2 as [|? ? ix ? ps ? ? m ? Lv Rn]; subst. inversion Rn; subst. assert (ix = f_index w) as -> by (destruct Lv as (_ & _ & _ & _ & _ & cs & _ & _ & E & _); auto).
    assert (C1 : forall f, fiver_count (f_index w) f <= big) by (intros f; specialize (Cs f); rewrite count_cons in Cs; cbn in Cs; lia).
    destruct (step_again w w' jar ps c d Lv C1 A1 A2 A3 Ep Eu) as [Lw Sx]. apply (Go _ (f_index w') ps); [reflexivity|exact Lw|]. cbn [app]. apply later_one, Sx.
  - destruct (Cut3 before [Mem w] after eq_refl) as (i1 & i2 & i3 & p1 & p2 & p3 & c & d & -> & -> & R1 & R2 & R3 & C0 & D0 & Cs & Ls & Go).
    inversion R2 as [|? ? ix ? ps ? ? m ? Lv Rn]; subst. inversion Rn; subst. assert (ix = f_index w) as -> by (destruct Lv as (_ & _ & _ & _ & _ & cs & _ & _ & E & _); auto).
    assert (C1 : forall f, fiver_count (f_index w) f <= big) by (intros g; specialize (Cs g); rewrite count_cons in Cs; cbn in Cs; lia).
    assert (L1 : len (text_of ps) <= maxf) by (cbn [concat] in Ls; rewrite app_nil_r in Ls; unfold big, maxf in *; lia).
    destruct (step_written w ps c d dna target f Lv C1 L1 Nd Tg Ef Lf) as (ix & Lw & Sx). apply (Go _ ix ps); [reflexivity|exact Lw|]. cbn [app]. apply later_one, Sx.
  - destruct (Cut3 _ _ _ eq_refl) as (i1 & i2 & i3 & p1 & p2 & p3 & c & d & -> & -> & R1 & R2 & R3 & C0 & D0 & Cs & Ls & Go).
    destruct (step_files fs hs xs i2 p2 c d i1 i3 dna s acts idx f R2 C0 D0 Ls Cs Rw Op At Em Sm Nd Ef Lf) as (ix & Lv & La). apply (Go _ ix (concat p2)); [apply app_nil_r|exact Lv|exact La].
Qed.
Lemma life_moves l l' : life cp cf ct sort chunk l l' -> forall ixs pss a b, life_row l ixs pss a b -> 0 <= a -> b < maxf -> (forall f, bigwig_count ixs f <= big) ->
  len (text_of (concat pss)) <= big -> exists ixs' pss', life_row l' ixs' pss' a b /\ concat pss' = concat pss /\ later chunk ixs ixs'.
Proof.
  induction 1 as [l|x y z S L IH]; intros ixs pss a b H Ha Hb Cn Lt; [exists ixs, pss; split; [exact H|split; [reflexivity|apply later_refl]]|].
  destruct (life_move x y ixs pss a b H Ha Hb Cn Lt S) as (i1 & p1 & R1 & E1 & L1).
  destruct (IH i1 p1 a b R1 Ha Hb) as (i2 & p2 & R2 & E2 & L2).
  - intros f. pose proof (proj1 L1 f). specialize (Cn f). lia.
  - rewrite E1. exact Lt.
  - exists i2, p2. split; [exact R2|]. split; [congruence|]. exact (later_trans _ _ _ _ L1 L2).
Qed.
(** Rows of transactions. *)
Lemma row_life ws pss a b : row ws pss a b -> Forall rows_ok (ShardSpec.ixs ws) -> Forall is_byte (text_of (concat pss)) -> life_row (map Mem ws) (ShardSpec.ixs ws) pss a b.
Proof.
  induction 1 as [|w ws ps pss a b c [P Ha Hb Et (cs & l & Ch & Hl & _ & Il)] R IH]; intros Rw By; [constructor|].
  cbn [concat] in By. rewrite text_of_app in By. apply Forall_app in By. destruct By as [B1 B2]. inversion Rw as [|? ? W1 W2]; subst. cbn [map]. econstructor; [|exact (IH W2 B2)].
  split; [exact Ha|]. split; [exact Hb|]. split; [exact P|]. split; [exact B1|]. split; [exact W1|]. exists cs. split; [exact Ch|].
  split; [intros x; rewrite (lst_stored _ _ _ Hl x); apply Il|]. split; [reflexivity|exact Et].
Qed.
Lemma later_shows os ixs ixs' : Forall2 (answering cp cf) os ixs' -> Forall rows_ok ixs' -> later chunk ixs ixs' -> (forall f, bigwig_count ixs f <= big) -> erasures_apart ixs ->
  forall f, f <> chunk -> f <> null_feature -> exists o S, view_hopper cp cf os f = Ok o /\ answers (projT1 o) (projT2 o) S /\
    (forall x, ShardSpec.visible ixs f x -> S x) /\ (no_straddle ixs f -> forall x, S x <-> ShardSpec.visible ixs f x).
Proof.
  intros An Rw [Lc Lv] Cn Ap f Nf N0. destruct (Lv Ap) as [Ap' Lf]. destruct (Lf f Nf N0) as [K1 K2].
  assert (Rm : forall g, room ixs' g) by (intros g; specialize (Lc g); specialize (Cn g); unfold room, big in *; lia).
  destruct (view_shows cp cf chunk os ixs' f An (rows_sounds _ Rw)) as (o & Eo & Ao); auto; [lia|].
  exists o, (ShardSpec.visible ixs' f). split; [exact Eo|]. split; [exact Ao|]. split; [exact K1|]. intros Ns. apply (K2 Ns).
Qed.

(** * What transactions commit *)
Notation committed := (TextSpec.committed tokenize starts chunk transaction sort).
Notation good_edits := (good_edits tokenize stop starts chunk transaction).
Lemma tidy_rows ess : forall a ws b, committed a ess ws b -> 0 <= a -> b <= staging -> Forall good_edits ess -> len (text_of (pieces_of starts a ess)) <= big ->
  all_tidy tokenize starts chunk transaction ess a -> Forall rows_ok (ShardSpec.ixs ws).
Proof.
  induction ess as [|es ess IH]; intros a ws b H Ha Hb F Lt Td; [inversion H; subst; constructor|].
  destruct (committed_row tokenize skip stop starts Laws chunk transaction Hchunk Htrans sort Hsort (es :: ess) a ws b H Ha Hb F) as (pss & R & Ep).
  inversion H as [|? ? w seq ? ws' ? Er Hc]; subst. inversion F as [|? ? (F1 & F2 & F3) Fr]; subst. destruct Td as [T1 T2].
  cbn [pieces_of] in Ep, Lt.
  inversion R as [|? ? ps pss' ? m ? Sh Rr]; subst.
  assert (Bm : a + token_count starts es <= staging).
  { destruct (committed_row tokenize skip stop starts Laws chunk transaction Hchunk Htrans sort Hsort ess _ ws' b Hc) as (p2 & R2 & _); auto; [unfold token_count; lia|].
    pose proof (row_lo tokenize skip stop starts Laws chunk _ _ _ _ R2). unfold token_count. lia. }
  change (ShardSpec.ixs (w :: ws')) with (f_index w :: ShardSpec.ixs ws'). constructor.
  - intros f p Fp. destruct (Z.eq_dec f chunk) as [->|Nf].
    + destruct Sh as [P _ _ _ (cs & l & Ch & Hl & _ & Il)].
      assert (Lp : len (text_of ps) <= maxf).
      { rewrite <- Ep in Lt. cbn [concat] in Lt. rewrite text_of_app, len_app in Lt. pose proof (CodecProofs.len_nonneg (text_of (concat pss'))). unfold big, maxf in *. lia. }
      apply (rows_of_lst (f_index w) chunk l Hl); [unfold null_feature in *; lia| |exact Fp]. pose proof (chunked_clean _ _ _ _ P Ch Ha Lp) as K. rewrite Forall_forall in *. intros x Hx. apply K, Il, Hx.
    + destruct (TextIndex.stored_answers tokenize skip stop starts Laws chunk transaction Hchunk Htrans sort Hsort es F1 a Ha Bm F3 seq w Er f Nf) as (S1 & S2 & _).
      * intros x Hx. apply (T1 f x Nf Hx).
      * intros x y Hx Hy E. apply (T1 f x Nf Hx); assumption.
      * pose proof (S1 p Fp) as Sp. destruct Sp as (Ff & l & Hl & Nl & Gl & Vl).
        assert (So : forall i x, get p i = Ok (Some x) -> occurs tokenize starts transaction es a f x) by (intros i x Hi; apply S2; exists p, i; auto).
        split; [|split; [exact (S1 p Fp)|intros i x Hi; destruct (T1 f x Nf (So i x Hi)) as (_ & _ & T3 & T4 & _); auto]].
        destruct l as [|x r]; [contradiction|]. destruct (proj2 (holds_In p (x :: r) x Hl) (or_introl eq_refl)) as (i & Hi). cbn [fst]. apply (T1 f x Nf (So i x Hi)).
  - apply (IH _ ws' b Hc); auto; [lia|]. rewrite text_of_app, len_app in Lt.
    match type of Lt with len ?u + _ <= _ => pose proof (CodecProofs.len_nonneg u) end. unfold token_count in *. lia.
Qed.

Notation start_ok := (start_ok tokenize stop starts chunk transaction sort).
Lemma start_life a b ess ws l : start_ok a b ess ws -> life cp cf ct sort chunk (map Mem ws) l ->
  exists ixs pss, life_row l ixs pss a b /\ concat pss = pieces_of starts a ess /\ later chunk (ShardSpec.ixs ws) ixs /\ b < maxf /\ (forall f, bigwig_count ixs f <= big).
Proof.
  intros (H & Ha & Hb & F & Td & By & Lt & Cn) Li.
  destruct (committed_row tokenize skip stop starts Laws chunk transaction Hchunk Htrans sort Hsort ess a ws b H Ha Hb F) as (pss & R & Ep).
  pose proof (tidy_rows ess a ws b H Ha Hb F Lt Td) as Rw. assert (Bm : b < maxf) by (unfold staging, maxf in *; lia).
  rewrite <- Ep in *. destruct (life_moves _ _ Li _ _ _ _ (row_life ws pss a b R Rw By) Ha Bm Cn Lt) as (ixs & pss' & R' & E' & L').
  exists ixs, pss'. split; [exact R'|]. split; [exact E'|]. split; [exact L'|]. split; [exact Bm|]. intros f. pose proof (proj1 L' f). specialize (Cn f). lia.
Qed.
(** What is seen. *)
Theorem life_text : forall a b ess ws l, start_ok a b ess ws -> life cp cf ct sort chunk (map Mem ws) l ->
  exists os, open_view cp cf chunk l = Ok (Some os) /\
    (forall h, Forall (fun pq => minf <= fst pq <= maxf /\ minf <= snd pq < maxf) h ->
       view_translate_all ct skip os h = Ok (map (fun pq => expected_all starts (pieces_of starts a ess) (fst pq) (snd pq)) h)) /\
    view_tokens os = Ok (b - a) /\ exists os', view_range os = Ok (os', if a <? b then Some (a, b - 1) else None).
Proof.
  intros a b ess ws l St Li. destruct (start_life a b ess ws l St Li) as (ixs & pss & R & Ep & La & Bm & Cn).
  destruct (life_open l ixs pss a b R Cn) as (os & Eo & Ro & _). exists os. split; [exact Eo|]. rewrite <- Ep.
  split; [intros h Fh; exact (orow_history tokenize skip stop starts Laws Cut ct h os pss a b Ro Fh)|].
  split; [apply (orow_tokens tokenize skip stop starts Laws ct os pss a b Ro); [apply St|exact Bm]|exact (orow_range tokenize skip stop starts Laws ct os pss a b Ro)].
Qed.
Theorem life_index : forall a b ess ws l, start_ok a b ess ws -> life cp cf ct sort chunk (map Mem ws) l -> erasures_apart (ShardSpec.ixs ws) ->
  exists os, open_view cp cf chunk l = Ok (Some os) /\
    forall f, f <> chunk -> f <> null_feature -> exists o S, view_hopper cp cf os f = Ok o /\ answers (projT1 o) (projT2 o) S /\
      (forall x, ShardSpec.visible (ShardSpec.ixs ws) f x -> S x) /\
      (no_straddle (ShardSpec.ixs ws) f -> forall x, S x <-> ShardSpec.visible (ShardSpec.ixs ws) f x).
Proof.
  intros a b ess ws l St Li Ap. destruct (start_life a b ess ws l St Li) as (ixs & pss & R & Ep & La & Bm & Cn).
  destruct (life_open l ixs pss a b R Cn) as (os & Eo & _ & An). exists os. split; [exact Eo|].
  apply (later_shows os (ShardSpec.ixs ws) ixs An (lrow_rows _ _ _ _ _ R) La); [apply St|exact Ap].
Qed.
(** Nothing gets stuck. *)
Lemma lrow_opened fs : forall ixs pss a b, life_row (map File fs) ixs pss a b -> exists hs xs, opened_files cp cf chunk fs hs xs.
Proof.
  induction fs as [|f fs IH]; intros ixs pss a b H; cbn [map] in H; inversion H as [|? ? ix ixs' ps pss' ? m ? L R]; subst; [exists [], []; constructor|].
  destruct (IH _ _ _ _ R) as (hs & xs & K). destruct L as (_ & _ & _ & _ & _ & cs & _ & _ & ix0 & h & x & o & _ & _ & Eo & _). exists (h :: hs), (x :: xs). econstructor; eassumption.
Qed.
Theorem life_total : forall a b ess ws before run after, start_ok a b ess ws -> life cp cf ct sort chunk (map Mem ws) (before ++ run ++ after) ->
  (forall us, run = map Mem us -> us <> [] -> exists m, fiver_merge sort chunk us = Ok (Some m)) /\
  (forall w dna target, run = [Mem w] -> no_empty_line dna -> 0 < target <= maxf -> exists f, hazel_file cp cf ct chunk dna target w = Ok (Some f)) /\
  (forall fs, run = map File fs -> exists hs xs, opened_files cp cf chunk fs hs xs /\
     forall dna target s, no_empty_line dna -> (2 <= length fs)%nat -> Forall (fun x => ht_target x = target) xs -> attempts cp cf chunk hs (map ht_raw xs) s ->
       (forall acts0 idx0, idx_merge cp cf chunk hs (map ht_raw xs) (Files None None) = Ok (Some (acts0, idx0)) -> len idx0 <= maxf) ->
       exists acts idx f, idx_merge cp cf chunk hs (map ht_raw xs) s = Ok (Some (acts, idx)) /\ merged_file dna idx xs = Ok (Some f)).
Proof.
  intros a b ess ws before run after St Li. destruct (start_life a b ess ws _ St Li) as (ixs & pss & R & Ep & La & Bm & Cn).
  assert (Lt : len (text_of (concat pss)) <= big) by (rewrite Ep; apply St). assert (Ha : 0 <= a) by apply St.
  pose proof (lrow_rows _ _ _ _ _ R) as Rw.
  destruct (lrow_split _ _ _ _ _ _ R) as (i1 & i23 & p1 & p23 & c & -> & -> & R1 & R23).
  destruct (lrow_split _ _ _ _ _ _ R23) as (i2 & i3 & p2 & p3 & d & -> & -> & R2 & R3). pose proof (lrow_le _ _ _ _ _ R1). pose proof (lrow_le _ _ _ _ _ R3).
  assert (C2 : forall f, bigwig_count i2 f <= big) by (intros f; exact (count_part i1 i2 i3 f (Cn f))). pose proof (text_part p1 p2 p3 big Lt) as L2.
  assert (C0 : 0 <= c) by lia. assert (D0 : d < maxf) by lia.
  split; [|split].
  - intros us -> Nu. destruct (lrow_mem us i2 p2 c d R2 C2) as [Rr Ex].
    assert (L3 : len (text_of (concat p2)) <= max_len) by (unfold big, max_len in *; lia).
    apply (merge_total tokenize skip stop starts Laws chunk Hchunk sort us p2 c d Rr C0 D0 L3 Nu); rewrite Ex.
    + apply rows_sounds, (lrow_rows _ _ _ _ _ R2).
    + specialize (C2 null_feature). unfold room, big in *. lia.
  - intros w dna target -> Nd Tg. inversion R2 as [|? ? ix ? ps ? ? m ? Lv Rn]; subst. inversion Rn; subst.
    assert (ix = f_index w) as -> by (destruct Lv as (_ & _ & _ & _ & _ & cs & _ & _ & E & _); auto).
    assert (C1 : forall f, fiver_count (f_index w) f <= big) by (intros g; specialize (C2 g); rewrite count_cons in C2; cbn in C2; lia).
    assert (L1 : len (text_of ps) <= maxf) by (cbn [concat] in L2; rewrite app_nil_r in L2; unfold big, maxf in *; lia).
    destruct (write_lives w ps c d dna target Lv C1 L1 Nd Tg) as (f & E & _). exists f. exact E.
  - intros fs ->. destruct (lrow_opened fs _ _ _ _ R2) as (hs & xs & Op). exists hs, xs. split; [exact Op|]. intros dna target s Nd N2 Et At Sm.
    destruct (merge_lives fs hs xs i2 p2 c d i1 i3 dna s target R2 C0 D0 L2 C2 Rw Op At Sm Nd N2 Et) as (acts & idx & f & E1 & E2 & _). exists acts, idx, f. auto.
Qed.

(** * Searching *)
Lemma placed_in ess : forall a es w, placed starts ess a es w -> In es ess.
Proof. induction ess as [|e r IH]; intros a es w H; [destruct H|]. destruct H as [[-> _]|H]; [left; reflexivity|right; eauto]. Qed.
Lemma committed_le ess ws a b : committed a ess ws b -> a <= b.
Proof. induction 1 as [|a es w seq ess ws b _ _ IH]; [lia|]. lia. Qed.
Lemma placed_stored ess : forall a ws b, committed a ess ws b -> 0 <= a -> b <= staging -> Forall good_edits ess -> all_tidy tokenize starts chunk transaction ess a ->
  forall g, g <> chunk -> forall x, stored_by (ShardSpec.ixs ws) g x <->
    exists es w, placed starts ess a es w /\ occurs tokenize starts transaction es w g x /\ forall y, occurs tokenize starts transaction es w g y -> nests x y -> y = x.
Proof.
  induction ess as [|es ess IH]; intros a ws b H Ha Hb F Td g Ng x.
  - inversion H; subst. split; [intros (w & [] & _)|intros (? & ? & [] & _)].
  - inversion H as [|? ? w seq ? ws' ? Er Hc]; subst. inversion F as [|? ? (F1 & F2 & F3) Fr]; subst. destruct Td as [T1 T2].
    change (ShardSpec.ixs (w :: ws')) with (f_index w :: ShardSpec.ixs ws'). pose proof (committed_le _ _ _ _ Hc) as Le.
    assert (Bm : a + token_count starts es <= staging) by (unfold token_count; lia).
    rewrite stored_cons, (IH _ ws' b Hc) by (auto; lia).
    destruct (TextIndex.stored_answers tokenize skip stop starts Laws chunk transaction Hchunk Htrans sort Hsort es F1 a Ha Bm F3 seq w Er g Ng) as (_ & S2 & _).
    + intros y Hy. apply (T1 g y Ng Hy).
    + intros y z Hy Hz E. apply (T1 g y Ng Hy); assumption.
    + rewrite S2. cbn [placed]. split.
      * intros [K|(es' & w' & K1 & K2)]; [exists es, a; split; [left; split; reflexivity|exact K]|exists es', w'; split; [right; exact K1|exact K2]].
      * intros (es' & w' & [[-> ->]|K1] & K2); [left; exact K2|right; exists es', w'; split; [exact K1|exact K2]].
Qed.
Lemma iv_dec : forall x y : iv, {x = y} + {x <> y}.
Proof. decide equality; apply Z.eq_dec. Qed.
Lemma stored_cases ws f x : Forall rows_ok ws -> stored_by ws f x \/ ~ stored_by ws f x.
Proof.
  induction 1 as [|w ws Rw _ IH]; [right; intros (w & [] & _)|]. destruct (rows_lst w f Rw) as (l & Hl & _).
  destruct (in_dec iv_dec x l) as [K|K]; rewrite (stored_cons w ws f x), (lst_stored _ _ _ Hl x); tauto.
Qed.
Lemma points_innermost ws f : Forall rows_ok ws -> (forall x, stored_by ws f x -> x = Iv (ip x) (ip x) 0) -> forall x, innermost_of ws f x <-> stored_by ws f x.
Proof.
  intros Rw Pt x. split; [apply innermost_stored|]. intros Hx. split.
  - revert Hx. induction Rw as [|w ws R1 R2 IH]; intros Hx; [destruct Hx as (w & [] & _)|].
    assert (Pr : forall y, stored_by ws f y -> y = Iv (ip y) (ip y) 0) by (intros y Hy; apply Pt, stored_cons; auto).
    destruct (stored_cases ws f x R2) as [K|K].
    + destruct (IH Pr K) as (i & S & Hi & Sx & Hn). exists (Datatypes.S i), S. split; [exact Hi|]. split; [exact Sx|]. intros [|j] T y Hj Ht Ty; [lia|]. apply (Hn j T y); [lia|exact Ht|exact Ty].
    + apply stored_cons in Hx. destruct Hx as [Hx|Hx]; [|contradiction]. exists O, (stored_in w f). split; [reflexivity|]. split; [exact Hx|].
      intros [|j] T y Hj Ht Ty [E1 E2]; [lia|]. cbn in Ht. apply K. rewrite nth_error_map in Ht. destruct (nth_error ws j) as [v|] eqn:Ev; [|discriminate]. cbn in Ht. injection Ht as <-.
      assert (Hy : stored_by ws f y) by (exists v; split; [exact (nth_error_In _ _ Ev)|exact Ty]).
      assert (x = y) as ->; [|exact Hy]. rewrite (Pr y Hy), (Pt x) by (apply stored_cons; auto). congruence.
  - intros T y Ht Ty N. apply in_map_iff in Ht. destruct Ht as (v & <- & Hv). assert (Hy : stored_by ws f y) by (exists v; auto).
    rewrite (Pt x Hx) in *. rewrite (Pt y Hy) in *. unfold nests in *. cbn [ip iq] in *. lia.
Qed.
Theorem life_search : forall a b ess ws l, start_ok a b ess ws -> life cp cf ct sort chunk (map Mem ws) l -> erases_apart starts ess a ->
  exists os, open_view cp cf chunk l = Ok (Some os) /\
    forall f, null_feature < f -> f <> chunk -> only_tokens transaction ess f ->
      exists o, view_hopper cp cf os f = Ok o /\
        answers (projT1 o) (projT2 o) (fun x => token_at tokenize starts ess a f x /\ ~ exists e, erase_at starts ess a e /\ nests e x).
Proof.
  intros a b ess ws l St Li Ea. pose proof St as (H & Ha & Hb & F & Td & By & Lt & Cn).
  pose proof (tidy_rows ess a ws b H Ha Hb F Lt Td) as Rw.
  pose proof (placed_stored ess a ws b H Ha Hb F Td) as Ps.
  assert (Er : forall x, stored_by (ShardSpec.ixs ws) null_feature x <-> erase_at starts ess a x).
  { intros x. assert (Nc : null_feature <> chunk) by lia. rewrite (Ps null_feature Nc x).
    assert (Oc : forall es w y, placed starts ess a es w -> occurs tokenize starts transaction es w null_feature y -> erase_at starts ess a y).
    { intros es w y Hp Ho. inversion Ho; subst; try lia. exists es, w, p, q. auto. }
    split.
    - intros (es & w & Hp & Ho & _). exact (Oc es w x Hp Ho).
    - intros (es & w & p & q & Hp & He & ->). exists es, w. split; [exact Hp|]. assert (Ox : occurs tokenize starts transaction es w null_feature (Iv (fst (TextSpec.moved w p q)) (snd (TextSpec.moved w p q)) 0)) by (apply Occurs_erased, He).
      split; [exact Ox|]. intros y Hy N. symmetry. apply (Ea _ y); [exact (Oc _ _ _ Hp Ox)|exact (Oc _ _ _ Hp Hy)|exact N]. }
  assert (Ap : erasures_apart (ShardSpec.ixs ws)).
  { intros d e Hd He N. rewrite (Ea d e) by (apply Er || exact N; assumption). unfold nests. lia. }
  destruct (life_index a b ess ws l St Li Ap) as (os & Eo & K). exists os. split; [exact Eo|]. intros f Nf Nc [Nt Na].
  assert (N0 : f <> null_feature) by lia. destruct (K f Nc N0) as (o & S & Eh & An & _ & Hs). exists o. split; [exact Eh|].
  assert (Tk : forall es w y, placed starts ess a es w -> occurs tokenize starts transaction es w f y -> token_at tokenize starts ess a f y /\ y = Iv (ip y) (ip y) 0).
  { intros es w y Hp Ho. inversion Ho as [es1 t es2 tok E1 E2 E3|? p q v E1 E2|p q E1|E1 E2]; subst; [|destruct (Na es p q v (placed_in _ _ _ _ Hp) E1)|lia|contradiction].
    split; [|reflexivity]. exists (es1 ++ Append t :: es2), w, es1, t, es2, tok, (w + token_count starts es1 + t_address tok). repeat split; auto. }
  assert (Sb : forall x, stored_by (ShardSpec.ixs ws) f x <-> token_at tokenize starts ess a f x).
  { intros x. rewrite (Ps f Nc x). split; [intros (es & w & Hp & Ho & _); exact (proj1 (Tk es w x Hp Ho))|].
    intros (es & w & es1 & t & es2 & tok & c & Hp & -> & Ht & Ef & -> & ->). exists (es1 ++ Append t :: es2), w. split; [exact Hp|].
    assert (Ox : occurs tokenize starts transaction (es1 ++ Append t :: es2) w f (Iv (w + token_count starts es1 + t_address tok) (w + token_count starts es1 + t_address tok) 0)).
    { rewrite <- Ef. apply (Occurs_token _ _ _ _ _ es1 t es2 tok eq_refl Ht). lia. }
    split; [exact Ox|]. intros y Hy N. destruct (Tk _ _ y Hp Hy) as [_ E]. rewrite E in *. unfold nests in N. cbn [ip iq] in N. f_equal; lia. }
  assert (Pt : forall x, stored_by (ShardSpec.ixs ws) f x -> x = Iv (ip x) (ip x) 0).
  { intros x Hx. apply Sb in Hx. destruct Hx as (es & w & es1 & t & es2 & tok & c & _ & _ & _ & _ & _ & ->). reflexivity. }
  revert An. apply answers_eqs. intros x. rewrite Hs.
  - unfold ShardSpec.visible. rewrite (points_innermost _ f Rw Pt x), Sb. unfold erased.
    split; intros [K1 K2]; (split; [exact K1|]); intros (e & He & Ne); apply K2; exists e; (split; [apply Er, He|exact Ne]).
  - intros u v Hu Hv N (e & He & Ne). exists e. split; [exact He|]. rewrite (Pt u Hu) in *. rewrite (Pt v Hv) in *. unfold nests in *. cbn [ip iq] in *. lia.
Qed.
End Life.
