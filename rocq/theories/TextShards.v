(** Text in several shards, merged or not. *)
From Coq Require Import Sorting.Permutation Sorting.Sorted.
From Verif Require Import Base Bytes HopperModel ArrayDefs GclSpec HopperProofs ArrayProofs UnaryProofs AnswerProofs VectorModel CodecModel
  PostingModel PostingSpec PostingProofs AnnProofs ShardModel ShardSpec ShardProofs TokenModel
  TextModel TextSpec TextProofs DraftProofs TextStore TextBack TextMerge.

Section Shards.
Context (tokenize : bytes -> list token) (skip : bytes -> Z -> Z) (stop : bytes -> Prop) (starts : bytes -> list Z).
Context (Laws : tokenizer_laws tokenize skip stop starts).
Context (chunk transaction : Z) (Hchunk : null_feature < chunk) (Htrans : transaction <> chunk).
Context (sort : list annotation -> list annotation) (Hsort : forall l, sort_result l (sort l)).
Notation pieces_at := (pieces_at starts).

Record is_shard (w : fiver) (ps : list piece) (a b : Z) : Prop := {
  sh_pieces : pieces_at ps a b;
  sh_lo : 0 <= a;
  sh_hi : b < maxf;
  sh_text : f_text w = text_of ps;
  sh_chunks : exists cs l, chunked starts (text_of ps) (starts (text_of ps)) a (first_of ps) cs /\
                lst_of chunk (f_index w) l /\ Z.of_nat (length l) <= max_len /\ forall x, In x l <-> In x cs }.

Lemma shard_open w ps a b : is_shard w ps a b -> exists o cs, fiver_txt chunk w = Ok (o, text_of ps) /\
  answers (projT1 o) (projT2 o) (set_of cs) /\ chunked starts (text_of ps) (starts (text_of ps)) a (first_of ps) cs.
Proof.
  intros [A B C D (cs & l & F & G & H & I)]. unfold fiver_txt. destruct (fiver_hopper_lst chunk _ l G H) as (o & Eo & Ao).
  exists o, cs. rewrite Eo. cbn [bind]. rewrite D. split; [reflexivity|]. split; [exact (answers_eqs _ _ _ _ I Ao)|exact F].
Qed.

(** What an opened text is. *)
Definition opened (x : txt) (ps : list piece) : Prop :=
  exists a b cs, 0 <= a /\ pieces_at ps a b /\ snd x = text_of ps /\ answers (projT1 (fst x)) (projT2 (fst x)) (set_of cs) /\
    chunked starts (text_of ps) (starts (text_of ps)) a (first_of ps) cs.
Lemma opened_translate x ps p q : opened x ps -> minf <= p <= maxf -> minf <= q < maxf ->
  exists x', translate skip x p q = Ok (x', expected_all starts ps p q) /\ opened x' ps.
Proof.
  intros (a & b & cs & A & B & C & D & E) Hp Hq. destruct x as [o t]. cbn [fst snd] in *. subst t.
  destruct (translate_chunked tokenize skip stop starts Laws _ _ _ _ _ E o p q D Hp Hq) as (o' & T & D').
  exists (o', text_of ps). rewrite (expected_pieces tokenize skip stop starts Laws ps a b p q A B) in T. split; [exact T|].
  exists a, b, cs. auto.
Qed.
Lemma opened_all xs pss p q : Forall2 opened xs pss -> minf <= p <= maxf -> minf <= q < maxf ->
  exists xs', bigwig_translate skip xs p q = Ok (xs', expected_all starts (concat pss) p q) /\ Forall2 opened xs' pss.
Proof.
  intros H Hp Hq. induction H as [|x ps xs pss Hx H IH]; [exists []; split; [reflexivity|constructor]|].
  destruct (opened_translate x ps p q Hx Hp Hq) as (x' & E & O). destruct IH as (xs' & E' & O'). exists (x' :: xs').
  split; [|constructor; assumption]. cbn [bigwig_translate]. rewrite E. cbn [bind]. rewrite E'. cbn [bind].
  unfold expected_all. cbn [concat]. rewrite map_app, concat_app. reflexivity.
Qed.
Lemma opened_history l : forall xs pss, Forall2 opened xs pss -> Forall (fun pq => minf <= fst pq <= maxf /\ minf <= snd pq < maxf) l ->
  bigwig_translate_all skip xs l = Ok (map (fun pq => expected_all starts (concat pss) (fst pq) (snd pq)) l).
Proof.
  induction l as [|[p q] r IH]; intros xs pss H F; [reflexivity|].
  assert (F1 : minf <= p <= maxf /\ minf <= q < maxf) by (inversion F; assumption).
  cbn [bigwig_translate_all map fst snd]. destruct (opened_all xs pss p q H (proj1 F1) (proj2 F1)) as (xs' & E & O). rewrite E. cbn [bind].
  rewrite (IH xs' pss O); [reflexivity|inversion F; assumption].
Qed.

(** * Shards in a row *)
Inductive row : list fiver -> list (list piece) -> Z -> Z -> Prop :=
| Row_none : forall a, row [] [] a a
| Row_next : forall w ws ps pss a b c, is_shard w ps a b -> row ws pss b c -> row (w :: ws) (ps :: pss) a c.
Lemma row_open ws pss a b : row ws pss a b -> exists xs, open_all chunk ws = Ok xs /\ Forall2 opened xs pss.
Proof.
  induction 1 as [a|w ws ps pss a b c H R (xs & E & O)]; [exists []; split; [reflexivity|constructor]|].
  destruct (shard_open w ps a b H) as (o & cs & Eo & Ao & Co). exists ((o, text_of ps) :: xs). cbn [open_all]. rewrite Eo. cbn [bind]. rewrite E.
  split; [reflexivity|]. constructor; [|exact O]. exists a, b, cs. cbn [fst snd]. destruct H. auto.
Qed.
Lemma row_pieces ws pss a b : row ws pss a b -> pieces_at (concat pss) a b.
Proof.
  induction 1 as [a|w ws ps pss a b c H R IH]; [reflexivity|]. cbn [concat]. apply (pieces_app starts _ _ a b c); [apply H|exact IH].
Qed.
Lemma row_app ws1 : forall pss1 ws2 pss2 a b c, row ws1 pss1 a b -> row ws2 pss2 b c -> row (ws1 ++ ws2) (pss1 ++ pss2) a c.
Proof.
  induction ws1 as [|w ws1 IH]; intros pss1 ws2 pss2 a b c H K; inversion H; subst; [exact K|]. cbn [app]. econstructor; [eassumption|]. eapply IH; eassumption.
Qed.
Lemma row_split ws1 : forall ws2 pss a c, row (ws1 ++ ws2) pss a c -> exists pss1 pss2 b, pss = pss1 ++ pss2 /\ row ws1 pss1 a b /\ row ws2 pss2 b c.
Proof.
  induction ws1 as [|w ws1 IH]; intros ws2 pss a c H; [exists [], pss, a; split; [reflexivity|]; split; [constructor|exact H]|].
  inversion H; subst. match goal with K : row (ws1 ++ ws2) _ _ _ |- _ => destruct (IH _ _ _ _ K) as (p1 & p2 & m & -> & R1 & R2) end.
  exists (ps :: p1), p2, m. split; [reflexivity|]. split; [econstructor; eassumption|exact R2].
Qed.
Lemma row_lo ws pss a b : row ws pss a b -> a <= b.
Proof. intros H. exact (pieces_le tokenize skip stop starts Laws _ _ _ (row_pieces _ _ _ _ H)). Qed.

(** * Merging the texts *)
Lemma pieces_line ps a b : pieces_at ps a b -> end_line (text_of ps) = text_of ps.
Proof.
  intros H. rewrite end_line_eq.
  assert (E : last (text_of ps) 10 = 10); [|rewrite E; cbn; apply app_nil_r].
  revert a H. induction ps as [|[t c] r IH]; intros a H; [reflexivity|]. cbn in H. destruct H as (_ & _ & (u & -> & _) & H).
  unfold text_of in *. cbn [map concat fst]. specialize (IH _ H). destruct (concat (map fst r)) as [|x y] eqn:Er.
  - rewrite app_nil_r. apply last_last.
  - rewrite <- app_assoc. cbn [app]. clear - IH. assert (L : forall (a : list Z) b c, last (a ++ b :: c) 10 = last (b :: c) 10).
    { induction a as [|z a IHa]; intros b c; [reflexivity|]. cbn [app]. specialize (IHa b c). destruct (a ++ b :: c) eqn:E; [destruct a; discriminate|]. cbn in *. exact IHa. }
    rewrite L. exact IH.
Qed.
Lemma ascending_count os : forall o n, ascending o os n -> o + Z.of_nat (length os) <= n.
Proof. induction os as [|x r IH]; intros o n H; cbn in H |- *; [lia|]. destruct H as [H K]. apply IH in K. lia. Qed.
Lemma starts_count t : Z.of_nat (length (starts t)) <= len t.
Proof. pose proof (ascending_count _ _ _ (law_inside _ _ _ _ Laws t)). lia. Qed.
Lemma shift_chunks_ok n cs : (forall x, In x cs -> minf <= ivl x + n <= maxf) -> shift_chunks chunk n cs = Ok (map (fun x => Ann chunk (shifted n x)) cs).
Proof.
  induction cs as [|x r IH]; intros H; [reflexivity|]. cbn [shift_chunks map]. rewrite chk_ok by (apply H; left; reflexivity). cbn [bind].
  rewrite IH by (intros y Hy; apply H; right; exact Hy). reflexivity.
Qed.
Lemma chunk_offset_range t os base first cs x : chunked starts t os base first cs -> In x cs -> 0 <= ivl x <= len t.
Proof.
  intros H Hx. rewrite (ch_offset _ _ _ _ _ _ H x Hx). pose proof (contig_in _ _ _ _ (ch_contig _ _ _ _ _ _ H) Hx) as C.
  destruct (start_resumes tokenize skip stop starts Laws t os base first cs H (ip x) ltac:(lia)) as [R _]. exact R.
Qed.
Lemma contig_NoDup cs : forall a b, contig cs a b -> NoDup cs.
Proof.
  induction cs as [|x r IH]; intros a b H; [constructor|]. cbn in H. destruct H as (A & B & C). constructor; [|exact (IH _ _ C)].
  intros K. pose proof (contig_in _ _ _ _ C K). lia.
Qed.
Lemma contig_under cs a b l : contig cs a b -> (forall x, In x l <-> In x cs) -> (length cs <= length l)%nat.
Proof. intros C H. apply NoDup_incl_length; [exact (contig_NoDup _ _ _ C)|]. intros x. apply H. Qed.
Lemma merge_text_ok ws pss : forall a b c ps0 cs0, row ws pss b c -> pieces_at ps0 a b -> 0 <= a -> c < maxf ->
  chunked starts (text_of ps0) (starts (text_of ps0)) a (first_of ps0) cs0 ->
  len (text_of (ps0 ++ concat pss)) <= max_len ->
  exists cs, merge_text chunk ws (text_of ps0) (map (Ann chunk) cs0) = Ok (text_of (ps0 ++ concat pss), map (Ann chunk) cs) /\
    chunked starts (text_of (ps0 ++ concat pss)) (starts (text_of (ps0 ++ concat pss))) a (first_of (ps0 ++ concat pss)) cs /\
    Z.of_nat (length cs) <= Z.of_nat (length cs0) + bigwig_count (ixs ws) chunk.
Proof.
  revert pss. induction ws as [|w ws IH]; intros pss a b c ps0 cs0 R P Ha Hc Ch Hl.
  { inversion R; subst. cbn [concat]. rewrite app_nil_r. exists cs0. split; [reflexivity|]. split; [exact Ch|cbn; lia]. }
  inversion R as [|w' ws' ps pss' b' m c' Hw R' ]; subst. destruct Hw as [S1 S2 S3 S4 (cs & l & F & G & HL & I)].
  cbn [merge_text concat] in *. rewrite S4. rewrite app_assoc in *.
  assert (Hm : m <= c) by exact (row_lo _ _ _ _ R').
  destruct (text_of ps) as [|t0 tr] eqn:Et.
  { assert (ps = []) as ->.
    { destruct ps as [|[t d] r]; [reflexivity|exfalso]. cbn in S1. destruct S1 as (_ & _ & (u & -> & _) & _). unfold text_of in Et. cbn [map concat fst] in Et. destruct u; discriminate. }
    cbn in S1. subst m. rewrite app_nil_r in *. destruct (IH pss' a b c ps0 cs0 R' P Ha Hc Ch Hl) as (cs1 & E1 & E2 & E3). exists cs1.
    split; [exact E1|]. split; [exact E2|]. change (ixs (w :: ws)) with (f_index w :: ixs ws). rewrite count_cons, (lst_count _ _ _ G). lia. }
  pose proof (lst_count _ _ _ G) as Cn.
  rewrite <- Et in *. destruct G as [E|p l E Fe Hh Nl Gd Vl].
  { exfalso. assert (cs = []) as -> by (destruct cs as [|x r]; [reflexivity|exfalso; apply (proj2 (I x)); left; reflexivity]).
    pose proof (ch_contig _ _ _ _ _ _ F) as Cc. cbn [contig] in Cc. 
    destruct (pieces_hd starts _ _ _ S1) as [K|[K _]]; [rewrite K in Et; discriminate Et|].
    destruct (starts (text_of ps)); [cbn in K; lia|cbn [length] in Cc; lia]. }
  rewrite E, (pieces_line ps0 a b P). 
  destruct (array_obj_ok p l Hh Nl Gd HL) as (o & Eo & Ao). rewrite Eo. cbn [bind].
  pose proof (answers_eqs _ _ _ _ I Ao) as Ac. pose proof (ch_contig _ _ _ _ _ _ F) as Cc.
  pose proof (ch_room _ _ _ _ _ _ F) as Rm.
  rewrite (enum_chunks_ok _ _ cs _ _ Ac Cc S2 ltac:(lia)). cbn [bind].
  assert (Ll : len (text_of ps0) + len (text_of ps) <= max_len).
  { rewrite !text_of_app in Hl. unfold len in *. rewrite !app_length in Hl. lia. }
  rewrite shift_chunks_ok.
  2:{ intros x Hx. pose proof (chunk_offset_range _ _ _ _ _ _ F Hx). unfold max_len, minf, maxf in *. unfold len in *. lia. }
  cbn [bind]. rewrite Et, <- Et, <- text_of_app.
  replace (map (Ann chunk) cs0 ++ map (fun x => Ann chunk (shifted (len (text_of ps0)) x)) cs)
    with (map (Ann chunk) (cs0 ++ map (shifted (len (text_of ps0))) cs)) by (rewrite map_app, map_map; reflexivity).
  destruct (IH pss' a m c (ps0 ++ ps) (cs0 ++ map (shifted (len (text_of ps0))) cs) R') as (cs1 & E1 & E2 & E3); [exact (pieces_app starts _ _ _ _ _ P S1)|exact Ha|exact Hc| |exact Hl|].
  { apply (chunked_join tokenize skip stop starts Laws ps0 ps a b m); try assumption. }
  exists cs1. split; [exact E1|]. split; [exact E2|]. change (ixs (w :: ws)) with (f_index w :: ixs ws). rewrite count_cons.
  rewrite app_length, map_length in E3. pose proof (contig_under cs _ _ l Cc I). lia.
Qed.

Lemma contig_length cs : forall a b, contig cs a b -> Z.of_nat (length cs) <= b - a.
Proof. induction cs as [|x r IH]; intros a b H; cbn in H |- *; [lia|]. destruct H as (A & B & C). apply IH in C. lia. Qed.

(** The posting of the merged chunks. *)
Lemma merged_chunks cs a b : contig cs a b -> 0 <= a -> b < maxf -> (forall x, In x cs -> 0 <= ivl x) ->
  forall rest, find_posting rest chunk = None ->
  exists l, lst_of chunk (match posting_from_annotations (sort (map (Ann chunk) cs)) with None => [] | Some (p, _) => [(chunk, p)] end ++ rest) l /\
    (length l <= length cs)%nat /\ forall x, In x l <-> In x cs.
Proof.
  intros Ct Ha Hb Hv rest Hr. set (bt := map (Ann chunk) cs). pose proof (Hsort bt) as [P S]. set (s := sort bt) in *.
  assert (Bin : forall x, In (Ann chunk x) bt <-> In x cs).
  { intros x. unfold bt. rewrite in_map_iff. split; [intros (y & E & Hy); injection E as <-; exact Hy|eauto]. }
  assert (Vb : Forall (fun a => value_ok (aiv a)) bt).
  { apply Forall_forall. intros y Hy. unfold bt in Hy. apply in_map_iff in Hy. destruct Hy as (x & <- & Hx). unfold value_ok. cbn [aiv]. specialize (Hv x Hx). unfold minf. lia. }
  destruct (index_ok bt s (Hsort bt) Vb) as (ix & Eix & _).
  destruct (chunk_lst chunk bt s ix cs a b (Hsort bt) Vb Eix Bin Ct ltac:(unfold minf; lia) ltac:(lia)) as (l & Hl & Ll & Il).
  exists l. split; [|split; [unfold bt in Ll; rewrite map_length in Ll; exact Ll|exact Il]].
  pose proof (build_index_ok (length s) s [] S (Nat.le_refl _)) as (ix2 & E2 & H2). rewrite Eix in E2. injection E2 as <-.
  assert (Fs : Forall (fun a => afeat a = chunk) s).
  { apply Forall_forall. intros y Hy. apply (Permutation_in _ (Permutation_sym P)) in Hy. unfold bt in Hy. apply in_map_iff in Hy. destruct Hy as (x & <- & _). reflexivity. }
  assert (Gs : map aiv (filter (fun a => afeat a =? chunk) s) = map aiv s).
  { f_equal. clear - Fs. induction Fs as [|y r E _ IH]; [reflexivity|]. cbn [filter]. rewrite E, Z.eqb_refl. f_equal. exact IH. }
  specialize (H2 chunk). unfold group in H2. rewrite Gs in H2. cbn [find_posting] in H2.
  destruct s as [|y r] eqn:Es.
  - cbn [map] in H2. cbn [posting_from_annotations app]. inversion Hl; subst; [constructor; exact Hr|congruence].
  - assert (EP : posting_from_annotations (y :: r) = Some (group_posting chunk (map aiv (y :: r)), [])).
    { assert (Ey : afeat y = chunk) by (inversion Fs; assumption).
      assert (Hloop := ann_loop_eq chunk (y :: r) [] Fs Logic.I [] true true). rewrite !app_nil_r in Hloop.
      unfold posting_from_annotations. rewrite Ey. rewrite Hloop. rewrite rev_involutive. cbn [andb hd_error]. reflexivity. }
    rewrite EP. cbn [app]. inversion Hl as [E|p l' E Fe Hh Nl Gd Vl]; [rewrite E in H2; discriminate|subst l'].
    rewrite H2 in E. cbn [map] in E. injection E as <-. econstructor; try eassumption. cbn [find_posting]. rewrite Z.eqb_refl. reflexivity.
Qed.

Lemma merge_features_none ws ex f : forall fs ix, merge_features ws ex fs = Ok ix -> ~ In f fs -> find_posting ix f = None.
Proof.
  induction fs as [|g fs IH]; intros ix E N; cbn [merge_features] in E; [injection E as <-; reflexivity|].
  destruct (posting_from_merge_exclude (postings_of ws g) ex) as [o| |]; try discriminate. cbn [bind] in E.
  destruct (merge_features ws ex fs) as [ix'| |]; try discriminate. cbn [bind] in E. injection E as <-.
  assert (K : find_posting ix' f = None) by (apply IH; [reflexivity|intros K; apply N; right; exact K]).
  destruct o as [p|]; [|exact K]. cbn [find_posting]. destruct (Z.eqb_spec g f) as [->|]; [exfalso; apply N; left; reflexivity|exact K].
Qed.
Lemma merge_shard_count ws pss a b m : row ws pss a b -> 0 <= a -> b < maxf -> len (text_of (concat pss)) <= max_len ->
  fiver_merge sort chunk ws = Ok (Some m) -> is_shard m (concat pss) a b /\ fiver_count (f_index m) chunk <= bigwig_count (ixs ws) chunk.
Proof.
  intros R Ha Hb Hl E. destruct ws as [|w0 [|w1 ws]]; [discriminate| |].
  - cbn in E. injection E as <-. inversion R as [|w' ws' ps pss' a' m' c' Hw R']; subst. inversion R'; subst. cbn [concat]. rewrite app_nil_r. split; [exact Hw|]. cbn. lia.
  - unfold fiver_merge in E. remember (w0 :: w1 :: ws) as ws0 eqn:Ews.
    destruct (merge_text_ok ws0 pss a a b [] [] R eq_refl Ha Hb (chunked_none tokenize skip stop starts Laws a ltac:(pose proof (row_lo _ _ _ _ R); lia)) Hl) as (cs & Et & Ch & Lc).
    change (text_of []) with (@nil Z) in Et. cbn [map app] in Et, Ch. rewrite Et in E. cbn [bind] in E.
    destruct (merged_erased (map f_index ws0)) as [ex| |]; try discriminate. cbn [bind] in E.
    destruct (merge_features (map f_index ws0) ex (other_features chunk (map f_index ws0))) as [ix| |] eqn:Eix; try discriminate. cbn [bind] in E.
    injection E as <-.
    pose proof (ch_contig _ _ _ _ _ _ Ch) as Cc. pose proof (row_pieces _ _ _ _ R) as P.
    rewrite <- (pieces_end tokenize skip stop starts Laws _ _ _ P) in Cc.
    assert (Nr : find_posting (match ex with None => [] | Some e => [(null_feature, e)] end ++ ix) chunk = None).
    { rewrite find_app. assert (Ni : find_posting ix chunk = None).
      { apply (merge_features_none _ _ _ _ _ Eix). intros K. apply other_features_in in K. tauto. }
      destruct ex as [e|]; cbn [find_posting]; [|exact Ni]. replace (null_feature =? chunk) with false by lia. exact Ni. }
    destruct (merged_chunks cs a b Cc Ha Hb (fun x Hx => proj1 (chunk_offset_range _ _ _ _ _ _ Ch Hx)) _ Nr) as (l & L1 & L2 & L3).
    split; [|cbn [f_index]; rewrite (lst_count _ _ _ L1); cbn [length] in Lc; lia].
    split; [exact P|exact Ha|exact Hb|reflexivity|]. exists cs, l. split; [exact Ch|]. split; [exact L1|]. split; [|exact L3].
    pose proof (contig_length _ _ _ Cc). pose proof (pieces_end tokenize skip stop starts Laws _ _ _ P). pose proof (starts_count (text_of (concat pss))). lia.
Qed.
Lemma merge_shard ws pss a b m : row ws pss a b -> 0 <= a -> b < maxf -> len (text_of (concat pss)) <= max_len ->
  fiver_merge sort chunk ws = Ok (Some m) -> is_shard m (concat pss) a b.
Proof. intros R Ha Hb Hl E. exact (proj1 (merge_shard_count ws pss a b m R Ha Hb Hl E)). Qed.
(** Merging does not fail. *)
Lemma merge_total ws pss a b : row ws pss a b -> 0 <= a -> b < maxf -> len (text_of (concat pss)) <= max_len -> ws <> [] ->
  Forall (sound chunk) (ixs ws) -> room (ixs ws) null_feature -> exists m, fiver_merge sort chunk ws = Ok (Some m).
Proof.
  intros R Ha Hb Hl Nw H Rm. destruct ws as [|w0 [|w1 ws]]; [contradiction|eexists; reflexivity|].
  unfold fiver_merge. remember (w0 :: w1 :: ws) as ws0 eqn:Ews.
  destruct (merge_text_ok ws0 pss a a b [] [] R eq_refl Ha Hb (chunked_none tokenize skip stop starts Laws a ltac:(pose proof (row_lo _ _ _ _ R); lia)) Hl) as (cs & Et & Ch & _).
  change (text_of []) with (@nil Z) in Et. cbn [map app] in Et. rewrite Et. cbn [bind]. fold (ixs ws0).
  assert (N : null_feature <> chunk) by lia.
  destruct (lsts_exist chunk (ixs ws0) null_feature H N) as [es Hes].
  destruct (merge_lsts null_feature (ixs ws0) es Hes) as (ex & le & Eex & Gex & Sex & Lex).
  unfold merged_erased. rewrite Eex. cbn [bind]. unfold room in Rm. rewrite (lsts_count _ _ _ Hes) in Rm.
  assert (Lm : Z.of_nat (length le) <= max_len) by (unfold max_len; lia).
  destruct (merge_features_ok chunk (ixs ws0) ex le H Gex Lm (other_features chunk (ixs ws0))) as (ix & Eix & _).
  { apply NoDup_filter, NoDup_nodup. } { intros K. apply other_features_in in K. tauto. }
  rewrite Eix. cbn [bind]. eexists. reflexivity.
Qed.

(** * Any merges *)
Lemma steps_row ws ws' : merge_steps sort chunk ws ws' -> forall pss a b, row ws pss a b -> 0 <= a -> b < maxf ->
  len (text_of (concat pss)) <= max_len -> exists pss', row ws' pss' a b /\ concat pss' = concat pss.
Proof.
  induction 1 as [ws|x y z St _ IH]; intros pss a b R Ha Hb Hl; [exists pss; auto|].
  destruct St as [B r C m Hm].
  destruct (row_split _ _ _ _ _ R) as (p1 & p23 & m1 & -> & R1 & R23). destruct (row_split _ _ _ _ _ R23) as (p2 & p3 & m2 & -> & R2 & R3).
  pose proof (row_lo _ _ _ _ R1). pose proof (row_lo _ _ _ _ R3).
  assert (L2 : len (text_of (concat p2)) <= max_len).
  { rewrite !concat_app, !text_of_app in Hl. unfold len in *. rewrite !app_length in Hl. lia. }
  pose proof (merge_shard r p2 m1 m2 m R2 ltac:(lia) ltac:(lia) L2 Hm) as Sm.
  assert (R' : row (B ++ m :: C) (p1 ++ concat p2 :: p3) a b).
  { apply (row_app _ _ _ _ _ m1); [exact R1|]. econstructor; eassumption. }
  assert (Ec : concat (p1 ++ concat p2 :: p3) = concat (p1 ++ p2 ++ p3)) by (rewrite !concat_app; cbn [concat]; reflexivity).
  destruct (IH _ _ _ R' Ha Hb ltac:(rewrite Ec; exact Hl)) as (pss' & R'' & E'). exists pss'. split; [exact R''|]. rewrite E'. exact Ec.
Qed.

(** * Committed transactions *)
Lemma full_line t : t <> [] -> exists u, end_line t = u ++ [10].
Proof.
  intros N. destruct t as [|c t]; [contradiction|]. unfold end_line. destruct (Z.eqb_spec (last (c :: t) 0) 10) as [E|E].
  - exists (removelast (c :: t)). rewrite <- E. apply app_removelast_last. discriminate.
  - eexists. reflexivity.
Qed.
Lemma ready_shard es w seq m : Forall (edit_ok tokenize stop chunk) es -> starts_well starts es -> edits_fit tokenize chunk transaction es -> 0 <= w ->
  let T := full_text (texts es) in let b := w + Z.of_nat (length (starts T)) in b <= staging ->
  ready chunk transaction sort w seq (draft_after tokenize chunk es) = Ok m ->
  is_shard m (match T with [] => [] | _ => @cons piece (T, w) [] end) w b.
Proof.
  intros He Hs Hf Hw T b Hb Hm.
  destruct (ready_txt tokenize skip stop starts Laws chunk transaction Hchunk Htrans sort Hsort es He w Hw Hb Hf seq) as (m' & o & cs & Em & Tm & _ & _ & Ch & _ & (l & L1 & L2 & L3) & _).
  rewrite Hm in Em. injection Em as <-. fold T in Tm, Ch.
  assert (Bm : b < maxf) by (unfold staging, maxf in *; lia).
  destruct T as [|c t] eqn:ET.
  - assert (Sn : starts [] = []) by apply (starts_nil tokenize skip stop starts Laws).
    assert (E0 : b = w) by (unfold b; rewrite Sn; cbn; lia). rewrite E0. 
    split; [reflexivity|exact Hw|lia|exact Tm|]. exists cs, l. split; [|auto].
    pose proof (ch_contig _ _ _ _ _ _ Ch) as Cc. rewrite Sn in Cc. cbn [length] in Cc.
    assert (cs = []) as -> by (destruct cs as [|x r]; [reflexivity|cbn in Cc; destruct Cc as (C1 & C2 & C3); apply contig_le in C3; lia]).
    apply (chunked_none tokenize skip stop starts Laws). lia.
  - set (T1 := c :: t) in *. change (is_shard m (@cons piece (T1, w) []) w b).
    assert (Et : text_of (@cons piece (T1, w) []) = T1) by (unfold text_of; cbn [map concat fst]; apply app_nil_r).
    split; [|exact Hw|exact Bm|rewrite Et; exact Tm|].
    + cbn [pieces_at]. split; [reflexivity|]. split; [|split; [|reflexivity]].
      * unfold starts_well in Hs. fold T in Hs. rewrite ET in Hs. destruct Hs as [Hs|Hs]; [discriminate|exact Hs].
      * assert (U : full_text (texts es) = T1) by exact ET. unfold full_text in U. rewrite <- U.
        destruct (full_line (concat (map closed (texts es)))) as (u & Eu); [intros K; rewrite K in U; discriminate|]. exists u. split; [exact Eu|].
        apply (end_line_afresh tokenize skip stop starts Laws), (concat_afresh tokenize skip stop starts Laws), (texts_end tokenize stop chunk), He.
    + exists cs, l. rewrite Et. split; [|auto]. destruct Ch as [X1 X2 X3 X4 X5 X6].
      split; assumption.
Qed.
Lemma committed_row ess : forall a ws b, committed tokenize starts chunk transaction sort a ess ws b -> 0 <= a -> b <= staging ->
  Forall (fun es => Forall (edit_ok tokenize stop chunk) es /\ starts_well starts es /\ edits_fit tokenize chunk transaction es) ess ->
  exists pss, row ws pss a b /\ concat pss = pieces_of starts a ess.
Proof.
  induction ess as [|es ess IH]; intros a ws b H Ha Hb F; inversion H; subst; [exists []; split; [constructor|reflexivity]|].
  assert (F1 : Forall (edit_ok tokenize stop chunk) es /\ starts_well starts es /\ edits_fit tokenize chunk transaction es) by (inversion F; assumption).
  assert (F2 : Forall (fun es => Forall (edit_ok tokenize stop chunk) es /\ starts_well starts es /\ edits_fit tokenize chunk transaction es) ess) by (inversion F; assumption).
  match goal with K : committed _ _ _ _ _ _ ess _ _ |- _ => destruct (IH _ _ _ K ltac:(lia) Hb F2) as (pss & R & Ep) end.
  pose proof (row_lo _ _ _ _ R) as Lo. destruct F1 as (A & B & C).
  match goal with K : ready _ _ _ _ ?seq _ = Ok ?w |- _ => pose proof (ready_shard es a seq w A B C Ha ltac:(lia) K) as Sh end. cbv zeta in Sh.
  eexists. split; [econstructor; [exact Sh|exact R]|]. cbn [concat pieces_of]. rewrite Ep. reflexivity.
Qed.

Theorem text_merging : forall ess ws a b ws', committed tokenize starts chunk transaction sort a ess ws b -> 0 <= a -> b <= staging ->
  Forall (fun es => Forall (edit_ok tokenize stop chunk) es /\ starts_well starts es /\ edits_fit tokenize chunk transaction es) ess ->
  len (text_of (pieces_of starts a ess)) <= max_len -> merge_steps sort chunk ws ws' ->
  exists xs, open_all chunk ws' = Ok xs /\
    forall l, Forall (fun pq => minf <= fst pq <= maxf /\ minf <= snd pq < maxf) l ->
      bigwig_translate_all skip xs l = Ok (map (fun pq => expected_all starts (pieces_of starts a ess) (fst pq) (snd pq)) l).
Proof.
  intros ess ws a b ws' H Ha Hb F Hl St. destruct (committed_row ess a ws b H Ha Hb F) as (pss & R & Ep).
  assert (Bm : b < maxf) by (unfold staging, maxf in *; lia).
  rewrite <- Ep in *. destruct (steps_row ws ws' St pss a b R Ha Bm Hl) as (pss' & R' & E').
  destruct (row_open _ _ _ _ R') as (xs & Eo & O). exists xs. split; [exact Eo|]. intros l Fl. rewrite (opened_history l xs pss' O Fl), E'. reflexivity.
Qed.
(** Merging any run of the shards succeeds. *)
Theorem text_merge_total : forall ess ws a b, committed tokenize starts chunk transaction sort a ess ws b -> 0 <= a -> b <= staging ->
  Forall (fun es => Forall (edit_ok tokenize stop chunk) es /\ starts_well starts es /\ edits_fit tokenize chunk transaction es) ess ->
  len (text_of (pieces_of starts a ess)) <= max_len ->
  Forall (sound chunk) (ixs ws) -> room (ixs ws) null_feature -> erasures_apart (ixs ws) ->
  forall before run after, merge_steps sort chunk ws (before ++ run ++ after) -> run <> [] ->
  exists m, fiver_merge sort chunk run = Ok (Some m).
Proof.
  intros ess ws a b H Ha Hb F Hl S Rm Ap before r after St Nr. destruct (committed_row ess a ws b H Ha Hb F) as (pss & R & Ep).
  assert (Bm : b < maxf) by (unfold staging, maxf in *; lia). assert (N : null_feature <> chunk) by lia.
  rewrite <- Ep in *. destruct (steps_row _ _ St pss a b R Ha Bm Hl) as (pss' & R' & E').
  destruct (steps_visible sort chunk _ _ St N S Rm Ap) as (S' & Rm' & _).
  destruct (row_split _ _ _ _ _ R') as (p1 & p23 & m1 & -> & R1 & R23). destruct (row_split _ _ _ _ _ R23) as (p2 & p3 & m2 & -> & R2 & R3).
  pose proof (row_lo _ _ _ _ R1). pose proof (row_lo _ _ _ _ R3).
  rewrite <- E' in Hl. unfold ixs in S', Rm'. rewrite !map_app in S', Rm'.
  apply (merge_total r p2 m1 m2 R2); [lia|lia| |exact Nr| |].
  - rewrite !concat_app, !text_of_app in Hl. unfold len in *. rewrite !app_length in Hl. lia.
  - apply Forall_app in S'. destruct S' as [_ S']. apply Forall_app in S'. apply S'.
  - clear - Rm'. unfold room in *. assert (B0 : forall ix, 0 <= bigwig_count ix null_feature).
    { unfold bigwig_count. induction ix as [|x l IH]; cbn [fold_right]; [lia|]. unfold fiver_count at 1. destruct (find_posting x null_feature); [unfold psize, len|]; lia. }
    assert (Ba : forall x y, bigwig_count (x ++ y) null_feature = bigwig_count x null_feature + bigwig_count y null_feature).
    { intros x y. unfold bigwig_count. induction x as [|z x IH]; cbn [fold_right app]; [lia|]. lia. }
    rewrite !Ba in Rm'. pose proof (B0 (map f_index before)). pose proof (B0 (map f_index after)). unfold ixs. lia.
Qed.
End Shards.
