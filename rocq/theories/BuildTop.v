(** Building an index: what is found in it. *)
From Verif Require Import Base HopperModel ArrayDefs GclSpec ArrayProofs UnaryProofs Bytes CodecModel CodecSpec CodecProofs PostingModel PostingSpec PostingProofs PostingIO AnnProofs
  ShardModel ShardSpec ShardProofs HazelSpec HazelProofs SingleModel SingleSpec SingleLookup SingleMerge SingleBatch SingleCommit SingleLife BuildModel BuildSpec BuildMerge BuildBatch BuildProofs.
From Verif Require TokenModel TextSpec FileSpec ChunkModel ChunkSpec ChunkLife ChunkStep PlainModel PlainSpec DraftProofs PlainWrite PlainLife PlainTop.
From Coq Require Import Permutation Sorted.

(** * The addresses of words *)
Section Words.
Variables (tokenize : bytes -> list TokenModel.token) (skip : bytes -> Z -> Z) (stop : bytes -> Prop) (starts : bytes -> list Z).
Hypothesis laws : TextSpec.tokenizer_laws tokenize skip stop starts.
Definition later (a b : Z * Z) : Prop := snd a <= snd b.
Lemma at_range os : forall a toks, TextSpec.tokens_at a os toks -> Forall (fun t => a <= TokenModel.t_address t < a + Z.of_nat (length os)) toks.
Proof.
  induction os as [|o r IH]; intros a toks H; cbn in H; [subst; constructor|]. destruct H as (g & rest & -> & _ & G & T). apply Forall_app. split.
  - eapply Forall_impl; [|exact G]. cbn. lia.
  - eapply Forall_impl; [|exact (IH _ _ T)]. cbn. lia.
Qed.
Lemma at_sorted os : forall a toks, TextSpec.tokens_at a os toks -> StronglySorted (fun s t => TokenModel.t_address s <= TokenModel.t_address t) toks.
Proof.
  induction os as [|o r IH]; intros a toks H; cbn in H; [subst; constructor|]. destruct H as (g & rest & -> & _ & G & T). pose proof (at_range _ _ _ T) as R. specialize (IH _ _ T). clear T.
  induction G as [|x g Hx G IG]; [exact IH|]. cbn [app]. constructor; [exact IG|]. apply Forall_app. split.
  - eapply Forall_impl; [|exact G]. cbn. lia.
  - eapply Forall_impl; [|exact R]. cbn. lia.
Qed.
Lemma sorted_filter {A} (R : A -> A -> Prop) p l : StronglySorted R l -> StronglySorted R (filter p l).
Proof.
  induction 1 as [|x l _ IH H]; [constructor|]. cbn. destruct (p x); [|exact IH]. constructor; [exact IH|]. rewrite Forall_forall in *. intros y Hy. apply H. apply filter_In in Hy. apply Hy.
Qed.
Lemma sorted_app {A} (R : A -> A -> Prop) l m : StronglySorted R l -> StronglySorted R m -> (forall x y, In x l -> In y m -> R x y) -> StronglySorted R (l ++ m).
Proof.
  induction 1 as [|x l S IH H]; intros M K; [exact M|]. cbn. constructor; [apply IH; [exact M|]; intros u v Hu; apply K; right; exact Hu|].
  apply Forall_app. split; [exact H|]. apply Forall_forall. intros y Hy. apply K; [left; reflexivity|exact Hy].
Qed.
Lemma words_range ts t w : In w (PlainSpec.words tokenize starts ts t) -> PlainSpec.count starts ts <= snd w < PlainSpec.count starts ts + PlainSpec.count starts [t].
Proof.
  intros H. unfold PlainSpec.words in H. apply in_map_iff in H. destruct H as (k & <- & H). apply filter_In in H. destruct H as [H _].
  pose proof (at_range _ _ _ (TextSpec.law_tokenize _ _ _ _ laws (TextSpec.closed t))) as R. rewrite Forall_forall in R. specialize (R k H). cbn [snd].
  assert (E : PlainSpec.count starts [t] = Z.of_nat (length (starts (TextSpec.closed t)))) by (unfold PlainSpec.count; rewrite PlainLife.whole_one; reflexivity). lia.
Qed.
Lemma words_sorted ts t : StronglySorted later (PlainSpec.words tokenize starts ts t).
Proof.
  unfold PlainSpec.words. set (l := filter _ _). assert (S : StronglySorted (fun s t => TokenModel.t_address s <= TokenModel.t_address t) l).
  { apply sorted_filter, (at_sorted (starts (TextSpec.closed t)) 0), (TextSpec.law_tokenize _ _ _ _ laws). }
  clearbody l. induction S as [|x l _ IH H]; [constructor|]. cbn [map]. constructor; [exact IH|]. rewrite Forall_map. eapply Forall_impl; [|exact H]. intros y Hy. unfold later. cbn [snd]. cbv beta in Hy. lia.
Qed.
Lemma count_add ts t : Forall (PlainSpec.text_ok stop) ts -> PlainSpec.count starts (ts ++ [t]) = PlainSpec.count starts ts + PlainSpec.count starts [t].
Proof.
  intros H. unfold PlainSpec.count. rewrite PlainLife.whole_app. unfold PlainSpec.whole at 1.
  rewrite (DraftProofs.concat_afresh tokenize skip stop starts laws ts) by (eapply Forall_impl; [|exact H]; intros u (_ & _ & E); exact E). rewrite app_length, map_length. unfold PlainSpec.whole. lia.
Qed.
Lemma count_app ts l : Forall (PlainSpec.text_ok stop) ts -> Forall (PlainSpec.text_ok stop) l -> PlainSpec.count starts ts <= PlainSpec.count starts (ts ++ l).
Proof.
  intros H Hl. revert ts H. induction Hl as [|t l Ht _ IH]; intros ts H; [rewrite app_nil_r; lia|].
  assert (H' : Forall (PlainSpec.text_ok stop) (ts ++ [t])) by (apply Forall_app; split; [exact H|constructor; [exact Ht|constructor]]).
  specialize (IH (ts ++ [t]) H'). rewrite <- app_assoc in IH. cbn [app] in IH. pose proof (count_add ts t H) as C.
  assert (0 <= PlainSpec.count starts [t]) by (unfold PlainSpec.count; lia). lia.
Qed.
Lemma all_words_range l : forall ts w, Forall (PlainSpec.text_ok stop) ts -> Forall (PlainSpec.text_ok stop) l -> In w (PlainSpec.all_words tokenize starts ts l) ->
  PlainSpec.count starts ts <= snd w < PlainSpec.count starts (ts ++ l).
Proof.
  induction l as [|t l IH]; intros ts w H Hl Hw; [destruct Hw|]. inversion Hl as [|? ? Ht Hl']; subst.
  assert (H' : Forall (PlainSpec.text_ok stop) (ts ++ [t])) by (apply Forall_app; split; [exact H|constructor; [exact Ht|constructor]]).
  pose proof (count_add ts t H) as C. pose proof (count_app (ts ++ [t]) l H' Hl') as C'. rewrite <- app_assoc in C'. cbn [app] in C'.
  assert (0 <= PlainSpec.count starts [t]) by (unfold PlainSpec.count; lia).
  cbn [PlainSpec.all_words] in Hw. apply in_app_or in Hw. destruct Hw as [Hw|Hw].
  - apply words_range in Hw. lia.
  - specialize (IH _ _ H' Hl' Hw). rewrite <- app_assoc in IH. cbn [app] in IH. lia.
Qed.
Lemma all_words_sorted l : forall ts, Forall (PlainSpec.text_ok stop) ts -> Forall (PlainSpec.text_ok stop) l -> StronglySorted later (PlainSpec.all_words tokenize starts ts l).
Proof.
  induction l as [|t l IH]; intros ts H Hl; [constructor|]. inversion Hl as [|? ? Ht Hl']; subst.
  assert (H' : Forall (PlainSpec.text_ok stop) (ts ++ [t])) by (apply Forall_app; split; [exact H|constructor; [exact Ht|constructor]]).
  cbn [PlainSpec.all_words]. apply sorted_app; [apply words_sorted|apply IH; assumption|]. intros x y Hx Hy. apply words_range in Hx. apply all_words_range in Hy; [|assumption|assumption].
  pose proof (count_add ts t H) as C. unfold later. lia.
Qed.
Lemma ascending_length os : forall o n, TextSpec.ascending o os n -> o + Z.of_nat (length os) <= n.
Proof. induction os as [|x r IH]; intros o n H; cbn in H; [cbn; lia|]. destruct H as [H1 H2]. apply IH in H2. cbn [length]. lia. Qed.
Lemma count_bytes ts : PlainSpec.count starts ts <= len (PlainSpec.whole ts).
Proof. pose proof (ascending_length _ _ _ (TextSpec.law_inside _ _ _ _ laws (PlainSpec.whole ts))). unfold PlainSpec.count. lia. Qed.
End Words.

(** * Lists one after the other are a list *)
Lemma segments {A} (R : A -> A -> Prop) Bs : StronglySorted R (concat Bs) -> forall i j B C x y, (i < j)%nat -> nth_error Bs i = Some B -> nth_error Bs j = Some C -> In x B -> In y C -> R x y.
Proof.
  induction Bs as [|D Bs IH]; intros S i j B C x y L E1 E2 Hx Hy; [destruct i; discriminate|]. cbn [concat] in S.
  assert (S2 : StronglySorted R (concat Bs) /\ forall u v, In u D -> In v (concat Bs) -> R u v).
  { clear -S. induction D as [|d D IH]; [split; [exact S|intros u v []]|]. cbn [app] in S. inversion S as [|? ? S' F]; subst. destruct (IH S') as [I1 I2]. split; [exact I1|].
    intros u v [<-|Hu] Hv; [|apply I2; assumption]. rewrite Forall_forall in F. apply F. apply in_or_app. right. exact Hv. }
  destruct S2 as [S2 K]. destruct j as [|j]; [lia|]. cbn in E2. destruct i as [|i]; cbn in E1.
  - injection E1 as ->. apply K; [exact Hx|]. apply in_concat. exists C. split; [apply nth_error_In in E2; exact E2|exact Hy].
  - apply (IH S2 i j B C x y); auto; lia.
Qed.
Lemma Forall2_nth {A B} (R : A -> B -> Prop) l m : Forall2 R l m -> forall i b, nth_error m i = Some b -> exists a, nth_error l i = Some a /\ R a b.
Proof. induction 1 as [|x y l m H _ IH]; intros i b E; [destruct i; discriminate|]. destruct i as [|i]; [injection E as <-; exists x; split; [reflexivity|exact H]|apply IH; exact E]. Qed.
Lemma lst_same f ix l m : lst_of f ix l -> lst_of f ix m -> forall x, In x l <-> In x m.
Proof. intros A B x. rewrite <- (lst_stored f ix l A x : _ <-> In x l). exact (lst_stored f ix m B x). Qed.
Lemma words_lined Ts ixs f ls : Forall2 tok_file Ts ixs -> Forall2 (lst_of f) ixs ls -> StronglySorted later (concat Ts) ->
  gcdup (concat ls) /\ (forall x, In x (concat ls) <-> exists a, In (f, a) (concat Ts) /\ x = Iv a a 0) /\ Z.of_nat (length (concat ls)) = bigwig_count ixs f.
Proof.
  intros H F S. assert (E : Forall2 (fun B l => forall x, In x l <-> exists a, In (f, a) B /\ x = spot a) Ts ls).
  { clear S. revert ls F. induction H as [|B ix Ts ixs (_ & _ & L) _ IH]; intros ls F; inversion F as [|? l ? ls' L1 L2]; subst; [constructor|]. constructor; [|apply IH; exact L2].
    destruct (L f) as (k & Lk & Ek & _). intros x. rewrite (lst_same f ix l k L1 Lk x). apply Ek. }
  split; [|split; [|rewrite (lsts_count f ixs ls F); reflexivity]].
  - apply gcdup_concat; [apply (lsts_gcdup f ixs), F|]. intros i j l m x y L E1 E2 Hx Hy.
    destruct (Forall2_nth _ _ _ E i l E1) as (B & N1 & K1). destruct (Forall2_nth _ _ _ E j m E2) as (C & N2 & K2).
    apply K1 in Hx. apply K2 in Hy. destruct Hx as (a & Ha & ->). destruct Hy as (b & Hb & ->). pose proof (segments later Ts S i j B C _ _ L N1 N2 Ha Hb) as K. unfold later in K. cbn in K. unfold spot. cbn.
    destruct (Z.eq_dec a b) as [->|]; [right; reflexivity|left; lia].
  - intros x. clear S F H. induction E as [|B l Ts ls K _ IH]; [split; [intros []|intros (a & [] & _)]|]. cbn [concat]. rewrite in_app_iff, IH, (K x). split.
    + intros [(a & Ha & ->)|(a & Ha & ->)]; exists a; (split; [apply in_or_app; tauto|reflexivity]).
    + intros (a & Ha & ->). apply in_app_or in Ha. destruct Ha as [Ha|Ha]; [left|right]; exists a; (split; [exact Ha|reflexivity]).
Qed.
Definition ordered (x y : annotation) : Prop := afeat x = afeat y -> takes x = true -> takes y = true -> ip (aiv x) <= ip (aiv y).
Lemma in_order_sorted l : in_order l -> StronglySorted ordered l.
Proof.
  induction l as [|x l IH]; intros H; [constructor|]. constructor.
  - apply IH. intros i j f a b L E1 E2. apply (H (S i) (S j) f a b); [lia|exact E1|exact E2].
  - apply Forall_forall. intros y Hy Ef Tx Ty. apply In_nth_error in Hy. destruct Hy as [j Hj]. destruct x as [f x], y as [g y]. cbn in *. subst g. unfold takes, null_feature in Tx, Ty. cbn in Tx, Ty.
    apply (H 0%nat (S j) f x y); [lia|reflexivity|exact Hj|lia|lia].
Qed.
Lemma notes_lined As ixs f ls : Forall2 batch_file As ixs -> Forall2 (lst_of f) ixs ls -> apart (concat As) -> (StronglySorted ordered (concat As) \/ (length As <= 1)%nat) ->
  gcdup (concat ls) /\ (forall x, In x (concat ls) <-> taken (concat As) f x).
Proof.
  intros H F Ap S. assert (E : Forall2 (fun B l => forall x, In x l <-> taken B f x) As ls).
  { clear S Ap. revert ls F. induction H as [|B ix As ixs (_ & _ & L) _ IH]; intros ls F; inversion F as [|? l ? ls' L1 L2]; subst; [constructor|]. constructor; [|apply IH; exact L2].
    destruct (L f) as (k & Lk & Ek & _). intros x. rewrite (lst_same f ix l k L1 Lk x). apply (Ek x). }
  split.
  - apply gcdup_concat; [apply (lsts_gcdup f ixs), F|]. intros i j l m x y L E1 E2 Hx Hy.
    destruct (Forall2_nth _ _ _ E i l E1) as (B & N1 & K1). destruct (Forall2_nth _ _ _ E j m E2) as (C & N2 & K2).
    apply K1 in Hx. apply K2 in Hy. destruct S as [S|S].
    2:{ assert (j < length As)%nat by (apply nth_error_Some; congruence). lia. }
    destruct Hx as (Hx & Pf & Hx'). destruct Hy as (Hy & _ & Hy').
    assert (O : ip x <= ip y). { apply (segments ordered As S i j B C _ _ L N1 N2 Hx Hy); [reflexivity| |]; unfold takes, null_feature; cbn; lia. }
    assert (Tx : taken (concat As) f x) by (split; [|split; assumption]; apply in_concat; exists B; split; [apply nth_error_In in N1; exact N1|exact Hx]).
    assert (Ty : taken (concat As) f y) by (split; [|split; assumption]; apply in_concat; exists C; split; [apply nth_error_In in N2; exact N2|exact Hy]).
    destruct (Z_le_dec (iq y) (iq x)); [right; apply (Ap f x y Tx Ty); unfold nests; lia|].
    destruct (Z_le_dec (ip y) (ip x)); [right; symmetry; apply (Ap f y x Ty Tx); unfold nests; lia|]. left. lia.
  - intros x. clear S F H Ap. induction E as [|B l Ts ls K _ IH]; [split; [intros []|intros ([] & _)]|]. cbn [concat]. rewrite in_app_iff, IH, (K x). unfold taken. rewrite in_app_iff. tauto.
Qed.

(** * The index that is built *)
Section Top.
Variables cp cf : compressor.
Hypothesis stores : stores_lists cp cf.
Variable tsort : list (Z * Z) -> list (Z * Z).
Hypothesis tsorts : forall l, tok_sorted l (tsort l).
Variable sort : list annotation -> list annotation.
Hypothesis sorts : forall l, start_sorted l (sort l).
Variables tok_limit ann_limit : nat.
Lemma kept_ixs {A} (F : A -> index -> Prop) q Bs : Forall2 (fun b B => kept_file cp cf (F B) b) q Bs ->
  exists ixs, Forall2 F Bs ixs /\ Forall2 (fun R b => exists o m, filed cp cf o R m b) ixs q.
Proof.
  induction 1 as [|b B q Bs (ix & Fd & K) _ (ixs & I1 & I2)]; [exists []; split; constructor|]. exists (ix :: ixs). destruct (Fd 0) as (m & Hm). split; constructor; [exact K|exact I1|exists 0, m; exact Hm|exact I2].
Qed.
Lemma bigwig_app a b f : bigwig_count (a ++ b) f = bigwig_count a f + bigwig_count b f.
Proof. unfold bigwig_count. induction a as [|x a IH]; cbn [app fold_right]; lia. Qed.
Lemma words_count Ts ixs f : Forall2 tok_file Ts ixs -> bigwig_count ixs f <= Z.of_nat (length (concat Ts)).
Proof.
  induction 1 as [|B ix Ts ixs (_ & _ & L) _ IH]; [cbn; lia|]. destruct (L f) as (l & Ll & _ & Nl). rewrite count_cons, (lst_count f ix l Ll). cbn [concat]. rewrite app_length. lia.
Qed.
(** The files of the index, given the batches. *)
Lemma index_built W N Ts As tq aq : Forall2 (fun b B => kept_file cp cf (tok_file B) b) tq Ts -> Forall2 (fun b B => kept_file cp cf (batch_file B) b) aq As ->
  concat Ts = W -> concat As = filter takes N -> StronglySorted later W -> apart N -> separate W N ->
  (in_order N \/ (length As <= 1)%nat) -> (W <> [] \/ forall f x, ~ taken N f x) -> Z.of_nat (length W + length N) <= 288230376151711743 ->
  exists ix m out, build_index cp cf tq aq = Ok (map_bytes m, out) /\ filed cp cf 0 ix m out /\ index_ok ix /\
    (forall f, eqs (stored_in ix f) (found W N f)) /\ forall f, fiver_count ix f <= Z.of_nat (length W + length N).
Proof.
  intros HT HA ET EA SW Ap Sep Ord Any Len.
  destruct (kept_ixs _ _ _ HT) as (TI & T1 & T2). destruct (kept_ixs _ _ _ HA) as (AI & A1 & A2).
  assert (Ap' : apart (concat As)) by (rewrite EA; apply (apart_incl _ N); [intros x Hx; apply filter_In in Hx; apply Hx|exact Ap]).
  assert (Ord' : StronglySorted ordered (concat As) \/ (length As <= 1)%nat).
  { destruct Ord as [O|O]; [left; rewrite EA; apply sorted_filter, in_order_sorted, O|right; exact O]. }
  assert (Lf : (length (filter takes N) <= length N)%nat) by apply filter_len.
  assert (OT : Forall index_ok TI) by (clear -T1; induction T1 as [|B ix Bs ixs (O & _) _ IH]; constructor; assumption).
  assert (OA : Forall index_ok AI) by (clear -A1; induction A1 as [|B ix Bs ixs (O & _) _ IH]; constructor; assumption).
  assert (Cn : forall f, bigwig_count (TI ++ AI) f <= Z.of_nat (length W + length N)).
  { intros f. rewrite bigwig_app. pose proof (words_count Ts TI f T1). destruct (files_lists sort sorts f As AI A1) as (_ & _ & _ & K). rewrite ET in *. rewrite EA in K. lia. }
  assert (Both : forall f ls, Forall2 (lst_of f) (TI ++ AI) ls -> gcdup (concat ls) /\ forall x, In x (concat ls) <-> found W N f x).
  { intros f ls F. apply Forall2_app_inv_l in F. destruct F as (lt & la & F1 & F2 & ->). rewrite concat_app.
    destruct (words_lined Ts TI f lt T1 F1) as (G1 & E1 & _); [rewrite ET; exact SW|]. destruct (notes_lined As AI f la A1 F2 Ap' Ord') as (G2 & E2).
    rewrite ET in E1. assert (E2' : forall x, In x (concat la) <-> taken N f x) by (intros x; rewrite E2, EA; apply (takes_taken sort sorts)). clear E2.
    split; [|intros x; rewrite in_app_iff, E1, E2'; reflexivity]. apply gcdup_app; [exact G1|exact G2|]. intros x y Hx Hy. apply E1 in Hx. apply E2' in Hy. destruct Hx as (a & Ha & _). destruct (Sep f a y Ha Hy). }
  destruct Ts as [|B Ts].
  - cbn in ET. subst W. inversion HT; subst tq. destruct Any as [Any|Any]; [congruence|]. exists [], [], []. split; [reflexivity|]. split; [constructor|]. split; [split; constructor|]. split; [|intros f; cbn; lia].
    intros f x. split; [intros (p & i & K & _); discriminate|]. intros [(a & [] & _)|K]. destruct (Any f x K).
  - inversion T1 as [|? ix1 ? TI' ]; subst.
    destruct (build_index_ok cp cf stores (ix1 :: TI') AI tq aq) as (ix & m & out & E1 & E2 & J1 & J2 & J3 & J4); try assumption; [discriminate|apply Forall_app; split; assumption|intros f; specialize (Cn f); lia|intros f ls F; apply (Both f ls F)|].
    exists ix, m, out. split; [exact E1|]. split; [exact E2|]. split; [exact J1|]. split; [|intros f; specialize (J2 f); specialize (Cn f); lia].
    intros f. assert (Ex : exists ls, Forall2 (lst_of f) ((ix1 :: TI') ++ AI) ls) by (apply rows_lst, Forall_app; split; assumption). destruct Ex as (ls & F). specialize (J4 f ls F). destruct (Both f ls F) as [_ K].
    intros x. rewrite (lst_stored f ix (concat ls) (good_lst f ix _ J4) x). apply K.
Qed.

Variable c : compressor.
Variable cs : Z.
Variable held : Z -> bool.
Variables (tokenize : bytes -> list TokenModel.token) (skip : bytes -> Z -> Z) (stop : bytes -> Prop) (starts : bytes -> list Z).
Hypothesis suits : ChunkSpec.suitable c cs.
Hypothesis laws : TextSpec.tokenizer_laws tokenize skip stop starts.
Theorem build_ok l : let W := PlainSpec.all_words tokenize starts [] (texts l) in let N := notes_of l in
  Forall (PlainSpec.text_ok stop) (texts l) -> len (PlainSpec.whole (texts l)) <= maxf ->
  Forall word_ok W -> Forall note_ok N -> decent N -> separate W N ->
  (in_order N \/ (length N <= ann_limit)%nat) -> (W <> [] \/ forall f x, ~ taken N f x) -> Z.of_nat (length W + length N) <= 288230376151711743 ->
  exists r fs, build cp cf tsort sort tok_limit ann_limit c cs held tokenize l = Ok (r, fs) /\ ranges r = PlainSpec.ranges_of starts [] (texts l) /\
    ChunkSpec.serves c cs held (f_disk fs) (PlainSpec.whole (texts l)) /\ PlainSpec.recorded starts (PlainSpec.whole (texts l)) (f_txt fs) /\
    exists ix m, filed cp cf 0 ix m (f_pst fs) /\ f_idx fs = map_bytes m /\ index_ok ix /\ (forall f, eqs (stored_in ix f) (found W N f)) /\
      forall f, fiver_count ix f <= Z.of_nat (length W + length N).
Proof.
  intros W N Ht Hl Hw Hn [Hr Hap] Sep Ord Any Len. destruct suits as (Hcs & Hloss & Hfit).
  destruct (PlainLife.build_all c cs held Hcs Hloss Hfit tokenize skip stop starts laws (texts l) Ht) as (b & b' & d & E1 & E2 & E3 & E4 & E5 & E6 & E7). fold W in E3.
  assert (Ft : Forall tfine W).
  { apply Forall_forall. intros w Hin. split; [rewrite Forall_forall in Hw; apply Hw, Hin|]. destruct (all_words_range tokenize skip stop starts laws (texts l) [] w (Forall_nil _) Ht Hin) as [A B].
    pose proof (count_bytes tokenize skip stop starts laws (texts l)). assert (0 <= PlainSpec.count starts []) by (unfold PlainSpec.count; lia). cbn [app] in B. lia. }
  assert (B0 : PlainModel.b_tokens b = []).
  { clear -E1. unfold PlainModel.builder_make in E1. destruct (ChunkModel.opened c cs held _) as [w| |]; cbn [bind] in E1; try discriminate. injection E1 as <-. reflexivity. }
  destruct (calls_ok cp cf stores tsort tsorts sort sorts tok_limit ann_limit c cs held tokenize l b _ b' (State b [] [] []) [] [] [] E2) as (r & s & Ts & As & K1 & K2 & [G1 G2 G3 G4 G5 G6] & K4).
  { constructor; cbn; auto. destruct b; cbn in *; subst; reflexivity. }
  { rewrite E3. exact Ft. }
  { rewrite E3. fold N in Len. lia. }
  { exact Hn. } { exact Hr. } { constructor. } { exact Hap. } { cbn [app]. fold N. lia. }
  cbn [app] in G4, G6, K4. fold N in G4, G6, K4.
  assert (Lf : (length (filter takes N) <= length N)%nat) by apply filter_len.
  assert (Lw : (length (PlainModel.b_tokens (text s)) <= length W)%nat) by (rewrite <- E3, <- G2, app_length; lia).
  assert (Ln : (length (notes s) <= length N)%nat) by (rewrite <- G4, app_length in Lf; lia).
  destruct (flush_tokens_ok cp cf stores tsort tsorts tok_limit true (PlainModel.b_tokens (text s)) (tokq s) Ts G3) as (t' & tq & Ts' & F1 & F2 & F3 & F4).
  { rewrite Forall_forall in *. intros w Hin. apply Ft. rewrite <- E3, <- G2. apply in_or_app. right. exact Hin. } { lia. }
  destruct (flush_notes_ok cp cf stores sort sorts ann_limit true (notes s) (annq s) As G5) as (n' & aq & As' & A1 & A2 & A3 & A4 & _ & A6 & _).
  { rewrite Forall_forall in *. intros w Hin. apply K4. rewrite <- G4. apply in_or_app. right. exact Hin. }
  { apply (apart_incl _ N); [|exact Hap]. intros x Hx. assert (K : In x (filter takes N)) by (rewrite <- G4; apply in_or_app; right; exact Hx). apply filter_In in K. apply K. } { lia. }
  rewrite (F4 eq_refl), app_nil_r, G2, E3 in F3. rewrite (A4 eq_refl), app_nil_r, G4 in A3.
  destruct (index_built W N Ts' As' tq aq F2 A2 F3 A3) as (ix & m & out & I1 & I2 & I3 & I4 & I5); try assumption.
  { apply (all_words_sorted tokenize skip stop starts laws); [constructor|exact Ht]. }
  { destruct Ord as [O|O]; [left; exact O|right]. rewrite G6 in A6 by lia. exact A6. }
  assert (Ef : PlainModel.finalize c cs held (text s) = Ok (d, PlainModel.b_txt b')) by (rewrite G1; rewrite <- E4; reflexivity).
  exists r, (Files d (PlainModel.b_txt b') (map_bytes m) out). unfold build, start. rewrite E1. cbn [bind]. rewrite K1. cbn [bind]. unfold finalize. rewrite Ef. cbn [bind]. rewrite F1. cbn [bind]. rewrite A1. cbn [bind]. rewrite I1. cbn [bind].
  split; [reflexivity|]. split; [exact K2|]. split; [exact (ChunkStep.resting_serves c cs held Hcs Hloss Hfit d _ E5 E6)|]. split; [apply PlainWrite.marks_recorded; exact E7|].
  exists ix, m. split; [exact I2|]. split; [reflexivity|]. split; [exact I3|]. split; assumption.
Qed.
(** What a program that opens the index sees. *)
Theorem built_serves l d : let W := PlainSpec.all_words tokenize starts [] (texts l) in let N := notes_of l in
  Forall (PlainSpec.text_ok stop) (texts l) -> len (PlainSpec.whole (texts l)) <= maxf ->
  Forall word_ok W -> Forall note_ok N -> decent N -> separate W N ->
  (in_order N \/ (length N <= ann_limit)%nat) -> (W <> [] \/ forall f x, ~ taken N f x) -> Z.of_nat (length W + length N) <= 288230376151711743 ->
  tidy d ->
  exists r fs, build cp cf tsort sort tok_limit ann_limit c cs held tokenize l = Ok (r, fs) /\ ranges r = PlainSpec.ranges_of starts [] (texts l) /\
    (d Idx = Some (f_idx fs) -> d Pst = Some (f_pst fs) -> len (f_pst fs) <= maxf ->
     exists ix, kept_in cp cf ix d /\ index_ok ix /\ serves cp cf d ix /\ (forall f, eqs (stored_in ix f) (found W N f)) /\ forall f, fiver_count ix f <= Z.of_nat (length W + length N)) /\
    forall split la, FileSpec.cut_law starts -> PlainSpec.split_law split starts -> (forall p q, In (PlainModel.Translate p q) la -> q <= maxf) ->
      exists x, PlainModel.txt_make c cs held (f_disk fs) (f_txt fs) = Ok (Some x) /\
                PlainModel.asks c cs held skip split la x = Ok (map (PlainSpec.answers starts (PlainSpec.whole (texts l))) la).
Proof.
  intros W N Ht Hl Hw Hn Hd Sep Ord Any Len Td. destruct (build_ok l Ht Hl Hw Hn Hd Sep Ord Any Len) as (r & fs & B1 & B2 & B3 & B4 & ix & m & B5 & B6 & B7 & B8 & B9). exists r, fs. split; [exact B1|]. split; [exact B2|]. split.
  - intros D1 D2 Hp. assert (K : kept_in cp cf ix d) by (exists m, (f_pst fs); rewrite <- B6; auto). exists ix. split; [exact K|]. split; [exact B7|]. split; [|split; assumption].
    apply (standing_serves cp cf stores d ix annotator_init); [constructor; [exact K|exact B7|exact Td|repeat split]|]. intros f. specialize (B9 f). fold W N in B9. lia.
  - intros split la Hc Hs Hq. apply (PlainTop.reader_ok c cs held tokenize skip stop starts split _ _ _ la laws Hc Hs B3 Hl B4); [|exact Hq]. intros _. apply (PlainLife.whole_clean stop). exact Ht.
Qed.
(** Annotations committed to it afterwards. *)
Theorem built_life l d0 L d a fs r limit sort' : (forall l, start_sorted l (sort' l)) -> let W := PlainSpec.all_words tokenize starts [] (texts l) in let N := notes_of l in
  Forall (PlainSpec.text_ok stop) (texts l) -> len (PlainSpec.whole (texts l)) <= maxf ->
  Forall word_ok W -> Forall note_ok N -> decent N -> separate W N ->
  (in_order N \/ (length N <= ann_limit)%nat) -> (W <> [] \/ forall f x, ~ taken N f x) ->
  Forall decent L -> Z.of_nat (length W + length N + length (concat L)) <= 288230376151711743 ->
  build cp cf tsort sort tok_limit ann_limit c cs held tokenize l = Ok (r, fs) -> len (f_pst fs) <= maxf ->
  tidy d0 -> d0 Idx = Some (f_idx fs) -> d0 Pst = Some (f_pst fs) -> life cp cf sort' limit d0 L d a ->
  exists ix, serves cp cf d ix /\ forall f, eqs (stored_in ix f) (sem_inner (found W N f :: map (fun anns => taken anns f) L)).
Proof.
  intros sorts' W N Ht Hl Hw Hn Hd Sep Ord Any HL Len E Hp Td D1 D2 Lf.
  destruct (built_serves l d0 Ht Hl Hw Hn Hd Sep Ord Any) as (r' & fs' & B1 & _ & B2 & _); [fold W N; lia|exact Td|]. rewrite B1 in E. injection E as -> ->. destruct (B2 D1 D2 Hp) as (ix & K1 & K2 & _ & K4 & K5). fold W N in K4, K5.
  destruct (life_serves cp cf sort' limit stores sorts' d0 ix L d a K1 K2 Td HL) as (ix' & S1 & S2); [|exact Lf|]. { intros f. specialize (K5 f). lia. }
  exists ix'. split; [exact S1|]. intros f. apply (eqs_trans _ _ _ (S2 f)). apply sem_inner_ext. constructor; [apply K4|apply Forall2_refl_eqs].
Qed.
End Top.
