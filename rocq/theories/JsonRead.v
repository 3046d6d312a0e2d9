(** Reading committed JSON back. *)
From Coq Require Import Sorting.Permutation Sorting.Sorted.
From Verif Require Import Base Bytes HopperModel CodecModel PostingModel PostingSpec ShardModel TokenModel TokenSpec TextModel TextSpec TextProofs DraftProofs TextBack JsonModel JsonSpec JsonBack JsonStore.

Section Read.
Context (tokenize : bytes -> list token) (skip : bytes -> Z -> Z) (stop : bytes -> Prop) (starts : bytes -> list Z).
Context (Laws : tokenizer_laws tokenize skip stop starts).
(** * A stretch of the text *)
Lemma stretch A G B w : afresh starts A -> afresh starts G -> (A = [] \/ starts A <> []) -> hd (-1) (starts G) = 0 -> (B = [] \/ hd (-1) (starts B) = 0) ->
  let T := A ++ G ++ B in let n := Z.of_nat (length (starts A)) in
  expected T (starts T) w (one_start w) (w + n) (w + n + Z.of_nat (length (starts G)) - 1) = G.
Proof.
  intros CA CG HA HG HB T n. set (k := Z.of_nat (length (starts G))).
  assert (Kp : 0 < k) by (unfold k; destruct (starts G); [cbn in HG; lia|cbn [length]; lia]).
  assert (Eo : starts T = starts A ++ map (fun z => z + len A) (starts G) ++ map (fun z => z + (len A + len G)) (starts B)).
  { unfold T. rewrite (starts_app starts _ _ CA), (starts_app starts _ _ CG), map_app, map_map. f_equal. f_equal. apply map_ext. intros z. lia. }
  assert (Lo : Z.of_nat (length (starts T)) >= n + k) by (rewrite Eo, !app_length, map_length; unfold n, k; lia).
  unfold expected. replace (Z.max (w + n) w) with (w + n) by (unfold n; lia).
  replace (Z.min (w + n + k - 1) (w + Z.of_nat (length (starts T)) - 1)) with (w + n + k - 1) by lia.
  replace (w + n + k - 1 <? w + n) with false by lia.
  assert (Te : token_start T (starts T) w (w + n + k - 1 + 1) = len A + len G).
  { unfold token_start. replace (Z.to_nat (w + n + k - 1 + 1 - w)) with (length (starts A) + (length (starts G) + 0))%nat by lia.
    rewrite Eo, app_nth2_plus. rewrite <- (map_length (fun z => z + len A) (starts G)), app_nth2_plus.
    destruct HB as [->|HB].
    - rewrite (starts_nil tokenize skip stop starts Laws). cbn [map nth]. unfold T, len. rewrite !app_length. cbn [length]. lia.
    - destruct (starts B) as [|z r]; [cbn in HB; lia|]. cbn [map nth hd] in *. lia. }
  assert (Ts : text_start T (starts T) w (one_start w) (w + n) = len A).
  { unfold text_start, one_start. destruct (Z.eqb_spec (w + n) w) as [Z0|Z0].
    - destruct HA as [->|HA]; [reflexivity|]. destruct (starts A); [contradiction|]. unfold n in Z0. cbn [length] in Z0. lia.
    - unfold token_start. replace (Z.to_nat (w + n - w)) with (length (starts A) + 0)%nat by lia. rewrite Eo, app_nth2_plus.
      destruct (starts G); [cbn in HG; lia|]. cbn [map app nth hd] in *. lia. }
  rewrite Te, Ts. unfold between. replace (Z.to_nat (len A + len G - len A)) with (length G) by (unfold len; lia). unfold T, len. rewrite Nat2Z.id.
  rewrite skipn_app, skipn_all, Nat.sub_diag. cbn [app skipn]. rewrite firstn_app, firstn_all, Nat.sub_diag. cbn [firstn]. apply app_nil_r.
Qed.
(** * Texts that start with a token and do not end in white space *)
Definition whole (t : bytes) : Prop := hd (-1) (starts t) = 0 /\ ends_well stop t /\ closed t = t ++ [10].
Lemma closed_stored ps : Forall whole ps -> concat (map closed ps) = stored ps.
Proof. induction 1 as [|t ps (_ & _ & H) _ IH]; [reflexivity|]. cbn [map concat]. rewrite IH, H. reflexivity. Qed.
Lemma whole_ends ps : Forall whole ps -> Forall (ends_well stop) ps.
Proof. intros H. apply (Forall_impl _ (fun t (K : whole t) => proj1 (proj2 K)) H). Qed.
Lemma whole_tokened ps : Forall whole ps -> Forall (fun t => starts t <> []) ps.
Proof. intros H. refine (Forall_impl _ _ H). intros t (K & _) E. rewrite E in K. cbn in K. lia. Qed.
Lemma stored_afresh ps : Forall whole ps -> afresh starts (stored ps).
Proof. intros H. rewrite <- closed_stored by exact H. apply (concat_afresh tokenize skip stop starts Laws), whole_ends, H. Qed.
Notation count := (count starts).
Lemma stored_count ps : Forall whole ps -> Z.of_nat (length (starts (stored ps))) = count ps.
Proof.
  induction 1 as [|t ps H Hps IH]; [cbn; rewrite (starts_nil tokenize skip stop starts Laws); reflexivity|].
  change (stored (t :: ps)) with ((t ++ [10]) ++ stored ps). destruct H as (_ & H1 & H2).
  rewrite <- H2, (starts_app starts _ _ (closed_afresh tokenize skip stop starts Laws t H1)), (closed_starts tokenize skip stop starts Laws t H1), app_length, map_length.
  change (count (t :: ps)) with (Z.of_nat (length (starts t)) + count ps). lia.
Qed.
Lemma stored_hd t ps : whole t -> Forall whole ps -> hd (-1) (starts (stored (t :: ps))) = 0.
Proof.
  intros (H0 & H1 & H2) _. change (stored (t :: ps)) with ((t ++ [10]) ++ stored ps).
  rewrite <- H2, (starts_app starts _ _ (closed_afresh tokenize skip stop starts Laws t H1)), (closed_starts tokenize skip stop starts Laws t H1).
  destruct (starts t); [cbn in H0; lia|exact H0].
Qed.
Lemma stored_full ps : Forall whole ps -> full_text ps = stored ps.
Proof.
  intros H. unfold full_text. rewrite closed_stored by exact H. rewrite end_line_eq.
  assert (L : forall c, last (stored ps) c = match ps with [] => c | _ => 10 end).
  { clear H. induction ps as [|t ps IH]; intros c; [reflexivity|]. change (stored (t :: ps)) with ((t ++ [10]) ++ stored ps). destruct ps as [|u ps]; [cbn [stored flat_map app]; rewrite app_nil_r; apply last_last|].
    assert (N : stored (u :: ps) <> []) by (cbn; destruct u; discriminate). rewrite (app_removelast_last 10 N) at 1. rewrite app_assoc, last_last, IH. reflexivity. }
  rewrite L. destruct ps; change (10 =? 10) with true; cbv iota; apply app_nil_r.
Qed.
Lemma group_back ps P G Q w : Forall whole ps -> ps = P ++ G ++ Q -> G <> [] ->
  expected (full_text ps) (starts (full_text ps)) w (one_start w) (w + count P) (w + count P + count G - 1) = stored G.
Proof.
  intros H E Hn. rewrite (stored_full ps H). subst ps. apply Forall_app in H. destruct H as [HP H]. apply Forall_app in H. destruct H as [HG HQ].
  rewrite !stored_app, <- !stored_count by assumption. apply stretch; [apply stored_afresh, HP|apply stored_afresh, HG| | |].
  - destruct P as [|t P]; [left; reflexivity|right]. pose proof (stored_hd t P ltac:(inversion HP; assumption) ltac:(inversion HP; assumption)) as K. intros E. rewrite E in K. cbn in K. lia.
  - destruct G as [|t G]; [contradiction|]. apply stored_hd; inversion HG; assumption.
  - destruct Q as [|t Q]; [left; reflexivity|right]. apply stored_hd; inversion HQ; assumption.
Qed.

(** * Several values in one transaction *)
Context (chunk transaction : Z) (featurize : bytes -> Z) (to_string : Z -> bytes) (reads : bytes -> Z -> Prop).
Notation pieces := (pieces to_string).
Notation do_json := (do_json tokenize chunk featurize to_string).
Notation scribe_all := (scribe_all tokenize chunk featurize to_string).
Notation json_edits := (json_edits starts featurize to_string).
Notation apply := (apply_edit tokenize chunk).
Fixpoint all_edits (vs : list json) (a : Z) : list edit :=
  match vs with [] => [] | v :: r => json_edits v (lit ":") a ++ all_edits r (a + count (pieces v)) end.
Lemma all_app us vs : forall a, all_edits (us ++ vs) a = all_edits us a ++ all_edits vs (a + count (flat_map pieces us)).
Proof.
  induction us as [|u us IH]; intros a; cbn [app all_edits flat_map]; [rewrite Z.add_0_r; reflexivity|].
  rewrite IH, <- app_assoc, count_app, Z.add_assoc. reflexivity.
Qed.
Lemma all_texts vs : forall a, texts (all_edits vs a) = flat_map pieces vs.
Proof. induction vs as [|v vs IH]; intros a; [reflexivity|]. cbn [all_edits flat_map]. rewrite texts_app, edits_texts, IH. reflexivity. Qed.
Definition full (v : json) : Prop := Forall whole (pieces v).
Lemma full_tokened v : full v -> tokened starts to_string v. Proof. apply whole_tokened. Qed.
Lemma scribe_edits vs : Forall full vs -> forall d, scribe_all vs d = fold_left apply (all_edits vs (d_address d)) d /\
  d_address (scribe_all vs d) = d_address d + count (flat_map pieces vs).
Proof.
  induction 1 as [|v vs Hv Hvs IH]; intros d; [split; [reflexivity|cbn; lia]|].
  destruct (json_steps tokenize skip stop starts Laws chunk featurize to_string v (full_tokened v Hv) (lit ":") d) as [E1 E2].
  change (scribe_all (v :: vs) d) with (scribe_all vs (fst (do_json v (lit ":") d))). rewrite E1. cbn [fst]. destruct (IH (fold_left apply (json_edits v (lit ":") (d_address d)) d)) as [F1 F2].
  cbn [all_edits flat_map]. rewrite fold_left_app, count_app, <- E2. split; [exact F1|]. rewrite F2, E2. lia.
Qed.
Lemma pieces_some v : pieces v <> [].
Proof. destruct v as [|[|]| | | |]; discriminate. Qed.
Lemma count_nonneg ps : 0 <= count ps.
Proof using. induction ps as [|t ps IH]; [reflexivity|]. change (0 <= Z.of_nat (length (starts t)) + count ps). apply Z.add_nonneg_nonneg; [apply Nat2Z.is_nonneg|exact IH]. Qed.
Lemma count_pos ps : Forall (fun t => starts t <> []) ps -> ps <> [] -> 0 < count ps.
Proof.
  intros H Hn. destruct ps as [|t ps]; [contradiction|]. change (count (t :: ps)) with (Z.of_nat (length (starts t)) + count ps). pose proof (count_nonneg ps).
  assert (starts t <> []) by (inversion H; assumption). destruct (starts t); [contradiction|cbn [length]; lia].
Qed.

(** * The values of the annotations *)
Definition valued (e : edit) : Prop := match e with Annotate _ _ _ v => v <> minf | Erase _ _ => False | Append _ => True end.
Lemma size_nonneg n : 0 <= n -> 0 <= size_value n.
Proof.
  intros Hn. unfold size_value. destruct (Z.eqb_spec n 0); [lia|]. pose proof (Z.log2_nonneg n). pose proof (Z.log2_spec n ltac:(lia)).
  assert (0 <= 2 ^ (52 - Z.log2 n)) by (apply Z.pow_nonneg; lia).
  apply Z.add_nonneg_nonneg; apply Z.mul_nonneg_nonneg; lia.
Qed.
Lemma scalar_valued ps f p q v : v <> minf -> Forall valued (map Append ps ++ [Annotate f p q v]).
Proof.
  intros H. apply Forall_app. split; [apply Forall_forall; intros e He; apply in_map_iff in He; destruct He as (t & <- & _); exact Logic.I|]. constructor; [exact H|constructor].
Qed.
Lemma zero_value : zero <> minf. Proof. discriminate. Qed.
Lemma edits_valued : forall j, clean reads to_string j -> forall path a, Forall valued (json_edits j path a).
Proof.
  apply (json_nested (fun j => clean reads to_string j -> forall path a, Forall valued (json_edits j path a))).
  - intros _ path a. apply (scalar_valued (pieces Null)). discriminate.
  - intros [|] _ path a; [apply (scalar_valued (pieces (Boolean true)))|apply (scalar_valued (pieces (Boolean false)))]; discriminate.
  - intros v H path a. apply (scalar_valued (pieces (Num v))). inversion H; assumption.
  - intros s _ path a. apply (scalar_valued (pieces (Str s))), zero_value.
  - intros l IH H path a. rewrite edits_arr. constructor; [exact Logic.I|]. apply Forall_app. split.
    + assert (K : Forall (clean reads to_string) l) by (inversion H; assumption). clear H. generalize (a + JsonStore.K starts open_array) as b. generalize 0 as i. revert K.
      induction IH as [|x r Hx Hr IHr]; intros K i b; [constructor|]. cbn [element_edits]. cbv zeta. apply Forall_app. split; [destruct (i =? 0); repeat constructor|].
      apply Forall_app. split; [apply Hx; inversion K; assumption|apply IHr; inversion K; assumption].
    + constructor; [exact Logic.I|]. constructor; [|constructor]. cbn [valued]. pose proof (size_nonneg (len l) ltac:(unfold len; lia)). unfold minf. lia.
  - intros l IH H path a. rewrite edits_obj. constructor; [exact Logic.I|]. apply Forall_app. split.
    + assert (K : Forall (fun m => clean_string (fst m) /\ clean reads to_string (snd m)) l) by (inversion H; assumption). clear H. generalize (a + JsonStore.K starts open_object) as b. generalize true as i. revert K.
      induction IH as [|[key x] r Hx Hr IHr]; intros K i b; [constructor|]. cbn [member_edits]. cbv zeta. apply Forall_app. split; [destruct i; repeat constructor|].
      constructor; [exact Logic.I|]. apply Forall_app. split; [apply Hx; inversion K as [|? ? [_ Z] ?]; exact Z|]. constructor; [apply zero_value|]. apply IHr; inversion K; assumption.
    + constructor; [exact Logic.I|]. constructor; [apply zero_value|constructor].
Qed.

(** * Annotations of a draft *)
Lemma annotate_in f p q v d x : In x (d_annotations (annotate f p q v d)) <-> In x (d_annotations d) \/ (null_feature < f /\ x = Ann f (Iv p q v)).
Proof.
  unfold annotate. destruct (Z.leb_spec f null_feature); cbn [d_annotations]; [split; [auto|intros [K|[K _]]; [exact K|lia]]|].
  rewrite in_app_iff. cbn [In]. split; [intros [K|[K|[]]]; auto|intros [K|[_ K]]; auto].
Qed.
Lemma append_tokens_in toks : forall a o d x, In x (d_annotations (append_tokens chunk toks a o d)) ->
  In x (d_annotations d) \/ (exists k, In k toks /\ afeat x = t_feature k) \/ afeat x = chunk.
Proof.
  induction toks as [|t r IH]; intros a o d x H; [left; exact H|]. cbn [append_tokens] in H. cbv zeta in H. apply IH in H.
  destruct H as [H|[(k & K1 & K2)|H]]; [|right; left; exists k; split; [right; exact K1|exact K2]|auto].
  assert (T : In x (d_annotations (annotate (t_feature t) (t_address t + a) (t_address t + a) 0 d)) \/ afeat x = chunk).
  { destruct (CHUNK_SIZE <? _); [|left; exact H]. cbn [d_annotations] in H. apply annotate_in in H. destruct H as [H|[_ ->]]; [left; exact H|right; reflexivity]. }
  destruct T as [T|T]; [|auto]. apply annotate_in in T. destruct T as [T|[_ ->]]; [left; exact T|]. right. left. exists t. split; [left; reflexivity|reflexivity].
Qed.
Lemma append_keeps toks : forall a o d x, In x (d_annotations d) -> In x (d_annotations (append_tokens chunk toks a o d)).
Proof.
  induction toks as [|t r IH]; intros a o d x H; [exact H|]. cbn [append_tokens]. cbv zeta. apply IH. destruct (CHUNK_SIZE <? _); cbn [d_annotations]; rewrite ?annotate_in; auto.
Qed.
Lemma append_in t d x : In x (d_annotations (fst (append tokenize chunk t d))) -> 
  In x (d_annotations d) \/ (exists k, In k (tokenize t) /\ afeat x = t_feature k) \/ afeat x = chunk.
Proof.
  unfold append. destruct t as [|c t]; [auto|]. cbv zeta. destruct (rev (tokenize (c :: t))); cbn [fst d_annotations]; [auto|]. intros H. apply append_tokens_in in H. exact H.
Qed.
Lemma append_kept t d x : In x (d_annotations d) -> In x (d_annotations (fst (append tokenize chunk t d))).
Proof. unfold append. destruct t as [|c t]; [auto|]. cbv zeta. destruct (rev (tokenize (c :: t))); cbn [fst d_annotations]; [auto|]. intros H. apply append_keeps, H. Qed.
Lemma draft_in es : Forall (fun e => match e with Erase _ _ => False | _ => True end) es -> forall d x, In x (d_annotations (fold_left apply es d)) ->
  In x (d_annotations d) \/ (exists t k, In t (texts es) /\ In k (tokenize t) /\ afeat x = t_feature k) \/ afeat x = chunk \/
  (exists f p q v, In (Annotate f p q v) es /\ x = Ann f (Iv p q v)).
Proof.
  induction 1 as [|e es He Hes IH]; intros d x H; [left; exact H|]. cbn [fold_left] in H. apply IH in H.
  assert (W : (exists t k, In t (texts es) /\ In k (tokenize t) /\ afeat x = t_feature k) -> (exists t k, In t (texts (e :: es)) /\ In k (tokenize t) /\ afeat x = t_feature k)).
  { intros (t & k & K1 & K2). exists t, k. split; [|exact K2]. rewrite texts_cons. apply in_or_app. right. exact K1. }
  destruct H as [H|[H|[H|(f & p & q & v & H1 & H2)]]]; [|auto|auto|right; right; right; exists f, p, q, v; split; [right; exact H1|exact H2]].
  destruct e as [t|f p q v|p q]; cbn [apply_edit] in H; [| |destruct He].
  - apply append_in in H. destruct H as [H|[(k & K1 & K2)|H]]; [auto| |auto]. right. left. exists t, k. split; [left; reflexivity|auto].
  - apply annotate_in in H. destruct H as [H|[_ H]]; [auto|]. right. right. right. exists f, p, q, v. split; [left; reflexivity|exact H].
Qed.
Lemma draft_keeps es : forall d x, Forall (fun e => match e with Erase _ _ => False | _ => True end) es -> In x (d_annotations d) -> In x (d_annotations (fold_left apply es d)).
Proof.
  induction es as [|e es IH]; intros d x He H; [exact H|]. cbn [fold_left]. apply IH; [inversion He; assumption|]. destruct e as [t|f p q v|p q]; cbn [apply_edit].
  - apply append_kept, H.
  - apply annotate_in. auto.
  - inversion He; contradiction.
Qed.
Lemma draft_has es : forall d f p q v, Forall (fun e => match e with Erase _ _ => False | _ => True end) es -> In (Annotate f p q v) es -> null_feature < f -> In (Ann f (Iv p q v)) (d_annotations (fold_left apply es d)).
Proof.
  induction es as [|e es IH]; intros d f p q v He H Hf; [destruct H|]. cbn [fold_left]. destruct H as [->|H]; [|apply IH; [inversion He; assumption|exact H|exact Hf]].
  apply draft_keeps; [inversion He; assumption|]. cbn [apply_edit]. apply annotate_in. auto.
Qed.

(** * The whole transaction *)
Context (Hc : null_feature < chunk) (Ht : transaction <> chunk) (sort : list annotation -> list annotation) (Hs : forall l, sort_result l (sort l)).
Notation shows show w p q u := (spells reads (json_translate (show (p - staging + w, q - staging + w))) u).
Theorem values_back : forall vs w seq, Forall (clean reads to_string) vs -> Forall full vs -> Forall (avoids tokenize featurize to_string chunk) vs -> 0 <= w ->
  let d := scribe_all vs draft_init in
  w + (d_address d - staging) <= staging ->
  Z.of_nat (length (d_annotations (appender_ready chunk transaction d))) <= 2305843009213693951 ->
  exists m x (show : Z * Z -> bytes), ready chunk transaction sort w seq d = Ok m /\ fiver_txt chunk m = Ok x /\
    (forall l, Forall (fun pq => minf <= fst pq <= maxf /\ minf <= snd pq < maxf) l -> translate_all skip x l = Ok (map show l)) /\
    (forall us v rest, vs = us ++ v :: rest ->
      (exists p q, snd (do_json v (lit ":") (scribe_all us draft_init)) = (p, q) /\ staging <= p <= q /\ q < d_address d /\ shows show w p q v) /\
      (forall u path, inside v (lit ":") u path -> null_feature < featurize path ->
         exists p q y, In (Ann (featurize path) (Iv p q y)) (d_annotations d) /\ carried u y /\ shows show w p q u) /\
      (forall u key, member_of v (lit ":") u key -> null_feature < featurize (key ++ lit ":") ->
         exists p q y, In (Ann (featurize (key ++ lit ":")) (Iv p q y)) (d_annotations d) /\ double_of 0 y /\ shows show w p q u)) /\
    (forall f p q y, In (Ann f (Iv p q y)) (d_annotations d) -> f <> chunk ->
      (exists v t k, In v vs /\ In t (pieces v) /\ In k (tokenize t) /\ f = t_feature k) \/
      (exists v u, In v vs /\ shows show w p q u /\
         ((exists path, inside v (lit ":") u path /\ f = featurize path /\ carried u y) \/ (exists key, member_of v (lit ":") u key /\ f = featurize (key ++ lit ":") /\ double_of 0 y)))).
Proof.
  intros vs w seq Hv Hf Ha Hw d Hroom Hfit.
  destruct (scribe_edits vs Hf draft_init) as [E1 E2]. fold d in E1, E2. change (d_address draft_init) with staging in *.
  set (es := all_edits vs staging) in *. assert (Ed : d = draft_after tokenize chunk es) by exact E1.
  assert (Wp : Forall whole (flat_map pieces vs)).
  { apply Forall_forall. intros t H. apply in_flat_map in H. destruct H as (v & H1 & H2). rewrite Forall_forall in Hf. pose proof (Hf v H1) as Q. unfold full in Q. rewrite Forall_forall in Q. exact (Q t H2). }
  assert (Tx : texts es = flat_map pieces vs) by apply all_texts.
  assert (Ex : forall us v rest, vs = us ++ v :: rest -> forall u o, among starts to_string (pieces v) u o -> 
     exists P Q, flat_map pieces vs = P ++ pieces u ++ Q /\ count (flat_map pieces us) + o = count P).
  { intros us v rest -> u o (A & B & E & ->). exists (flat_map pieces us ++ A), (B ++ flat_map pieces rest). split; [|symmetry; apply count_app].
    rewrite flat_map_app. cbn [flat_map]. rewrite E, <- !app_assoc. reflexivity. }
  assert (Bound : forall P u Q, flat_map pieces vs = P ++ pieces u ++ Q -> 0 <= count P /\ 0 < count (pieces u) /\ count P + count (pieces u) <= count (flat_map pieces vs)).
  { intros P u Q E. rewrite E, !count_app. pose proof (count_nonneg P). pose proof (count_nonneg Q). split; [lia|]. split; [|lia].
    apply count_pos; [|apply pieces_some]. rewrite E in Wp. apply Forall_app in Wp. destruct Wp as [_ Wp]. apply Forall_app in Wp. apply whole_tokened, Wp. }
  assert (Src : forall f p q y, In (Annotate f p q y) es -> exists us v rest u o, vs = us ++ v :: rest /\ among starts to_string (pieces v) u o /\
     p = staging + count (flat_map pieces us) + o /\ q = staging + count (flat_map pieces us) + o + count (pieces u) - 1 /\
     ((exists path, inside v (lit ":") u path /\ f = featurize path /\ carried u y) \/ (exists key, member_of v (lit ":") u key /\ f = featurize (key ++ lit ":") /\ double_of 0 y))).
  { unfold es. generalize staging as a. clear. induction vs as [|v vs IH]; intros a f p q y H; [destruct H|]. cbn [all_edits] in H. apply in_app_or in H. destruct H as [H|H].
    - apply edits_explained in H. destruct H as (u & o & H1 & H2 & H3 & H4). exists [], v, vs, u, o. cbn [flat_map]. change (count []) with 0. rewrite Z.add_0_r. split; [reflexivity|]. split; [exact H1|]. split; [exact H2|]. split; [exact H3|exact H4].
    - apply IH in H. destruct H as (us & v' & rest & u & o & -> & H1 & H2 & H3 & H4). exists (v :: us), v', rest, u, o. split; [reflexivity|]. cbn [flat_map]. rewrite count_app.
      split; [exact H1|]. split; [lia|]. split; [lia|exact H4]. }
  assert (Ok1 : Forall valued es).
  { unfold es. generalize staging as a. clear - Hv. induction Hv as [|v vs H1 H2 IH]; intros a; [constructor|]. cbn [all_edits]. apply Forall_app. split; [apply edits_valued, H1|apply IH]. }
  assert (NE : Forall (fun e => match e with Erase _ _ => False | _ => True end) es).
  { apply (Forall_impl (fun e => match e with Erase _ _ => False | _ => True end) (fun e (V : valued e) => match e return valued e -> match e with Erase _ _ => False | _ => True end with Erase _ _ => fun V => V | _ => fun _ => Logic.I end V) Ok1). }
  assert (Hok : Forall (edit_ok tokenize stop chunk) es).
  { apply Forall_forall. intros e He. rewrite Forall_forall in Ok1. specialize (Ok1 e He). destruct e as [t|f p q y|p q]; cbn [edit_ok valued] in *; [| |destruct Ok1].
    - assert (I : In t (flat_map pieces vs)) by (rewrite <- Tx; unfold texts; apply in_flat_map; exists (Append t); split; [exact He|left; reflexivity]).
      split; [pose proof (proj1 (Forall_forall _ _) Wp t I) as Q; apply Q|]. apply in_flat_map in I. destruct I as (v & I1 & I2). pose proof (proj1 (Forall_forall _ _) Ha v I1) as (Q & _).
      apply Forall_forall. intros k Hk. exact (Q t k I2 Hk).
    - destruct (Src f p q y He) as (us & v & rest & u & o & Ev & Am & -> & -> & Hx). destruct (Ex us v rest Ev u o Am) as (P & Q & EP & EO). destruct (Bound P u Q EP) as (B1 & B2 & B3).
      split.
      + assert (I : In v vs) by (rewrite Ev; apply in_or_app; right; left; reflexivity). pose proof (proj1 (Forall_forall _ _) Ha v I) as (_ & Q1 & Q2).
        destruct Hx as [(path & X1 & -> & _)|(key & X1 & -> & _)]; [exact (Q1 _ _ X1)|exact (Q2 _ _ X1)].
      + rewrite E2 in Hroom. unfold staging, minf, maxf in *. lia. }
  assert (Ec : Z.of_nat (length (starts (full_text (texts es)))) = count (flat_map pieces vs)) by (rewrite Tx, stored_full, stored_count by exact Wp; reflexivity).
  destruct (text_back tokenize skip stop starts Laws chunk transaction sort Hc Ht Hs es w seq Hok Hw) as (m & x & R & F & Tr); [cbv zeta; rewrite Ec, E2 in *; lia|rewrite <- Ed; exact Hfit|].
  set (show := fun pq : Z * Z => expected (full_text (texts es)) (starts (full_text (texts es))) w (one_start w) (fst pq) (snd pq)).
  exists m, x, show. rewrite <- Ed in R. split; [exact R|]. split; [exact F|]. split; [exact Tr|].
  assert (Sh : forall P u Q, flat_map pieces vs = P ++ pieces u ++ Q -> clean reads to_string u -> shows show w (staging + count P) (staging + count P + count (pieces u) - 1) u).
  { intros P u Q EP Cu. unfold show. cbn [fst snd]. rewrite Tx. replace (staging + count P - staging + w) with (w + count P) by lia.
    replace (staging + count P + count (pieces u) - 1 - staging + w) with (w + count P + count (pieces u) - 1) by lia.
    rewrite (group_back _ P (pieces u) Q w Wp EP (pieces_some u)). apply translate_stored, Cu. }
  assert (Cin : forall v path u r, inside v path u r -> clean reads to_string v -> clean reads to_string u).
  { induction 1 as [|l path i y u p Hx Hi IH|l path key y u p Hx Hi IH]; intros C; [exact C| |].
    - apply IH. assert (Cl : Forall (clean reads to_string) l) by (inversion C; assumption). apply (proj1 (Forall_forall _ _) Cl). apply (nth_error_In _ _ Hx).
    - apply IH. assert (Cl : Forall (fun m => clean_string (fst m) /\ clean reads to_string (snd m)) l) by (inversion C; assumption). apply (proj1 (Forall_forall _ _) Cl (key, y) Hx). }
  assert (Cmem : forall v path u key, member_of v path u key -> clean reads to_string v -> clean reads to_string u).
  { intros v path u key (l & p & H1 & H2) C. apply (Cin _ _ _ _ H1) in C. assert (Cl : Forall (fun m => clean_string (fst m) /\ clean reads to_string (snd m)) l) by (inversion C; assumption).
    apply (proj1 (Forall_forall _ _) Cl (key, u) H2). }
  assert (Hclean : forall us v rest, vs = us ++ v :: rest -> clean reads to_string v).
  { intros us v rest E. apply (proj1 (Forall_forall _ _) Hv). rewrite E. apply in_or_app. right. left. reflexivity. }
  split.
  - intros us v rest Ev. pose proof (Hclean us v rest Ev) as Cv.
    assert (Fu : Forall full us /\ full v) by (rewrite Ev in Hf; apply Forall_app in Hf; destruct Hf as [H1 H2]; split; [exact H1|inversion H2; assumption]). destruct Fu as [Fu Fv].
    destruct (scribe_edits us Fu draft_init) as [_ U2]. change (d_address draft_init) with staging in U2.
    destruct (json_steps tokenize skip stop starts Laws chunk featurize to_string v (full_tokened v Fv) (lit ":") (scribe_all us draft_init)) as [J1 _].
    assert (Mk : forall f u o V, among starts to_string (pieces v) u o -> clean reads to_string u ->
      marks starts to_string (json_edits v (lit ":") (staging + count (flat_map pieces us))) (staging + count (flat_map pieces us)) f o u V -> null_feature < f ->
      exists p q y, In (Ann f (Iv p q y)) (d_annotations d) /\ V y /\ shows show w p q u).
    { intros f u o V Am Cu (y & My & Vy) Hfp. destruct (Ex us v rest Ev u o Am) as (P & Q & EP & EO).
      exists (staging + count P), (staging + count P + count (pieces u) - 1), y. split; [|split; [exact Vy|exact (Sh P u Q EP Cu)]].
      rewrite Ed. apply draft_has; [exact NE| |exact Hfp]. unfold es. rewrite Ev, all_app. apply in_or_app. right. cbn [all_edits]. apply in_or_app. left.
      rewrite <- EO, Z.add_assoc. exact My. }
    split; [|split].
    + destruct (Ex us v rest Ev v 0 (among_all starts to_string v)) as (P & Q & EP & EO). rewrite Z.add_0_r in EO. destruct (Bound P v Q EP) as (B1 & B2 & B3).
      rewrite J1, U2, EO. cbn [snd]. eexists _, _. split; [reflexivity|]. split; [lia|]. split; [rewrite E2; lia|]. exact (Sh P v Q EP Cv).
    + intros u path Hi Hp. destruct (inside_marked starts featurize to_string v (lit ":") u path Hi (staging + count (flat_map pieces us))) as (o & Am & Mo).
      exact (Mk _ u o _ Am (Cin _ _ _ _ Hi Cv) Mo Hp).
    + intros u key Hi Hp. destruct (member_marked starts featurize to_string v (lit ":") u key Hi (staging + count (flat_map pieces us))) as (o & Am & Mo).
      exact (Mk _ u o _ Am (Cmem _ _ _ _ Hi Cv) Mo Hp).
  - intros f p q y Hin Hfc. rewrite Ed in Hin. apply (draft_in es NE) in Hin. destruct Hin as [[]|[(t & k & K1 & K2 & K3)|[H|(f' & p' & q' & v' & H1 & H2)]]].
    + left. rewrite Tx in K1. apply in_flat_map in K1. destruct K1 as (v & V1 & V2). exists v, t, k. auto.
    + contradiction.
    + injection H2 as -> -> -> ->. right. destruct (Src _ _ _ _ H1) as (us & v & rest & u & o & Ev & Am & -> & -> & Hx). exists v, u. split; [rewrite Ev; apply in_or_app; right; left; reflexivity|].
      split; [|exact Hx]. destruct (Ex us v rest Ev u o Am) as (P & Q & EP & EO). pose proof (Hclean us v rest Ev) as Cv.
      assert (Cu : clean reads to_string u) by (destruct Hx as [(path & X & _)|(key & X & _)]; [exact (Cin _ _ _ _ X Cv)|exact (Cmem _ _ _ _ X Cv)]).
      replace (staging + count (flat_map pieces us) + o) with (staging + count P) by lia. exact (Sh P u Q EP Cu).
Qed.
End Read.
