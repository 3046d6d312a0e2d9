(** Text read back: any tokenizer with the laws, the ASCII tokenizer, several shards. *)
From Coq Require Import Sorting.Permutation Sorting.Sorted.
From Verif Require Import Base Bytes HopperModel ArrayDefs GclSpec HopperProofs ArrayProofs UnaryProofs AnswerProofs VectorModel CodecModel
  PostingModel PostingSpec PostingProofs AnnProofs ShardModel ShardSpec ShardProofs TokenModel TokenSpec TokenProofs LexProofs
  TextModel TextSpec TextProofs DraftProofs TextStore.

(** * The ASCII tokenizer has the laws *)
Definition ascii_starts (xml : bool) (s : bytes) : list Z := map w_offset (lex xml s 0 0).
Lemma laid_ascending ws : forall o n, laid_out o ws n -> ascending o (map w_offset ws) n.
Proof.
  induction ws as [|w r IH]; intros o n H; cbn in *; [exact H|]. destruct H as (A & B & C). split; [exact A|].
  specialize (IH _ _ C). destruct (map w_offset r); cbn in *; [|destruct IH; split; [lia|assumption]].
  lia.
Qed.
Lemma reported_at featurize ws : forall a toks, reported featurize a ws toks -> tokens_at a (map w_offset ws) toks.
Proof.
  induction ws as [|w r IH]; intros a toks H; cbn in *; [exact H|]. destruct H as (g & rest & -> & (more & -> & F) & R).
  exists (Token (featurize (w_term w)) a (w_offset w) (w_length w) :: more), rest. split; [reflexivity|]. split; [discriminate|].
  split; [|exact (IH _ _ R)]. constructor; [split; reflexivity|]. apply (Forall_impl _ (fun t (K : t_address t = a /\ t_offset t = w_offset w /\ t_length t = w_length w) => conj (proj1 K) (proj1 (proj2 K))) F).
Qed.
Lemma map_offset_shift d ws : map w_offset (map (shift d) ws) = map (fun o => o + d) (map w_offset ws).
Proof. rewrite !map_map. reflexivity. Qed.
Lemma ascii_join xml a x b : stops xml x ->
  ascii_starts xml (a ++ x :: b) = ascii_starts xml (a ++ [x]) ++ map (fun o => o + (len a + 1)) (ascii_starts xml b).
Proof.
  intros Hx. unfold ascii_starts. rewrite lex_joined by exact Hx. rewrite map_app. f_equal.
  rewrite <- Z.add_assoc, lex_shift, map_offset_shift. unfold len. reflexivity.
Qed.
Theorem ascii_laws : forall featurize xml, tokenizer_laws (tokenize featurize xml) (skip xml) (ascii_ends xml) (ascii_starts xml).
Proof.
  intros featurize xml. split.
  - intros s. apply laid_ascending. exact (lex_layout xml s 0 0 ltac:(lia)).
  - intros s. apply (reported_at featurize). apply tokenize_from_lex.
  - intros s n Hn. unfold skip, ascii_starts. rewrite (skip_from_lex xml s 0 0 n).
    destruct (nth_error (lex xml s 0 0) (Z.to_nat n)) as [w|] eqn:E.
    + symmetry. apply nth_error_nth. rewrite nth_error_map, E. reflexivity.
    + rewrite nth_overflow; [reflexivity|]. rewrite map_length. apply nth_error_None. exact E.
  - intros s i o H. unfold ascii_starts in *. rewrite nth_error_map in H. destruct (nth_error (lex xml s 0 0) i) as [w|] eqn:E; [|discriminate].
    injection H as <-. destruct (lex_from_token xml s 0 0 i w E) as [A B]. rewrite Z.sub_0_r in B.
    pose proof (lex_shift xml (skipn (Z.to_nat (w_offset w)) s) 0 0 (w_offset w)) as Sh. rewrite Z.add_0_l in Sh.
    rewrite skipn_map, <- B, Sh, map_offset_shift, map_map.
    rewrite <- (map_id (map w_offset _)) at 1. apply map_ext. intros z. lia.
  - intros s x Hx. unfold ascii_ends in Hx. rewrite last_last in Hx. unfold ascii_starts. rewrite lex_end by exact Hx. reflexivity.
  - intros a Ha b. destruct a as [|c a'].
    { cbn [app]. unfold ascii_starts at 2. cbn. rewrite <- (map_id (ascii_starts xml b)) at 1. apply map_ext. intros o. unfold len. cbn. lia. }
    set (a := c :: a') in *. assert (E : a = removelast a ++ [last a 0]) by (apply app_removelast_last; discriminate).
    pose proof (ascii_join xml (removelast a) (last a 0) b Ha) as J. rewrite E at 1 2. rewrite <- app_assoc. cbn [app]. rewrite J. f_equal.
    apply map_ext. intros o. rewrite E at 2. unfold len. rewrite app_length. cbn [length]. lia.
  - intros s. assert (N : stops xml 10) by (destruct xml; reflexivity). change (10 :: s) with ([] ++ 10 :: s). rewrite (ascii_join xml [] 10 s N).
    unfold ascii_starts at 1. rewrite (lex_end xml 10 [] 0 N). cbn. apply map_ext. intros o. unfold len. cbn. lia.
Qed.

(** * Any number of calls *)
Section Calls.
Context (tokenize : bytes -> list token) (skip : bytes -> Z -> Z) (stop : bytes -> Prop) (starts : bytes -> list Z).
Context (Laws : tokenizer_laws tokenize skip stop starts).
Lemma translate_all_ok t os base first cs : chunked starts t os base first cs -> forall l (o : hobj),
  answers (projT1 o) (projT2 o) (set_of cs) -> Forall (fun pq => minf <= fst pq <= maxf /\ minf <= snd pq < maxf) l ->
  translate_all skip (o, t) l = Ok (map (fun pq => expected t os base first (fst pq) (snd pq)) l).
Proof.
  intros Hc l. induction l as [|[p q] r IH]; intros o A H; [reflexivity|].
  assert (H1 : minf <= p <= maxf /\ minf <= q < maxf) by (inversion H; assumption).
  cbn [translate_all map fst snd].
  destruct (translate_chunked tokenize skip stop starts Laws t os base first cs Hc o p q A (proj1 H1) (proj2 H1)) as (o' & E & A').
  rewrite E. cbn [bind]. rewrite (IH o' A'); [reflexivity|]. inversion H; assumption.
Qed.

(** * A committed transaction *)
Theorem text_back : forall chunk transaction sort, null_feature < chunk -> transaction <> chunk -> (forall l, sort_result l (sort l)) ->
  forall es w seq, Forall (edit_ok tokenize stop chunk) es -> 0 <= w ->
  let T := full_text (texts es) in let os := starts T in
  w + Z.of_nat (length os) <= staging ->
  Z.of_nat (length (d_annotations (appender_ready chunk transaction (draft_after tokenize chunk es)))) <= 2305843009213693951 ->
  exists m x, ready chunk transaction sort w seq (draft_after tokenize chunk es) = Ok m /\ fiver_txt chunk m = Ok x /\
    forall l, Forall (fun pq => minf <= fst pq <= maxf /\ minf <= snd pq < maxf) l ->
      translate_all skip x l = Ok (map (fun pq => expected T os w (one_start w) (fst pq) (snd pq)) l).
Proof.
  intros chunk transaction sort Hc Ht Hs es w seq He Hw T os Hw2 Hr.
  destruct (ready_txt tokenize skip stop starts Laws chunk transaction Hc Ht sort Hs es He w Hw Hw2 Hr seq) as (m & o & cs & E & _ & F & A & C & _).
  exists m, (o, T). split; [exact E|]. split; [exact F|]. intros l Hl. exact (translate_all_ok _ _ _ _ _ C l o A Hl).
Qed.

(** * What each append returned *)
Lemma full_split es1 t es2 : exists B, full_text (texts (es1 ++ Append t :: es2)) = concat (map closed (texts es1)) ++ closed t ++ B.
Proof.
  unfold full_text. rewrite end_line_eq, texts_app, map_app, concat_app. cbn [texts flat_map app map concat]. rewrite <- !app_assoc.
  eexists. reflexivity.
Qed.
Lemma append_range chunk es t : null_feature < chunk -> Forall (edit_ok tokenize stop chunk) es -> edit_ok tokenize stop chunk (Append t) ->
  let n := Z.of_nat (length (starts (concat (map closed (texts es))))) in
  let k := Z.of_nat (length (starts t)) in
  snd (append tokenize chunk t (draft_after tokenize chunk es)) =
    (if k =? 0 then (staging + n + 1, staging + n) else (staging + n, staging + n + k - 1)).
Proof.
  intros Hc He [E1 E2] n k. destruct (draft_inv tokenize skip stop starts Laws chunk Hc es He) as (cs & D).
  exact (proj2 (append_inv tokenize skip stop starts Laws chunk Hc t _ _ cs D (texts_end tokenize stop chunk es He) E1 E2)).
Qed.
Theorem append_text : forall chunk, null_feature < chunk -> forall es1 t es2 w,
  Forall (edit_ok tokenize stop chunk) (es1 ++ Append t :: es2) -> starts t <> [] ->
  let T := full_text (texts (es1 ++ Append t :: es2)) in
  let A := concat (map closed (texts es1)) in
  let o := hd 0 (starts t) in
  exists p q B, snd (append tokenize chunk t (draft_after tokenize chunk es1)) = (p, q) /\ p <= q /\
    T = A ++ closed t ++ B /\
    expected T (starts T) w (one_start w) (p - staging + w) (q - staging + w) =
      (match starts A with [] => A ++ firstn (Z.to_nat o) (closed t) | _ => [] end) ++ skipn (Z.to_nat o) (closed t) ++
      firstn (Z.to_nat (hd (len B) (starts B))) B.
Proof.
  intros chunk Hc es1 t es2 w He Hn T A o. pose proof He as He'. apply Forall_app in He. destruct He as [He1 He2].
  assert (Ht : edit_ok tokenize stop chunk (Append t)) by (inversion He2; assumption).
  pose proof (append_range chunk es1 t Hc He1 Ht) as R. cbv zeta in R. fold A in R.
  set (n := Z.of_nat (length (starts A))) in *. set (k := Z.of_nat (length (starts t))) in *.
  assert (Kp : 0 < k) by (unfold k; destruct (starts t); [contradiction|cbn [length]; lia]).
  replace (k =? 0) with false in R by lia.
  destruct (full_split es1 t es2) as [B EB]. fold T A in EB.
  exists (staging + n), (staging + n + k - 1), B. split; [exact R|]. split; [lia|]. split; [exact EB|].
  assert (CA : afresh starts A) by (apply (concat_afresh tokenize skip stop starts Laws), (texts_end tokenize stop chunk); exact He1).
  assert (Ct : afresh starts (closed t)) by (apply (closed_afresh tokenize skip stop starts Laws), Ht).
  set (osB := map (fun z => z + (len A + len (closed t))) (starts B)).
  assert (Eo : starts T = starts A ++ map (fun z => z + len A) (starts t) ++ osB).
  { rewrite EB, (starts_app starts _ _ CA), (starts_app starts _ _ Ct).
    rewrite (closed_starts tokenize skip stop starts Laws t (proj1 Ht)), map_app, map_map. f_equal. f_equal. apply map_ext. intros z. lia. }
  assert (Lo : Z.of_nat (length (starts T)) >= n + k).
  { rewrite Eo, !app_length, map_length. unfold n, k. lia. }
  unfold expected. replace (Z.max (staging + n - staging + w) w) with (w + n) by (unfold n; lia).
  replace (Z.min (staging + n + k - 1 - staging + w) (w + Z.of_nat (length (starts T)) - 1)) with (w + n + k - 1) by lia.
  replace (w + n + k - 1 <? w + n) with false by lia.
  pose proof (law_inside _ _ _ _ Laws t) as It. pose proof (law_inside _ _ _ _ Laws B) as IB.
  assert (Ho : starts t = o :: tl (starts t)) by (unfold o; destruct (starts t); [contradiction|reflexivity]).
  assert (Ob : 0 <= o <= len (closed t)).
  { pose proof (law_inside _ _ _ _ Laws (closed t)) as Ic. rewrite (closed_starts tokenize skip stop starts Laws t (proj1 Ht)) in Ic.
    pose proof (ascending_in _ _ _ o Ic ltac:(rewrite Ho; left; reflexivity)). lia. }
  set (e := hd (len B) (starts B)). assert (Eb : 0 <= e <= len B).
  { unfold e. destruct (starts B) as [|z r] eqn:Es; cbn [hd]; [unfold len; lia|]. pose proof (ascending_in _ _ _ z IB ltac:(left; reflexivity)). lia. }
  assert (Te : token_start T (starts T) w (w + n + k - 1 + 1) = len A + len (closed t) + e).
  { unfold token_start. replace (Z.to_nat (w + n + k - 1 + 1 - w)) with (length (starts A) + (length (starts t) + 0))%nat by lia.
    rewrite Eo, app_nth2_plus.
    rewrite <- (map_length (fun z => z + len A) (starts t)), app_nth2_plus. unfold osB, e.
    destruct (starts B) as [|z r]; cbn [map nth hd]; [|lia]. rewrite EB. unfold len. rewrite !app_length. lia. }
  rewrite Te.
  assert (Ts : token_start T (starts T) w (w + n) = len A + o).
  { unfold token_start. replace (Z.to_nat (w + n - w)) with (length (starts A) + 0)%nat by lia.
    rewrite Eo, app_nth2_plus, Ho. cbn [map app nth]. lia. }
  unfold text_start, one_start. unfold between.
  assert (Cut : forall u v : bytes, forall z, 0 <= z <= len v -> firstn (Z.to_nat (len u + z)) (u ++ v) = u ++ firstn (Z.to_nat z) v).
  { intros u v z Hz. rewrite firstn_app. unfold len in *. rewrite firstn_all2 by lia. f_equal. f_equal. lia. }
  destruct (Z.eqb_spec (w + n) w) as [Z0|Z0].
  - assert (SA : starts A = []) by (destruct (starts A); [reflexivity|unfold n in Z0; cbn [length] in Z0; lia]).
    rewrite SA, Z.sub_0_r. cbn [Z.to_nat skipn]. rewrite EB, <- app_assoc, (app_assoc (firstn _ (closed t))), firstn_skipn.
    replace (len A + len (closed t) + e) with (len A + (len (closed t) + e)) by lia.
    rewrite Cut by (unfold len in *; rewrite app_length; lia). rewrite Cut by exact Eb. reflexivity.
  - assert (SA : exists z r, starts A = z :: r) by (destruct (starts A) as [|z r]; [unfold n in Z0; cbn [length] in Z0; lia|eauto]).
    destruct SA as (z & r & SA). rewrite SA. cbn [app]. rewrite Ts.
    assert (Sk : skipn (Z.to_nat (len A + o)) T = skipn (Z.to_nat o) (closed t) ++ B).
    { rewrite EB, skipn_app. unfold len in *. rewrite skipn_all2 by lia. cbn [app]. rewrite skipn_app.
      replace (Z.to_nat (Z.of_nat (length A) + o) - length A)%nat with (Z.to_nat o) by lia.
      replace (Z.to_nat o - length (closed t))%nat with 0%nat by lia. reflexivity. }
    rewrite Sk, <- Cut by exact Eb. f_equal. f_equal. unfold len in *. rewrite skipn_length. lia.
Qed.
(** When every text starts with a token: exactly the text and its separator. *)
Theorem append_text_exact : forall chunk, null_feature < chunk -> forall es1 t es2 w,
  Forall (edit_ok tokenize stop chunk) (es1 ++ Append t :: es2) ->
  (forall u, In u (texts (es1 ++ Append t :: es2)) -> u <> [] -> hd (-1) (starts u) = 0) -> t <> [] ->
  let T := full_text (texts (es1 ++ Append t :: es2)) in
  exists p q, snd (append tokenize chunk t (draft_after tokenize chunk es1)) = (p, q) /\ p <= q /\
    (expected T (starts T) w (one_start w) (p - staging + w) (q - staging + w) = closed t \/
     expected T (starts T) w (one_start w) (p - staging + w) (q - staging + w) = closed t ++ [10]).
Proof.
  intros chunk Hc es1 t es2 w He Hs Nt T.
  assert (Ht : In t (texts (es1 ++ Append t :: es2))) by (rewrite texts_app; apply in_or_app; right; left; reflexivity).
  pose proof (Hs t Ht Nt) as H0. assert (St : starts t <> []) by (destruct (starts t); [cbn in H0; lia|discriminate]).
  assert (O0 : hd 0 (starts t) = 0) by (destruct (starts t); [reflexivity|exact H0]).
  destruct (append_text chunk Hc es1 t es2 w He St) as (p & q & B & R & L & EB & X). exists p, q. split; [exact R|]. split; [exact L|].
  fold T in EB, X. rewrite X, O0. cbn [Z.to_nat firstn skipn].
  assert (He' := He). apply Forall_app in He. destruct He as [He1 He2].
  (* nothing before unless tokens before *)
  assert (HA : forall us, Forall (ends_well stop) us -> (forall u, In u us -> u <> [] -> hd (-1) (starts u) = 0) -> 
             concat (map closed us) = [] \/ hd (-1) (starts (concat (map closed us))) = 0).
  { induction us as [|u us IH]; intros Hu K; [left; reflexivity|]. cbn [map concat].
    assert (Hu1 : ends_well stop u) by (inversion Hu; assumption).
    destruct u as [|c u]; [cbn [closed app]; apply IH; [inversion Hu; assumption|intros v Hv; apply K; right; exact Hv]|].
    right. rewrite (starts_app starts _ _ (closed_afresh tokenize skip stop starts Laws _ Hu1)).
    rewrite (closed_starts tokenize skip stop starts Laws _ Hu1). specialize (K (c :: u) (or_introl eq_refl) ltac:(discriminate)).
    destruct (starts (c :: u)); [cbn in K; lia|exact K]. }
  pose proof (texts_end tokenize stop chunk _ He') as Te. rewrite texts_app in Te. cbn [texts flat_map app] in Te.
  assert (Tx : texts (es1 ++ Append t :: es2) = texts es1 ++ t :: texts es2) by (rewrite texts_app; reflexivity).
  assert (T1 : Forall (ends_well stop) (texts es1)) by (apply Forall_app in Te; apply Te).
  assert (T2 : Forall (ends_well stop) (texts es2)) by (apply Forall_app in Te; destruct Te as [_ Te]; inversion Te; assumption).
  assert (Pre : (match starts (concat (map closed (texts es1))) with [] => concat (map closed (texts es1)) ++ [] | _ => [] end) = []).
  { destruct (HA (texts es1) T1) as [E|E].
    - intros u Hu. apply Hs. rewrite Tx. apply in_or_app. left. exact Hu.
    - rewrite E. destruct (starts []); reflexivity.
    - destruct (starts (concat (map closed (texts es1)))); [cbn in E; lia|reflexivity]. }
  rewrite Pre. cbn [app].
  assert (EB2 : B = concat (map closed (texts es2)) ++ (if last (concat (map closed (texts (es1 ++ Append t :: es2)))) 10 =? 10 then [] else [10])).
  { unfold T, full_text in EB. rewrite end_line_eq in EB. set (tail := if _ =? 10 then [] else [10]) in *.
    rewrite Tx, map_app, concat_app in EB. cbn [map concat] in EB. rewrite <- !app_assoc in EB. apply app_inv_head in EB. apply app_inv_head in EB. symmetry. exact EB. }
  destruct (HA (texts es2) T2) as [E|E].
  - intros u Hu. apply Hs. rewrite Tx. apply in_or_app. right. right. exact Hu.
  - rewrite E in EB2. cbn [app] in EB2. assert (SB : starts B = []).
    { rewrite EB2. destruct (_ =? 10); [apply (starts_nil tokenize skip stop starts Laws)|].
      apply (starts_newline tokenize skip stop starts Laws). }
    rewrite SB. cbn [hd]. unfold len. rewrite Nat2Z.id, firstn_all, EB2. destruct (_ =? 10); [left; apply app_nil_r|right; reflexivity].
  - left. assert (SB : hd (len B) (starts B) = 0).
    { rewrite EB2 at 2. rewrite (starts_app starts _ _ (concat_afresh tokenize skip stop starts Laws _ T2)).
      destruct (starts (concat (map closed (texts es2)))); [cbn in E; lia|exact E]. }
    rewrite SB. cbn. apply app_nil_r.
Qed.
End Calls.
