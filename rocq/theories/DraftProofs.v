(** What a transaction's appends leave in its draft. *)
From Verif Require Import Base Bytes HopperModel GclSpec VectorModel CodecModel PostingModel ShardModel TokenModel TextModel TextSpec
  TextProofs.

Section Draft.
Context (tokenize : bytes -> list token) (skip : bytes -> Z -> Z) (stop : bytes -> Prop) (starts : bytes -> list Z).
Context (Laws : tokenizer_laws tokenize skip stop starts).
Context (chunk transaction : Z) (Hchunk : null_feature < chunk).

(** * Where tokens start in joined texts *)
Lemma starts_nil : starts [] = [].
Proof.
  pose proof (law_inside _ _ _ _ Laws []) as H. destruct (starts []) as [|x r]; [reflexivity|]. cbn in H. destruct H as [H K].
  apply ascending_le in K. lia.
Qed.
Lemma afresh_nil : afresh starts [].
Proof. intros b. rewrite starts_nil. cbn [app]. rewrite <- (map_id (starts b)) at 1. apply map_ext. intros o. unfold len. cbn. lia. Qed.
Lemma afresh_newline : afresh starts [10].
Proof. intros b. cbn [app]. rewrite !(law_newline _ _ _ _ Laws), starts_nil. reflexivity. Qed.
Lemma starts_newline : starts [10] = [].
Proof. rewrite (law_newline _ _ _ _ Laws), starts_nil. reflexivity. Qed.
Lemma starts_app a b : afresh starts a -> starts (a ++ b) = starts a ++ map (fun o => o + len a) (starts b).
Proof. intros H. apply H. Qed.
Lemma afresh_app a b : afresh starts a -> afresh starts b -> afresh starts (a ++ b).
Proof.
  intros Ha Hb c. rewrite <- app_assoc, !Ha, Hb, map_app, map_map, app_assoc. f_equal. apply map_ext. intros o.
  unfold len. rewrite app_length. lia.
Qed.
Lemma split_last (t : bytes) : t <> [] -> t = removelast t ++ [last t 0].
Proof. apply app_removelast_last. Qed.
Lemma closed_afresh t : ends_well stop t -> afresh starts (closed t).
Proof. intros H. destruct t as [|c t]; [apply afresh_nil|]. apply (law_join _ _ _ _ Laws). apply H. discriminate. Qed.
Lemma closed_starts t : ends_well stop t -> starts (closed t) = starts t.
Proof.
  destruct t as [|c t]; intros H; [reflexivity|]. specialize (H ltac:(discriminate)). unfold closed in *.
  destruct (white (last (c :: t) 0)); [rewrite app_nil_r; reflexivity|]. apply (law_end _ _ _ _ Laws). exact H.
Qed.
Lemma concat_afresh ts : Forall (ends_well stop) ts -> afresh starts (concat (map closed ts)).
Proof.
  induction 1 as [|t ts H _ IH]; [apply afresh_nil|]. cbn [map concat]. apply afresh_app; [apply closed_afresh; exact H|exact IH].
Qed.
Lemma end_line_eq t : end_line t = t ++ (if (last t 10 =? 10) then [] else [10]).
Proof.
  destruct t as [|c t]; [reflexivity|]. unfold end_line.
  assert (E : forall d, last (c :: t) d = last (c :: t) 0).
  { intros d. clear. revert c. induction t as [|x t IH]; intros c; [reflexivity|]. exact (IH x). }
  rewrite (E 10). destruct (last (c :: t) 0 =? 10); [rewrite app_nil_r|]; reflexivity.
Qed.
Lemma end_line_starts t : afresh starts t -> starts (end_line t) = starts t.
Proof.
  intros H. rewrite end_line_eq. destruct (last t 10 =? 10); [rewrite app_nil_r; reflexivity|].
  rewrite (H [10]), starts_newline. apply app_nil_r.
Qed.
Lemma end_line_afresh t : afresh starts t -> afresh starts (end_line t).
Proof.
  intros H. rewrite end_line_eq. destruct (last t 10 =? 10); [rewrite app_nil_r; exact H|].
  apply afresh_app; [exact H|exact afresh_newline].
Qed.

(** * Tokens *)
Lemma tokens_at_in os : forall a toks, tokens_at a os toks -> forall t, In t toks ->
  a <= t_address t < a + Z.of_nat (length os) /\ nth_error os (Z.to_nat (t_address t - a)) = Some (t_offset t).
Proof.
  induction os as [|o r IH]; intros a toks H t Ht; cbn in H; [subst; contradiction|].
  destruct H as (g & rest & -> & _ & Fg & H). apply in_app_or in Ht. destruct Ht as [Ht|Ht].
  - rewrite Forall_forall in Fg. destruct (Fg t Ht) as [-> ->]. cbn [length]. split; [lia|]. rewrite Z.sub_diag. reflexivity.
  - destruct (IH _ _ H t Ht) as [K N]. cbn [length]. split; [lia|].
    replace (Z.to_nat (t_address t - a)) with (S (Z.to_nat (t_address t - (a + 1)))) by lia. exact N.
Qed.
Lemma tokens_at_last os : forall a toks, tokens_at a os toks ->
  match rev toks with [] => os = [] | t :: _ => os <> [] /\ t_address t = a + Z.of_nat (length os) - 1 end.
Proof.
  induction os as [|o r IH]; intros a toks H; cbn in H; [subst; reflexivity|].
  destruct H as (g & rest & -> & Ng & Fg & H). specialize (IH _ _ H). rewrite rev_app_distr.
  destruct (rev rest) as [|t l] eqn:Er.
  - subst r. cbn [app]. destruct (rev g) as [|t l] eqn:Eg; [exfalso; apply Ng; rewrite <- (rev_involutive g), Eg; reflexivity|].
    split; [discriminate|]. rewrite Forall_forall in Fg. assert (Ht : In t g) by (apply in_rev; rewrite Eg; left; reflexivity).
    destruct (Fg t Ht) as [-> _]. cbn [length]. lia.
  - cbn [app]. split; [discriminate|]. destruct IH as [_ ->]. cbn [length]. lia.
Qed.

(** * The draft *)
Definition off (n : Z) (os : list Z) (a : Z) : Z := if a =? staging then 0 else nth (Z.to_nat (a - staging)) os n.
Record chunk_inv (anns : list annotation) (ca co : Z) (n : Z) (os : list Z) (lim : Z) (cs : list iv) : Prop := {
  ci_in : forall x, In (Ann chunk x) anns <-> In x cs;
  ci_contig : contig cs staging ca;
  ci_addr : ca = staging \/ ca < lim;
  ci_off : co = off n os ca;
  ci_offs : forall x, In x cs -> ivl x = off n os (ip x) }.
Record dinv (d : draft) (ts : list bytes) (cs : list iv) : Prop := {
  di_text : d_text d = concat (map closed ts);
  di_address : d_address d = staging + Z.of_nat (length (starts (d_text d)));
  di_chunk : chunk_inv (d_annotations d) (d_chunk_address d) (d_chunk_offset d) (len (d_text d)) (starts (d_text d)) (d_address d) cs }.

Lemma annotate_other f p q v d cs n os lim : f <> chunk ->
  chunk_inv (d_annotations d) (d_chunk_address d) (d_chunk_offset d) n os lim cs ->
  chunk_inv (d_annotations (annotate f p q v d)) (d_chunk_address (annotate f p q v d)) (d_chunk_offset (annotate f p q v d)) n os lim cs.
Proof.
  intros Hf [A B C D E]. unfold annotate. destruct (f <=? null_feature); [split; assumption|]. cbn. split; try assumption.
  intros x. rewrite <- A, in_app_iff. cbn [In]. split; [intros [K|[K|[]]]; [exact K|]; injection K; intros; contradiction|auto].
Qed.
Lemma annotate_same f p q v d : d_text (annotate f p q v d) = d_text d /\ d_address (annotate f p q v d) = d_address d /\
  d_chunk_address (annotate f p q v d) = d_chunk_address d /\ d_chunk_offset (annotate f p q v d) = d_chunk_offset d.
Proof. unfold annotate. destruct (f <=? null_feature); auto. Qed.
Lemma annotate_chunk d a co' cs n os lim : 
  chunk_inv (d_annotations d) (d_chunk_address d) (d_chunk_offset d) n os lim cs ->
  d_chunk_address d < a -> (a < lim -> co' = off n os a) -> a <= lim ->
  chunk_inv (d_annotations (annotate chunk (d_chunk_address d) (a - 1) (d_chunk_offset d) d)) a
    (if a <? lim then co' else off n os a) n os (lim + 1) (cs ++ [Iv (d_chunk_address d) (a - 1) (d_chunk_offset d)]).
Proof.
  intros [A B C D E] Ha Hco Hl. unfold annotate. replace (chunk <=? null_feature) with false by lia. cbn. split.
  - intros x. rewrite !in_app_iff, A. cbn [In]. split; (intros [K|[K|[]]]; [left; exact K|right; left]); [injection K; auto|subst; reflexivity].
  - apply (contig_app _ _ _ _ _ B). cbn. lia.
  - right. lia.
  - destruct (Z.ltb_spec a lim); auto.
  - intros x Hx. apply in_app_or in Hx. destruct Hx as [Hx|[<-|[]]]; [auto|]. cbn. exact D.
Qed.

Lemma append_tokens_inv toks : forall address offset d cs n os lim,
  chunk_inv (d_annotations d) (d_chunk_address d) (d_chunk_offset d) n os lim cs -> staging <= address ->
  Forall (fun t => t_feature t <> chunk) toks ->
  (forall t, In t toks -> staging <= t_address t + address < lim /\
     nth_error os (Z.to_nat (t_address t + address - staging)) = Some (offset + t_offset t)) ->
  let d' := append_tokens chunk toks address offset d in
  d_text d' = d_text d /\ exists cs', chunk_inv (d_annotations d') (d_chunk_address d') (d_chunk_offset d') n os lim cs'.
Proof.
  induction toks as [|t r IH]; intros address offset d cs n os lim H Ha Hf Ht; cbn [append_tokens].
  { split; [reflexivity|]. exists cs. exact H. }
  assert (Hf1 : t_feature t <> chunk) by (inversion Hf; assumption). assert (Hfr : Forall (fun t => t_feature t <> chunk) r) by (inversion Hf; assumption).
  set (a := t_address t + address). pose proof (annotate_other (t_feature t) a a 0 d cs n os lim Hf1 H) as H1.
  destruct (annotate_same (t_feature t) a a 0 d) as (T1 & A1 & C1 & O1). set (d1 := annotate (t_feature t) a a 0 d) in *.
  destruct (Ht t (or_introl eq_refl)) as [La Na]. fold a in La, Na.
  destruct (Z.ltb_spec CHUNK_SIZE (a - d_chunk_address d1)) as [L|L].
  - assert (Lc : d_chunk_address d1 < a) by (unfold CHUNK_SIZE in L; lia).
    pose proof (contig_le _ _ _ (ci_contig _ _ _ _ _ _ _ H1)) as Sc.
    assert (Ho : offset + t_offset t = off n os a).
    { unfold off. replace (a =? staging) with false by lia. symmetry. apply nth_error_nth. exact Na. }
    pose proof (annotate_chunk d1 a (offset + t_offset t) cs n os lim H1 Lc (fun _ => Ho) ltac:(lia)) as H2.
    replace (a <? lim) with true in H2 by lia.
    destruct (annotate_same chunk (d_chunk_address d1) (a - 1) (d_chunk_offset d1) d1) as (T2 & A2 & _ & _).
    set (d2 := annotate chunk (d_chunk_address d1) (a - 1) (d_chunk_offset d1) d1) in *.
    set (d3 := Draft (d_text d2) (d_address d2) a (offset + t_offset t) (d_annotations d2)).
    assert (H3 : chunk_inv (d_annotations d3) (d_chunk_address d3) (d_chunk_offset d3) n os lim (cs ++ [Iv (d_chunk_address d1) (a - 1) (d_chunk_offset d1)])).
    { destruct H2 as [X1 X2 X3 X4 X5]. split; try assumption. right. cbn. lia. }
    destruct (IH address offset d3 _ n os lim H3 Ha Hfr (fun t' K => Ht t' (or_intror K))) as [TT CC].
    split; [|exact CC]. rewrite TT. cbn. rewrite T2. exact T1.
  - destruct (IH address offset d1 cs n os lim H1 Ha Hfr (fun t' K => Ht t' (or_intror K))) as [TT CC].
    split; [|exact CC]. rewrite TT. exact T1.
Qed.

Lemma off_grow n n' os os' a lim : (a = staging \/ staging <= a < lim) -> lim = staging + Z.of_nat (length os) ->
  off n' (os ++ os') a = off n os a.
Proof.
  intros Ha Hl. unfold off. destruct (Z.eqb_spec a staging); [reflexivity|]. destruct Ha as [Ha|Ha]; [contradiction|].
  rewrite app_nth1 by lia. apply nth_indep. lia.
Qed.

Lemma append_inv t d ts cs : dinv d ts cs -> Forall (ends_well stop) ts -> ends_well stop t ->
  Forall (fun k => t_feature k <> chunk) (tokenize t) ->
  let n := Z.of_nat (length (starts (concat (map closed ts)))) in
  let k := Z.of_nat (length (starts t)) in
  (exists cs', dinv (fst (append tokenize chunk t d)) (ts ++ [t]) cs') /\
  snd (append tokenize chunk t d) = (if k =? 0 then (staging + n + 1, staging + n) else (staging + n, staging + n + k - 1)).
Proof.
  intros [Dt Da Dc] Hts Ht Hk n k. destruct t as [|c t].
  { unfold k. rewrite starts_nil. cbn [append fst snd length]. change (Z.of_nat 0 =? 0) with true. cbv iota.
    rewrite Da, Dt. fold n. split; [|reflexivity]. exists cs. split; [|assumption..].
    rewrite map_app, concat_app. cbn [map concat closed]. rewrite !app_nil_r. exact Dt. }
  set (tt := c :: t) in *. unfold append. change (match tt with [] => _ | _ :: _ => ?x end) with x. fold tt. 
  assert (Ec : d_text d ++ tt ++ (if separator (last tt 0) then [] else [10]) = concat (map closed (ts ++ [tt]))).
  { rewrite map_app, concat_app, Dt. cbn [map concat]. rewrite app_nil_r. reflexivity. }
  rewrite Ec. set (T := concat (map closed (ts ++ [tt]))) in *.
  assert (Cl : afresh starts (d_text d)) by (rewrite Dt; apply concat_afresh; exact Hts).
  assert (Es : starts T = starts (d_text d) ++ map (fun o => o + len (d_text d)) (starts tt)).
  { unfold T. rewrite map_app, concat_app. cbn [map concat]. rewrite app_nil_r, <- Dt, starts_app by exact Cl. rewrite closed_starts by exact Ht. reflexivity. }
  pose proof (law_tokenize _ _ _ _ Laws tt) as Tk. pose proof (tokens_at_last _ _ _ Tk) as Tl.
  assert (Lk : Z.of_nat (length (starts T)) = n + k).
  { rewrite Es, app_length, map_length. unfold n, k. rewrite Dt. lia. }
  assert (Dn : d_address d = staging + n) by (rewrite Da, Dt; reflexivity).
  assert (Grow : forall lim, d_address d <= lim -> chunk_inv (d_annotations d) (d_chunk_address d) (d_chunk_offset d) (len T) (starts T) lim cs).
  { intros lim Hl. destruct Dc as [X1 X2 X3 X4 X5]. pose proof (contig_le _ _ _ X2) as Lc. split; try assumption.
    - destruct X3; [left; assumption|right; lia].
    - rewrite X4, Es. symmetry. apply (off_grow _ _ _ _ _ (d_address d)); [|exact Da]. lia.
    - intros x Hx. rewrite (X5 x Hx), Es. symmetry. apply (off_grow _ _ _ _ _ (d_address d)); [|exact Da].
      pose proof (contig_in _ _ _ _ X2 Hx). lia. }
  destruct (rev (tokenize tt)) as [|t0 l0] eqn:Er.
  - unfold k. rewrite Tl. cbn [length]. change (Z.of_nat 0 =? 0) with true. cbv iota. cbn [fst snd]. cbn [d_address].
    split; [|rewrite Dn; reflexivity]. exists cs. split; cbn [d_text d_address d_annotations d_chunk_address d_chunk_offset].
    + reflexivity.
    + rewrite Lk, Dn. unfold k. rewrite Tl. cbn. lia.
    + apply Grow. lia.
  - destruct Tl as [Tn Ta]. assert (Kp : 0 < k) by (unfold k; destruct (starts tt); [contradiction|cbn [length]; lia]).
    replace (k =? 0) with false by lia. cbn [d_text d_address]. 
    set (d0 := Draft T (d_address d) (d_chunk_address d) (d_chunk_offset d) (d_annotations d)).
    cbn [fst snd]. split; [|rewrite Dn, Ta; fold k; f_equal; lia].
    assert (G0 : d_address d <= staging + n + k) by lia. assert (G1 : staging <= d_address d) by (unfold n in Dn; lia).
    destruct (append_tokens_inv (tokenize tt) (d_address d) (len (d_text d)) d0 cs (len T) (starts T) (staging + n + k)
                (Grow _ G0) G1 Hk) as [TT (cs' & CC)].
    { intros x Hx. destruct (tokens_at_in _ _ _ Tk x Hx) as [K N]. fold k in K. rewrite Z.sub_0_r in N. split; [unfold n in *; lia|].
      rewrite Es. rewrite nth_error_app2 by (unfold n in *; rewrite <- Dt in *; lia).
      replace (Z.to_nat (t_address x + d_address d - staging) - length (starts (d_text d)))%nat with (Z.to_nat (t_address x))
        by (rewrite Da; lia).
      rewrite nth_error_map, N. cbn. f_equal. lia. }
    exists cs'. split; cbn [d_text d_address d_annotations d_chunk_address d_chunk_offset].
    + exact TT.
    + rewrite TT. cbn [d0 d_text]. rewrite Lk, Dn, Ta. fold k. lia.
    + rewrite TT. cbn [d0 d_text]. replace (d_address d + t_address t0 + 1) with (staging + n + k) by (rewrite Dn, Ta; fold k; lia). exact CC.
Qed.

Notation edit_ok := (edit_ok tokenize stop chunk).
Lemma texts_app a b : texts (a ++ b) = texts a ++ texts b.
Proof. unfold texts. apply flat_map_app. Qed.
Lemma texts_end es : Forall edit_ok es -> Forall (ends_well stop) (texts es).
Proof.
  induction 1 as [|e es H _ IH]; [constructor|]. destruct e; cbn; [constructor; [apply H|exact IH]|exact IH|exact IH].
Qed.
Lemma draft_inv es : Forall edit_ok es -> exists cs, dinv (draft_after tokenize chunk es) (texts es) cs.
Proof.
  induction es as [|e es IH] using rev_ind; intros H.
  { exists []. unfold draft_after. cbn [fold_left texts flat_map]. unfold draft_init. split; cbn [d_text d_address d_annotations d_chunk_address d_chunk_offset].
    - reflexivity.
    - rewrite starts_nil. cbn [length]. lia.
    - split; [intros x; reflexivity|reflexivity|left; reflexivity|reflexivity|intros x []]. }
  apply Forall_app in H. destruct H as [H He]. assert (He1 : edit_ok e) by (inversion He; assumption).
  destruct (IH H) as (cs & D). unfold draft_after. rewrite fold_left_app. cbn [fold_left]. fold (draft_after tokenize chunk es).
  rewrite texts_app. set (d := draft_after tokenize chunk es) in *. destruct e as [t|f p q v|p q]; cbn [apply_edit].
  - destruct He1 as [E1 E2]. exact (proj1 (append_inv t d _ cs D (texts_end es H) E1 E2)).
  - cbn [texts flat_map]. rewrite !app_nil_r. exists cs. destruct D as [A B C]. destruct (annotate_same f p q v d) as (T1 & A1 & _ & _).
    split; [rewrite T1; exact A|rewrite T1, A1; exact B|]. rewrite T1, A1. apply annotate_other; [apply He1|assumption].
  - cbn [texts flat_map]. rewrite !app_nil_r. exists cs. destruct D as [A B C]. split; [exact A|exact B|].
    destruct C as [X1 X2 X3 X4 X5]. split; try assumption. intros x. cbn. rewrite in_app_iff, X1. cbn [In].
    split; [intros [K|[K|[]]]; [exact K|]; injection K as K1 K2; unfold null_feature in *; lia|auto].
Qed.

(** The draft when it is ready. *)
Lemma ready_inv es : Forall edit_ok es -> transaction <> chunk ->
  let d := appender_ready chunk transaction (draft_after tokenize chunk es) in
  let T := full_text (texts es) in let os := starts T in
  d_text d = T /\ exists cs, (forall x, In (Ann chunk x) (d_annotations d) <-> In x cs) /\
    contig cs staging (staging + Z.of_nat (length os)) /\ forall x, In x cs -> ivl x = off (len T) os (ip x).
Proof.
  intros H Ht d T os. destruct (draft_inv es H) as (cs & [A B C]). set (d0 := draft_after tokenize chunk es) in *.
  pose proof (concat_afresh _ (texts_end es H)) as Cl. rewrite <- A in Cl.
  assert (ET : end_line (d_text d0) = T) by (unfold T, full_text; rewrite A; reflexivity).
  assert (Eo : os = starts (d_text d0)) by (unfold os; rewrite <- ET; apply end_line_starts; exact Cl).
  unfold d, appender_ready. rewrite ET. cbn [d_address].
  set (d1 := Draft T (d_address d0) (d_chunk_address d0) (d_chunk_offset d0) (d_annotations d0)).
  assert (Lo : forall a, (a = staging \/ staging <= a < d_address d0) -> off (len T) os a = off (len (d_text d0)) (starts (d_text d0)) a).
  { intros a Ha. rewrite Eo. rewrite <- (app_nil_r (starts (d_text d0))) at 1. apply (off_grow _ _ _ _ _ (d_address d0)); [exact Ha|exact B]. }
  assert (C1 : chunk_inv (d_annotations d1) (d_chunk_address d1) (d_chunk_offset d1) (len T) os (d_address d1) cs).
  { destruct C as [X1 X2 X3 X4 X5]. pose proof (contig_le _ _ _ X2). cbn [d1 d_annotations d_chunk_address d_chunk_offset d_address]. split; try assumption.
    - rewrite Lo; [exact X4|]. lia.
    - intros x Hx. rewrite Lo; [auto|]. pose proof (contig_in _ _ _ _ X2 Hx). lia. }
  set (d2 := if staging <? d_address d0 then annotate transaction staging (d_address d0 - 1) 0 d1 else d1).
  assert (C2 : chunk_inv (d_annotations d2) (d_chunk_address d2) (d_chunk_offset d2) (len T) os (d_address d2) cs /\ d_text d2 = T /\
               d_address d2 = d_address d0).
  { unfold d2. destruct (staging <? d_address d0); [|auto]. destruct (annotate_same transaction staging (d_address d0 - 1) 0 d1) as (T1 & A1 & _ & _).
    rewrite T1, A1. split; [apply annotate_other; assumption|auto]. }
  clearbody d2. destruct C2 as (C2 & T2 & A2). rewrite A2 in *.
  assert (Le : d_address d0 = staging + Z.of_nat (length os)) by (rewrite Eo; exact B).
  destruct (Z.ltb_spec (d_chunk_address d2) (d_address d0)) as [L|L].
  - destruct (annotate_same chunk (d_chunk_address d2) (d_address d0 - 1) (d_chunk_offset d2) d2) as (T3 & _).
    split; [rewrite T3; exact T2|]. pose proof (annotate_chunk d2 (d_address d0) 0 cs (len T) os (d_address d0) C2 L ltac:(lia) ltac:(lia)) as C3.
    eexists. split; [exact (ci_in _ _ _ _ _ _ _ C3)|]. rewrite <- Le. split; [exact (ci_contig _ _ _ _ _ _ _ C3)|exact (ci_offs _ _ _ _ _ _ _ C3)].
  - split; [exact T2|]. exists cs. destruct C2 as [X1 X2 X3 X4 X5]. split; [exact X1|]. split; [|exact X5].
    pose proof (contig_le _ _ _ X2). replace (staging + Z.of_nat (length os)) with (d_chunk_address d2); [exact X2|]. lia.
Qed.
End Draft.
