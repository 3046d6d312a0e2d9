(** What the transactions of append_tsv answer to queries, and their text. *)
From Coq Require Import Sorting.Permutation.
From Verif Require Import Base Bytes HopperModel ArrayDefs GclSpec HopperProofs AnswerProofs VectorModel UnaryProofs CodecModel PostingModel PostingSpec ShardModel
  TokenModel ShardProofs TextModel TextSpec TextProofs DraftProofs TextStore TextBack TextMerge TextIndex TsvModel TsvSpec TsvSplit TsvProofs.

(** * Places in a list *)
Lemma places {A} (x1 x2 : list A) : forall y1 y2 a b, x1 ++ a :: y1 = x2 ++ b :: y2 ->
  (x1 = x2 /\ a = b /\ y1 = y2) \/ (exists m, x2 = x1 ++ a :: m) \/ (exists m, x1 = x2 ++ b :: m).
Proof.
  revert x2. induction x1 as [|u x1 IH]; intros [|v x2] y1 y2 a b E; cbn [app] in E; injection E as -> E.
  - subst. auto.
  - right. left. exists x2. reflexivity.
  - right. right. exists x1. reflexivity.
  - destruct (IH _ _ _ _ _ E) as [(-> & -> & ->)|[(m & ->)|(m & ->)]]; [auto|right; left; exists m; reflexivity|right; right; exists m; reflexivity].
Qed.

Section Index.
Context (tokenize : bytes -> list token) (skip : bytes -> Z -> Z) (stop : bytes -> Prop) (starts : bytes -> list Z).
Context (Laws : tokenizer_laws tokenize skip stop starts).
Context (chunk transaction : Z) (Hchunk : null_feature < chunk) (Htrans : transaction <> chunk).
Context (sort : list annotation -> list annotation) (Hsort : forall l, sort_result l (sort l)).
Notation count := (tokens_in starts).
Notation total := (tokens_in_all starts).
Notation before := (tokens_before starts).

(** A feature that only annotations have, and those apart. *)
Lemma annotated_answers es w seq m f (A : iv -> Prop) : Forall (edit_ok tokenize stop chunk) es -> 0 <= w -> w + token_count starts es <= staging ->
  edits_fit tokenize chunk transaction es -> ready chunk transaction sort w seq (draft_after tokenize chunk es) = Ok m ->
  null_feature < f -> f <> chunk -> f <> transaction ->
  (forall t tok, In t (texts es) -> In tok (tokenize t) -> t_feature tok <> f) ->
  (forall p q v, In (Annotate f p q v) es -> staging <= p) ->
  (forall x, A x <-> exists p q v, In (Annotate f p q v) es /\ x = Iv (p - staging + w) (q - staging + w) v) ->
  (forall x, A x -> finite x) -> (forall x y, A x -> A y -> ip x <= iq y -> ip y <= iq x -> x = y) ->
  exists o, fiver_hopper (f_index m) f = Ok o /\ answers (projT1 o) (projT2 o) A.
Proof.
  intros Ok Hw Hw2 Fit Hm Pf Nc Nt Tk Stg HA Fin Dis.
  assert (Occ : forall x, occurs tokenize starts transaction es w f x <-> A x).
  { intros x. rewrite HA. split.
    - intros H. inversion H as [es1 t es2 tok E K1 K2 Ef Ex|g p q v K1 K2 Ef Ex|p q K1 Ef Ex|K1 K2 Ef Ex]; subst.
      + exfalso. apply (Tk t tok); [|exact K1|reflexivity]. unfold texts. rewrite flat_map_app. apply in_or_app. right. left. reflexivity.
      + exists p, q, v. split; [exact K1|]. unfold moved. pose proof (Stg _ _ _ K1). replace (staging <=? p) with true by lia. reflexivity.
      + lia.
      + contradiction.
    - intros (p & q & v & K & ->). pose proof (Occurs_annotation tokenize starts transaction es w f p q v K Pf) as H. unfold moved in H.
      pose proof (Stg _ _ _ K). replace (staging <=? p) with true in H by lia. exact H. }
  destruct (TextIndex.stored_answers tokenize skip stop starts Laws chunk transaction Hchunk Htrans sort Hsort es Ok w Hw Hw2 Fit seq m Hm f Nc) as (_ & _ & o & Eo & Ao).
  - intros x Hx. apply Fin, Occ, Hx.
  - intros x y Hx Hy E. apply Occ in Hx, Hy. destruct (Fin _ Hx) as (_ & F1 & _). destruct (Fin _ Hy) as (_ & F2 & _). apply (Dis x y Hx Hy); lia.
  - exists o. split; [exact Eo|]. refine (answers_eqs _ _ _ _ _ Ao). intros x. cbn beta. rewrite Occ. split; [tauto|]. intros Hx. split; [exact Hx|].
    intros y Hy [N1 N2]. apply Occ in Hy. destruct (Fin _ Hy) as (_ & F2 & _). symmetry. apply (Dis x y Hx Hy); lia.
Qed.

(** The number of tokens of texts. *)
Lemma texts_count ts : Forall (ends_well stop) ts -> Z.of_nat (length (starts (full_text ts))) = total ts.
Proof.
  intros H. unfold full_text. rewrite (end_line_starts tokenize skip stop starts Laws) by (apply (concat_afresh tokenize skip stop starts Laws); exact H).
  induction H as [|t ts Ht H IH]; cbn [map concat].
  - rewrite (TsvProofs.starts_nil tokenize skip stop starts Laws). reflexivity.
  - rewrite (starts_app starts) by (apply (closed_afresh tokenize skip stop starts Laws), Ht).
    rewrite (closed_starts tokenize skip stop starts Laws _ Ht), app_length, map_length. unfold tokens_in_all in *. cbn [map fold_right]. rewrite <- IH. unfold tokens_in. lia.
Qed.

Context (featurize : bytes -> Z).
Notation tag := (tag featurize).
Context (header : bool) (pf i : Z) (rs : list (list bytes)).
Notation es := (chunk_edits starts featurize header pf i rs).
Notation record_feature := (record_feature featurize header).
(** The texts of the records are whole, and none of the features is the one of the chunks. *)
Context (Hwhole : forall r t, In r rs -> In t r -> ends_well stop t /\ Forall (fun k => t_feature k <> chunk) (tokenize t)).
Context (Htag : forall r j, In r rs -> (j < length r)%nat -> tag (Z.of_nat j) <> chunk).
Context (Hcolon : featurize (lit ":") <> chunk) (Hcolons : featurize (lit "::") <> chunk) (Hpf : pf <> chunk).
Context (w : Z) (Hw : 0 <= w) (Hw2 : w + before rs <= staging) (Hfit : edits_fit tokenize chunk transaction es).

Lemma in_chunk f p q v : In (Annotate f p q v) es <->
  (exists rs1 r rs2 fs t gs, rs = rs1 ++ r :: rs2 /\ r = fs ++ t :: gs /\ f = tag (Z.of_nat (length fs)) /\ 0 < count t /\
     p = staging + before rs1 + total fs /\ q = staging + before rs1 + total fs + count t - 1 /\ v = 0) \/
  (exists rs1 r rs2, rs = rs1 ++ r :: rs2 /\ f = record_feature (i + Z.of_nat (length rs1)) /\ p <= q /\ (p, q) = hull starts (staging + before rs1) r maxf minf /\ v = 0) \/
  (f = pf /\ p <= q /\ (p, q) = lines_hull starts staging rs maxf minf /\ v = 0).
Proof.
  unfold chunk_edits. rewrite in_app_iff, (in_lines_edits starts featurize header []), (in_hull featurize []). split.
  - intros [(rs1 & r & rs2 & E & [H|H])|H]; [| |auto].
    + apply in_field_edits in H. destruct H as (fs & t & gs & H). left. exists rs1, r, rs2, fs, t, gs. tauto.
    + right. left. exists rs1, r, rs2. tauto.
  - intros [(rs1 & r & rs2 & fs & t & gs & E & H)|[(rs1 & r & rs2 & E & H)|H]]; [| |auto].
    + left. exists rs1, r, rs2. split; [exact E|]. left. apply in_field_edits. exists fs, t, gs. exact H.
    + left. exists rs1, r, rs2. split; [exact E|]. right. exact H.
Qed.
Lemma before_split rs1 r rs2 : rs = rs1 ++ r :: rs2 -> 0 <= before rs1 /\ 0 <= total r /\ 0 <= before rs2 /\ before rs1 + total r + before rs2 = before rs.
Proof.
  intros ->. rewrite (before_app starts), (before_cons starts). pose proof (before_pos starts rs1). pose proof (before_pos starts rs2). pose proof (total_pos starts r). lia.
Qed.
Lemma total_split fs t gs : 0 <= total fs /\ 0 <= count t /\ 0 <= total gs /\ total (fs ++ t :: gs) = total fs + count t + total gs.
Proof. rewrite (total_app starts), (total_cons starts). pose proof (total_pos starts fs). pose proof (total_pos starts gs). pose proof (count_pos starts t). lia. Qed.
Lemma hull_bounds ts : forall a p q, (Z.min p a <= fst (hull starts a ts p q) /\ snd (hull starts a ts p q) <= Z.max q (a + total ts)).
Proof.
  induction ts as [|t r IH]; intros a p q; cbn [hull fst snd].
  - lia.
  - rewrite (total_cons starts). pose proof (total_pos starts r). pose proof (count_pos starts t). destruct (0 <? count t).
    + specialize (IH (a + count t) (Z.min p a) (Z.max q (a + count t - 1))). lia.
    + specialize (IH (a + count t) (Z.min p (a + 1)) (Z.max q a)). lia.
Qed.
Lemma lines_hull_bounds ls : forall a p q, minf <= a -> a <= maxf -> (Z.min p a <= fst (lines_hull starts a ls p q) /\ snd (lines_hull starts a ls p q) <= Z.max q (a + before ls)).
Proof.
  induction ls as [|r ls IH]; intros a p q A B; cbn [lines_hull fst snd].
  - change (before []) with 0. lia.
  - rewrite (before_cons starts). pose proof (total_pos starts r). pose proof (before_pos starts ls).
    destruct (hull starts a r maxf minf) as [p0 q0] eqn:E. pose proof (hull_bounds r a maxf minf) as HB. rewrite E in HB. cbn [fst snd] in HB.
    destruct (Z.le_gt_cases (a + total r) maxf) as [L|L].
    + specialize (IH (a + total r) (Z.min p p0) (Z.max q q0) ltac:(lia) L). lia.
    + clear IH. assert (K : forall ls a p q, maxf < a -> minf < a -> Z.min p maxf <= fst (lines_hull starts a ls p q) /\ snd (lines_hull starts a ls p q) <= Z.max q (a + before ls)).
      { clear ls a p q A B H0 E HB L p0 q0. induction ls as [|r' ls IH]; intros a p q A B; cbn [lines_hull fst snd].
        - change (before []) with 0. lia.
        - rewrite (before_cons starts). pose proof (total_pos starts r'). pose proof (before_pos starts ls).
          destruct (hull starts a r' maxf minf) as [p0 q0] eqn:E. pose proof (hull_bounds r' a maxf minf) as HB. rewrite E in HB. cbn [fst snd] in HB.
          specialize (IH (a + total r') (Z.min p p0) (Z.max q q0) ltac:(lia) ltac:(lia)). lia. }
      specialize (K ls (a + total r) (Z.min p p0) (Z.max q q0) ltac:(lia) ltac:(lia)). lia.
Qed.
Lemma whole_texts : Forall (fun t => ends_well stop t /\ Forall (fun k => t_feature k <> chunk) (tokenize t)) (concat rs).
Proof. apply Forall_forall. intros t H. apply in_concat in H. destruct H as (r & R & T). exact (Hwhole r t R T). Qed.
Lemma chunk_ok : Forall (edit_ok tokenize stop chunk) es.
Proof.
  apply Forall_forall. intros e He. destruct e as [t|f p q v|p q].
  - cbn. pose proof whole_texts as W. rewrite Forall_forall in W. apply W. rewrite <- (texts_chunk starts featurize header pf i rs).
    unfold texts. apply in_flat_map. exists (Append t). split; [exact He|left; reflexivity].
  - cbn [edit_ok]. apply in_chunk in He.
    destruct He as [(rs1 & r & rs2 & fs & t & gs & E & E2 & -> & C & -> & -> & ->)|[(rs1 & r & rs2 & E & -> & L & H & ->)|(-> & L & H & ->)]].
    + destruct (before_split _ _ _ E) as (B1 & B2 & B3 & B4). destruct (total_split fs t gs) as (T1 & T2 & T3 & T4). rewrite <- E2 in T4.
      split; [|unfold staging, minf, maxf in *; lia]. apply (Htag r); [rewrite E; apply in_or_app; right; left; reflexivity|]. rewrite E2, app_length. cbn [length]. lia.
    + destruct (before_split _ _ _ E) as (B1 & B2 & B3 & B4). pose proof (hull_bounds r (staging + before rs1) maxf minf) as HB.
      rewrite <- H in HB. cbn [fst snd] in HB. split; [|unfold staging, minf, maxf in *; lia]. unfold TsvProofs.record_feature. destruct (header && _); assumption.
    + pose proof (lines_hull_bounds rs staging maxf minf) as HB. rewrite <- H in HB. cbn [fst snd] in HB. pose proof (before_pos starts rs). split; [assumption|unfold staging, minf, maxf in *; lia].
  - exfalso. unfold chunk_edits in He. apply in_app_iff in He. destruct He as [He|He].
    + clear - He. revert He. generalize staging, i. induction rs as [|r l IH]; intros a k He; cbn [lines_edits] in He; [destruct He|].
      apply in_app_iff in He. destruct He as [He|He]; [|exact (IH _ _ He)]. unfold line_edits in He. apply in_app_iff in He. destruct He as [He|He].
      * revert He. generalize 0 at 1 as j. revert a. induction r as [|t r IHr]; intros a j He; cbn [field_edits] in He; [destruct He|].
        apply in_app_iff in He. destruct He as [He|He]; [|exact (IHr _ _ He)]. destruct He as [He|He]; [discriminate|]. destruct (0 <? count t); [destruct He as [He|He]; [discriminate|]|]; destruct He.
      * unfold hull_edits in He. destruct (fst _ <=? snd _); [destruct He as [He|He]; [discriminate|]|]; destruct He.
    + unfold hull_edits in He. destruct (fst _ <=? snd _); [destruct He as [He|He]; [discriminate|]|]; destruct He.
Qed.
Lemma chunk_count : token_count starts es = before rs.
Proof.
  unfold token_count. rewrite (texts_chunk starts). rewrite texts_count, (before_concat starts); [reflexivity|].
  apply (Forall_impl _ (fun t (H : _ /\ _) => proj1 H) whole_texts).
Qed.
Context (seq : Z) (m : fiver) (Hm : ready chunk transaction sort w seq (draft_after tokenize chunk es) = Ok m).
Definition unused (f : Z) : Prop := null_feature < f /\ f <> chunk /\ f <> transaction /\
  forall r t tok, In r rs -> In t r -> In tok (tokenize t) -> t_feature tok <> f.
Lemma answers_of f A : unused f ->
  (forall p q v, In (Annotate f p q v) es -> staging <= p) ->
  (forall x, A x <-> exists p q v, In (Annotate f p q v) es /\ x = Iv (p - staging + w) (q - staging + w) v) ->
  (forall x, A x -> 0 <= ip x <= iq x /\ iq x < staging) -> (forall x y, A x -> A y -> ip x <= iq y -> ip y <= iq x -> x = y) ->
  exists o, fiver_hopper (f_index m) f = Ok o /\ answers (projT1 o) (projT2 o) A.
Proof.
  intros (U1 & U2 & U3 & U4) S HA B D. apply (annotated_answers es w seq m f A chunk_ok Hw); try assumption.
  - rewrite chunk_count. exact Hw2.
  - intros t tok Ht. rewrite (texts_chunk starts) in Ht. apply in_concat in Ht. destruct Ht as (r & R & T). exact (U4 r t tok R T).
  - intros x Hx. destruct (B x Hx). unfold finite, minf, maxf, staging in *. lia.
Qed.

(** Fields. *)
Theorem field_answers j : unused (tag (Z.of_nat j)) ->
  (forall r j', In r rs -> (j' < length r)%nat -> tag (Z.of_nat j') = tag (Z.of_nat j) -> j' = j) ->
  tag (Z.of_nat j) <> featurize (lit ":") -> tag (Z.of_nat j) <> featurize (lit "::") -> tag (Z.of_nat j) <> pf ->
  exists o, fiver_hopper (f_index m) (tag (Z.of_nat j)) = Ok o /\ answers (projT1 o) (projT2 o) (is_field starts w rs j).
Proof.
  intros U Inj N1 N2 N3.
  assert (In_iff : forall p q v, In (Annotate (tag (Z.of_nat j)) p q v) es <-> exists rs1 r rs2 fs t gs, rs = rs1 ++ r :: rs2 /\ r = fs ++ t :: gs /\ length fs = j /\ 0 < count t /\
     p = staging + before rs1 + total fs /\ q = staging + before rs1 + total fs + count t - 1 /\ v = 0).
  { intros p q v. rewrite in_chunk. split.
    - intros [(rs1 & r & rs2 & fs & t & gs & E & E2 & F & H)|[(rs1 & r & rs2 & E & F & _)|(F & _)]].
      + exists rs1, r, rs2, fs, t, gs. split; [exact E|]. split; [exact E2|]. split; [|exact H].
        apply (Inj r); [rewrite E; apply in_or_app; right; left; reflexivity|rewrite E2, app_length; cbn [length]; lia|auto].
      + exfalso. unfold TsvProofs.record_feature in F. destruct (header && _); auto.
      + contradiction.
    - intros (rs1 & r & rs2 & fs & t & gs & E & E2 & <- & H). left. exists rs1, r, rs2, fs, t, gs. tauto. }
  apply answers_of; [exact U|..].
  - intros p q v H. apply In_iff in H. destruct H as (rs1 & r & rs2 & fs & t & gs & E & _ & _ & _ & -> & _).
    pose proof (before_pos starts rs1). pose proof (total_pos starts fs). lia.
  - intros x. split.
    + intros (rs1 & r & rs2 & fs & t & gs & E & E2 & L & C & ->). do 3 eexists. split; [apply In_iff; exists rs1, r, rs2, fs, t, gs; repeat split; try reflexivity; assumption|]. f_equal; lia.
    + intros (p & q & v & H & ->). apply In_iff in H. destruct H as (rs1 & r & rs2 & fs & t & gs & E & E2 & L & C & -> & -> & ->).
      exists rs1, r, rs2, fs, t, gs. repeat split; try assumption. f_equal; lia.
  - intros x (rs1 & r & rs2 & fs & t & gs & E & E2 & L & C & ->). cbn [ip iq].
    destruct (before_split _ _ _ E) as (B1 & B2 & B3 & B4). destruct (total_split fs t gs) as (T1 & T2 & T3 & T4). rewrite <- E2 in T4. lia.
  - intros x y (rs1 & r & rs2 & fs & t & gs & E & E2 & L & C & ->) (rs1' & r' & rs2' & fs' & t' & gs' & E' & E2' & L' & C' & ->). cbn [ip iq]. intros O1 O2.
    destruct (total_split fs t gs) as (T1 & T2 & T3 & T4). rewrite <- E2 in T4. destruct (total_split fs' t' gs') as (T1' & T2' & T3' & T4'). rewrite <- E2' in T4'.
    pose proof E as EE. rewrite E' in EE. destruct (places _ _ _ _ _ _ EE) as [(-> & -> & ->)|[(k & ->)|(k & ->)]].
    + rewrite E2 in E2'. destruct (places _ _ _ _ _ _ E2') as [(-> & -> & ->)|[(k & ->)|(k & ->)]]; [reflexivity| |]; rewrite app_length in *; cbn [length] in *; lia.
    + exfalso. rewrite (before_app starts), (before_cons starts) in O1, O2. pose proof (before_pos starts k). lia.
    + exfalso. rewrite (before_app starts), (before_cons starts) in O1, O2. pose proof (before_pos starts k). lia.
Qed.

(** Records. *)
Theorem record_answers b : let f := if b : bool then featurize (lit "::") else featurize (lit ":") in unused f ->
  (forall r, In r rs -> ends_in_token starts r \/ total r = 0) ->
  (forall r j, In r rs -> (j < length r)%nat -> tag (Z.of_nat j) <> f) -> featurize (lit ":") <> featurize (lit "::") -> f <> pf ->
  exists o, fiver_hopper (f_index m) f = Ok o /\
    answers (projT1 o) (projT2 o) (is_record starts (fun k => (header && (i + Z.of_nat k =? 0)) = b) w rs).
Proof.
  cbv zeta. set (f := if b then _ else _). intros U Ends N1 N2 N3.
  assert (F : forall k, f = record_feature (i + Z.of_nat k) <-> (header && (i + Z.of_nat k =? 0)) = b).
  { intros k. unfold f, TsvProofs.record_feature. destruct (header && _), b; split; intros E; congruence. }
  assert (In_iff : forall p q v, In (Annotate f p q v) es <-> exists rs1 r rs2, rs = rs1 ++ r :: rs2 /\ (header && (i + Z.of_nat (length rs1) =? 0)) = b /\ 0 < total r /\
     p = staging + before rs1 /\ q = staging + before rs1 + total r - 1 /\ v = 0).
  { intros p q v. rewrite in_chunk. split.
    - intros [(rs1 & r & rs2 & fs & t & gs & E & E2 & H & _)|[(rs1 & r & rs2 & E & H & L & HH & ->)|(H & _)]]; [|exists rs1, r, rs2|contradiction].
      + exfalso. apply (N1 r (length fs)); [rewrite E; apply in_or_app; right; left; reflexivity|rewrite E2, app_length; cbn [length]; lia|auto].
      + destruct (before_split _ _ _ E) as (B1 & B2 & B3 & B4).
        destruct (hull_record tokenize skip stop starts Laws (staging + before rs1) r) as [Z0 Z1]; [unfold minf, staging in *; lia|unfold maxf, staging in *; lia| |].
        { apply Ends. rewrite E. apply in_or_app. right. left. reflexivity. }
        rewrite <- HH in Z0, Z1. cbn [fst snd] in Z0. assert (T : 0 < total r) by (destruct (Z.eq_dec (total r) 0) as [E0|E0]; [specialize (Z0 E0)|]; lia).
        specialize (Z1 T). injection Z1 as -> ->. repeat split; try assumption. apply F, H.
    - intros (rs1 & r & rs2 & E & H & T & -> & -> & ->). right. left. exists rs1, r, rs2. split; [exact E|]. split; [apply F, H|].
      destruct (before_split _ _ _ E) as (B1 & B2 & B3 & B4).
      destruct (hull_record tokenize skip stop starts Laws (staging + before rs1) r) as [_ Z1]; [unfold minf, staging in *; lia|unfold maxf, staging in *; lia| |].
      { apply Ends. rewrite E. apply in_or_app. right. left. reflexivity. }
      rewrite (Z1 T). repeat split. lia. }
  apply answers_of; [exact U|..].
  - intros p q v H. apply In_iff in H. destruct H as (rs1 & r & rs2 & E & _ & _ & -> & _). pose proof (before_pos starts rs1). lia.
  - intros x. split.
    + intros (rs1 & r & rs2 & E & L & C & ->). do 3 eexists. split; [apply In_iff; exists rs1, r, rs2; repeat split; try reflexivity; assumption|]. f_equal; lia.
    + intros (p & q & v & H & ->). apply In_iff in H. destruct H as (rs1 & r & rs2 & E & L & C & -> & -> & ->). exists rs1, r, rs2. repeat split; try assumption. f_equal; lia.
  - intros x (rs1 & r & rs2 & E & L & C & ->). cbn [ip iq]. destruct (before_split _ _ _ E) as (B1 & B2 & B3 & B4). lia.
  - intros x y (rs1 & r & rs2 & E & L & C & ->) (rs1' & r' & rs2' & E' & L' & C' & ->). cbn [ip iq]. intros O1 O2.
    pose proof E as EE. rewrite E' in EE. destruct (places _ _ _ _ _ _ EE) as [(-> & -> & ->)|[(k & ->)|(k & ->)]]; [reflexivity| |];
      exfalso; rewrite (before_app starts), (before_cons starts) in O1, O2; pose proof (before_pos starts k); lia.
Qed.

(** The whole chunk. *)
Theorem path_answers : unused pf -> ends_in_token starts (last rs []) ->
  (forall r j, In r rs -> (j < length r)%nat -> tag (Z.of_nat j) <> pf) -> featurize (lit ":") <> pf -> featurize (lit "::") <> pf ->
  exists o, fiver_hopper (f_index m) pf = Ok o /\ answers (projT1 o) (projT2 o) (eq (Iv w (w + before rs - 1) 0)).
Proof.
  intros U Ends N1 N2 N3.
  assert (T : 0 < before rs).
  { destruct rs as [|r l] eqn:E; [exfalso; unfold ends_in_token, tokens_in in Ends; cbn [last] in Ends; rewrite (TsvProofs.starts_nil tokenize skip stop starts Laws) in Ends; cbn in Ends; lia|].
    rewrite <- E in *. rewrite (before_concat starts). rewrite (@app_removelast_last _ rs []) by (rewrite E; discriminate). rewrite concat_app, (total_app starts). cbn [concat]. rewrite app_nil_r.
    pose proof (total_pos starts (concat (removelast rs))). pose proof (ends_pos tokenize skip stop starts Laws _ Ends). lia. }
  assert (H : lines_hull starts staging rs maxf minf = (staging, staging + before rs - 1)).
  { rewrite (surjective_pairing (lines_hull _ _ _ _ _)). rewrite (lines_hull_min starts) by (try exact T; unfold staging, maxf in *; lia).
    rewrite (lines_hull_max tokenize skip stop starts Laws) by (try exact Ends; unfold staging, minf in *; lia). unfold staging, minf, maxf in *. f_equal; lia. }
  assert (In_iff : forall p q v, In (Annotate pf p q v) es <-> p = staging /\ q = staging + before rs - 1 /\ v = 0).
  { intros p q v. rewrite in_chunk. split.
    - intros [(rs1 & r & rs2 & fs & t & gs & E & E2 & F & _)|[(rs1 & r & rs2 & E & F & L & HH & ->)|(_ & L & HH & ->)]].
      + exfalso. apply (N1 r (length fs)); [rewrite E; apply in_or_app; right; left; reflexivity|rewrite E2, app_length; cbn [length]; lia|auto].
      + exfalso. unfold TsvProofs.record_feature in F. destruct (header && _); auto.
      + rewrite H in HH. injection HH as -> ->. auto.
    - intros (-> & -> & ->). right. right. rewrite H. repeat split. lia. }
  apply answers_of; [exact U|..].
  - intros p q v K. apply In_iff in K. lia.
  - intros x. split.
    + intros <-. do 3 eexists. split; [apply In_iff; repeat split; reflexivity|]. f_equal; lia.
    + intros (p & q & v & K & ->). apply In_iff in K. destruct K as (-> & -> & ->). f_equal; lia.
  - intros x <-. cbn [ip iq]. lia.
  - intros x y <- <-. reflexivity.
Qed.
End Index.
