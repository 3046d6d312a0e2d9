(** What append_tsv writes. *)
From Verif Require Import Base Bytes HopperModel GclSpec VectorModel UnaryProofs CodecModel PostingModel ShardModel TokenModel
  TextModel TextSpec TextProofs TextIndex TsvModel TsvSpec.

Section Tsv.
Context (tokenize : bytes -> list token) (skip : bytes -> Z -> Z) (stop : bytes -> Prop) (starts : bytes -> list Z).
Context (Laws : tokenizer_laws tokenize skip stop starts).
Notation count := (tokens_in starts).
Notation total := (tokens_in_all starts).
Notation tokens_before := (tokens_before starts).

Lemma tokens_last os : forall a toks, tokens_at a os toks -> os <> [] -> exists r t, toks = r ++ [t] /\ t_address t = a + Z.of_nat (length os) - 1.
Proof.
  induction os as [|o os IH]; intros a toks H N; [contradiction|]. destruct H as (g & rest & -> & G & F & R).
  destruct os as [|o' os].
  - cbn in R. subst rest. rewrite app_nil_r. destruct (exists_last G) as (r & t & ->). exists r, t. split; [reflexivity|].
    apply Forall_app in F as [_ F]. inversion F as [|? ? [A _] _]; subst. cbn [length]. lia.
  - destruct (IH _ _ R ltac:(discriminate)) as (r & t & -> & A). exists (g ++ r), t. rewrite app_assoc. split; [reflexivity|]. cbn [length] in *. lia.
Qed.
Lemma starts_nil : starts [] = [].
Proof. pose proof (law_inside _ _ _ _ Laws []) as H. destruct (starts []) as [|x r]; [reflexivity|]. cbn in H. destruct H as [A B]. apply ascending_le in B. lia. Qed.
Lemma count_pos t : 0 <= count t. Proof. unfold tokens_in. lia. Qed.
Lemma total_pos ts : 0 <= total ts.
Proof. unfold tokens_in_all. induction ts as [|t r IH]; cbn [map fold_right]; [lia|]. pose proof (count_pos t). lia. Qed.
Lemma total_cons t ts : total (t :: ts) = count t + total ts. Proof. reflexivity. Qed.
Lemma total_app a b : total (a ++ b) = total a + total b.
Proof. induction a as [|t a IH]; cbn [app]; [change (total []) with 0; lia|]. rewrite !total_cons, IH. lia. Qed.
Lemma before_cons r rs : tokens_before (r :: rs) = total r + tokens_before rs. Proof. reflexivity. Qed.
Lemma before_app a b : tokens_before (a ++ b) = tokens_before a + tokens_before b.
Proof. induction a as [|t a IH]; cbn [app]; [change (tokens_before []) with 0; lia|]. rewrite !before_cons, IH. lia. Qed.
Lemma before_pos rs : 0 <= tokens_before rs.
Proof. induction rs as [|r rs IH]; [change (tokens_before []) with 0; lia|]. rewrite before_cons. pose proof (total_pos r). lia. Qed.
Lemma before_concat rs : tokens_before rs = total (concat rs).
Proof. induction rs as [|r rs IH]; [reflexivity|]. rewrite before_cons. cbn [concat]. rewrite total_app, IH. reflexivity. Qed.
Lemma last_count r : 0 < count (last r []) -> r <> [] /\ total r = total (removelast r) + count (last r []).
Proof.
  intros H. destruct r as [|t r]; [unfold tokens_in in H; cbn [last] in H; rewrite starts_nil in H; cbn in H; lia|]. split; [discriminate|].
  rewrite (@app_removelast_last _ (t :: r) []) at 1 by discriminate. rewrite total_app, total_cons. change (total []) with 0. lia.
Qed.

Lemma ends_pos r : ends_in_token starts r -> 0 < total r.
Proof. unfold ends_in_token. intros L. destruct (last_count _ L) as [_ ->]. apply Z.add_nonneg_pos; [apply total_pos|exact L]. Qed.

(** Hulls. *)
Fixpoint hull (a : Z) (ts : list bytes) (p q : Z) : Z * Z :=
  match ts with
  | [] => (p, q)
  | t :: r => if 0 <? count t then hull (a + count t) r (Z.min p a) (Z.max q (a + count t - 1)) else hull (a + count t) r (Z.min p (a + 1)) (Z.max q a)
  end.
Fixpoint lines_hull (a : Z) (rs : list (list bytes)) (p q : Z) : Z * Z :=
  match rs with [] => (p, q) | r :: rest => let '(p0, q0) := hull a r maxf minf in lines_hull (a + total r) rest (Z.min p p0) (Z.max q q0) end.
Lemma hull_blank ts : forall a p q, total ts = 0 -> hull a ts p q = match ts with [] => (p, q) | _ => (Z.min p (a + 1), Z.max q a) end.
Proof.
  induction ts as [|t r IH]; intros a p q T; [reflexivity|]. rewrite total_cons in T. pose proof (count_pos t). pose proof (total_pos r).
  cbn [hull]. replace (0 <? count t) with false by lia. rewrite IH by lia. replace (a + count t) with a by lia.
  destruct r; f_equal; lia.
Qed.
Lemma hull_min ts : forall a p q, 0 < total ts -> fst (hull a ts p q) = Z.min p a.
Proof.
  induction ts as [|t r IH]; intros a p q T; [change (total []) with 0 in T; lia|]. rewrite total_cons in T. pose proof (count_pos t). pose proof (total_pos r).
  cbn [hull]. destruct (Z.ltb_spec 0 (count t)) as [C|C].
  - destruct (Z.eq_dec (total r) 0) as [E|E].
    + rewrite hull_blank by exact E. destruct r; cbn [fst]; lia.
    + rewrite IH by lia. lia.
  - rewrite IH by lia. lia.
Qed.
Lemma hull_max ts : forall a p q, 0 < count (last ts []) -> snd (hull a ts p q) = Z.max q (a + total ts - 1).
Proof.
  induction ts as [|t r IH]; intros a p q L; [unfold tokens_in in L; cbn [last] in L; rewrite starts_nil in L; cbn in L; lia|].
  rewrite total_cons. pose proof (count_pos t). pose proof (total_pos r). cbn [hull]. destruct r as [|u r].
  - cbn [last] in L. replace (0 <? count t) with true by lia. cbn [hull snd]. change (total []) with 0. lia.
  - change (last (t :: u :: r) []) with (last (u :: r) []) in L.
    assert (0 < total (u :: r)) by (destruct (last_count _ L) as [_ E]; pose proof (total_pos (removelast (u :: r))); lia).
    destruct (0 <? count t) eqn:C; rewrite IH by exact L; lia.
Qed.
Lemma hull_record a r : minf < a -> a + total r < maxf -> (ends_in_token starts r \/ total r = 0) ->
  (total r = 0 -> fst (hull a r maxf minf) > snd (hull a r maxf minf)) /\
  (0 < total r -> hull a r maxf minf = (a, a + total r - 1)).
Proof.
  intros A B C. pose proof (total_pos r). split; intros T.
  - rewrite hull_blank by exact T. destruct r; cbn [fst snd]; unfold minf, maxf in *; lia.
  - destruct C as [C|C]; [|lia]. rewrite (surjective_pairing (hull a r maxf minf)), hull_min by exact T. rewrite hull_max by exact C. f_equal; unfold minf, maxf in *; lia.
Qed.
(** However the record ends, its hull stays within one address of its tokens. *)
Lemma hull_near ts : forall a p q, 0 < total ts -> Z.max q (a + total ts - 1) <= snd (hull a ts p q) <= Z.max q (a + total ts).
Proof.
  induction ts as [|t r IH]; intros a p q T; [change (total []) with 0 in T; lia|]. rewrite total_cons in *. pose proof (count_pos t). pose proof (total_pos r).
  cbn [hull]. destruct (Z.ltb_spec 0 (count t)) as [C|C].
  - destruct (Z.eq_dec (total r) 0) as [E|E].
    + rewrite hull_blank by exact E. destruct r; cbn [snd]; lia.
    + specialize (IH (a + count t) (Z.min p a) (Z.max q (a + count t - 1)) ltac:(lia)). lia.
  - specialize (IH (a + count t) (Z.min p (a + 1)) (Z.max q a) ltac:(lia)). lia.
Qed.
Lemma lines_hull_blank rs : forall a p q, tokens_before rs = 0 -> a < maxf -> Z.min p (a + 1) <= fst (lines_hull a rs p q) <= p.
Proof.
  induction rs as [|r rs IH]; intros a p q T B; cbn [lines_hull]; [cbn; lia|]. rewrite before_cons in T. pose proof (total_pos r). pose proof (before_pos rs).
  rewrite hull_blank by lia. assert (E : total r = 0) by lia. rewrite E. destruct r as [|t r].
  - specialize (IH (a + 0) (Z.min p maxf) (Z.max q minf) ltac:(lia) ltac:(lia)). lia.
  - specialize (IH (a + 0) (Z.min p (Z.min maxf (a + 1))) (Z.max q (Z.max minf a)) ltac:(lia) ltac:(lia)). lia.
Qed.
Lemma lines_hull_min rs : forall a p q, 0 < tokens_before rs -> (forall x, a <= x <= a + tokens_before rs -> x < maxf) -> fst (lines_hull a rs p q) = Z.min p a.
Proof.
  induction rs as [|r rs IH]; intros a p q T B; [change (tokens_before []) with 0 in T; lia|]. rewrite before_cons in *. pose proof (total_pos r). pose proof (before_pos rs).
  cbn [lines_hull]. pose proof (B a ltac:(lia)). destruct (hull a r maxf minf) as [p0 q0] eqn:HH.
  destruct (Z.eq_dec (total r) 0) as [E|E].
  - rewrite hull_blank in HH by exact E. assert (a < p0 <= maxf) by (destruct r; injection HH as <- <-; lia).
    rewrite IH by (try lia; intros x Hx; apply B; lia). lia.
  - pose proof (hull_min r a maxf minf ltac:(lia)) as M. rewrite HH in M. cbn [fst] in M.
    destruct (Z.eq_dec (tokens_before rs) 0) as [F|F].
    + pose proof (lines_hull_blank rs (a + total r) (Z.min p p0) (Z.max q q0) F (B (a + total r) ltac:(lia))) as K. lia.
    + rewrite IH by (try lia; intros x Hx; apply B; lia). lia.
Qed.
Lemma lines_hull_max rs : forall a p q, minf < a -> ends_in_token starts (last rs []) -> snd (lines_hull a rs p q) = Z.max q (a + tokens_before rs - 1).
Proof.
  induction rs as [|r rs IH]; intros a p q A L.
  - exfalso. unfold ends_in_token, tokens_in in L. cbn [last] in L. rewrite starts_nil in L. cbn in L. lia.
  - rewrite before_cons. pose proof (total_pos r). cbn [lines_hull]. destruct (hull a r maxf minf) as [p0 q0] eqn:HH. destruct rs as [|r' rs].
    + cbn [last] in L. pose proof (hull_max r a maxf minf L) as M. rewrite HH in M. cbn [snd] in M. cbn [lines_hull snd]. change (tokens_before []) with 0.
      pose proof (ends_pos _ L). lia.
    + change (last (r :: r' :: rs) []) with (last (r' :: rs) []) in L. rewrite IH by (try exact L; lia).
      assert (0 < tokens_before (r' :: rs)).
      { rewrite before_concat. rewrite (@app_removelast_last _ (r' :: rs) []) by discriminate. rewrite concat_app. cbn [concat]. rewrite app_nil_r, total_app.
        pose proof (total_pos (concat (removelast (r' :: rs)))). pose proof (ends_pos _ L). lia. }
      assert (q0 <= a + total r).
      { destruct (Z.eq_dec (total r) 0) as [E|E].
        - rewrite hull_blank in HH by exact E. destruct r; injection HH as <- <-; lia.
        - pose proof (hull_near r a maxf minf ltac:(lia)) as N. rewrite HH in N. cbn [snd] in N. lia. }
      lia.
Qed.
Context (chunk : Z) (featurize : bytes -> Z).
Notation append := (append tokenize chunk).
Notation tag := (tag featurize).
Lemma append_gives t d : d_address (fst (append t d)) = d_address d + count t /\
  snd (append t d) = if 0 <? count t then (d_address d, d_address d + count t - 1) else (d_address d + 1, d_address d).
Proof.
  unfold TextModel.append, tokens_in. destruct t as [|c t].
  - rewrite starts_nil. cbn [length fst snd]. change (0 <? Z.of_nat 0) with false. split; [cbn; lia|reflexivity].
  - remember (c :: t) as s eqn:Es. pose proof (law_tokenize _ _ _ _ Laws s) as T. destruct (starts s) as [|o os] eqn:E.
    + cbn in T. rewrite T. cbn [rev length fst snd d_address]. change (0 <? Z.of_nat 0) with false. split; [lia|reflexivity].
    + destruct (tokens_last _ _ _ T ltac:(discriminate)) as (r & k & Ek & A). rewrite Ek, rev_app_distr. cbn [rev app].
      cbv zeta. cbn [fst snd d_address]. replace (0 <? Z.of_nat (length (o :: os))) with true by (cbn [length]; lia). rewrite A. split; [lia|f_equal; lia].
Qed.
Lemma annotate_address f p q v d : d_address (annotate f p q v d) = d_address d.
Proof. unfold annotate. destruct (f <=? null_feature); reflexivity. Qed.

(** The edits of fields, records and workers. *)
Fixpoint field_edits (a j : Z) (ts : list bytes) : list edit :=
  match ts with
  | [] => []
  | t :: r => (Append t :: (if 0 <? count t then [Annotate (tag j) a (a + count t - 1) 0] else [])) ++ field_edits (a + count t) (j + 1) r
  end.
Definition hull_edits (f : Z) (h : Z * Z) : list edit := if fst h <=? snd h then [Annotate f (fst h) (snd h) 0] else [].
Notation after := (fold_left (apply_edit tokenize chunk)).
Lemma after_app es es' d : after (es ++ es') d = after es' (after es d). Proof. apply fold_left_app. Qed.
Lemma after_hull f h d : after (hull_edits f h) d = (if fst h <=? snd h then annotate f (fst h) (snd h) 0 d else d).
Proof. unfold hull_edits. destruct (fst h <=? snd h); reflexivity. Qed.

Lemma append_fields_edits wsep fields : forall j d p0 q0, let ts := record_texts wsep fields in let a := d_address d in
  append_fields tokenize chunk featurize wsep j fields d p0 q0 = (after (field_edits a j ts) d, hull a ts p0 q0) /\
  d_address (after (field_edits a j ts) d) = a + total ts.
Proof.
  induction fields as [|f r IH]; intros j d p0 q0; cbv zeta.
  - cbn. split; [reflexivity|]. change (total []) with 0. lia.
  - cbn [append_fields].
    assert (E : record_texts wsep (f :: r) = (match r with [] => f | _ => f ++ wsep end) :: record_texts wsep r) by (destruct r; reflexivity).
    rewrite E. set (t := match r with [] => f | _ => f ++ wsep end). destruct (append_gives t d) as [A1 A2].
    destruct (append t d) as [d1 pq] eqn:AE. cbn [fst snd] in A1, A2. cbn [field_edits hull]. rewrite after_app, total_cons.
    change (after (Append t :: ?l) d) with (after l (fst (append t d))). rewrite AE. cbn [fst].
    destruct (0 <? count t) eqn:C; subst pq.
    + replace (d_address d <=? d_address d + count t - 1) with true by lia.
      change (after [Annotate (tag j) (d_address d) (d_address d + count t - 1) 0] d1) with (annotate (tag j) (d_address d) (d_address d + count t - 1) 0 d1).
      specialize (IH (j + 1) (annotate (tag j) (d_address d) (d_address d + count t - 1) 0 d1) (Z.min p0 (d_address d)) (Z.max q0 (d_address d + count t - 1))).
      cbv zeta in IH. rewrite annotate_address, A1 in IH. destruct IH as [-> ->]. split; [reflexivity|lia].
    + replace (d_address d + 1 <=? d_address d) with false by lia. change (after [] d1) with d1.
      specialize (IH (j + 1) d1 (Z.min p0 (d_address d + 1)) (Z.max q0 (d_address d))).
      cbv zeta in IH. rewrite A1 in IH. destruct IH as [-> ->]. split; [reflexivity|lia].
Qed.
Context (header : bool) (sep : bytes).
Notation wsep := (written_separator sep).
Definition record (line : bytes) : list bytes := record_texts wsep (split_tsv line sep).
Definition record_feature (i : Z) : Z := if header && (i =? 0) then featurize (lit "::") else featurize (lit ":").
Definition line_edits (i a : Z) (r : list bytes) : list edit := field_edits a 0 r ++ hull_edits (record_feature i) (hull a r maxf minf).
Fixpoint lines_edits (i a : Z) (rs : list (list bytes)) : list edit :=
  match rs with [] => [] | r :: rest => line_edits i a r ++ lines_edits (i + 1) (a + total r) rest end.
Lemma append_lines_edits ls : forall i d p q, let rs := map record ls in let a := d_address d in
  append_lines tokenize chunk featurize header sep wsep i ls d p q = (after (lines_edits i a rs) d, lines_hull a rs p q) /\
  d_address (after (lines_edits i a rs) d) = a + tokens_before rs.
Proof.
  induction ls as [|l ls IH]; intros i d p q; cbv zeta.
  - cbn. split; [reflexivity|]. change (tokens_before []) with 0. lia.
  - cbn [append_lines map lines_edits lines_hull]. unfold append_line at 1. destruct (append_fields_edits wsep (split_tsv l sep) 0 d maxf minf) as [A1 A2].
    cbv zeta in A1, A2. fold (record l) in A1, A2. rewrite A1. destruct (hull (d_address d) (record l) maxf minf) as [p0 q0] eqn:H.
    fold (record_feature i). rewrite after_app, before_cons. unfold line_edits. rewrite after_app, H, after_hull. cbn [fst snd].
    set (d2 := if p0 <=? q0 then annotate (record_feature i) p0 q0 0 (after (field_edits (d_address d) 0 (record l)) d) else after (field_edits (d_address d) 0 (record l)) d).
    assert (D2 : d_address d2 = d_address d + total (record l)) by (unfold d2; destruct (p0 <=? q0); [rewrite annotate_address|]; exact A2).
    specialize (IH (i + 1) d2 (Z.min p p0) (Z.max q q0)). cbv zeta in IH. rewrite D2 in IH. destruct IH as [-> ->]. split; [reflexivity|lia].
Qed.
Definition chunk_edits (path_feature i : Z) (rs : list (list bytes)) : list edit :=
  lines_edits i staging rs ++ hull_edits path_feature (lines_hull staging rs maxf minf).
Theorem worker_edits path_feature lines n threads :
  worker tokenize chunk featurize path_feature header sep lines n threads =
  draft_after tokenize chunk (chunk_edits path_feature (first_line lines n threads) (map record (lines_of lines n threads))).
Proof.
  unfold worker, draft_after, chunk_edits. destruct (append_lines_edits (lines_of lines n threads) (first_line lines n threads) draft_init maxf minf) as [A _].
  cbv zeta in A. change (d_address draft_init) with staging in A. rewrite A, after_app, after_hull. now destruct (lines_hull _ _ _ _).
Qed.

(** What is in the edits. *)
Lemma texts_app es es' : texts (es ++ es') = texts es ++ texts es'. Proof. apply flat_map_app. Qed.
Lemma texts_hull f h : texts (hull_edits f h) = []. Proof. unfold hull_edits. now destruct (fst h <=? snd h). Qed.
Lemma texts_fields ts : forall a j, texts (field_edits a j ts) = ts.
Proof. induction ts as [|t r IH]; intros a j; cbn [field_edits]; [reflexivity|]. rewrite texts_app, IH. now destruct (0 <? count t). Qed.
Lemma texts_lines rs : forall i a, texts (lines_edits i a rs) = concat rs.
Proof. induction rs as [|r rs IH]; intros i a; cbn [lines_edits concat]; [reflexivity|]. unfold line_edits. now rewrite !texts_app, texts_fields, texts_hull, app_nil_r, IH. Qed.
Lemma texts_chunk pf i rs : texts (chunk_edits pf i rs) = concat rs.
Proof. unfold chunk_edits. now rewrite texts_app, texts_lines, texts_hull, app_nil_r. Qed.

Lemma in_field_edits ts : forall a j f p q v, In (Annotate f p q v) (field_edits a j ts) <->
  exists fs t gs, ts = fs ++ t :: gs /\ f = tag (j + Z.of_nat (length fs)) /\ 0 < count t /\ p = a + total fs /\ q = a + total fs + count t - 1 /\ v = 0.
Proof.
  induction ts as [|t r IH]; intros a j f p q v; cbn [field_edits].
  - split; [intros []|intros ([|] & ? & ? & E & _); discriminate].
  - rewrite in_app_iff, IH. split.
    + intros [H|(fs & u & gs & -> & -> & C & -> & -> & ->)].
      * destruct H as [H|H]; [discriminate|]. destruct (0 <? count t) eqn:C; [|destruct H]. destruct H as [[= <- <- <- <-]|[]].
        exists [], t, r. change (total []) with 0. cbn [length app]. rewrite !Z.add_0_r. repeat split; lia.
      * exists (t :: fs), u, gs. rewrite total_cons. cbn [length app]. repeat split; try lia. f_equal. lia.
    + intros ([|t' fs] & u & gs & E & -> & C & -> & -> & ->); injection E as <- ->.
      * left. right. replace (0 <? count t) with true by lia. left. change (total []) with 0. cbn [length]. f_equal; [f_equal|..]; lia.
      * right. exists fs, u, gs. rewrite total_cons. cbn [length]. repeat split; try lia. f_equal. lia.
Qed.
Lemma in_hull f' h f p q v : In (Annotate f p q v) (hull_edits f' h) <-> f = f' /\ p <= q /\ (p, q) = h /\ v = 0.
Proof.
  unfold hull_edits. destruct h as [a b]. cbn [fst snd]. destruct (Z.leb_spec a b); cbn [In]; split.
  - intros [[= <- <- <- <-]|[]]. auto.
  - intros (-> & _ & [= -> ->] & ->). auto.
  - intros [].
  - intros (_ & H' & [= -> ->] & _). lia.
Qed.
Lemma in_lines_edits rs : forall i a f p q v, In (Annotate f p q v) (lines_edits i a rs) <->
  exists rs1 r rs2, rs = rs1 ++ r :: rs2 /\
    (In (Annotate f p q v) (field_edits (a + tokens_before rs1) 0 r) \/
     (f = record_feature (i + Z.of_nat (length rs1)) /\ p <= q /\ (p, q) = hull (a + tokens_before rs1) r maxf minf /\ v = 0)).
Proof.
  induction rs as [|r rs IH]; intros i a f p q v; cbn [lines_edits].
  - split; [intros []|intros ([|] & ? & ? & E & _); discriminate].
  - rewrite in_app_iff, IH. unfold line_edits. rewrite in_app_iff, in_hull. split.
    + intros [H|(rs1 & r' & rs2 & -> & H)].
      * exists [], r, rs. change (tokens_before []) with 0. cbn [length app]. rewrite !Z.add_0_r. auto.
      * exists (r :: rs1), r', rs2. rewrite before_cons. split; [reflexivity|]. cbn [length].
        replace (a + (total r + tokens_before rs1)) with (a + total r + tokens_before rs1) by lia.
        replace (i + Z.of_nat (Datatypes.S (length rs1))) with (i + 1 + Z.of_nat (length rs1)) by lia. exact H.
    + intros ([|r0 rs1] & r' & rs2 & E & H); injection E as <- ->.
      * left. change (tokens_before []) with 0 in H. cbn [length] in H. rewrite !Z.add_0_r in H. exact H.
      * right. exists rs1, r', rs2. split; [reflexivity|]. rewrite before_cons in H. cbn [length] in H.
        replace (a + (total r + tokens_before rs1)) with (a + total r + tokens_before rs1) in H by lia.
        replace (i + Z.of_nat (Datatypes.S (length rs1))) with (i + 1 + Z.of_nat (length rs1)) in H by lia. exact H.
Qed.

End Tsv.
