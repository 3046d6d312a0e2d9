(** A committed transaction gives its text back. *)
From Coq Require Import Sorting.Permutation Sorting.Sorted.
From Verif Require Import Base Bytes HopperModel ArrayDefs GclSpec HopperProofs ArrayProofs UnaryProofs AnswerProofs VectorModel CodecModel PostingModel PostingSpec PostingProofs AnnProofs
  ShardModel ShardSpec ShardProofs TokenModel TextModel TextSpec TextProofs DraftProofs.

Lemma keep_length : forall xs b, (length (keep b xs) <= length xs)%nat.
Proof.
  induction xs as [|x xs IH]; intros b; [cbn; lia|]. cbn [keep length].
  destruct (valid x); [|specialize (IH b); lia]. destruct b as [y|].
  - destruct ((ip y <=? ip x) && (iq y <=? iq x)); cbn [length].
    + specialize (IH (Some x)). lia.
    + specialize (IH (Some y)). lia.
  - cbn [length]. specialize (IH (Some x)). lia.
Qed.
Lemma group_length f l : (length (group f l) <= length l)%nat.
Proof.
  unfold group. rewrite map_length. induction l as [|a l IH]; [cbn; lia|]. cbn [filter]. destruct (afeat a =? f); cbn [length]; lia.
Qed.
Lemma index_psize batch sorted index : sort_result batch sorted -> build_index (length sorted) sorted [] = Ok index ->
  forall f s, find_posting index f = Some s -> psize s <= Z.of_nat (length batch).
Proof.
  intros [P S] E f s F. destruct (build_index_ok (length sorted) sorted [] S (Nat.le_refl _)) as (ix & E2 & H).
  rewrite E in E2. injection E2 as <-. rewrite H in F. cbn [find_posting] in F.
  destruct (group f sorted) as [|x xs] eqn:Eg; [discriminate|]. injection F as <-. rewrite <- Eg.
  unfold psize, len. cbn [postings group_posting]. rewrite map_length.
  pose proof (keep_length (group f sorted) None). pose proof (group_length f sorted). rewrite (Permutation_length P). lia.
Qed.

(** The chunks of a batch. *)
Lemma chunk_lst f batch sorted ix cs a b : sort_result batch sorted -> Forall (fun a => value_ok (aiv a)) batch ->
  build_index (length sorted) sorted [] = Ok ix -> (forall x, In (Ann f x) batch <-> In x cs) ->
  contig cs a b -> minf < a -> b <= maxf ->
  exists l, lst_of f ix l /\ (length l <= length batch)%nat /\ forall x, In x l <-> In x cs.
Proof.
  intros Hs Vb Eix Bin Cm La Lb.
  assert (Dj : forall x y, In x cs -> In y cs -> nests x y -> y = x).
  { intros x y Hx Hy [N1 N2]. pose proof (contig_in _ _ _ _ Cm Hx). pose proof (contig_in _ _ _ _ Cm Hy).
    destruct (contig_order _ _ _ x y Cm Hx Hy) as [K|[K|K]]; [symmetry; exact K|lia|lia]. }
  assert (Inn : forall x, innermost_ann batch f x <-> In x cs).
  { intros x. unfold innermost_ann, annotated. split.
    - intros [[A _] _]. apply Bin. exact A.
    - intros Hx. split; [split; [apply Bin; exact Hx|]|].
      + pose proof (contig_in _ _ _ _ Cm Hx). lia.
      + intros y [Hy _] N. apply Bin in Hy. exact (Dj x y Hx Hy N). }
  assert (SD : starts_distinct batch f).
  { intros x y [Hx _] [Hy _] E. apply Bin in Hx, Hy. pose proof (contig_in _ _ _ _ Cm Hx). pose proof (contig_in _ _ _ _ Cm Hy).
    destruct (contig_order _ _ _ x y Cm Hx Hy) as [K|[K|K]]; [exact K|lia|lia]. }
  assert (Fin : forall x, annotated batch f x -> finite x).
  { intros x [Hx _]. apply Bin in Hx. pose proof (contig_in _ _ _ _ Cm Hx). unfold finite in *. lia. }
  pose proof (index_psize batch sorted ix Hs Eix) as Ps.
  destruct (index_ok batch sorted Hs Vb) as (ix2 & E2 & Hix). rewrite Eix in E2. injection E2 as <-.
  specialize (Hix f). destruct (find_posting ix f) as [s|] eqn:Ef.
  - destruct Hix as (Fe & l & Hl & _ & _ & HG). destruct (HG SD Fin) as [G Il]. exists l.
    specialize (Ps f s Ef). rewrite (holds_psize _ _ Hl) in Ps.
    split; [|split; [lia|intros x; rewrite Il; apply Inn]].
    econstructor; [exact Ef|exact Fe|exact Hl| |exact G|].
    + (* an empty posting cannot arise: every chunk is a range *)
      intros ->. pose proof (build_index_ok (length sorted) sorted [] (proj2 Hs) (Nat.le_refl _)) as (ix2 & E2 & H2).
      rewrite Eix in E2. injection E2 as <-. rewrite H2 in Ef. cbn [find_posting] in Ef.
      destruct (group f sorted) as [|x xs] eqn:Eg; [discriminate|].
      assert (Hx : In x cs).
      { apply Bin. apply (Permutation_in _ (Permutation_sym (proj1 Hs))). apply in_group. rewrite Eg. left; reflexivity. }
      apply Inn in Hx. apply Il in Hx. contradiction.
    + apply Forall_forall. intros x Hx. apply Il in Hx. destruct Hx as [[Hx _] _]. rewrite Forall_forall in Vb. exact (Vb _ Hx).
  - exists []. split; [constructor; exact Ef|]. split; [cbn; lia|]. intros x. rewrite <- Bin. split; [intros []|intros K; exact (Hix x K)].
Qed.

(** * Moving a draft to its addresses *)
Definition relocated (w : Z) (x : iv) : iv := if staging <=? ip x then Iv (ip x - staging + w) (iq x - staging + w) (ivl x) else x.
Definition relocated_ann (w : Z) (a : annotation) : annotation := Ann (afeat a) (relocated w (aiv a)).
Definition plain (x : iv) : Prop := minf <= ip x <= iq x /\ iq x <= maxf /\ ivl x <> minf.
Lemma chk_ok z : minf <= z <= maxf -> chk z = Ok z.
Proof. intros H. unfold chk. replace (minf <=? z) with true by lia. replace (z <=? maxf) with true by lia. reflexivity. Qed.
Lemma relocate_ok w a : 0 <= w <= staging -> plain (aiv a) -> relocate_ann w a = Ok (relocated_ann w a).
Proof.
  intros Hw (A & B & C). destruct a as [f [p q v]]. unfold relocate_ann, relocated_ann, relocated. cbn [aiv afeat ip iq ivl] in *.
  rewrite chk_ok by (unfold staging, minf, maxf in *; lia). cbn [bind]. destruct (Z.leb_spec staging p) as [L|L]; [|reflexivity].
  rewrite chk_ok by (unfold staging, minf, maxf in *; lia). cbn [bind]. rewrite chk_ok by (unfold staging, minf, maxf in *; lia). cbn [bind].
  f_equal. f_equal. f_equal; lia.
Qed.
Lemma relocate_all_ok w l : 0 <= w <= staging -> Forall (fun a => plain (aiv a)) l -> relocate_all w l = Ok (map (relocated_ann w) l).
Proof.
  intros Hw. induction 1 as [|a l Ha _ IH]; [reflexivity|]. cbn [relocate_all map]. rewrite (relocate_ok w a Hw Ha). cbn [bind]. rewrite IH. reflexivity.
Qed.
Lemma relocated_plain w x : 0 <= w <= staging -> plain x -> plain (relocated w x).
Proof.
  intros Hw (A & B & C). unfold relocated. destruct (Z.leb_spec staging (ip x)); [|repeat split; tauto]. unfold plain. cbn [ip iq ivl].
  unfold minf, maxf, staging in *. repeat split; try lia.
Qed.

Section Store.
Context (tokenize : bytes -> list token) (skip : bytes -> Z -> Z) (stop : bytes -> Prop) (starts : bytes -> list Z).
Context (Laws : tokenizer_laws tokenize skip stop starts).
Context (chunk transaction : Z) (Hchunk : null_feature < chunk) (Htrans : transaction <> chunk).

(** Every annotation but the chunks. *)
Definition plain_others (d : draft) : Prop := forall f x, In (Ann f x) (d_annotations d) -> f <> chunk -> plain x.
Lemma annotate_in f p q v d a : In a (d_annotations (annotate f p q v d)) -> In a (d_annotations d) \/ a = Ann f (Iv p q v).
Proof. unfold annotate. destruct (f <=? null_feature); [auto|]. cbn. intros H. apply in_app_or in H. destruct H as [H|[H|[]]]; auto. Qed.
Lemma annotate_plain f p q v d : (f <> chunk -> plain (Iv p q v)) -> plain_others d -> plain_others (annotate f p q v d).
Proof.
  intros H K g x Hx Hg. apply annotate_in in Hx. destruct Hx as [Hx|Hx]; [exact (K g x Hx Hg)|]. injection Hx as -> ->. exact (H Hg).
Qed.
Lemma append_tokens_plain toks : forall address offset d,
  (forall t, In t toks -> 0 <= t_address t + address <= maxf) -> plain_others d -> plain_others (append_tokens chunk toks address offset d).
Proof.
  induction toks as [|t r IH]; intros address offset d Ht H; [exact H|]. cbn [append_tokens].
  assert (P1 : plain_others (annotate (t_feature t) (t_address t + address) (t_address t + address) 0 d)).
  { apply annotate_plain; [|exact H]. intros _. specialize (Ht t (or_introl eq_refl)). unfold plain, minf. cbn [ip iq ivl]. lia. }
  apply IH; [intros x Hx; apply Ht; right; exact Hx|]. destruct (_ <? _); [|exact P1].
  match goal with |- plain_others (Draft _ _ _ _ (d_annotations ?d')) => change (plain_others d') end.
  apply annotate_plain; [intros K; contradiction|exact P1].
Qed.
Lemma concat_texts_room es es' : Forall (edit_ok tokenize stop chunk) (es ++ es') ->
  (length (starts (concat (map closed (texts es)))) <= length (starts (full_text (texts (es ++ es')))))%nat.
Proof.
  intros H. pose proof (texts_end tokenize stop chunk _ H) as E. unfold full_text.
  rewrite (end_line_starts tokenize skip stop starts Laws _ (concat_afresh tokenize skip stop starts Laws _ E)).
  rewrite texts_app, map_app, concat_app. apply Forall_app in H.
  rewrite (starts_app starts), app_length; [lia|].
  apply (concat_afresh tokenize skip stop starts Laws). apply (texts_end tokenize stop chunk). apply H.
Qed.
Lemma draft_plain es : Forall (edit_ok tokenize stop chunk) es ->
  staging + Z.of_nat (length (starts (full_text (texts es)))) <= maxf -> plain_others (draft_after tokenize chunk es).
Proof.
  induction es as [|e es IH] using rev_ind; intros H Hn; [intros f x []|].
  assert (H' := H). apply Forall_app in H'. destruct H' as [H0 He]. assert (He1 : edit_ok tokenize stop chunk e) by (inversion He; assumption).
  pose proof (concat_texts_room es [e] H) as Le.
  assert (E0 : starts (full_text (texts es)) = starts (concat (map closed (texts es)))).
  { apply (end_line_starts tokenize skip stop starts Laws), (concat_afresh tokenize skip stop starts Laws), (texts_end tokenize stop chunk); exact H0. }
  assert (K : plain_others (draft_after tokenize chunk es)).
  { apply IH; [exact H0|]. rewrite E0. lia. }
  destruct (draft_inv tokenize skip stop starts Laws chunk Hchunk es H0) as (cs & D).
  unfold draft_after. rewrite fold_left_app. cbn [fold_left]. fold (draft_after tokenize chunk es). set (d := draft_after tokenize chunk es) in *.
  destruct e as [t|f p q v|p q]; cbn [apply_edit].
  - destruct He1 as [E1 E2]. destruct D as [Dt Da Dc]. destruct t as [|c t]; [exact K|]. set (tt := c :: t) in *.
    unfold append. change (match tt with [] => _ | _ :: _ => ?x end) with x. fold tt.
    destruct (rev (tokenize tt)) as [|t0 l0]; [exact K|]. cbn [fst].
    match goal with |- plain_others (Draft _ _ _ _ (d_annotations ?d')) => change (plain_others d') end.
    apply append_tokens_plain; [|exact K]. intros x Hx. cbn [d_address].
    pose proof (tokens_at_in _ _ _ (law_tokenize _ _ _ _ Laws tt) x Hx) as [Kx _].
    assert (Lt : Z.of_nat (length (starts (full_text (texts (es ++ [Append tt]))))) = Z.of_nat (length (starts (d_text d))) + Z.of_nat (length (starts tt))).
    { unfold full_text. pose proof (texts_end tokenize stop chunk _ H) as E.
      rewrite (end_line_starts tokenize skip stop starts Laws _ (concat_afresh tokenize skip stop starts Laws _ E)).
      rewrite texts_app, map_app, concat_app. cbn [texts flat_map map concat app]. rewrite app_nil_r.
      rewrite (starts_app starts), app_length, map_length, (closed_starts tokenize skip stop starts Laws _ E1), Dt; [lia|].
      apply (concat_afresh tokenize skip stop starts Laws), (texts_end tokenize stop chunk); exact H0. }
    rewrite Da. unfold staging, maxf in *. lia.
  - apply annotate_plain; [|exact K]. intros _. destruct He1 as (A & B & C & D'). unfold plain. cbn [ip iq ivl]. tauto.
  - intros g x Hx Hg. cbn in Hx. apply in_app_or in Hx. destruct Hx as [Hx|[Hx|[]]]; [exact (K g x Hx Hg)|].
    injection Hx as <- <-. unfold plain. cbn [ip iq ivl]. cbn in He1. unfold minf in *. lia.
Qed.

(** * The shard *)
Context (sort : list annotation -> list annotation) (Hsort : forall l, sort_result l (sort l)).
Context (es : list edit) (Hes : Forall (edit_ok tokenize stop chunk) es).
Let T := full_text (texts es).
Let os := starts T.
Let d := appender_ready chunk transaction (draft_after tokenize chunk es).
Context (w : Z) (Hw : 0 <= w) (Hw2 : w + Z.of_nat (length os) <= staging).
Context (Hroom : Z.of_nat (length (d_annotations d)) <= 2305843009213693951).
Definition batch : list annotation := map (relocated_ann w) (d_annotations d).

Lemma ready_plain : Forall (fun a => plain (aiv a)) (d_annotations d).
Proof.
  apply Forall_forall. intros [f x] Hx. cbn [aiv].
  destruct (ready_inv tokenize skip stop starts Laws chunk transaction Hchunk es Hes Htrans) as (_ & cs & Cin & Cc & Co).
  fold d in Cin. fold T in Cc, Co. fold os in Cc, Co. destruct (Z.eq_dec f chunk) as [->|Nf].
  - apply Cin in Hx. pose proof (contig_in _ _ _ _ Cc Hx) as K. unfold plain. rewrite (Co x Hx).
    pose proof (nth_range os (len T) (Z.to_nat (ip x - staging)) (law_inside _ _ _ _ Laws T)) as N. unfold off.
    unfold staging, maxf, minf in *. destruct (ip x =? _); lia.
  - assert (P0 : plain_others (draft_after tokenize chunk es)).
    { apply draft_plain; [exact Hes|]. fold T os. unfold staging, maxf in *. lia. }
    assert (P1 : plain_others d); [|exact (P1 f x Hx Nf)].
    unfold d, appender_ready. cbn [d_address]. 
    match goal with |- context [if staging <? ?a then ?A else ?B] => set (d1 := if staging <? a then A else B) end.
    assert (P2 : plain_others d1).
    { unfold d1. destruct (Z.ltb_spec staging (d_address (draft_after tokenize chunk es))) as [L|L]; [|exact P0].
      apply annotate_plain; [|exact P0]. intros _. unfold plain. cbn [ip iq ivl].
      destruct (draft_inv tokenize skip stop starts Laws chunk Hchunk es Hes) as (cs0 & [D1 D2 D3]).
      assert (E0 : os = starts (concat (map closed (texts es)))).
      { apply (end_line_starts tokenize skip stop starts Laws), (concat_afresh tokenize skip stop starts Laws), (texts_end tokenize stop chunk); exact Hes. }
      rewrite D1, <- E0 in D2. unfold staging, maxf, minf in *. lia. }
    clearbody d1. destruct (d_chunk_address d1 <? d_address d1); [|exact P2]. apply annotate_plain; [intros K; contradiction|exact P2].
Qed.

Theorem ready_txt : forall seq, exists m o cs, ready chunk transaction sort w seq (draft_after tokenize chunk es) = Ok m /\
  f_text m = T /\ fiver_txt chunk m = Ok (o, T) /\ answers (projT1 o) (projT2 o) (set_of cs) /\
  chunked starts T os w (one_start w) cs /\
  (forall f s, find_posting (f_index m) f = Some s -> psize s <= 2305843009213693951) /\
  (exists l, lst_of chunk (f_index m) l /\ Z.of_nat (length l) <= max_len /\ forall x, In x l <-> In x cs) /\
  exists sorted, sort_result batch sorted /\ build_index (length sorted) sorted [] = Ok (f_index m).
Proof.
  intros seq.
  destruct (ready_inv tokenize skip stop starts Laws chunk transaction Hchunk es Hes Htrans) as (ET & cs0 & Cin & Cc & Co).
  fold d in ET, Cin. fold T in Cc, Co, ET. fold os in Cc, Co.
  assert (Wb : 0 <= w <= staging) by lia.
  pose proof (relocate_all_ok w _ Wb ready_plain) as ER. fold batch in ER.
  assert (Vb : Forall (fun a => value_ok (aiv a)) batch).
  { apply Forall_forall. intros a Ha. unfold batch in Ha. apply in_map_iff in Ha. destruct Ha as (a0 & <- & Ha).
    pose proof ready_plain as P. rewrite Forall_forall in P. apply (relocated_plain w _ Wb (P _ Ha)). }
  destruct (index_ok batch (sort batch) (Hsort batch) Vb) as (ix & Eix & Hix).
  set (mv := fun x => Iv (ip x - staging + w) (iq x - staging + w) (ivl x)).
  set (cs := map mv cs0).
  assert (Bin : forall x, In (Ann chunk x) batch <-> In x cs).
  { intros x. unfold batch, cs. rewrite !in_map_iff. split.
    - intros ([f y] & E & Hy). injection E as -> E. apply Cin in Hy. exists y. split; [|exact Hy].
      pose proof (contig_in _ _ _ _ Cc Hy). rewrite <- E. unfold relocated. cbn [aiv]. replace (staging <=? ip y) with true by lia. reflexivity.
    - intros (y & <- & Hy). exists (Ann chunk y). split; [|apply Cin; exact Hy]. unfold relocated_ann. cbn [afeat aiv]. f_equal.
      pose proof (contig_in _ _ _ _ Cc Hy). unfold relocated. replace (staging <=? ip y) with true by lia. reflexivity. }
  assert (Cm : contig cs w (w + Z.of_nat (length os))).
  { assert (G : forall l a b, contig l a b -> contig (map mv l) (a - staging + w) (b - staging + w)).
    { induction l as [|x l IH]; intros a b H; cbn in H |- *; [lia|]. destruct H as (A & B & C). split; [lia|]. split; [lia|].
      specialize (IH _ _ C). replace (iq x - staging + w + 1) with (iq x + 1 - staging + w) by lia. exact IH. }
    specialize (G _ _ _ Cc). replace (staging - staging + w) with w in G by lia.
    replace (staging + Z.of_nat (length os) - staging + w) with (w + Z.of_nat (length os)) in G by lia. exact G. }
  assert (Lb : length batch = length (d_annotations d)) by apply map_length.
  pose proof (index_psize batch (sort batch) ix (Hsort batch) Eix) as Ps.
  destruct (chunk_lst chunk batch (sort batch) ix cs _ _ (Hsort batch) Vb Eix Bin Cm ltac:(unfold minf; lia) ltac:(unfold staging, maxf in *; lia)) as (l & Hl & Ll & Il).
  assert (Lm : Z.of_nat (length l) <= max_len) by (unfold max_len; lia).
  assert (Ho : exists o, fiver_hopper ix chunk = Ok o /\ answers (projT1 o) (projT2 o) (set_of cs)).
  { destruct (fiver_hopper_lst chunk ix l Hl Lm) as (o & Eo & A). exists o. split; [exact Eo|]. exact (answers_eqs _ _ _ _ Il A). }
  destruct Ho as (o & Eo & Ao). exists (Fiver T ix seq seq), o, cs.
  split. { unfold ready. fold d. rewrite ER. cbn [bind]. rewrite Eix. cbn [bind]. rewrite ET. reflexivity. }
  split; [reflexivity|]. split. { unfold fiver_txt. cbn [f_index f_text]. rewrite Eo. reflexivity. }
  split; [exact Ao|]. split; [|split; [|split]].
  - split.
    + reflexivity.
    + exact Hw.
    + unfold staging, maxf in *. lia.
    + exact Cm.
    + intros x Hx. unfold cs in Hx. apply in_map_iff in Hx. destruct Hx as (y & <- & Hy). cbn [mv ivl ip]. rewrite (Co y Hy).
      unfold off, text_start, one_start, token_start. replace (ip y - staging + w =? w) with (ip y =? staging) by lia.
      destruct (ip y =? staging); [reflexivity|]. f_equal. lia.
    + intros a a0 La E. unfold one_start in E. destruct (Z.eqb_spec a w) as [->|]; [|discriminate]. injection E as <-. split.
      * destruct cs as [|x r] eqn:Ec.
        { cbn in Cm. lia. }
        exists x. split; [left; reflexivity|]. cbn in Cm. apply Cm.
      * unfold resumes. split; [unfold len; lia|]. cbn [skipn Z.to_nat]. rewrite Z.sub_diag. cbn [skipn Z.to_nat].
        fold os. rewrite <- (map_id os) at 1. apply map_ext. intros z. lia.
  - intros f s Ef. cbn [f_index] in Ef. specialize (Ps f s Ef). lia.
  - exists l. auto.
  - exists (sort batch). split; [apply Hsort|exact Eix].
Qed.
End Store.
