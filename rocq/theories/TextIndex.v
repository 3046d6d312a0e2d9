(** What a committed transaction answers to queries. *)
From Coq Require Import Sorting.Permutation Sorting.Sorted.
From Verif Require Import Base Bytes HopperModel ArrayDefs GclSpec HopperProofs ArrayProofs UnaryProofs AnswerProofs VectorModel CodecModel
  PostingModel PostingSpec PostingProofs AnnProofs ShardModel ShardSpec ShardProofs TokenModel
  TextModel TextSpec TextProofs DraftProofs TextStore TextBack TextMerge.

Section Index.
Context (tokenize : bytes -> list token) (skip : bytes -> Z -> Z) (stop : bytes -> Prop) (starts : bytes -> list Z).
Context (Laws : tokenizer_laws tokenize skip stop starts).
Context (chunk transaction : Z) (Hchunk : null_feature < chunk) (Htrans : transaction <> chunk).

Lemma annotate_iff f p q v d a : In a (d_annotations (annotate f p q v d)) <-> In a (d_annotations d) \/ (null_feature < f /\ a = Ann f (Iv p q v)).
Proof.
  unfold annotate. destruct (Z.leb_spec f null_feature) as [L|L].
  - split; [auto|]. intros [H|[H _]]; [exact H|lia].
  - cbn. rewrite in_app_iff. cbn [In]. split; [intros [H|[H|[]]]; auto|intros [H|[_ ->]]; auto].
Qed.
Lemma append_tokens_iff toks : forall address offset d f x, f <> chunk ->
  In (Ann f x) (d_annotations (append_tokens chunk toks address offset d)) <->
  In (Ann f x) (d_annotations d) \/ exists t, In t toks /\ null_feature < t_feature t /\ f = t_feature t /\ x = Iv (t_address t + address) (t_address t + address) 0.
Proof.
  induction toks as [|t r IH]; intros address offset d f x Nf; cbn [append_tokens].
  - split; [auto|]. intros [H|(t & [] & _)]. exact H.
  - rewrite IH by exact Nf. clear IH. set (a := t_address t + address). set (d1 := annotate (t_feature t) a a 0 d).
    assert (E : forall d', In (Ann f x) (d_annotations (if CHUNK_SIZE <? a - d_chunk_address d1 then
                  Draft (d_text (annotate chunk (d_chunk_address d1) (a - 1) (d_chunk_offset d1) d1)) (d_address d') a (offset + t_offset t)
                     (d_annotations (annotate chunk (d_chunk_address d1) (a - 1) (d_chunk_offset d1) d1)) else d1)) <-> In (Ann f x) (d_annotations d1)).
    { intros d'. destruct (_ <? _); [|reflexivity]. cbn [d_annotations]. rewrite annotate_iff. split; [intros [H|[_ H]]; [exact H|injection H; intros; congruence]|auto]. }
    rewrite E. unfold d1. rewrite annotate_iff. split.
    + intros [[H|[H1 H2]]|(t' & H1 & H2)]; [auto| |right; exists t'; split; [right; exact H1|exact H2]].
      injection H2 as H2 H3. right. exists t. split; [left; reflexivity|]. auto.
    + intros [H|(t' & [->|H1] & H2 & H3 & H4)]; [auto| |right; exists t'; auto]. left. right. subst. auto.
Qed.
Lemma full_count es : Forall (edit_ok tokenize stop chunk) es -> token_count starts es = Z.of_nat (length (starts (concat (map closed (texts es))))).
Proof.
  intros H. unfold token_count, full_text.
  rewrite (end_line_starts tokenize skip stop starts Laws); [reflexivity|]. apply (concat_afresh tokenize skip stop starts Laws), (texts_end tokenize stop chunk); exact H.
Qed.
(** The annotations of the draft, but for the chunks. *)
Lemma draft_annotations es : Forall (edit_ok tokenize stop chunk) es -> forall f x, f <> chunk ->
  (In (Ann f x) (d_annotations (draft_after tokenize chunk es)) <->
   ((exists es1 t es2 tok, es = es1 ++ Append t :: es2 /\ In tok (tokenize t) /\ null_feature < t_feature tok /\ f = t_feature tok /\
       x = Iv (staging + token_count starts es1 + t_address tok) (staging + token_count starts es1 + t_address tok) 0) \/
    (exists p q v, In (Annotate f p q v) es /\ null_feature < f /\ x = Iv p q v) \/
    (exists p q, In (Erase p q) es /\ f = null_feature /\ x = Iv p q 0))).
Proof.
  induction es as [|e es IH] using rev_ind; intros H f x Nf.
  { unfold draft_after. cbn. split; [intros []|]. intros [(es1 & t & es2 & tok & E & _)|[(p & q & v & [] & _)|(p & q & [] & _)]]. destruct es1; discriminate. }
  apply Forall_app in H. destruct H as [H He]. assert (He1 : edit_ok tokenize stop chunk e) by (inversion He; assumption).
  specialize (IH H f x Nf). destruct (draft_inv tokenize skip stop starts Laws chunk Hchunk es H) as (cs & D).
  unfold draft_after. rewrite fold_left_app. cbn [fold_left]. fold (draft_after tokenize chunk es). set (d := draft_after tokenize chunk es) in *.
  assert (Split : forall es1 t es2, es ++ [e] = es1 ++ Append t :: es2 -> (es2 = [] /\ es1 = es /\ e = Append t) \/ exists es2', es2 = es2' ++ [e] /\ es = es1 ++ Append t :: es2').
  { intros es1 t es2 E. destruct es2 as [|z es2'] using rev_ind; [left|right].
    - apply app_inj_tail in E. destruct E as [-> ->]. auto.
    - exists es2'. clear IHes2'. change (es1 ++ Append t :: es2' ++ [z]) with (es1 ++ (Append t :: es2') ++ [z]) in E. rewrite app_assoc in E.
      apply app_inj_tail in E. destruct E as [-> ->]. auto. }
  assert (Tok : (exists es1 t es2 tok, es ++ [e] = es1 ++ Append t :: es2 /\ In tok (tokenize t) /\ null_feature < t_feature tok /\ f = t_feature tok /\
       x = Iv (staging + token_count starts es1 + t_address tok) (staging + token_count starts es1 + t_address tok) 0) <->
     ((exists es1 t es2 tok, es = es1 ++ Append t :: es2 /\ In tok (tokenize t) /\ null_feature < t_feature tok /\ f = t_feature tok /\
       x = Iv (staging + token_count starts es1 + t_address tok) (staging + token_count starts es1 + t_address tok) 0) \/
      (exists t tok, e = Append t /\ In tok (tokenize t) /\ null_feature < t_feature tok /\ f = t_feature tok /\
       x = Iv (staging + token_count starts es + t_address tok) (staging + token_count starts es + t_address tok) 0))).
  { split.
    - intros (es1 & t & es2 & tok & E & R). destruct (Split _ _ _ E) as [(-> & -> & ->)|(es2' & -> & E')]; [right; exists t, tok; auto|left; exists es1, t, es2', tok; auto].
    - intros [(es1 & t & es2 & tok & E & R)|(t & tok & -> & R)].
      + exists es1, t, (es2 ++ [e]), tok. rewrite E, <- app_assoc. auto.
      + exists es, t, [], tok. auto. }
  rewrite Tok. clear Tok Split.
  assert (An : (exists p q v, In (Annotate f p q v) (es ++ [e]) /\ null_feature < f /\ x = Iv p q v) <->
     ((exists p q v, In (Annotate f p q v) es /\ null_feature < f /\ x = Iv p q v) \/ (exists p q v, e = Annotate f p q v /\ null_feature < f /\ x = Iv p q v))).
  { split.
    - intros (p & q & v & Hi & R). apply in_app_or in Hi. destruct Hi as [Hi|[Hi|[]]]; [left|right]; exists p, q, v; auto.
    - intros [(p & q & v & Hi & R)|(p & q & v & -> & R)]; exists p, q, v; split; auto; apply in_or_app; [left; exact Hi|right; left; reflexivity]. }
  rewrite An. clear An.
  assert (Er : (exists p q, In (Erase p q) (es ++ [e]) /\ f = null_feature /\ x = Iv p q 0) <->
     ((exists p q, In (Erase p q) es /\ f = null_feature /\ x = Iv p q 0) \/ (exists p q, e = Erase p q /\ f = null_feature /\ x = Iv p q 0))).
  { split.
    - intros (p & q & Hi & R). apply in_app_or in Hi. destruct Hi as [Hi|[Hi|[]]]; [left|right]; exists p, q; auto.
    - intros [(p & q & Hi & R)|(p & q & -> & R)]; exists p, q; split; auto; apply in_or_app; [left; exact Hi|right; left; reflexivity]. }
  rewrite Er. clear Er.
  assert (N1 : forall t, e = Append t -> In (Ann f x) (d_annotations (fst (append tokenize chunk t d))) <->
      (In (Ann f x) (d_annotations d) \/ exists tok, In tok (tokenize t) /\ null_feature < t_feature tok /\ f = t_feature tok /\
         x = Iv (staging + token_count starts es + t_address tok) (staging + token_count starts es + t_address tok) 0)).
  { intros t _. destruct D as [Dt Da Dc]. rewrite (full_count es H), <- Dt, <- Da.
    destruct t as [|c t].
    - cbn [append fst]. split; [auto|]. intros [K|(tok & K & _)]; [exact K|]. exfalso.
      pose proof (law_tokenize _ _ _ _ Laws []) as L. rewrite (starts_nil tokenize skip stop starts Laws) in L. cbn in L. rewrite L in K. exact K.
    - set (tt := c :: t). unfold append. change (match tt with [] => _ | _ :: _ => ?x end) with x. fold tt.
      destruct (rev (tokenize tt)) as [|t0 l0] eqn:Ev.
      + cbn [fst d_annotations]. split; [auto|]. intros [K|(tok & K & _)]; [exact K|]. exfalso. apply in_rev in K. rewrite Ev in K. exact K.
      + cbn [fst d_annotations]. rewrite append_tokens_iff by exact Nf. cbn [d_annotations d_address].
        split; (intros [K|(tok & K1 & K2 & K3 & K4)]; [left; exact K|right; exists tok; split; [exact K1|]; split; [exact K2|]; split; [exact K3|]]).
        * rewrite K4. f_equal; lia.
        * rewrite K4. f_equal; lia. }
  destruct e as [t|g p q v|p q]; cbn [apply_edit].
  - rewrite (N1 t eq_refl), IH. split.
    + intros [[K|[K|K]]|(tok & K)]; [auto|auto|auto|]. left. right. exists t, tok. auto.
    + intros [[K|(t' & tok & E & K)]|[[K|(p & q & v & E & _)]|[K|(p & q & E & _)]]]; [auto| |auto|discriminate|auto|discriminate].
      injection E as <-. right. exists tok. exact K.
  - rewrite annotate_iff, IH. split.
    + intros [[K|[K|K]]|[K1 K2]]; [auto|auto|auto|]. injection K2 as -> ->. right. left. right. exists p, q, v. auto.
    + intros [[K|(t' & tok & E & K)]|[[K|(p' & q' & v' & E & K)]|[K|(p' & q' & E & _)]]]; [auto|discriminate|auto| |auto|discriminate].
      injection E as -> -> -> ->. right. destruct K as [K1 ->]. auto.
  - unfold erase. cbn [d_annotations]. rewrite in_app_iff, IH. cbn [In]. split.
    + intros [[K|[K|K]]|[K|[]]]; [auto|auto|auto|]. injection K as <- <-. right. right. right. exists p, q. auto.
    + intros [[K|(t' & tok & E & K)]|[[K|(p' & q' & v' & E & K)]|[K|(p' & q' & E & K1 & K2)]]]; [auto|discriminate|auto|discriminate|auto|].
      injection E as -> ->. right. left. subst. reflexivity.
Qed.

(** * The shard *)
Context (sort : list annotation -> list annotation) (Hsort : forall l, sort_result l (sort l)).
Context (es : list edit) (Hes : Forall (edit_ok tokenize stop chunk) es).
Context (w : Z) (Hw : 0 <= w) (Hw2 : w + token_count starts es <= staging).
Context (Hroom : Z.of_nat (length (d_annotations (appender_ready chunk transaction (draft_after tokenize chunk es)))) <= 2305843009213693951).
Notation occurs := (occurs tokenize starts transaction es w).

Lemma batch_occurs f x : f <> chunk -> (In (Ann f x) (batch tokenize chunk transaction es w) <-> occurs f x).
Proof.
  intros Nf. unfold batch. rewrite in_map_iff.
  set (d0 := draft_after tokenize chunk es). set (d := appender_ready chunk transaction d0).
  destruct (draft_inv tokenize skip stop starts Laws chunk Hchunk es Hes) as (cs & [Dt Da _]). fold d0 in Dt, Da.
  rewrite Dt, <- (full_count es Hes) in Da.
  assert (Hd : forall y, In (Ann f y) (d_annotations d) <-> In (Ann f y) (d_annotations d0) \/ (f = transaction /\ 0 < token_count starts es /\ null_feature < transaction /\ y = Iv staging (staging + token_count starts es - 1) 0)).
  { intros y. unfold d, appender_ready. cbn [d_address].
    set (d1 := Draft (end_line (d_text d0)) (d_address d0) (d_chunk_address d0) (d_chunk_offset d0) (d_annotations d0)).
    set (d2 := if staging <? d_address d0 then annotate transaction staging (d_address d0 - 1) 0 d1 else d1).
    assert (E2 : In (Ann f y) (d_annotations d2) <-> In (Ann f y) (d_annotations d0) \/ (f = transaction /\ 0 < token_count starts es /\ null_feature < transaction /\ y = Iv staging (staging + token_count starts es - 1) 0)).
    { unfold d2. destruct (Z.ltb_spec staging (d_address d0)) as [L|L].
      - rewrite annotate_iff. cbn [d1 d_annotations]. rewrite Da. split.
        + intros [K|[K1 K2]]; [auto|]. injection K2 as -> ->. right. repeat split; auto; lia.
        + intros [K|(-> & _ & K & ->)]; auto.
      - cbn [d1 d_annotations]. split; [auto|]. intros [K|(_ & K & _)]; [exact K|lia]. }
    rewrite <- E2. clearbody d2. destruct (d_chunk_address d2 <? d_address d2); [|reflexivity]. rewrite annotate_iff.
    split; [intros [K|[_ K]]; [exact K|injection K; intros; congruence]|auto]. }
  assert (Mv : forall y, relocated w y = Iv (fst (moved w (ip y) (iq y))) (snd (moved w (ip y) (iq y))) (ivl y)).
  { intros [p q v]. unfold relocated, moved. cbn [ip iq ivl]. destruct (staging <=? p); reflexivity. }
  assert (Tc : forall es1 t es2 tok, es = es1 ++ Append t :: es2 -> In tok (tokenize t) -> 0 <= token_count starts es1 + t_address tok).
  { intros es1 t es2 tok _ Hk. pose proof (tokens_at_in _ _ _ (law_tokenize _ _ _ _ Laws t) tok Hk). unfold token_count. lia. }
  split.
  - intros ([g y] & E & Hy). unfold relocated_ann in E. cbn [afeat aiv] in E. injection E as -> E. rewrite Mv in E. subst x.
    apply Hd in Hy. destruct Hy as [Hy|(-> & Hn & Ht & ->)].
    + apply (draft_annotations es Hes f y Nf) in Hy. destruct Hy as [(es1 & t & es2 & tok & E & K1 & K2 & -> & ->)|[(p & q & v & K1 & K2 & ->)|(p & q & K1 & -> & ->)]].
      * cbn [ip iq ivl]. unfold moved. specialize (Tc es1 t es2 tok E K1).
        replace (staging <=? staging + token_count starts es1 + t_address tok) with true by lia. cbn [fst snd].
        replace (staging + token_count starts es1 + t_address tok - staging + w) with (w + token_count starts es1 + t_address tok) by lia.
        exact (Occurs_token tokenize starts transaction es w es1 t es2 tok E K1 K2).
      * cbn [ip iq ivl]. apply Occurs_annotation; assumption.
      * cbn [ip iq ivl]. apply Occurs_erased; assumption.
    + cbn [ip iq ivl]. unfold moved. rewrite Z.leb_refl. cbn [fst snd].
      replace (staging - staging + w) with w by lia. replace (staging + token_count starts es - 1 - staging + w) with (w + token_count starts es - 1) by lia.
      apply Occurs_transaction; assumption.
  - intros H. destruct H as [es1 t es2 tok E K1 K2|f p q v K1 K2|p q K1|K1 K2].
    + exists (Ann (t_feature tok) (Iv (staging + token_count starts es1 + t_address tok) (staging + token_count starts es1 + t_address tok) 0)).
      unfold relocated_ann. cbn [afeat aiv]. rewrite Mv. cbn [ip iq ivl]. specialize (Tc es1 t es2 tok E K1). unfold moved.
      replace (staging <=? staging + token_count starts es1 + t_address tok) with true by lia. cbn [fst snd]. split; [f_equal; f_equal; lia|].
      apply Hd. left. apply (draft_annotations es Hes _ _ Nf). left. exists es1, t, es2, tok. auto.
    + exists (Ann f (Iv p q v)). unfold relocated_ann. cbn [afeat aiv]. rewrite Mv. cbn [ip iq ivl]. split; [reflexivity|].
      apply Hd. left. apply (draft_annotations es Hes _ _ Nf). right. left. exists p, q, v. auto.
    + exists (Ann null_feature (Iv p q 0)). unfold relocated_ann. cbn [afeat aiv]. rewrite Mv. cbn [ip iq ivl]. split; [reflexivity|].
      apply Hd. left. apply (draft_annotations es Hes _ _ Nf). right. right. exists p, q. auto.
    + exists (Ann transaction (Iv staging (staging + token_count starts es - 1) 0)). unfold relocated_ann. cbn [afeat aiv]. rewrite Mv. cbn [ip iq ivl].
      unfold moved. rewrite Z.leb_refl. cbn [fst snd]. split; [f_equal; f_equal; lia|]. apply Hd. right. auto.
Qed.
Lemma occurs_plain f x : f <> chunk -> occurs f x -> plain x.
Proof.
  intros Nf H. apply (batch_occurs f x Nf) in H. unfold batch in H. apply in_map_iff in H. destruct H as ([g y] & E & Hy).
  unfold relocated_ann in E. cbn [afeat aiv] in E. injection E as _ <-.
  pose proof (ready_plain tokenize skip stop starts Laws chunk transaction Hchunk Htrans es Hes w Hw Hw2) as P. rewrite Forall_forall in P. specialize (P _ Hy).
  apply relocated_plain; [unfold token_count in Hw2; lia|exact P].
Qed.

(** Features whose annotations that start together are the same. *)
Theorem stored_answers : forall seq m, ready chunk transaction sort w seq (draft_after tokenize chunk es) = Ok m ->
  forall f, f <> chunk -> (forall x, occurs f x -> finite x) -> (forall x y, occurs f x -> occurs f y -> ip x = ip y -> x = y) ->
  (forall p, find_posting (f_index m) f = Some p -> sound_posting f p) /\
  (forall x, stored_in (f_index m) f x <-> (occurs f x /\ forall y, occurs f y -> nests x y -> y = x)) /\
  exists o, fiver_hopper (f_index m) f = Ok o /\
    answers (projT1 o) (projT2 o) (fun x => occurs f x /\ forall y, occurs f y -> nests x y -> y = x).
Proof.
  intros seq m Hm f Nf Fin Sd.
  destruct (ready_txt tokenize skip stop starts Laws chunk transaction Hchunk Htrans sort Hsort es Hes w Hw Hw2 Hroom seq) as (m' & o & cs & Em & _ & _ & _ & _ & Ps & _ & sorted & Hs & Eix).
  rewrite Hm in Em. injection Em as <-. set (b := batch tokenize chunk transaction es w) in *.
  assert (Vb : Forall (fun a => value_ok (aiv a)) b).
  { pose proof (ready_plain tokenize skip stop starts Laws chunk transaction Hchunk Htrans es Hes w Hw Hw2) as P. rewrite Forall_forall in P.
    apply Forall_forall. intros a Ha. unfold b, batch in Ha. apply in_map_iff in Ha. destruct Ha as (a0 & <- & Ha). unfold value_ok, relocated_ann. cbn [aiv].
    apply (relocated_plain w _ ltac:(unfold token_count in Hw2; lia) (P _ Ha)). }
  destruct (index_ok b sorted Hs Vb) as (ix & E2 & Hix). rewrite Eix in E2. injection E2 as <-.
  assert (Ann_occ : forall x, annotated b f x <-> occurs f x).
  { intros x. unfold annotated, b. rewrite (batch_occurs f x Nf). split; [tauto|]. intros H. split; [exact H|]. apply (occurs_plain f x Nf) in H. destruct H as (A & _). lia. }
  assert (Inn : forall x, innermost_ann b f x <-> (occurs f x /\ forall y, occurs f y -> nests x y -> y = x)).
  { intros x. unfold innermost_ann. rewrite Ann_occ. split; intros [A B]; (split; [exact A|]); intros y Hy; apply B; apply Ann_occ; exact Hy. }
  assert (L : exists l, lst_of f (f_index m) l /\ forall x, In x l <-> innermost_ann b f x).
  { specialize (Hix f). destruct (find_posting (f_index m) f) as [s|] eqn:Ef.
    - destruct Hix as (Fe & l & Hl & _ & _ & HG). 
      destruct (HG (fun x y Hx Hy => Sd x y (proj1 (Ann_occ x) Hx) (proj1 (Ann_occ y) Hy)) (fun x Hx => Fin x (proj1 (Ann_occ x) Hx))) as [G Il].
      exists l. split; [|exact Il]. econstructor; [exact Ef|exact Fe|exact Hl| |exact G|].
      + intros ->. pose proof (build_index_ok (length sorted) sorted [] (proj2 Hs) (Nat.le_refl _)) as (ix2 & E2 & H2).
        rewrite Eix in E2. injection E2 as <-. rewrite H2 in Ef. cbn [find_posting] in Ef.
        destruct (group f sorted) as [|x xs] eqn:Eg; [discriminate|]. injection Ef as <-.
        assert (Hx : In (Ann f x) b) by (apply (Permutation_in _ (Permutation_sym (proj1 Hs))); apply in_group; rewrite Eg; left; reflexivity).
        apply (batch_occurs f x Nf), (occurs_plain f x Nf) in Hx. pose proof (holds_psize _ _ Hl) as Pz. unfold psize, len, group_posting in Pz. cbn [postings keep length] in Pz.
        unfold valid in Pz. destruct Hx as (Hx & _). replace (ip x <=? iq x) with true in Pz by lia. cbn [map length] in Pz. lia.
      + apply Forall_forall. intros x Hx. apply Il in Hx. destruct Hx as [[Hx _] _]. rewrite Forall_forall in Vb. exact (Vb _ Hx).
    - exists []. split; [constructor; exact Ef|]. intros x. split; [intros []|]. intros [[K _] _]. exact (Hix x K). }
  destruct L as (l & Hl & Il). split; [|split].
  - intros p Hp. inversion Hl as [E|p' l' E Fe Hh Nl Gd Vl]; [congruence|]. rewrite E in Hp. injection Hp as <-. split; [exact Fe|]. exists l. auto.
  - intros x. rewrite (lst_stored _ _ _ Hl x). unfold set_of. rewrite Il. apply Inn.
  - assert (Ln : Z.of_nat (length l) <= max_len).
    { inversion Hl as [E|p' l' E Fe Hh Nl Gd Vl]; [cbn; unfold max_len; lia|]. specialize (Ps f p' E). rewrite (holds_psize _ _ Hh) in Ps. exact Ps. }
    destruct (fiver_hopper_lst f _ l Hl Ln) as (o2 & Eo & Ao). exists o2. split; [exact Eo|]. refine (answers_eqs _ _ _ _ _ Ao).
    intros x. unfold set_of. rewrite Il. apply Inn.
Qed.

(** A feature of tokens only: exactly the places of the tokens. *)
Theorem search_answers : forall seq m, ready chunk transaction sort w seq (draft_after tokenize chunk es) = Ok m ->
  forall f, null_feature < f -> f <> chunk -> f <> transaction -> (forall p q v, ~ In (Annotate f p q v) es) ->
  exists o, fiver_hopper (f_index m) f = Ok o /\
    answers (projT1 o) (projT2 o) (fun x => exists es1 t es2 tok a, es = es1 ++ Append t :: es2 /\ In tok (tokenize t) /\ t_feature tok = f /\
      a = w + token_count starts es1 + t_address tok /\ x = Iv a a 0).
Proof.
  intros seq m Hm f Pf Nc Nt Na.
  assert (Occ : forall x, occurs f x <-> exists es1 t es2 tok a, es = es1 ++ Append t :: es2 /\ In tok (tokenize t) /\ t_feature tok = f /\
      a = w + token_count starts es1 + t_address tok /\ x = Iv a a 0).
  { intros x. split.
    - intros H. inversion H as [es1 t es2 tok E K1 K2 Ef Ex|g p q v K1 K2 Ef Ex|p q K1 Ef Ex|K1 K2 Ef Ex]; subst.
      + exists es1, t, es2, tok. eexists. split; [reflexivity|]. auto.
      + exfalso. exact (Na _ _ _ K1).
      + lia.
      + contradiction.
    - intros (es1 & t & es2 & tok & a & E & K1 & <- & -> & ->). apply (Occurs_token tokenize starts transaction es w es1 t es2 tok E K1 Pf). }
  assert (Pt : forall x, occurs f x -> ip x = iq x /\ ivl x = 0).
  { intros x Hx. apply Occ in Hx. destruct Hx as (es1 & t & es2 & tok & a & _ & _ & _ & _ & ->). auto. }
  assert (Fin : forall x, occurs f x -> finite x).
  { intros x Hx. pose proof (Pt x Hx) as [P1 _]. apply Occ in Hx. destruct Hx as (es1 & t & es2 & tok & a & E & K1 & _ & Ea & Ex).
    assert (Ht : edit_ok tokenize stop chunk (Append t)) by (rewrite Forall_forall in Hes; apply Hes; rewrite E; apply in_or_app; right; left; reflexivity).
    pose proof (tokens_at_in _ _ _ (law_tokenize _ _ _ _ Laws t) tok K1) as [Kt _].
    assert (H1 : Forall (edit_ok tokenize stop chunk) es1) by (rewrite E in Hes; apply Forall_app in Hes; apply Hes).
    assert (Lc : token_count starts es1 + Z.of_nat (length (starts t)) <= token_count starts es).
    { rewrite (full_count es1 H1), (full_count es Hes), E, texts_app, map_app, concat_app. cbn [texts flat_map app map concat].
      rewrite (starts_app starts) by (apply (concat_afresh tokenize skip stop starts Laws), (texts_end tokenize stop chunk); exact H1).
      rewrite (starts_app starts) by (apply (closed_afresh tokenize skip stop starts Laws), Ht).
      rewrite (closed_starts tokenize skip stop starts Laws _ (proj1 Ht)), !app_length, !map_length, !app_length. lia. }
    subst x. unfold finite, minf, maxf, staging, token_count in *. cbn [ip iq]. lia. }
  assert (Sd : forall x y, occurs f x -> occurs f y -> ip x = ip y -> x = y).
  { intros x y Hx Hy E. destruct (Pt x Hx), (Pt y Hy). destruct x as [xp xq xv], y as [yp yq yv]. cbn [ip iq ivl] in *. congruence. }
  destruct (stored_answers seq m Hm f Nc Fin Sd) as (_ & _ & o & Eo & Ao). exists o. split; [exact Eo|]. refine (answers_eqs _ _ _ _ _ Ao).
  intros x. rewrite <- Occ. split; [tauto|]. intros Hx. split; [exact Hx|]. intros y Hy [N1 N2]. destruct (Pt x Hx), (Pt y Hy). destruct x as [xp xq xv], y as [yp yq yv]. cbn [ip iq ivl] in *. f_equal; lia.
Qed.
End Index.
