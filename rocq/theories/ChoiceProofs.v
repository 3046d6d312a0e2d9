(** Proofs about the choice of ranking statistics. *)
From Verif Require Import Base Bytes RecipeModel MakeModel JsonTxtModel OpenModel ChoiceModel ChoiceSpec.

Ltac beq := repeat match goal with
  | H : eqb_bytes _ _ = true |- _ => apply eqb_bytes_eq in H; subst
  | H : eqb_bytes _ _ = false |- _ => apply eqb_bytes_neq in H
  | H : (_ || _)%bool = true |- _ => apply orb_prop in H; destruct H
  | H : (_ || _)%bool = false |- _ => apply orb_false_elim in H; destruct H
  | H : negb _ = true |- _ => apply negb_true_iff in H
  | H : negb _ = false |- _ => apply negb_false_iff in H
  end.

Lemma meadow_is w : is_meadow w = true <-> meadow w.
Proof.
  unfold is_meadow, meadow, k_format, n_meadowlark. destruct (w_param w (lit "format")) as [v|]; [|split; discriminate].
  rewrite eqb_bytes_eq. split; congruence.
Qed.
Lemma meadow_not w : is_meadow w = false <-> ~ meadow w.
Proof. rewrite <- meadow_is. destruct (is_meadow w); split; congruence. Qed.

Lemma idf_made r w s : idf_make r w = Some s -> r = [] /\ s = bare KIdf /\ w_avgl w = true.
Proof. unfold idf_make. destruct (eqb_bytes r []) eqn:E; cbn; [|discriminate]. destruct (w_avgl w); [|discriminate]. intros H; injection H as <-. beq. auto. Qed.
Lemma df_made r w s : df_make r w = Some s -> r = [] /\ s = bare KDf /\ content_hopper w <> None /\ 1 <= fst (w_total w) /\ 1 <= snd (w_total w).
Proof.
  unfold df_make. destruct (eqb_bytes r []) eqn:E; cbn [negb]; [|discriminate]. destruct (content_hopper w); [|discriminate].
  destruct (fst (w_total w) <? 1) eqn:A; [discriminate|]. destruct (snd (w_total w) <? 1) eqn:B; [discriminate|].
  intros H; injection H as <-. beq. apply Z.ltb_ge in A, B. repeat split; try congruence; assumption.
Qed.
Lemma field_made r w s : field_make r w = Some s -> r = [] /\ s = bare KField /\ content_hopper w <> None /\ w_fields w = true.
Proof.
  unfold field_make. destruct (eqb_bytes r []) eqn:E; cbn [negb]; [|discriminate]. destruct (content_hopper w); [|discriminate].
  destruct (w_fields w) eqn:F; [|discriminate]. intros H; injection H as <-. beq. repeat split; congruence.
Qed.
(** What the metadata of a tag says. *)
Definition tagged_as (w : warren) (tag : bytes) (ps : params) : Prop := w_meta w tag = Some (n_tfidf, tag, ps).
Lemma tfidf_made r w s : tfidf_make r w = Ok (Some s) ->
  exists ps st t, tagged_as w r ps /\ get k_gcl ps = Some (s_content s) /\ w_gcl w (s_content s) <> None /\ w_gcl w (s_container s) <> None /\
    s_container s = found k_container (lit ":") ps /\ s_id s = found k_id (lit ":0:") ps /\
    stem_make (found k_stemmer n_porter ps) = Some st /\ s_stemmer s = Some st /\
    tok_make (found k_tokenizer n_ascii ps) [] = Ok (Some t) /\ s_tokenizer s = Some t /\ s_kind s = KTfIdf /\ s_recipe s = r /\
    1 <= fst (w_tagged w r) /\ 1 <= snd (w_tagged w r).
Proof.
  unfold tfidf_make. destruct (w_meta w r) as [[[name tag] ps]|] eqn:M; [|discriminate].
  destruct (negb (eqb_bytes name n_tfidf) || negb (eqb_bytes tag r))%bool eqn:N; [discriminate|].
  destruct (get k_gcl ps) as [content|] eqn:G; [|discriminate].
  destruct (w_gcl w content) eqn:H1; [|discriminate].
  destruct (w_gcl w (found k_container (lit ":") ps)) eqn:H2; [|discriminate].
  destruct (stem_make (found k_stemmer n_porter ps)) as [st|] eqn:S; [|discriminate].
  destruct (tok_make (found k_tokenizer n_ascii ps) []) as [[t|]| |] eqn:T; cbn [bind]; try discriminate.
  destruct (fst (w_tagged w r) <? 1) eqn:A; [discriminate|]. destruct (snd (w_tagged w r) <? 1) eqn:B; [discriminate|].
  intros H; injection H as <-. beq. apply Z.ltb_ge in A, B. exists ps, st, t. cbn [s_content s_container s_id s_stemmer s_tokenizer s_kind s_recipe]. unfold tagged_as.
  repeat split; try congruence; try assumption. intros X. pose proof (eq_trans (eq_sym H2) X). discriminate.
Qed.

Lemma completed nd name w s s' : complete nd name w s = Ok (Some s') ->
  s_kind s' = s_kind s /\ s_name s' = name /\ s_recipe s' = s_recipe s /\ s_id s' = s_id s /\ s_content s' = s_content s /\
  s_container s' = s_container s /\
  s_stemmer s' = match s_stemmer s with Some x => Some x | None => match w_stemmer w with Some x => Some x | None => Some NoStem end end /\
  match s_tokenizer s with Some t => s_tokenizer s' = Some t | None => if nd then s_tokenizer s' = None else s_tokenizer s' = w_tokenizer w /\ w_tokenizer w <> None end.
Proof.
  unfold complete. change (stem_make []) with (Some NoStem). intros H.
  destruct (s_stemmer s) as [x|] eqn:S, (w_stemmer w) as [y|] eqn:W, (s_tokenizer s) as [t|] eqn:T, nd, (w_tokenizer w) as [u|] eqn:U;
    cbn in H; try discriminate; injection H as <-; cbn; repeat split; congruence.
Qed.
Lemma called_made nd name r w s : make_called nd name r w = Ok (Some s) ->
  s_name s = name /\ s_recipe s = r /\ called (s_kind s) name /\
  ((meadow w /\ exists s0, tfidf_make r w = Ok (Some s0) /\ complete nd name w s0 = Ok (Some s)) \/
   ~ meadow w /\ r = [] /\ complete nd name w (bare (s_kind s)) = Ok (Some s) /\
     holds w (s_kind s)).
Proof.
  unfold make_called. destruct (is_meadow w) eqn:M.
  - apply meadow_is in M. destruct (eqb_bytes name n_tfidf) eqn:N; [|cbn; discriminate].
    destruct (tfidf_make r w) as [[s0|]| |] eqn:T; cbn [bind]; try discriminate. intros H. beq.
    destruct (tfidf_made _ _ _ T) as (ps & st & t & _ & _ & _ & _ & _ & _ & _ & _ & _ & _ & K & R & _).
    destruct (completed _ _ _ _ _ H) as (K' & N' & R' & _). rewrite K', K, R', N'.
    split; [reflexivity|]. split; [assumption|]. split; [constructor|]. left. split; [assumption|]. exists s0. auto.
  - apply meadow_not in M.
    destruct (eqb_bytes name n_idf) eqn:N1; [|destruct (eqb_bytes name n_df || eqb_bytes name n_tf)%bool eqn:N2; [|destruct (eqb_bytes name n_field) eqn:N3]].
    + destruct (idf_make r w) as [s0|] eqn:T; cbn [bind]; [|discriminate]. intros H.
      destruct (idf_made _ _ _ T) as (-> & -> & A). destruct (completed _ _ _ _ _ H) as (K' & N' & R' & _). cbn in K', R'. rewrite K', R', N'.
      beq. split; [reflexivity|]. split; [reflexivity|]. split; [constructor|]. right. auto.
    + destruct (df_make r w) as [s0|] eqn:T; cbn [bind]; [|discriminate]. intros H.
      destruct (df_made _ _ _ T) as (-> & -> & A). destruct (completed _ _ _ _ _ H) as (K' & N' & R' & _). cbn in K', R'. rewrite K', R', N'.
      split; [reflexivity|]. split; [reflexivity|]. split; [beq; constructor|]. right. auto.
    + destruct (field_make r w) as [s0|] eqn:T; cbn [bind]; [|discriminate]. intros H.
      destruct (field_made _ _ _ T) as (-> & -> & A). destruct (completed _ _ _ _ _ H) as (K' & N' & R' & _). cbn in K', R'. rewrite K', R', N'.
      split; [reflexivity|]. split; [reflexivity|]. split; [beq; constructor|]. right. auto.
    + cbn. discriminate.
Qed.

Lemma value_some w k v : w_param w k = Some v -> value w k = v.
Proof. unfold value. intros ->. reflexivity. Qed.
Lemma any_made nd w s : make_any nd w = Ok (Some s) -> exists name, declared w name /\ make_called nd name [] w = Ok (Some s).
Proof.
  unfold make_any. destruct (is_meadow w) eqn:M.
  - apply meadow_is in M. intros H. exists (lit "tf-idf"). split; [constructor; assumption|assumption].
  - apply meadow_not in M. unfold k_statistics, k_container.
    destruct (w_param w (lit "statistics")) as [v|] eqn:V; [|discriminate].
    destruct (eqb_bytes v []) eqn:E.
    + destruct (w_param w (lit "container")) as [c|] eqn:C; [|discriminate]. destruct (eqb_bytes c []) eqn:D; [discriminate|].
      intros H. exists (lit "idf"). beq. split; [|assumption]. apply declared_container; [assumption|apply value_some; assumption|].
      rewrite (value_some _ _ _ C). assumption.
    + intros H. exists v. beq. split; [|assumption]. rewrite <- (value_some _ _ _ V) at 1. apply declared_name; [assumption|].
      rewrite (value_some _ _ _ V). assumption.
Qed.
Lemma any_of nd w name : readable w -> declared w name -> make_any nd w = make_called nd name [] w.
Proof.
  intros R D. unfold make_any. destruct D as [M|M N|M N C].
  - apply meadow_is in M. rewrite M. reflexivity.
  - apply meadow_not in M. rewrite M. unfold k_statistics, value in *. destruct (w_param w (lit "statistics")) as [v|]; [|congruence].
    apply eqb_bytes_neq in N. rewrite N. reflexivity.
  - apply meadow_not in M. rewrite M. unfold k_statistics, k_container, value in *.
    destruct (w_param w (lit "statistics")) as [v|] eqn:V; [|exfalso; exact (R _ V)]. rewrite N. cbn [eqb_bytes].
    destruct (w_param w (lit "container")) as [c|]; [|congruence]. apply eqb_bytes_neq in C. rewrite C. reflexivity.
Qed.
Lemma none_declared nd w : (forall name, ~ declared w name) -> make_any nd w = Ok None.
Proof.
  intros D. destruct (make_any nd w) as [[s|]| |] eqn:A; try reflexivity.
  - destruct (any_made _ _ _ A) as (name & H & _). destruct (D _ H).
  - exfalso. unfold make_any in A. destruct (is_meadow w) eqn:M; [apply meadow_is in M; exact (D _ (declared_meadow _ M))|].
    apply meadow_not in M. unfold k_statistics, k_container in A.
    destruct (w_param w (lit "statistics")) as [v|] eqn:V; [|discriminate]. apply value_some in V. destruct (eqb_bytes v []) eqn:E; beq.
    + destruct (w_param w (lit "container")) as [c|] eqn:C; [|discriminate]. apply value_some in C. destruct (eqb_bytes c []) eqn:F; [discriminate|]. beq.
      apply (D (lit "idf")). apply declared_container; congruence.
    + apply (D (value w (lit "statistics"))). apply declared_name; [assumption|congruence].
  - exfalso. unfold make_any in A. destruct (is_meadow w) eqn:M; [apply meadow_is in M; exact (D _ (declared_meadow _ M))|].
    apply meadow_not in M. unfold k_statistics, k_container in A.
    destruct (w_param w (lit "statistics")) as [v|] eqn:V; [|discriminate]. apply value_some in V. destruct (eqb_bytes v []) eqn:E; beq.
    + destruct (w_param w (lit "container")) as [c|] eqn:C; [|discriminate]. apply value_some in C. destruct (eqb_bytes c []) eqn:F; [discriminate|]. beq.
      apply (D (lit "idf")). apply declared_container; congruence.
    + apply (D (value w (lit "statistics"))). apply declared_name; [assumption|congruence].
Qed.

(** The whole of Stats::make comes down to a name that is not empty. *)
Lemma made_called nd name r w s : stats_make nd name r w = Ok (Some s) ->
  exists name' r', make_called nd name' r' w = Ok (Some s) /\
    (name <> [] -> name' = name /\ r' = r) /\ (name = [] -> declared w name' /\ r' = []).
Proof.
  unfold stats_make. destruct (eqb_bytes name []) eqn:E; intros H; beq.
  - destruct (any_made _ _ _ H) as (n & D & C). exists n, []. split; [assumption|]. split; [congruence|auto].
  - exists name, r. split; [assumption|]. split; [auto|congruence].
Qed.
Theorem chosen nd name r w s : stats_make nd name r w = Ok (Some s) ->
  called (s_kind s) (s_name s) /\ (s_kind s = KTfIdf <-> meadow w) /\
  (name <> [] -> s_name s = name /\ s_recipe s = r) /\ (name = [] -> declared w (s_name s) /\ s_recipe s = []).
Proof.
  intros H. destruct (made_called _ _ _ _ _ H) as (n & r' & C & A & B). destruct (called_made _ _ _ _ _ C) as (N & R & K & X).
  split; [rewrite N; assumption|]. split; [|split; intros E].
  - destruct X as [(M & s0 & T & C')|(M & _ & C' & X)].
    + destruct (tfidf_made _ _ _ T) as (ps & st & t & _ & _ & _ & _ & _ & _ & _ & _ & _ & _ & K' & _).
      destruct (completed _ _ _ _ _ C') as (K2 & _). rewrite K2. tauto.
    + split; [|tauto]. intros E. rewrite E in X. destruct X.
  - destruct (A E) as (-> & ->). auto.
  - destruct (B E) as (D & ->). rewrite N. auto.
Qed.
Theorem undeclared nd r w : (forall name, ~ declared w name) -> stats_make nd [] r w = Ok None.
Proof. intros D. apply none_declared. assumption. Qed.
Theorem as_declared nd r w name : readable w -> declared w name -> stats_make nd [] r w = stats_make nd name [] w.
Proof.
  intros R D. change (stats_make nd [] r w) with (make_any nd w). rewrite (any_of _ _ _ R D). unfold stats_make.
  assert (N : eqb_bytes name [] = false) by (apply eqb_bytes_neq; destruct D; [discriminate|assumption|discriminate]). rewrite N. reflexivity.
Qed.
Theorem checked nd name r w s : stats_make nd name r w = Ok (Some s) -> stats_check name r = true.
Proof.
  intros H. destruct (eqb_bytes name []) eqn:E; [beq; reflexivity|]. beq.
  destruct (made_called _ _ _ _ _ H) as (n & r' & C & A & _). destruct (A E) as (-> & ->).
  destruct (called_made _ _ _ _ _ C) as (_ & _ & K & X).
  destruct K; try reflexivity; destruct X as [(M & s0 & T & C')|(_ & -> & _)]; try reflexivity;
    exfalso; unfold make_called in C; apply meadow_is in M; rewrite M in C; cbn in C; discriminate.
Qed.

(** The items to rank. *)
Lemma content_is w : readable w -> content_hopper w = items_of w.
Proof.
  intros R. unfold content_hopper, items_of, solutions, value, k_content, k_container.
  destruct (w_param w (lit "content")) as [q|] eqn:C; [|exfalso; exact (R _ C)].
  destruct (w_param w (lit "container")) as [c|] eqn:D; [|exfalso; exact (R _ D)].
  destruct q; [|reflexivity]. cbn. destruct c; [|reflexivity]. cbn. destruct (w_default w); reflexivity.
Qed.
Lemma container_is s w : readable w -> s_kind s <> KTfIdf -> container_hopper s w = Ok (or_none (containers_of w)).
Proof.
  intros R K. unfold container_hopper, containers_of, solutions, value, k_container.
  destruct (w_param w (lit "container")) as [c|] eqn:D; [|exfalso; exact (R _ D)].
  destruct (s_kind s); try congruence; (destruct c; [cbn; destruct (w_default w); cbn; [reflexivity|]|cbn]; destruct (w_gcl w _); reflexivity).
Qed.
Theorem items nd name r w s : readable w -> ~ meadow w -> stats_make nd name r w = Ok (Some s) ->
  content_hopper w = items_of w /\ container_hopper s w = Ok (or_none (containers_of w)) /\
  (s_kind s = KIdf \/ exists l, items_of w = Some l /\ tf_items s w = Ok (Some l)).
Proof.
  intros R M H. destruct (chosen _ _ _ _ _ H) as (_ & K & _). split; [apply content_is; assumption|].
  split; [apply container_is; [assumption|tauto]|].
  destruct (made_called _ _ _ _ _ H) as (n & r' & C & _). destruct (called_made _ _ _ _ _ C) as (_ & _ & _ & [(M' & _)|(_ & _ & _ & X)]); [tauto|].
  rewrite <- (content_is _ R). unfold tf_items. destruct (s_kind s); [left; reflexivity|right|right|destruct X];
    destruct X as (X & _); destruct (content_hopper w) as [l|]; try congruence; exists l; auto.
Qed.
Theorem held nd name r w s : ~ meadow w -> stats_make nd name r w = Ok (Some s) -> holds w (s_kind s).
Proof.
  intros M H. destruct (made_called _ _ _ _ _ H) as (n & r' & C & _).
  destruct (called_made _ _ _ _ _ C) as (_ & _ & _ & [(M' & _)|(_ & _ & _ & X)]); [tauto|assumption].
Qed.
Theorem identifiers nd name r w s : readable w -> ~ meadow w -> stats_make nd name r w = Ok (Some s) ->
  id_hopper s w = Ok (or_none (w_gcl w (value w (lit "id")))).
Proof.
  intros R M H. destruct (chosen _ _ _ _ _ H) as (_ & K & _). unfold id_hopper, value, k_id.
  destruct (w_param w (lit "id")) as [q|] eqn:D; [|exfalso; exact (R _ D)].
  destruct (s_kind s); try tauto; destruct (w_gcl w q); reflexivity.
Qed.
(** For a meadow, what the metadata says. *)
Theorem meadow_items nd name r w s : meadow w -> stats_make nd name r w = Ok (Some s) ->
  exists ps q l l', w_meta w (s_recipe s) = Some (lit "tf-idf", s_recipe s, ps) /\
    get (lit "gcl") ps = Some q /\ w_gcl w q = Some l /\ tf_items s w = Ok (Some l) /\
    w_gcl w (found (lit "container") (lit ":") ps) = Some l' /\ container_hopper s w = Ok l' /\
    s_stemmer s = stem_make (found (lit "stemmer") (lit "porter") ps) /\
    Ok (s_tokenizer s) = tok_make (found (lit "tokenizer") (lit "ascii") ps) [] /\ s_tokenizer s <> None /\
    1 <= fst (w_tagged w (s_recipe s)) /\ 1 <= snd (w_tagged w (s_recipe s)) /\
    forall ids, w_gcl w (found (lit "id") (lit ":0:") ps) = Some ids -> id_hopper s w = Ok ids.
Proof.
  intros M H. destruct (made_called _ _ _ _ _ H) as (n & r' & C & _). destruct (called_made _ _ _ _ _ C) as (_ & R & _ & [(_ & s0 & T & C')|(M' & _)]); [|tauto].
  destruct (tfidf_made _ _ _ T) as (ps & st & t & A1 & A2 & A3 & A4 & A5 & A6 & A7 & A8 & A9 & A10 & A11 & A12 & A13 & A14).
  destruct (completed _ _ _ _ _ C') as (K & _ & _ & I & Q & N & S & U). rewrite A10 in U. rewrite A8 in S. rewrite A11 in K.
  destruct (w_gcl w (s_content s0)) as [l|] eqn:L; [|congruence]. destruct (w_gcl w (s_container s0)) as [l'|] eqn:L'; [|congruence].
  exists ps, (s_content s0), l, l'. unfold tagged_as, n_tfidf in A1. rewrite R. unfold tf_items, container_hopper. rewrite K, Q, N, L, L', S, U.
  assert (A5' : found (lit "container") (lit ":") ps = s_container s0) by (symmetry; exact A5). rewrite A5', L'. assert (A6' : s_id s = found (lit "id") (lit ":0:") ps) by (rewrite I; exact A6).
  repeat (apply conj; [first [reflexivity|assumption|congruence|symmetry; exact A7|symmetry; exact A9]|]).
  intros ids D. unfold id_hopper. rewrite K, A6', D. reflexivity.
Qed.
(** Terms. *)
Theorem terms name r w s : ~ meadow w -> stats_make false name r w = Ok (Some s) ->
  exists t, w_tokenizer w = Some t /\ s_stemmer s = Some (match w_stemmer w with Some x => x | None => NoStem end) /\
    forall split query, query_terms split s query = Ok (split t query).
Proof.
  intros M H. destruct (made_called _ _ _ _ _ H) as (n & r' & C & _). destruct (called_made _ _ _ _ _ C) as (_ & _ & _ & [(M' & _)|(_ & _ & C' & _)]); [tauto|].
  destruct (completed _ _ _ _ _ C') as (_ & _ & _ & _ & _ & _ & S & U). cbn in S, U. destruct U as (U & V).
  destruct (w_tokenizer w) as [t|]; [|congruence]. exists t. split; [reflexivity|]. split; [rewrite S; destruct (w_stemmer w); reflexivity|].
  intros split query. unfold query_terms. rewrite U. reflexivity.
Qed.
Theorem no_terms name r w s : ~ meadow w -> stats_make true name r w = Ok (Some s) ->
  forall split query, query_terms split s query = UB.
Proof.
  intros M H split query. destruct (made_called _ _ _ _ _ H) as (n & r' & C & _). destruct (called_made _ _ _ _ _ C) as (_ & _ & _ & [(M' & _)|(_ & _ & C' & _)]); [tauto|].
  destruct (completed _ _ _ _ _ C') as (_ & _ & _ & _ & _ & _ & _ & U). cbn in U. unfold query_terms. rewrite U. reflexivity.
Qed.
(** Stats can be made whenever there are any. *)
Theorem possible nd name k w : w_tokenizer w <> None -> ~ meadow w -> called k name -> holds w k ->
  exists s, stats_make nd name [] w = Ok (Some s).
Proof.
  intros T M N H. apply meadow_not in M.
  assert (C : forall k, exists s, complete nd name w (bare k) = Ok (Some s)).
  { intros k0. unfold complete. cbn. destruct (w_stemmer w), nd, (w_tokenizer w); try congruence; cbn; eexists; reflexivity. }
  destruct N; unfold holds in H; [rename H into A|destruct H as (A & B & D)|destruct H as (A & B & D)|destruct H as (A & B)|destruct H]; unfold stats_make, make_called; cbn [eqb_bytes]; rewrite M; cbn.
  - unfold idf_make. rewrite A. cbn. apply C.
  - unfold df_make. cbn. destruct (content_hopper w); [|congruence]. apply Z.ltb_ge in B, D. rewrite B, D. cbn. apply C.
  - unfold df_make. cbn. destruct (content_hopper w); [|congruence]. apply Z.ltb_ge in B, D. rewrite B, D. cbn. apply C.
  - unfold field_make. cbn. destruct (content_hopper w); [|congruence]. rewrite B. cbn. apply C.
Qed.
