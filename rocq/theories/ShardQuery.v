(** Queries over shards: a tree's answers depend only on its terms, and background
    merging changes none of them. *)
From Verif Require Import Base Bytes HopperModel GclSpec VectorModel QueryModel QuerySpec QueryProofs
  ShardModel ShardSpec ShardProofs.

(** The terms of a query tree. *)
Fixpoint terms (e : sexpr) : list bytes :=
  let (k, t, w, xs) := e in match k with TERM => [t] | _ => flat_map terms xs end.

Definition tree_terms (k : op) (t : bytes) (ts : list (list bytes)) : list bytes :=
  match k with TERM => [t] | _ => concat ts end.
Lemma terms_eq k t w xs : terms (SX k t w xs) = tree_terms k t (map terms xs).
Proof. destruct k; cbn [terms tree_terms]; rewrite ?flat_map_concat_map; reflexivity. Qed.
Lemma terms_sub k t w xs x u : In x xs -> k <> TERM -> In u (terms x) -> In u (terms (SX k t w xs)).
Proof.
  intros Hx Nk Hu. rewrite terms_eq. destruct k; [congruence|..]; cbn [tree_terms]; apply in_concat; exists (terms x);
    (split; [apply in_map, Hx|exact Hu]).
Qed.

Section Ext.
Context (idx jdx : bytes -> hobj).
Lemma node_ext k t w hs : (k = TERM -> idx t = jdx t) -> node_hopper idx k t w hs = node_hopper jdx k t w hs.
Proof. intros H. destruct k; try reflexivity. cbn. rewrite H; reflexivity. Qed.
Lemma bin_hopper_ext : forall e, (forall t, In t (terms e) -> idx t = jdx t) -> bin_hopper idx e = bin_hopper jdx e.
Proof.
  induction e as [k t w xs IH] using sexpr_ind'. intros H. cbn [bin_hopper].
  assert (D : k = TERM \/ k <> TERM) by (destruct k; auto; right; discriminate). destruct D as [->|Nk].
  - cbn. rewrite (H t); [reflexivity|]. left. reflexivity.
  - replace (map (bin_hopper idx) xs) with (map (bin_hopper jdx) xs); [apply node_ext; congruence|].
    apply map_ext_in. intros x Hx. rewrite Forall_forall in IH. symmetry. apply IH; [exact Hx|].
    intros u Hu. apply H. apply (terms_sub k t w xs x u Hx Nk Hu).
Qed.
Lemma nest_left_terms k t w : k <> TERM -> forall ys e u, In u (terms (nest_left k t w e ys)) ->
  In u (terms e) \/ exists y, In y ys /\ In u (terms y).
Proof.
  intros Nk. induction ys as [|y ys IH]; intros e u Hu; cbn [nest_left] in Hu; [left; exact Hu|].
  destruct (IH _ _ Hu) as [K|(z & Hz & Kz)].
  - rewrite terms_eq in K. assert (K' : In u (terms e) \/ In u (terms y)).
    { destruct k; try congruence; cbn in K; rewrite app_nil_r in K; apply in_app_iff in K; exact K. }
    destruct K'; [left; assumption|right; exists y; split; [left; reflexivity|assumption]].
  - right. exists z. split; [right; exact Hz|exact Kz].
Qed.
Lemma nest_left_term t w : forall ys e u, ys <> [] -> In u (terms (nest_left TERM t w e ys)) -> u = t.
Proof.
  induction ys as [|y ys IH]; intros e u N Hu; [congruence|]. cbn [nest_left] in Hu.
  destruct ys as [|z ys]; [cbn in Hu; destruct Hu as [->|[]]; reflexivity|]. apply (IH (SX TERM t w [e; y]) u); [discriminate|exact Hu].
Qed.
Lemma to_binary_terms : forall e u, In u (terms (to_binary e)) -> In u (terms e).
Proof.
  induction e as [k t w xs IH] using sexpr_ind'. intros u Hu. cbn [to_binary] in Hu.
  assert (D : k = TERM \/ k <> TERM) by (destruct k; auto; right; discriminate).
  assert (S1 : forall y, In y (map to_binary xs) -> In u (terms y) -> k <> TERM -> In u (terms (SX k t w xs))).
  { intros y Hy Ku Nk. apply in_map_iff in Hy. destruct Hy as (x & <- & Hx). rewrite Forall_forall in IH.
    apply (terms_sub k t w xs x u Hx Nk). apply IH; assumption. }
  destruct D as [->|Nk].
  - left. cbn in *. destruct (map to_binary xs) as [|x [|y r]]; [cbn in Hu; destruct Hu as [<-|[]]; reflexivity..|].
    destruct r as [|z r]; [cbn in Hu; destruct Hu as [<-|[]]; reflexivity|].
    symmetry. apply (nest_left_term t w (z :: r) (SX TERM t w [x; y])); [discriminate|exact Hu].
  - destruct (map to_binary xs) as [|x [|y r]] eqn:E.
    + rewrite terms_eq in Hu. destruct k; try congruence; cbn in Hu; contradiction.
    + apply (S1 x); [left; reflexivity| |exact Nk]. rewrite terms_eq in Hu.
      destruct k; try congruence; cbn in Hu; rewrite app_nil_r in Hu; exact Hu.
    + destruct (nest_left_terms k t w Nk r _ u Hu) as [K|(z & Hz & Kz)].
      * rewrite terms_eq in K. assert (K' : In u (terms x) \/ In u (terms y)).
        { destruct k; try congruence; cbn in K; rewrite app_nil_r in K; apply in_app_iff in K; exact K. }
        destruct K' as [K'|K']; [apply (S1 x)|apply (S1 y)]; auto; [left; reflexivity|right; left; reflexivity].
      * apply (S1 z); auto. right; right; exact Hz.
Qed.
Lemma to_hopper_ext : forall e, (forall t, In t (terms e) -> idx t = jdx t) -> to_hopper idx e = to_hopper jdx e.
Proof.
  induction e as [k t w xs IH] using sexpr_ind'. intros H. cbn [to_hopper]. destruct (is_nary k xs) eqn:En.
  - apply bin_hopper_ext. intros u Hu. apply H. apply to_binary_terms, Hu.
  - assert (D : k = TERM \/ k <> TERM) by (destruct k; auto; right; discriminate). destruct D as [->|Nk].
    + cbn. rewrite (H t); [reflexivity|]. left. reflexivity.
    + replace (map (to_hopper idx) xs) with (map (to_hopper jdx) xs); [apply node_ext; congruence|].
      apply map_ext_in. intros x Hx. rewrite Forall_forall in IH. symmetry. apply IH; [exact Hx|].
      intros u Hu. apply H. apply (terms_sub k t w xs x u Hx Nk Hu).
Qed.
End Ext.

Section ExtMeaning.
Context (E F : bytes -> iv -> Prop).
Lemma meaning_ext : forall e, (forall t, In t (terms e) -> E t = F t) -> meaning E e = meaning F e.
Proof.
  induction e as [k t w xs IH] using sexpr_ind'. intros H.
  assert (D : k = TERM \/ k <> TERM) by (destruct k; auto; right; discriminate). destruct D as [->|Nk].
  - cbn. apply H. left. reflexivity.
  - cbn [meaning]. replace (map (meaning F) xs) with (map (meaning E) xs); [destruct k; congruence|].
    apply map_ext_in. intros x Hx. rewrite Forall_forall in IH. apply IH; [exact Hx|].
    intros u Hu. apply H. apply (terms_sub k t w xs x u Hx Nk Hu).
Qed.
Lemma valid_ext : forall e, (forall t, In t (terms e) -> E t = F t) -> valid E e -> valid F e.
Proof.
  induction e as [k t w xs IH] using sexpr_ind'. intros H V.
  assert (K : k <> TERM -> forall x, In x xs -> meaning E x = meaning F x /\ (valid E x -> valid F x)).
  { intros Nk x Hx. rewrite Forall_forall in IH. split; [apply meaning_ext|apply IH; [exact Hx|]];
      intros u Hu; apply H; apply (terms_sub k t w xs x u Hx Nk Hu). }
  inversion V as [t0|w0 H1|x H1 H2|x H1 H2|k0 xs0 H1 H2 H3|k0 xs0 H1 H2 H3]; subst.
  - constructor.
  - constructor. assumption.
  - destruct (K ltac:(discriminate) x (or_introl eq_refl)) as [K1 K2]. constructor; [auto|]. rewrite <- K1. assumption.
  - destruct (K ltac:(discriminate) x (or_introl eq_refl)) as [K1 K2]. constructor; [auto|]. rewrite <- K1. assumption.
  - apply valid_comb; auto. rewrite Forall_forall in H3 |- *. intros x Hx.
    apply K; auto. intros ->. intuition discriminate.
  - apply valid_cont; auto. rewrite Forall_forall in H3 |- *. intros x Hx.
    apply K; auto. intros ->. intuition discriminate.
Qed.
End ExtMeaning.

(** A tree is answered correctly by an index that answers its terms correctly. *)
Lemma to_hopper_terms idx E e : (forall t, In t (terms e) -> answers (projT1 (idx t)) (projT2 (idx t)) (E t)) ->
  valid E e -> good (to_hopper idx e) (meaning E e).
Proof.
  intros H V.
  set (jdx := fun t => if in_dec (list_eq_dec Z.eq_dec) t (terms e) then idx t else empty_obj).
  set (F := fun t => if in_dec (list_eq_dec Z.eq_dec) t (terms e) then E t else set_of []).
  assert (Hi : forall t, In t (terms e) -> idx t = jdx t).
  { intros t Ht. unfold jdx. destruct (in_dec (list_eq_dec Z.eq_dec) t (terms e)); [reflexivity|contradiction]. }
  assert (He : forall t, In t (terms e) -> E t = F t).
  { intros t Ht. unfold F. destruct (in_dec (list_eq_dec Z.eq_dec) t (terms e)); [reflexivity|contradiction]. }
  rewrite (to_hopper_ext idx jdx e Hi), (meaning_ext E F e He). apply to_hopper_good.
  - intros t. unfold jdx, F. destruct (in_dec (list_eq_dec Z.eq_dec) t (terms e)); [auto|]. apply empty_obj_ok; intros x; cbn; tauto.
  - apply (valid_ext E F e He V).
Qed.

(** C17 for whole queries: [feat] is the featurizer. *)
Theorem merging_queries : forall sort chunk ws ws', merge_steps sort chunk ws ws' -> null_feature <> chunk ->
  Forall (sound chunk) (ixs ws) -> room (ixs ws) null_feature -> erasures_apart (ixs ws) ->
  forall (feat : bytes -> Z) e,
  (forall t, In t (terms e) -> feat t <> chunk /\ feat t <> null_feature /\ room (ixs ws) (feat t) /\ no_straddle (ixs ws) (feat t)) ->
  valid (fun t => visible (ixs ws) (feat t)) e ->
  forall idx idx',
  (forall t, In t (terms e) -> bigwig_hopper (ixs ws) (feat t) = Ok (idx t) /\ bigwig_hopper (ixs ws') (feat t) = Ok (idx' t)) ->
  exists o o', to_hopper idx e = Some o /\ to_hopper idx' e = Some o' /\
    answers (projT1 o) (projT2 o) (meaning (fun t => visible (ixs ws) (feat t)) e) /\
    forall h, Forall (fun mk => minf <= snd mk <= maxf) h ->
      run (projT1 o) (projT2 o) h = run (projT1 o') (projT2 o') h.
Proof.
  intros sort chunk ws ws' H N S Rn Ap feat e He V idx idx' Hi.
  assert (K : forall t, In t (terms e) ->
            answers (projT1 (idx t)) (projT2 (idx t)) (visible (ixs ws) (feat t)) /\
            answers (projT1 (idx' t)) (projT2 (idx' t)) (visible (ixs ws) (feat t))).
  { intros t Ht. destruct (He t Ht) as (Nf & Nn & Rf & Ns). destruct (Hi t Ht) as [E1 E2].
    destruct (merging_invisible sort chunk ws ws' H N S Rn Ap (feat t) Nf Nn Rf Ns) as (o & o' & D1 & D2 & A1 & A2 & _).
    rewrite E1 in D1. rewrite E2 in D2. inversion D1; inversion D2; subst. auto. }
  destruct (to_hopper_terms idx (fun t => visible (ixs ws) (feat t)) e (fun t Ht => proj1 (K t Ht)) V) as (o & E1 & A1).
  destruct (to_hopper_terms idx' (fun t => visible (ixs ws) (feat t)) e (fun t Ht => proj2 (K t Ht)) V) as (o' & E2 & A2).
  exists o, o'. split; [exact E1|]. split; [exact E2|]. split; [exact A1|].
  intros h Hh. exact (same_runs _ _ _ _ _ A1 A2 h Hh).
Qed.
