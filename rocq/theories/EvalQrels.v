(** Files of judgments. *)
From Coq Require Import Reals Lra Permutation Sorted.
From Verif Require Import Base Bytes RecipeModel RankerSpec JsonlSpec EvalModel EvalSpec EvalProofs EvalMed.
From Verif Require RankerProofs RankerText RankerModel.
Local Open Scope R_scope.

Lemma lines_of_ok s ls : file_lines s ls -> lines_of [] s = ls.
Proof.
  assert (K : forall l w r, ~ In 10%Z l -> lines_of w (l ++ r) = lines_of (w ++ l) r).
  { induction l as [|c l IH]; intros w r N; [now rewrite app_nil_r|]. cbn [app lines_of]. destruct (Z.eqb_spec c 10) as [->|D]; [elim N; now left|].
    rewrite IH by (intros I; apply N; now right). now rewrite <- app_assoc. }
  induction 1 as [|l N E|l r ls N F IH].
  - reflexivity.
  - rewrite <- (app_nil_r l) at 1. rewrite K by exact N. cbn. destruct l; [contradiction|reflexivity].
  - rewrite K by exact N. cbn [app lines_of]. change (Z.eqb 10 10) with true. cbv iota. now rewrite IH.
Qed.
(** * Maps of maps *)
Definition inner {A} (m : list (Z * A)) : Prop := StronglySorted Z.lt (map fst m).
Definition maps {A} (m : list (bytes * list (Z * A))) : Prop := a_map m /\ Forall (fun t => inner (snd t)) m.
Definition lookup2 {A} (m : list (bytes * list (Z * A))) (t : bytes) (p : Z) : option A := match get t m with Some x => find p x | None => None end.
Lemma zput_keys {A} p (v : A) m : forall x, In x (map fst (zput p v m)) -> x = p \/ In x (map fst m).
Proof.
  induction m as [|[b y] m IH]; cbn [zput map fst In]; [intros x [->|[]]; auto|]. intros x. destruct (Z.eqb_spec p b) as [->|]; [cbn; intuition|].
  destruct (Z.ltb p b); cbn; [intuition|]. intros [->|I]; [auto|]. apply IH in I. tauto.
Qed.
Lemma zput_inner {A} p (v : A) m : inner m -> inner (zput p v m).
Proof.
  unfold inner. induction m as [|[b y] m IH]; cbn [zput map fst]; intros S; [repeat constructor|]. inversion S as [|? ? S1 S2]; subst.
  destruct (Z.eqb_spec p b) as [->|D]; [exact S|]. destruct (Z.ltb_spec p b) as [L|L]; cbn [map fst].
  - constructor; [exact S|]. constructor; [exact L|]. eapply Forall_impl; [|exact S2]. cbn. intros; lia.
  - constructor; [apply IH, S1|]. apply Forall_forall. intros x X. apply zput_keys in X. destruct X as [->|X]; [lia|]. rewrite Forall_forall in S2. now apply S2.
Qed.
Lemma inner_nodup {A} (m : list (Z * A)) : inner m -> NoDup (map fst m).
Proof. unfold inner. induction 1 as [|x l S IH X]; constructor; auto. intros I. rewrite Forall_forall in X. specialize (X _ I). lia. Qed.
Lemma holds2_lookup {A} (m : list (bytes * list (Z * A))) t p v : maps m -> (holds2 m t p v <-> lookup2 m t p = Some v).
Proof.
  intros [M I]. unfold holds2, lookup2. split.
  - intros (x & X & P). pose proof X as X'. apply (RankerProofs.get_in t x m M) in X. rewrite X. apply find_in; [|exact P]. apply inner_nodup. rewrite Forall_forall in I. apply (I _ X').
  - destruct (get t m) as [x|] eqn:G; [|discriminate]. apply (RankerProofs.get_in t x m M) in G. intros F. exists x. split; [exact G|]. apply find_in in F; [exact F|].
    apply inner_nodup. rewrite Forall_forall in I. apply (I _ G).
Qed.
Lemma put2_maps {A} t p (v : A) m : maps m -> maps (put2 t p v m).
Proof.
  intros [M I]. unfold put2. split; [now apply RankerProofs.put_a_map|]. apply Forall_forall. intros [t' x] X. apply RankerProofs.put_in_some in X. cbn [snd].
  rewrite Forall_forall in I. destruct X as [[-> ->]|X]; [|apply (I _ X)]. apply zput_inner. destruct (get t m) as [y|] eqn:G; [|constructor].
  apply (RankerProofs.get_in t y m M) in G. apply (I _ G).
Qed.
Lemma put2_lookup {A} t p (v : A) m t' p' : lookup2 (put2 t p v m) t' p' = if eqb_bytes t' t && Z.eqb p' p then Some v else lookup2 m t' p'.
Proof.
  unfold lookup2, put2. rewrite RankerProofs.get_put. destruct (eqb_bytes t' t) eqn:E; [|reflexivity]. apply eqb_bytes_eq in E. subst t'. cbn [andb]. rewrite find_zput.
  destruct (Z.eqb p' p); [reflexivity|]. destruct (get t m); reflexivity.
Qed.
Section Load.
Variables (container : bytes) (identifier : option bytes) (solve : bytes -> option (Z * Z)) (atof : bytes -> R).
Let place := translate_docno container identifier solve.
Definition placed (x : line_of) : Z * Z := match place (l_item x) with Some pq => pq | None => (0, 0)%Z end.
Definition filled_with {A} (val : line_of -> A) (xs : list line_of) (m : list (bytes * list (Z * A))) : list (bytes * list (Z * A)) :=
  fold_left (fun m x => put2 (l_topic x) (fst (placed x)) (val x) m) xs m.
Lemma filled_maps {A} (val : line_of -> A) xs : forall m, maps m -> maps (filled_with val xs m).
Proof. induction xs as [|x xs IH]; intros m M; [exact M|]. apply IH. now apply put2_maps. Qed.
Lemma filled_lookup {A} (val : line_of -> A) xs : Forall (fun x => place (l_item x) <> None) xs -> forall m t p v,
  lookup2 (filled_with val xs m) t p = Some v <->
  (exists x, last_line place xs t p x /\ v = val x) \/
  (Forall (fun y => l_topic y = t -> forall q, place (l_item y) <> Some (p, q)) xs /\ lookup2 m t p = Some v).
Proof.
  induction 1 as [|x xs PX _ IH]; intros m t p v.
  - cbn. split; [intros E; right; auto|]. intros [(x & (a & b & E & _) & _)|[_ H]]; [destruct a; discriminate|exact H].
  - cbn [filled_with fold_left]. fold (filled_with val xs (put2 (l_topic x) (fst (placed x)) (val x) m)). rewrite IH, put2_lookup.
    destruct (place (l_item x)) as [[px qx]|] eqn:PE; [|contradiction]. assert (PD : placed x = (px, qx)) by (unfold placed; now rewrite PE). rewrite PD. cbn [fst].
    split.
    + intros [(y & (a & b & E & H) & V)|[F H]].
      * left. exists y. split; [|exact V]. exists (x :: a), b. split; [now rewrite E|exact H].
      * destruct (eqb_bytes t (l_topic x)) eqn:E1; destruct (Z.eqb_spec p px) as [E2|E2]; cbn [andb] in H.
        -- apply eqb_bytes_eq in E1. subst t p. left. exists x. split; [|congruence]. exists [], xs. repeat split; eauto.
        -- right. split; [|exact H]. constructor; [|exact F]. intros _ q E. congruence.
        -- right. split; [|exact H]. constructor; [|exact F]. intros E. apply eqb_bytes_neq in E1. congruence.
        -- right. split; [|exact H]. constructor; [|exact F]. intros E. apply eqb_bytes_neq in E1. congruence.
    + intros [(y & (a & b & E & H1 & H2 & H3) & V)|[F H]].
      * destruct a as [|z a]; injection E as -> ->.
        -- right. split; [exact H3|]. destruct H2 as [q H2]. assert (px = p) by congruence. subst px t. rewrite eqb_bytes_refl, Z.eqb_refl. cbn. congruence.
        -- left. exists y. split; [|exact V]. exists a, b. auto.
      * right. inversion F as [|? ? F1 F2]; subst. split; [exact F2|]. destruct (eqb_bytes t (l_topic x)) eqn:E1; [|exact H]. apply eqb_bytes_eq in E1.
        destruct (Z.eqb_spec p px) as [->|]; [|exact H]. elim (F1 (eq_sym E1) qx). exact PE.
Qed.
Lemma load_loop_ok xs : Forall (fun x => place (l_item x) <> None) xs -> forall ls, Forall2 (reads atof) ls xs -> forall l mx, 0 <= mx ->
  load_loop container identifier solve atof ls l mx =
    (true, Loaded (option_map (filled_with (fun x => Some (l_grade x)) xs) (l_qrels l))
                  (option_map (filled_with (fun x => (snd (placed x) - fst (placed x) + 1)%Z) xs) (l_lengths l))
                  (option_map (filled_with l_item xs) (l_docnos l)), Rmax mx (highest xs)).
Proof.
  induction 1 as [|x xs PX _ IH]; intros ls F l mx M.
  - inversion F; subst. cbn [load_loop highest fold_right]. rewrite Rmax_left by exact M. destruct l as [[?|] [?|] [?|]]; reflexivity.
  - inversion F as [|line ? ls' ? R1 F']; subst. cbn [load_loop]. destruct R1 as (any & digits & R1 & R2). rewrite (RankerText.pieces_some _ _ R1). rewrite <- R2.
    destruct (place (l_item x)) as [[px qx]|] eqn:PE; [|contradiction]. unfold place in PE. rewrite PE.
    assert (PD : placed x = (px, qx)) by (unfold placed; fold place in PE; now rewrite PE).
    assert (GN : 0 <= l_grade x) by (rewrite R2; apply Rmax_l).
    rewrite IH; [|exact F'|apply (Rle_trans _ _ _ M), Rmax_r]. cbn [l_qrels l_lengths l_docnos]. f_equal.
    + f_equal. destruct l as [q n d]. cbn [l_qrels l_lengths l_docnos]. f_equal; [destruct q as [q|]|destruct n as [n|]|destruct d as [d|]]; cbn [option_map]; try reflexivity;
      unfold filled_with; cbn [fold_left]; rewrite PD; reflexivity.
    + unfold highest. cbn [fold_right]. rewrite (Rmax_comm (l_grade x) mx), <- Rmax_assoc. reflexivity.
Qed.
Lemma highest_nonneg xs : 0 <= highest xs.
Proof. induction xs as [|x xs IH]; cbn; [lra|]. apply (Rle_trans _ _ _ IH), Rmax_r. Qed.
Lemma highest_bound xs x : In x xs -> l_grade x <= highest xs.
Proof. induction xs as [|y xs IH]; cbn; [tauto|]. intros [->|I]; [apply Rmax_l|]. apply (Rle_trans _ _ _ (IH I)), Rmax_r. Qed.
Lemma load_ok text ls xs microsoft : file_lines text ls -> Forall2 (reads atof) ls xs -> Forall (fun x => place (l_item x) <> None) xs ->
  exists q n d, load_trec_qrels container identifier solve atof (Some text) microsoft (Loaded (Some []) (Some []) (Some [])) = (true, Loaded (Some q) (Some n) (Some d)) /\
  (forall t p v, holds2 q t p v <-> exists x, last_line place xs t p x /\ v = rated microsoft (highest xs) (l_grade x)) /\
  (forall t p k, holds2 n t p k <-> exists x e, last_line place xs t p x /\ place (l_item x) = Some (p, e) /\ k = (e - p + 1)%Z) /\
  (forall t p i, holds2 d t p i <-> exists x, last_line place xs t p x /\ i = l_item x).
Proof.
  intros L F P. unfold load_trec_qrels. rewrite (lines_of_ok text ls L). rewrite (load_loop_ok xs P ls F _ 0 (Rle_refl _)). cbn [l_qrels l_lengths l_docnos option_map].
  rewrite Rmax_right by apply highest_nonneg.
  assert (M0 : forall A, maps (@nil (bytes * list (Z * A)))) by (intros A; split; constructor).
  set (q0 := filled_with (fun x => Some (l_grade x)) xs []). assert (Q0 : maps q0) by (apply filled_maps, M0).
  eexists _, _, _. split; [reflexivity|]. split; [|split].
  - intros t p v. set (f := scaled microsoft (highest xs)).
    assert (HF : forall x, f (Some x) = rated microsoft (highest xs) x). { intros x. unfold f, scaled, rated, fdiv, eqR. destruct microsoft; [reflexivity|]. destruct (Req_EM_T (highest xs) 0); reflexivity. }
    transitivity (exists w, holds2 q0 t p w /\ v = f w).
    + unfold holds2. split.
      * intros (y & Y & I). apply in_map_iff in Y. destruct Y as [[t' z] [E Y]]. injection E as -> <-. apply in_map_iff in I. destruct I as [[p' w] [E I]]. injection E as -> <-. eauto.
      * intros (w & (z & Z & I) & ->). eexists. split; [apply in_map_iff; exists (t, z); split; [reflexivity|exact Z]|]. apply in_map_iff. exists (p, w). auto.
    + split.
      * intros (w & H & ->). apply (holds2_lookup q0 t p w Q0) in H. apply (filled_lookup _ xs P) in H. destruct H as [(x & LL & ->)|[_ H]]; [|discriminate].
        exists x. split; [exact LL|]. apply HF.
      * intros (x & LL & ->). exists (Some (l_grade x)). split; [|symmetry; apply HF]. apply (holds2_lookup q0 t p _ Q0). apply (filled_lookup _ xs P). left. eauto.
  - intros t p k. rewrite holds2_lookup by apply filled_maps, M0. rewrite (filled_lookup _ xs P). split.
    + intros [(x & LL & ->)|[_ H]]; [|discriminate]. pose proof LL as (a & b & _ & _ & (e & E) & _). exists x, e. unfold placed. rewrite E. auto.
    + intros (x & e & LL & E & ->). left. exists x. unfold placed. rewrite E. auto.
  - intros t p i. rewrite holds2_lookup by apply filled_maps, M0. rewrite (filled_lookup _ xs P). split.
    + intros [(x & LL & ->)|[_ H]]; [|discriminate]. eauto.
    + intros (x & LL & ->). left. eauto.
Qed.
Lemma grades_nonneg ls xs : Forall2 (reads atof) ls xs -> Forall (fun x => 0 <= l_grade x) xs.
Proof. induction 1 as [|l x ls xs (a & b & _ & E) _ IH]; constructor; auto. rewrite E. apply Rmax_l. Qed.
Lemma Rpower_rises a b : a <= b -> Rpower 2 a <= Rpower 2 b.
Proof. intros [H| ->]; [left; apply Rpower_lt; lra|lra]. Qed.
Lemma rated_range ls xs microsoft x v : Forall2 (reads atof) ls xs -> In x xs -> rated microsoft (highest xs) (l_grade x) = Some v -> 0 <= v <= 1.
Proof.
  intros F I. pose proof (grades_nonneg _ _ F) as N. rewrite Forall_forall in N. specialize (N x I). pose proof (highest_bound xs x I) as H. unfold rated. destruct microsoft.
  - intros E. injection E as <-. assert (P : 0 < Rpower 2 (highest xs)) by (unfold Rpower; apply exp_pos). pose proof (Rpower_rises 0 (l_grade x) N) as P1. rewrite Rpower_O in P1 by lra.
    pose proof (Rpower_rises _ _ H) as P2. split; [apply Rmult_le_pos; [lra|left; now apply Rinv_0_lt_compat]|].
    apply (Rmult_le_reg_r (Rpower 2 (highest xs))); [lra|]. unfold Rdiv. rewrite Rmult_assoc, Rinv_l by lra. lra.
  - destruct (Req_EM_T (highest xs) 0) as [|NZ]; [discriminate|]. intros E. injection E as <-. assert (0 < highest xs) by lra.
    split; [apply Rmult_le_pos; [lra|left; now apply Rinv_0_lt_compat]|]. apply (Rmult_le_reg_r (highest xs)); [lra|]. unfold Rdiv. rewrite Rmult_assoc, Rinv_l by lra. lra.
Qed.
(** An item that is not found. *)
Lemma load_missing text ls xs microsoft l : file_lines text ls -> Forall2 (reads atof) ls xs -> ~ Forall (fun x => place (l_item x) <> None) xs ->
  fst (load_trec_qrels container identifier solve atof (Some text) microsoft l) = false.
Proof.
  intros L F P. unfold load_trec_qrels. rewrite (lines_of_ok text ls L).
  assert (K : forall l mx, exists l' mx', load_loop container identifier solve atof ls l mx = (false, l', mx')).
  { clear l L. induction F as [|line x ls xs (any & digits & R1 & R2) F IH]; intros l mx; [elim P; constructor|]. cbn [load_loop]. rewrite (RankerText.pieces_some _ _ R1).
    fold place. destruct (place (l_item x)) as [[px qx]|] eqn:PE; [|eauto]. apply IH. intros Q. apply P. constructor; [rewrite PE; discriminate|exact Q]. }
  destruct (K l 0) as (l' & mx' & ->). reflexivity.
Qed.
End Load.
