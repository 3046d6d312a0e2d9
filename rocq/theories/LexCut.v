(** Lexing the text before a token gives the tokens before it. *)
From Verif Require Import Base Bytes TokenModel TokenSpec TokenProofs LexProofs TextBack.

Lemma run_split f s : forallb f (firstn (run_of f s) s) = true /\ match skipn (run_of f s) s with [] => True | d :: _ => f d = false end.
Proof.
  induction s as [|c r IH]; [split; [reflexivity|exact Logic.I]|]. cbn [run_of]. destruct (f c) eqn:E; [|cbn; auto]. cbn [firstn skipn forallb]. rewrite E. exact IH.
Qed.
Lemma run_app f u : forall t, forallb f u = true -> match t with [] => True | d :: _ => f d = false end -> run_of f (u ++ t) = length u.
Proof.
  induction u as [|c u IH]; intros t F H; cbn [app forallb] in *; [destruct t as [|d t]; [reflexivity|cbn; rewrite H; reflexivity]|].
  apply andb_prop in F. destruct F as [F1 F2]. cbn [run_of length]. rewrite F1. f_equal. exact (IH t F2 H).
Qed.
Lemma run_cut f r : forall m, (run_of f r <= m)%nat -> run_of f (firstn m r) = run_of f r.
Proof.
  induction r as [|c r IH]; intros m H; [rewrite firstn_nil; reflexivity|]. cbn [run_of] in *. destruct (f c) eqn:E.
  - destruct m as [|m]; [lia|]. cbn [firstn run_of]. rewrite E. f_equal. apply IH. lia.
  - destruct m as [|m]; [reflexivity|]. cbn [firstn run_of]. rewrite E. reflexivity.
Qed.

Lemma skipn_skipn {A} n : forall m (l : list A), skipn n (skipn m l) = skipn (n + m) l.
Proof.
  intros m. revert n. induction m as [|m IH]; intros n l; [rewrite Nat.add_0_r; reflexivity|]. destruct l as [|x l]; [rewrite !skipn_nil; reflexivity|].
  rewrite Nat.add_succ_r. cbn [skipn]. apply IH.
Qed.
(** What a tag looks like. *)
Inductive tag_shape (s : bytes) (q e : nat) : Prop :=
| Tag_shape : forall h c u v w, s = h ++ c :: u ++ v ++ 62 :: w -> (length h = 1%nat \/ exists c0, h = [c0; 47]) -> tag_initial c = true ->
    forallb tag_character u = true -> match v ++ [62] with d :: _ => tag_character d = false /\ d <> 10 | [] => True end -> forallb in_tag v = true ->
    q = (length h + 1 + length u)%nat -> e = (q + length v)%nat -> tag_shape s q e.
Lemma skipn_at {A} n (a b : list A) : n = length a -> skipn n (a ++ b) = b.
Proof. intros ->. rewrite skipn_app, skipn_all, Nat.sub_diag. reflexivity. Qed.
Lemma tag_to s q e : tokenize_tag s = Some (q, e) -> tag_shape s q e.
Proof.
  unfold tokenize_tag. cbv zeta. set (q0 := match tl s with c :: _ => if c =? 47 then 2%nat else 1%nat | [] => 1%nat end).
  destruct (skipn q0 s) as [|c u] eqn:E1; [discriminate|]. destruct (tag_initial c) eqn:Ti; [|discriminate].
  set (q1 := (q0 + 1 + run_of tag_character u)%nat). destruct (skipn q1 s) as [|d x] eqn:E2; [discriminate|]. destruct (Z.eqb_spec d 10) as [|Nd]; [discriminate|].
  set (e1 := (q1 + run_of in_tag (d :: x))%nat). destruct (skipn e1 s) as [|y w] eqn:E3; [discriminate|]. destruct (Z.eqb_spec y 62) as [->|]; [|discriminate]. intros [= <- <-].
  destruct (run_split tag_character u) as [R1 R2]. destruct (run_split in_tag (d :: x)) as [R3 R4].
  assert (Hu : skipn (run_of tag_character u) u = d :: x).
  { rewrite <- E2. unfold q1. replace (q0 + 1 + run_of tag_character u)%nat with (run_of tag_character u + (q0 + 1))%nat by lia. replace u with (skipn (q0 + 1) s) at 2; [rewrite skipn_skipn; reflexivity|].
    rewrite Nat.add_comm, <- skipn_skipn, E1. reflexivity. }
  assert (Hv : skipn (run_of in_tag (d :: x)) (d :: x) = 62 :: w) by (rewrite <- E3; unfold e1; rewrite Nat.add_comm, <- skipn_skipn, E2; reflexivity).
  assert (L0 : (q0 < length s)%nat) by (pose proof (skipn_length q0 s) as L; rewrite E1 in L; cbn [length] in L; lia).
  apply (Tag_shape s q1 e1 (firstn q0 s) c (firstn (run_of tag_character u) u) (firstn (run_of in_tag (d :: x)) (d :: x)) w).
  - rewrite <- Hv, firstn_skipn, <- Hu, firstn_skipn, <- E1, firstn_skipn. reflexivity.
  - unfold q0. destruct s as [|c0 s]; [cbn in L0; lia|]. cbn [tl]. destruct s as [|c1 s]; [left; reflexivity|]. destruct (Z.eqb_spec c1 47) as [->|]; [right; exists c0; reflexivity|left; reflexivity].
  - exact Ti.
  - exact R1.
  - rewrite Hu in R2. destruct (firstn (run_of in_tag (d :: x)) (d :: x)) as [|d' v'] eqn:Ev.
    + cbn [app]. destruct (run_of in_tag (d :: x)) as [|k] eqn:Er; [|discriminate Ev]. cbn [skipn] in Hv. injection Hv as -> _. auto.
    + cbn [app]. assert (d' = d) as -> by (destruct (run_of in_tag (d :: x)); [discriminate Ev|cbn in Ev; injection Ev as -> _; reflexivity]). auto.
  - exact R3.
  - rewrite !firstn_length_le; [reflexivity|apply run_of_le|lia].
  - rewrite firstn_length_le; [reflexivity|apply run_of_le].
Qed.
Lemma tag_from s q e : tag_shape s q e -> tokenize_tag s = Some (q, e).
Proof.
  intros [h c u v w -> Hh Ti Fu Hd Fv -> ->]. unfold tokenize_tag. cbv zeta.
  assert (Q0 : match tl (h ++ c :: u ++ v ++ 62 :: w) with c :: _ => if c =? 47 then 2%nat else 1%nat | [] => 1%nat end = length h).
  { destruct Hh as [Hh|[c0 ->]]; [|reflexivity]. destruct h as [|c0 [|c1 h]]; try discriminate. cbn [app tl length]. destruct (Z.eqb_spec c 47) as [->|]; [discriminate Ti|reflexivity]. }
  rewrite Q0. rewrite (skipn_at (length h) h) by reflexivity. rewrite Ti.
  assert (Ht : exists d r, v ++ 62 :: w = d :: r /\ tag_character d = false /\ d <> 10).
  { destruct v as [|d v]; cbn [app] in *; [exists 62, w; tauto|exists d, (v ++ 62 :: w); tauto]. }
  destruct Ht as (d & r & Er & Td & Nd). rewrite (run_app tag_character u) by (exact Fu || rewrite Er; exact Td).
  assert (S1 : skipn (length h + 1 + length u) (h ++ c :: u ++ v ++ 62 :: w) = v ++ 62 :: w).
  { replace (h ++ c :: u ++ v ++ 62 :: w) with ((h ++ c :: u) ++ v ++ 62 :: w) by (rewrite <- app_assoc; reflexivity). apply skipn_at. rewrite app_length. cbn [length]. lia. }
  rewrite S1. rewrite Er at 1. destruct (Z.eqb_spec d 10); [contradiction|]. rewrite (run_app in_tag v (62 :: w) Fv eq_refl).
  assert (S2 : skipn (length h + 1 + length u + length v) (h ++ c :: u ++ v ++ 62 :: w) = 62 :: w).
  { replace (h ++ c :: u ++ v ++ 62 :: w) with ((h ++ c :: u ++ v) ++ 62 :: w) by (rewrite <- app_assoc; cbn [app]; rewrite <- app_assoc; reflexivity). apply skipn_at. rewrite app_length. cbn [length]. rewrite app_length. lia. }
  rewrite S2. reflexivity.
Qed.
Lemma tag_more s q e b : tokenize_tag s = Some (q, e) -> tokenize_tag (s ++ b) = Some (q, e).
Proof.
  intros H. apply tag_to in H. apply tag_from. destruct H as [h c u v w -> H1 H2 H3 H4 H5 H6 H7]. apply (Tag_shape _ q e h c u v (w ++ b)); try assumption.
  rewrite <- app_assoc. cbn [app]. rewrite <- app_assoc. cbn [app]. rewrite <- app_assoc. reflexivity.
Qed.
Lemma tag_cut s q e n : tokenize_tag s = Some (q, e) -> (e < n)%nat -> tokenize_tag (firstn n s) = Some (q, e).
Proof.
  intros H Hn. apply tag_to in H. apply tag_from. destruct H as [h c u v w -> H1 H2 H3 H4 H5 H6 H7]. apply (Tag_shape _ q e h c u v (firstn (n - S e) w)); try assumption.
  replace (h ++ c :: u ++ v ++ 62 :: w) with ((h ++ c :: u ++ v ++ [62]) ++ w) by (rewrite <- app_assoc; cbn [app]; rewrite <- app_assoc; rewrite <- app_assoc; reflexivity).
  rewrite firstn_app. assert (L : length (h ++ c :: u ++ v ++ [62]) = S e) by (rewrite app_length; cbn [length]; rewrite !app_length; cbn [length]; lia).
  rewrite L, firstn_all2 by lia. rewrite <- app_assoc. cbn [app]. rewrite <- !app_assoc. reflexivity.
Qed.
Lemma tag_none s n : tokenize_tag s = None -> tokenize_tag (firstn n s) = None.
Proof. intros H. destruct (tokenize_tag (firstn n s)) as [[q e]|] eqn:E; [|reflexivity]. apply (tag_more _ _ _ (skipn n s)) in E. rewrite firstn_skipn in E. congruence. Qed.
(** Entities. *)
Lemma entity_more s q b : tokenize_entity s = Some q -> tokenize_entity (s ++ b) = Some q.
Proof.
  unfold tokenize_entity. cbv zeta. destruct s as [|c0 s]; [discriminate|]. cbn [app tl plus skipn]. destruct (run_split in_entity s) as [R1 R2].
  destruct (skipn (run_of in_entity s) s) as [|d w] eqn:E; [discriminate|]. destruct (d =? 59) eqn:Ed; [|discriminate]. intros [= <-].
  assert (Es : s ++ b = firstn (run_of in_entity s) s ++ d :: w ++ b) by (rewrite <- (firstn_skipn (run_of in_entity s) s) at 1; rewrite E, <- app_assoc; reflexivity).
  assert (Lf : length (firstn (run_of in_entity s) s) = run_of in_entity s) by (apply firstn_length_le, run_of_le).
  assert (Er : run_of in_entity (s ++ b) = run_of in_entity s) by (rewrite Es, run_app by assumption; exact Lf). rewrite Er.
  rewrite Es, skipn_at by (symmetry; exact Lf). rewrite Ed. reflexivity.
Qed.
Lemma entity_cut s q n : tokenize_entity s = Some q -> (q < n)%nat -> tokenize_entity (firstn n s) = Some q.
Proof.
  unfold tokenize_entity. cbv zeta. destruct s as [|c0 s]; [discriminate|]. cbn [tl plus skipn]. destruct (skipn (run_of in_entity s) s) as [|d w] eqn:E; [discriminate|]. destruct (d =? 59) eqn:Ed; [|discriminate].
  intros [= <-] Hn. destruct n as [|n]; [lia|]. cbn [firstn tl skipn]. rewrite run_cut by lia.
  assert (skipn (run_of in_entity s) (firstn n s) = d :: firstn (n - S (run_of in_entity s)) w) as ->; [|rewrite Ed; reflexivity].
  replace n with (run_of in_entity s + (n - run_of in_entity s))%nat by lia. rewrite <- firstn_skipn_comm, E. replace (n - run_of in_entity s)%nat with (S (n - S (run_of in_entity s))) at 1 by lia. cbn [firstn]. f_equal. f_equal. lia.
Qed.
Lemma entity_none s n : tokenize_entity s = None -> tokenize_entity (firstn n s) = None.
Proof. intros H. destruct (tokenize_entity (firstn n s)) as [q|] eqn:E; [|reflexivity]. apply (entity_more _ _ (skipn n s)) in E. rewrite firstn_skipn in E. congruence. Qed.

Lemma laid_offset ws : forall o n i w, laid_out o ws n -> nth_error ws i = Some w -> o <= w_offset w.
Proof.
  induction ws as [|x r IH]; intros o n i w H Hi; [destruct i; discriminate|]. cbn in H. destruct H as (A & B & C). destruct i as [|i]; [injection Hi as <-; exact A|].
  specialize (IH _ _ _ _ C Hi). lia.
Qed.
Lemma lex_offset xml s k off i w : (k <= length s)%nat -> nth_error (lex xml s k off) i = Some w -> off + Z.of_nat k <= w_offset w.
Proof. intros Hk Hi. exact (laid_offset _ _ _ _ _ (lex_layout xml s k off Hk) Hi). Qed.
Theorem lex_cut xml s : forall k off i w, (k <= length s)%nat -> nth_error (lex xml s k off) i = Some w ->
  lex xml (firstn (Z.to_nat (w_offset w - off)) s) k off = firstn i (lex xml s k off).
Proof.
  induction s as [|c r IH]; intros k off i w Hk Hi; [destruct i; discriminate|]. cbn [length] in Hk.
  assert (Later : forall k j, (k <= length r)%nat -> nth_error (lex xml r k (off + 1)) j = Some w ->
            exists m, Z.to_nat (w_offset w - off) = S m /\ (k <= m)%nat /\ lex xml (firstn m r) k (off + 1) = firstn j (lex xml r k (off + 1))).
  { intros k0 j L H. exists (Z.to_nat (w_offset w - (off + 1))). pose proof (lex_offset _ _ _ _ _ _ L H). split; [lia|]. split; [lia|]. exact (IH _ _ _ _ L H). }
  destruct k as [|k].
  2:{ change (lex xml (c :: r) (S k) off) with (lex xml r k (off + 1)) in Hi |- *. destruct (Later k i ltac:(lia) Hi) as (m & -> & _ & E). exact E. }
  cbn [lex] in Hi |- *. destruct (alphanumeric c) eqn:Ea.
  - pose proof (run_of_le alphanumeric r) as Lr. replace (S (run_of alphanumeric r) - 1)%nat with (run_of alphanumeric r) in * by lia. destruct i as [|i].
    + cbn in Hi. injection Hi as <-. cbn [w_offset]. rewrite Z.sub_diag. reflexivity.
    + cbn [nth_error] in Hi. destruct (Later _ i Lr Hi) as (m & -> & Lm & E). cbn [firstn lex]. rewrite Ea, run_cut by exact Lm.
      replace (S (run_of alphanumeric r) - 1)%nat with (run_of alphanumeric r) by lia. rewrite E. rewrite firstn_firstn, Nat.min_l by exact Lm. reflexivity.
  - destruct (xml && (c =? 60)) eqn:E60.
    + destruct (tokenize_tag (c :: r)) as [[q e]|] eqn:Et.
      * pose proof (tag_len _ _ _ Et) as [Lq Le]. cbn [length] in Lq, Le. destruct i as [|i].
        -- cbn in Hi. injection Hi as <-. cbn [w_offset]. rewrite Z.sub_diag. reflexivity.
        -- cbn [nth_error] in Hi. destruct (Later e i ltac:(lia) Hi) as (m & -> & Lm & E). pose proof (tag_cut _ _ _ (S m) Et ltac:(lia)) as Tc. cbn [firstn] in Tc |- *. cbn [lex]. rewrite Ea, E60, Tc, E.
           assert (Lqe : (q <= e)%nat) by (destruct (tag_to _ _ _ Et); lia). change (c :: firstn m r) with (firstn (S m) (c :: r)). rewrite firstn_firstn, Nat.min_l by lia. reflexivity.
      * destruct (Later 0%nat i ltac:(lia) Hi) as (m & -> & Lm & E). pose proof (tag_none _ (S m) Et) as Tc. cbn [firstn] in Tc |- *. cbn [lex]. rewrite Ea, E60, Tc. exact E.
    + destruct (xml && (c =? 38)) eqn:E38.
      * destruct (tokenize_entity (c :: r)) as [q|] eqn:Et.
        -- pose proof (entity_lt _ _ Et) as Lq. cbn [length] in Lq. destruct (Later q i ltac:(lia) Hi) as (m & -> & Lm & E). pose proof (entity_cut _ _ (S m) Et ltac:(lia)) as Tc. cbn [firstn] in Tc |- *. cbn [lex]. rewrite Ea, E60, E38, Tc. exact E.
        -- destruct (Later 0%nat i ltac:(lia) Hi) as (m & -> & Lm & E). pose proof (entity_none _ (S m) Et) as Tc. cbn [firstn] in Tc |- *. cbn [lex]. rewrite Ea, E60, E38, Tc. exact E.
      * destruct (Later 0%nat i ltac:(lia) Hi) as (m & -> & Lm & E). cbn [firstn lex]. rewrite Ea, E60, E38. exact E.
Qed.
Theorem ascii_cut xml s i o : nth_error (ascii_starts xml s) i = Some o -> ascii_starts xml (firstn (Z.to_nat o) s) = firstn i (ascii_starts xml s).
Proof.
  unfold ascii_starts. rewrite nth_error_map. destruct (nth_error (lex xml s 0 0) i) as [w|] eqn:E; [|discriminate]. intros [= <-].
  pose proof (lex_cut xml s 0 0 i w ltac:(lia) E) as H. rewrite Z.sub_0_r in H. rewrite H, firstn_map. reflexivity.
Qed.
