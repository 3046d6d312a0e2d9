(** The measures are what they should be. *)
From Coq Require Import Reals Lra Permutation Sorted.
From Verif Require Import Base Bytes RecipeModel RankerSpec EvalModel EvalSpec EvalProofs EvalGain.
From Verif Require RankerProofs.
Local Open Scope R_scope.

Lemma get_set k k' (v : option R) m : get k' (set k v m) = if eqb_bytes k' (lit k) then Some v else get k' m.
Proof. apply RankerProofs.get_put. Qed.
Ltac keys := repeat (rewrite get_set; match goal with |- context [if eqb_bytes ?a ?b then _ else _] =>
  let v := eval vm_compute in (eqb_bytes a b) in change (eqb_bytes a b) with v; cbv iota end).

(** * Counts *)
Lemma trec_eval_ok g results m : graded g ->
  let l := map fst results in
  get (lit "ap") (trec_eval g results m) = Some (Some (average_precision g l)) /\
  get (lit "rr") (trec_eval g results m) = Some (Some (average_precision g l)) /\
  get (lit "p05") (trec_eval g results m) = Some (Some (precision_at g 5 l)) /\
  get (lit "p10") (trec_eval g results m) = Some (Some (precision_at g 10 l)) /\
  get (lit "p20") (trec_eval g results m) = Some (Some (precision_at g 20 l)) /\
  get (lit "ret") (trec_eval g results m) = Some (Some (many l)) /\
  get (lit "rel") (trec_eval g results m) = Some (Some (many (relevants g (map fst g)))) /\
  get (lit "rel-ret") (trec_eval g results m) = Some (Some (many (relevants g l))) /\
  get (lit "precision") (trec_eval g results m) = Some (Some (over (many (relevants g l)) (many l))) /\
  get (lit "recall") (trec_eval g results m) = Some (Some (over (many (relevants g l)) (many (relevants g (map fst g))))).
Proof.
  intros G l. unfold trec_eval. cbv zeta. set (possible := count_binary_rels g). match goal with |- context [t_ap ?x] => set (c := x) end.
  assert (Ep : possible = many (relevants g (map fst g))) by (apply count_ok, G).
  assert (NP : 0 <= possible) by (rewrite Ep; apply pos_INR).
  assert (Er : IZR (Z.of_nat (length results)) = many l) by (unfold many, l; rewrite map_length; symmetry; apply INR_IZR_INZ).
  assert (NR : 0 <= many l) by apply pos_INR.
  assert (C : t_ap c = average_precision g l /\ t_p05 c = precision_at g 5 l /\ t_p10 c = precision_at g 10 l /\ t_p20 c = precision_at g 20 l /\ rels_seen c = many (relevants g l)).
  { unfold c. clear c. destruct (ltR 0 possible && match results with [] => false | _ => true end) eqn:Q.
    - apply andb_prop in Q. destruct Q as [Q1 Q2]. apply ltR_iff in Q1.
      destruct (trec_loop_ok g G l results [] (Counts 0 0 0 0 0 0) eq_refl) as (c & E & H).
      { unfold counted, at_depth. cbn. repeat split; try reflexivity. }
      change (Z.of_nat (S (length (@nil Z)))) with 1%Z in E. rewrite E. unfold trec_after. cbn [rels_seen t_ap t_p05 t_p10 t_p20 t_rr].
      destruct H as (H1 & H2 & H3 & H4 & H5). repeat split; auto.
      + rewrite H2. unfold average_precision, over. rewrite Ep in *. destruct (Req_EM_T (many (relevants g (map fst g))) 0); [lra|reflexivity].
      + unfold at_depth in H3. destruct (Z.leb_spec (Z.of_nat (S (length l))) 5) as [L|L]; destruct (Nat.leb_spec 5 (length l)); try lia; [|exact H3].
        rewrite H1. unfold precision_at. rewrite firstn_all2 by lia. f_equal. cbn; lra.
      + unfold at_depth in H4. destruct (Z.leb_spec (Z.of_nat (S (length l))) 10) as [L|L]; destruct (Nat.leb_spec 10 (length l)); try lia; [|exact H4].
        rewrite H1. unfold precision_at. rewrite firstn_all2 by lia. f_equal. cbn; lra.
      + unfold at_depth in H5. destruct (Z.leb_spec (Z.of_nat (S (length l))) 20) as [L|L]; destruct (Nat.leb_spec 20 (length l)); try lia; [|exact H5].
        rewrite H1. unfold precision_at. rewrite firstn_all2 by lia. f_equal. cbn; lra.
    - assert (Z0 : forall a, incl a l -> relevants g a = []).
      { apply andb_false_iff in Q. destruct Q as [Q|Q].
        - apply ltR_false in Q. assert (E0 : many (relevants g (map fst g)) = 0) by lra. unfold many in E0.
          intros a _. destruct (relevants g (map fst g)) as [|x r] eqn:Er'; [|cbn [length] in E0; rewrite S_INR in E0; pose proof (pos_INR (length r)); lra].
          unfold relevants. induction a as [|p a IH]; [reflexivity|]. cbn [filter]. destruct (Rlt_dec 0 (grade g p)) as [Lt|]; [|exact IH]. exfalso.
          destruct (in_dec Z.eq_dec p (map fst g)) as [I|I]; [|rewrite grade_out in Lt by auto; lra].
          assert (J : In p (relevants g (map fst g))) by (apply filter_In; split; [exact I|]; destruct (Rlt_dec 0 (grade g p)); [reflexivity|lra]).
          rewrite Er' in J. destruct J.
        - unfold l. destruct results; [|discriminate]. cbn. intros a I. destruct a as [|x a]; [reflexivity|]. destruct (I x (or_introl eq_refl)). }
      assert (K : forall k, precision_at g k l = 0).
      { intros k. unfold precision_at. rewrite (Z0 (firstn k l)).
        - unfold many, Rdiv. cbn. lra.
        - intros x I. rewrite <- (firstn_skipn k l). apply in_or_app. now left. }
      cbn [rels_seen t_ap t_p05 t_p10 t_p20]. rewrite !K. repeat split; auto.
      + unfold average_precision. replace (Rsum _) with 0; [unfold over, Rdiv; destruct (Req_EM_T _ 0); lra|].
        generalize (seq 1 (length l)). intros ks. induction ks as [|k ks IH]; [reflexivity|]. cbn [map Rsum fold_right]. rewrite K. unfold Rsum in IH. rewrite <- IH.
        destruct (Rlt_dec 0 _); lra.
      + rewrite (Z0 l) by apply incl_refl. reflexivity. }
  clearbody c. destruct C as (C1 & C2 & C3 & C4 & C5). rewrite Er, C1, C2, C3, C4, C5. rewrite Ep in *. clear possible Ep.
  assert (D : forall a b, 0 <= b -> (if ltR 0 b then fdiv a b else Some 0) = Some (over a b)).
  { intros a b B. unfold ltR, fdiv, over, eqR. destruct (Rlt_dec 0 b); destruct (Req_EM_T b 0); auto; lra. }
  repeat split; keys; try reflexivity; rewrite D by lra; reflexivity.
Qed.

(** * Gains *)
Fixpoint raw (i : nat) (v : list R) : R := match v with [] => 0 | x :: r => x / ln (INR i + 2) + raw (S i) r end.
Lemma raw_discounted v : forall i, discounted i v = ln 2 * raw i v.
Proof.
  induction v as [|x v IH]; intros i; cbn [discounted raw]; [lra|]. rewrite IH. pose proof ln2_pos. pose proof (log_pos i).
  replace (x / (ln (INR i + 2) / ln 2)) with (ln 2 * (x / ln (INR i + 2))) by (field; lra). lra.
Qed.
Definition upto_rank (k i : nat) (v : list R) (base old : R) : R :=
  if (Nat.ltb i k && Nat.leb k (i + length v))%bool then base + raw i (firstn (k - i) v) else old.
Lemma upto_rank_step k i x v base old : (0 < k)%nat ->
  upto_rank k (S i) v (base + x / ln (INR i + 2)) (if Nat.eqb i (k - 1) then base + x / ln (INR i + 2) else old) = upto_rank k i (x :: v) base old.
Proof.
  intros K. unfold upto_rank. cbn [length].
  destruct (Nat.eqb_spec i (k - 1)) as [->|D].
  - replace (Nat.ltb (S (k - 1)) k) with false by (symmetry; apply Nat.ltb_ge; lia). cbn [andb].
    replace (Nat.ltb (k - 1) k) with true by (symmetry; apply Nat.ltb_lt; lia).
    replace (Nat.leb k (k - 1 + S (length v))) with true by (symmetry; apply Nat.leb_le; lia). cbn [andb].
    replace (k - (k - 1))%nat with 1%nat by lia. cbn [firstn raw]. lra.
  - replace (Nat.leb k (i + S (length v))) with (Nat.leb k (S i + length v)) by (f_equal; lia).
    destruct (Nat.ltb_spec (S i) k) as [L|L].
    + replace (Nat.ltb i k) with true by (symmetry; apply Nat.ltb_lt; lia). cbn [andb]. destruct (Nat.leb k (S i + length v)); [|reflexivity].
      replace (k - i)%nat with (S (k - S i)) by lia. cbn [firstn raw]. lra.
    + replace (Nat.ltb i k) with false by (symmetry; apply Nat.ltb_ge; lia). reflexivity.
Qed.
Lemma ideal_loop_ok v : forall i s, ideal_loop i v s =
  Scores (sc_all s + raw i v) (upto_rank 5 i v (sc_all s) (sc_05 s)) (upto_rank 10 i v (sc_all s) (sc_10 s)) (upto_rank 20 i v (sc_all s) (sc_20 s)).
Proof.
  induction v as [|x v IH]; intros i s.
  - cbn [ideal_loop raw]. unfold upto_rank. cbn [length].
    assert (E : forall k, (Nat.ltb i k && Nat.leb k (i + 0))%bool = false). { intros k. destruct (Nat.ltb_spec i k); destruct (Nat.leb_spec k (i + 0)); auto; lia. }
    rewrite !E. destruct s; cbn. rewrite Rplus_0_r. reflexivity.
  - cbn [ideal_loop]. rewrite IH. cbn [sc_all sc_05 sc_10 sc_20 raw]. f_equal; [lra|apply (upto_rank_step 5); lia|apply (upto_rank_step 10); lia|apply (upto_rank_step 20); lia].
Qed.
Lemma actual_ideal g results : forall i s, actual_loop g i results s = ideal_loop i (map (value g) results) s.
Proof. induction results as [|r results IH]; intros i s; [reflexivity|]. cbn [actual_loop map ideal_loop]. apply IH. Qed.
Lemma filled v : fill (length v) (ideal_loop 0 v (Scores 0 0 0 0)) = Scores (raw 0 v) (raw 0 (firstn 5 v)) (raw 0 (firstn 10 v)) (raw 0 (firstn 20 v)).
Proof.
  rewrite ideal_loop_ok. unfold fill. cbn [sc_all sc_05 sc_10 sc_20].
  assert (E : forall k, (0 < k)%nat -> (if Nat.ltb (length v) k then 0 + raw 0 v else upto_rank k 0 v 0 0) = raw 0 (firstn k v)).
  { intros k K. unfold upto_rank. rewrite Nat.sub_0_r. cbn [Nat.add]. destruct (Nat.ltb_spec (length v) k) as [L|L].
    - rewrite firstn_all2 by lia. lra.
    - replace (Nat.ltb 0 k) with true by (symmetry; apply Nat.ltb_lt; lia). replace (Nat.leb k (length v)) with true by (symmetry; apply Nat.leb_le; lia). cbn [andb]. lra. }
  f_equal; [lra|apply E; lia|apply E; lia|apply E; lia].
Qed.
Lemma raw_zero v : Forall (fun x => x = 0) v -> forall i, raw i v = 0.
Proof. induction 1 as [|x v H _ IH]; intros i; cbn [raw]; [reflexivity|]. rewrite H, IH. unfold Rdiv. lra. Qed.
Lemma raw_nonneg v : Forall (fun x => 0 <= x) v -> forall i, 0 <= raw i v.
Proof.
  induction 1 as [|x v H _ IH]; intros i; cbn [raw]; [lra|]. specialize (IH (S i)). pose proof (log_pos i).
  assert (0 <= x / ln (INR i + 2)) by (apply Rmult_le_pos; [lra|left; now apply Rinv_0_lt_compat]). lra.
Qed.
Lemma raw_zero_inv v : Forall (fun x => 0 <= x) v -> forall i, raw i v = 0 -> Forall (fun x => x = 0) v.
Proof.
  induction 1 as [|x v H V IH]; intros i E; constructor; cbn [raw] in E; pose proof (log_pos i) as L; pose proof (raw_nonneg v V (S i)) as P.
  - assert (D : 0 <= x / ln (INR i + 2)) by (apply Rmult_le_pos; [lra|left; now apply Rinv_0_lt_compat]).
    assert (Q : x / ln (INR i + 2) = 0) by lra. apply (f_equal (fun y => y * ln (INR i + 2))) in Q. unfold Rdiv in Q. rewrite Rmult_assoc, Rinv_l in Q by lra. lra.
  - apply (IH (S i)). assert (D : 0 <= x / ln (INR i + 2)) by (apply Rmult_le_pos; [lra|left; now apply Rinv_0_lt_compat]). lra.
Qed.
Lemma cut_map {A B} (f : A -> B) k l : map f (cut k l) = cut k (map f l).
Proof. destruct k as [n|]; [|reflexivity]. cbn. symmetry. apply firstn_map. Qed.
Lemma take_cut {A} j k (l : list A) : exists n, (n <= j)%nat /\ firstn j (cut k l) = firstn n l /\ (forall l' : list A, firstn j (cut k l') = firstn n l').
Proof.
  destruct k as [m|]; cbn.
  - exists (Nat.min j m). split; [lia|]. split; [apply firstn_firstn|intros; apply firstn_firstn].
  - exists j. auto.
Qed.
Section Best.
Variable (g : list (Z * R)) (G : graded g) (N : not_negative g) (s : list R) (P : Permutation s (map snd g)) (F : falls s).
Lemma best_ok k : best_gain g k (discounted 0 (cut k s)).
Proof using G N P F.
  split.
  - intros l D. unfold dcg. rewrite cut_map. set (a := cut k (map (grade g) l)). set (b := cut k s).
    set (n := Nat.max (length a) (length b)). rewrite (discounted_upto a 0 n) by lia. rewrite (discounted_upto b 0 n) by lia.
    pose proof (abel n 0 (fun i => nth i a 0) (fun i => nth i b 0) weight (fun i => Rlt_le _ _ (weight_pos i)) (fun i => weight_falls i (S i) (Nat.le_succ_diag_r i))) as K.
    rewrite upto_sub in K. cut (0 <= 0 * weight 0 + (upto (fun i => nth i b 0 * weight i) n - upto (fun i => nth i a 0 * weight i) n)).
    { rewrite Rmult_0_l. cbn [Nat.add]. lra. }
    apply K. intros j _. rewrite !upto_nth. unfold a, b.
    destruct (take_cut j k (map (grade g) l)) as (q & Q1 & Q2 & Q3). rewrite Q2, Q3. rewrite firstn_map.
    assert (H : Rsum (map (grade g) (firstn q l)) <= Rsum (firstn q s)).
    { apply (prefix_sum g G N s P F); [now apply NoDup_take|]. apply firstn_le_length. }
    lra.
  - destruct (Permutation_map_inv (B := R) (@snd Z R) g (l1 := s)) as (h & H1 & H2); [exact P|].
    exists (map fst h). split.
    + apply (Permutation_NoDup (l := map fst g)); [now apply Permutation_map|exact G].
    + unfold dcg. rewrite cut_map. do 2 f_equal. rewrite map_map, H1. apply map_ext_in. intros [p v] I.
      apply (grade_in _ _ _ G). apply (Permutation_in _ (Permutation_sym H2) I).
Qed.
End Best.
Lemma over_eq (u x y : R) : 0 < u -> y <> 0 -> x / y = over (u * x) (u * y).
Proof.
  intros U Y. unfold over. destruct (Req_EM_T (u * y) 0) as [E|_].
  - apply Rmult_integral in E. destruct E; [lra|contradiction].
  - field. split; lra.
Qed.
Lemma ndcg_eval_ok sort g results m : sorts_down sort -> graded g -> not_negative g -> forall name nname k, In (name, nname, k) gains ->
  get name (ndcg_eval sort g results m) = Some (Some (dcg g (cut k (map fst results)))) /\
  exists b, best_gain g k b /\ get nname (ndcg_eval sort g results m) = Some (Some (over (dcg g (cut k (map fst results))) b)).
Proof.
  intros S G N name nname k I. destruct (S (map snd g)) as [P F].
  set (s := sort (map snd g)) in *. assert (V : Forall (fun x => 0 <= x) s) by apply (s_nonneg g N s P).
  set (l := map fst results). set (v := map (value g) results).
  assert (EV : v = map (grade g) l). { unfold v, l. rewrite map_map. apply map_ext. intros r. now apply value_grade. }
  unfold ndcg_eval. cbv zeta. fold s. rewrite actual_ideal. fold v.
  destruct (eqR (sc_all (ideal_loop 0 s (Scores 0 0 0 0))) 0) eqn:Z.
  - apply eqR_iff in Z. rewrite ideal_loop_ok in Z. cbn [sc_all] in Z.
    assert (A : Forall (fun x => x = 0) s) by (apply (raw_zero_inv s V 0); lra).
    assert (GZ : forall p, grade g p = 0).
    { intros p. destruct (in_dec Z.eq_dec p (map fst g)) as [J|J]; [|now apply grade_out]. apply in_map_iff in J. destruct J as [[a x] [<- J]]. cbn [fst].
      rewrite (grade_in _ _ _ G J). rewrite Forall_forall in A. apply A. apply (Permutation_in x (Permutation_sym P)). apply (in_map snd g (a, x) J). }
    assert (DZ : dcg g (cut k l) = 0).
    { unfold dcg. rewrite raw_discounted, raw_zero; [lra|]. apply Forall_forall. intros x X. apply in_map_iff in X. destruct X as [p [<- _]]. apply GZ. }
    rewrite DZ. assert (BZ : best_gain g k 0).
    { pose proof (best_ok g G N s P F k) as B. replace (discounted 0 (cut k s)) with 0 in B; [exact B|]. rewrite raw_discounted, raw_zero; [lra|].
      apply Forall_forall. intros x X. rewrite Forall_forall in A. apply A. destruct k as [q|]; [|exact X]. cbn in X. rewrite <- (firstn_skipn q s). apply in_or_app. now left. }
    cut (get name (ndcg_eval sort g results m) = Some (Some 0) /\ get nname (ndcg_eval sort g results m) = Some (Some 0)).
    { unfold ndcg_eval. cbv zeta. fold s. rewrite ideal_loop_ok. cbn [sc_all]. replace (eqR (0 + raw 0 s) 0) with true by (symmetry; apply eqR_iff; lra).
      intros [K1 K2]. split; [exact K1|]. exists 0. split; [exact BZ|]. rewrite K2. unfold over. destruct (Req_EM_T 0 0); [reflexivity|lra]. }
    unfold ndcg_eval. cbv zeta. fold s. rewrite ideal_loop_ok. cbn [sc_all]. replace (eqR (0 + raw 0 s) 0) with true by (symmetry; apply eqR_iff; lra).
    cbn [gains In] in I. destruct I as [E|[E|[E|[E|[]]]]]; injection E as <- <- <-; split; keys; reflexivity.
  - apply eqR_false in Z. rewrite ideal_loop_ok in Z. cbn [sc_all] in Z.
    replace (length results) with (length v) by apply map_length. rewrite !filled. cbn [sc_all sc_05 sc_10 sc_20].
    assert (B : best_gain g k (discounted 0 (cut k s))) by apply (best_ok g G N s P F k).
    assert (D : dcg g (cut k l) = ln 2 * raw 0 (cut k v)). { unfold dcg. rewrite cut_map, <- EV. apply raw_discounted. }
    rewrite raw_discounted in B. rewrite D.
    assert (NZ : raw 0 (cut k s) <> 0).
    { intros E. assert (V' : Forall (fun x => 0 <= x) (cut k s)).
      { apply Forall_forall. intros x X. rewrite Forall_forall in V. apply V. destruct k as [q|]; [|exact X]. cbn in X. rewrite <- (firstn_skipn q s). apply in_or_app. now left. }
      pose proof (raw_zero_inv _ V' 0 E) as A. apply Z. clear - A I V F. rewrite raw_zero; [lra|].
      destruct k as [q|]; [|exact A]. cbn in A. assert (0 < q)%nat by (cbn [gains In] in I; destruct I as [E|[E|[E|[E|[]]]]]; injection E as _ _ E; subst; try discriminate; lia).
      destruct s as [|x r]; [constructor|]. destruct q as [|q]; [lia|]. cbn in A. inversion A; subst. constructor; [reflexivity|].
      inversion F as [|? ? ? X]; subst. inversion V as [|? ? _ V2]; subst. clear - X V2. rewrite Forall_forall in *. intros y Y. specialize (X y Y). specialize (V2 y Y). cbn in V2. lra. }
    assert (Q : forall x y, y <> 0 -> fdiv x y = Some (over (ln 2 * x) (ln 2 * y))).
    { intros x y Y. unfold fdiv. replace (eqR y 0) with false by (symmetry; now apply eqR_false). f_equal. apply over_eq; [apply ln2_pos|exact Y]. }
    cut (get name (set "ndcg20" (fdiv (raw 0 (firstn 20 v)) (raw 0 (firstn 20 s))) (set "ndcg10" (fdiv (raw 0 (firstn 10 v)) (raw 0 (firstn 10 s)))
      (set "ndcg05" (fdiv (raw 0 (firstn 5 v)) (raw 0 (firstn 5 s))) (set "ndcg" (fdiv (raw 0 v) (raw 0 s)) (set "dcg20" (Some (ln 2 * raw 0 (firstn 20 v)))
      (set "dcg10" (Some (ln 2 * raw 0 (firstn 10 v))) (set "dcg05" (Some (ln 2 * raw 0 (firstn 5 v))) (set "dcg" (Some (ln 2 * raw 0 v)) m)))))))) = Some (Some (ln 2 * raw 0 (cut k v))) /\
      get nname (set "ndcg20" (fdiv (raw 0 (firstn 20 v)) (raw 0 (firstn 20 s))) (set "ndcg10" (fdiv (raw 0 (firstn 10 v)) (raw 0 (firstn 10 s)))
      (set "ndcg05" (fdiv (raw 0 (firstn 5 v)) (raw 0 (firstn 5 s))) (set "ndcg" (fdiv (raw 0 v) (raw 0 s)) (set "dcg20" (Some (ln 2 * raw 0 (firstn 20 v)))
      (set "dcg10" (Some (ln 2 * raw 0 (firstn 10 v))) (set "dcg05" (Some (ln 2 * raw 0 (firstn 5 v))) (set "dcg" (Some (ln 2 * raw 0 v)) m)))))))) = Some (fdiv (raw 0 (cut k v)) (raw 0 (cut k s)))).
    { intros [K1 K2]. split; [exact K1|]. exists (ln 2 * raw 0 (cut k s)). split; [exact B|]. rewrite <- Q by exact NZ. exact K2. }
    cbn [gains In] in I. destruct I as [E|[E|[E|[E|[]]]]]; injection E as <- <- <-; split; keys; reflexivity.
Qed.
