(** Rank-biased precision, time-biased gain, differences of rankings, means. *)
From Coq Require Import Reals Lra Permutation Sorted.
From Verif Require Import Base Bytes RecipeModel RankerSpec EvalModel EvalSpec EvalProofs EvalGain EvalFinal.
From Verif Require RankerProofs RankerText.
Local Open Scope R_scope.

Lemma rbp_loop_ok g results : forall a b c d,
  let v := map (value g) results in
  rbp_loop g results (a, b, c, d) = (a + b * persisting (1 / 2) v, b * (1 / 2) ^ length results, c + d * persisting (95 / 100) v, d * (95 / 100) ^ length results).
Proof.
  induction results as [|r results IH]; intros a b c d; cbn [rbp_loop map persisting length pow].
  - repeat (f_equal; try lra).
  - rewrite IH. cbv zeta. repeat (f_equal; try lra).
Qed.
Lemma values_grades g results : graded g -> map (value g) results = map (grade g) (map fst results).
Proof. intros G. rewrite map_map. apply map_ext. intros r. now apply value_grade. Qed.
Lemma rbp_eval_ok g results m : graded g ->
  get (lit "rbp50") (rbp_eval g results m) = Some (Some (rbp (1 / 2) g (map fst results))) /\
  get (lit "rbp95") (rbp_eval g results m) = Some (Some (rbp (95 / 100) g (map fst results))).
Proof.
  intros G. unfold rbp_eval. rewrite rbp_loop_ok. cbv zeta. unfold rbp. rewrite <- values_grades by exact G.
  split; keys; do 2 f_equal; lra.
Qed.
Lemma rbp_range p g l : 0 < p < 1 -> graded g -> grades_within 0 1 g -> 0 <= rbp p g l <= 1.
Proof.
  intros Hp G W. unfold rbp. assert (K : 0 <= persisting p (map (grade g) l) /\ (1 - p) * persisting p (map (grade g) l) <= 1).
  { induction l as [|x l [IH1 IH2]]; cbn [map persisting]; [lra|]. pose proof (grade_within g x G W) as X.
    assert (0 <= p * persisting p (map (grade g) l)) by (apply Rmult_le_pos; lra). split; [lra|].
    assert (p * ((1 - p) * persisting p (map (grade g) l)) <= p * 1) by (apply Rmult_le_compat_l; lra).
    assert ((1 - p) * grade g x <= (1 - p) * 1) by (apply Rmult_le_compat_l; lra). lra. }
  split; [apply Rmult_le_pos; lra|apply K].
Qed.

Lemma tbg_loop_ok g results : graded g -> forall a t, tbg_loop g results a t = a + time_biased g t results.
Proof.
  intros G. induction results as [|[p q] results IH]; intros a t; cbn [tbg_loop time_biased]; [lra|]. cbn [fst snd].
  pose proof (find_grade g p G) as E. unfold PCR0, PCR1, PSR1, TS, TDA, TDB, HALF.
  replace (IZR (q - p + 1)) with (IZR (q - p) + 1) by (rewrite (plus_IZR (q - p) 1); lra).
  set (len := IZR (q - p) + 1). assert (EX : Rpower 2 (- t / 224) = exp (- t * ln 2 / 224)) by (unfold Rpower; f_equal; lra).
  destruct (find p g) as [v|]; rewrite <- E.
  - unfold eqR. destruct (Req_EM_T v 0).
    + rewrite IH. f_equal. f_equal. lra.
    + rewrite IH, EX. rewrite Rplus_assoc. f_equal. f_equal. f_equal. lra.
  - destruct (Req_EM_T 0 0); [|lra]. rewrite IH. f_equal. f_equal. lra.
Qed.
Lemma other_keys k g results m : In k [lit "ap"; lit "rr"; lit "p05"; lit "p10"; lit "p20"; lit "ret"; lit "rel"; lit "rel-ret"; lit "precision"; lit "recall";
    lit "dcg"; lit "ndcg"; lit "dcg05"; lit "ndcg05"; lit "dcg10"; lit "ndcg10"; lit "dcg20"; lit "ndcg20"] ->
  get k (tbg_eval g results (rbp_eval g results m)) = get k m.
Proof.
  intros I. unfold tbg_eval, rbp_eval. destruct (rbp_loop g results (0, 1, 0, 1)) as [[[a b] c] d]. cbn [In] in I.
  repeat (destruct I as [<-|I]; [keys; reflexivity|]). destruct I.
Qed.
Lemma counts_kept sort k g results m : In k [lit "ap"; lit "rr"; lit "p05"; lit "p10"; lit "p20"; lit "ret"; lit "rel"; lit "rel-ret"; lit "precision"; lit "recall"] ->
  get k (ndcg_eval sort g results m) = get k m.
Proof.
  intros I. unfold ndcg_eval. cbv zeta. cbn [In] in I.
  repeat (destruct I as [<-|I]; [destruct (eqR _ 0); keys; reflexivity|]). destruct I.
Qed.
Lemma eval_counts sort g results m : graded g ->
  let l := map fst results in let e := eval sort g results m in
  get (lit "ap") e = Some (Some (average_precision g l)) /\
  get (lit "p05") e = Some (Some (precision_at g 5 l)) /\
  get (lit "p10") e = Some (Some (precision_at g 10 l)) /\
  get (lit "p20") e = Some (Some (precision_at g 20 l)) /\
  get (lit "ret") e = Some (Some (many l)) /\
  get (lit "rel") e = Some (Some (many (relevants g (map fst g)))) /\
  get (lit "rel-ret") e = Some (Some (many (relevants g l))) /\
  get (lit "precision") e = Some (Some (over (many (relevants g l)) (many l))) /\
  get (lit "recall") e = Some (Some (over (many (relevants g l)) (many (relevants g (map fst g))))).
Proof.
  intros G l e. pose proof (trec_eval_ok g results m G) as H. cbv zeta in H. fold l in H. unfold e, eval.
  destruct H as (H1 & _ & H3 & H4 & H5 & H6 & H7 & H8 & H9 & H10).
  repeat split; (rewrite other_keys by (cbn; tauto); rewrite counts_kept by (cbn; tauto); assumption).
Qed.
Lemma eval_rr sort g results m : graded g -> get (lit "rr") (eval sort g results m) = Some (Some (average_precision g (map fst results))).
Proof.
  intros G. pose proof (trec_eval_ok g results m G) as H. cbv zeta in H. unfold eval.
  rewrite other_keys by (cbn; tauto). rewrite counts_kept by (cbn; tauto). apply H.
Qed.
Lemma eval_gains sort g results m : sorts_down sort -> graded g -> not_negative g -> forall name nname k, In (name, nname, k) gains ->
  get name (eval sort g results m) = Some (Some (dcg g (cut k (map fst results)))) /\
  exists b, best_gain g k b /\ get nname (eval sort g results m) = Some (Some (over (dcg g (cut k (map fst results))) b)).
Proof.
  intros S G N name nname k I. unfold eval.
  assert (E : get name (tbg_eval g results (rbp_eval g results (ndcg_eval sort g results (trec_eval g results m)))) = get name (ndcg_eval sort g results (trec_eval g results m)) /\
    get nname (tbg_eval g results (rbp_eval g results (ndcg_eval sort g results (trec_eval g results m)))) = get nname (ndcg_eval sort g results (trec_eval g results m))).
  { cbn [gains In] in I. destruct I as [E|[E|[E|[E|[]]]]]; injection E as <- <- <-; split; apply other_keys; cbn; tauto. }
  destruct E as [-> ->]. now apply ndcg_eval_ok.
Qed.
Lemma ndcg_range g k b l : graded g -> not_negative g -> best_gain g k b -> NoDup l -> 0 <= over (dcg g (cut k l)) b <= 1.
Proof.
  intros G N [B1 B2] D. unfold over. destruct (Req_EM_T b 0) as [|NZ]; [lra|].
  assert (P : 0 <= dcg g (cut k l)).
  { unfold dcg. rewrite raw_discounted. apply Rmult_le_pos; [left; apply ln2_pos|]. apply raw_nonneg. apply Forall_forall. intros x X. apply in_map_iff in X.
    destruct X as [p [<- _]]. now apply grade_nonneg. }
  specialize (B1 l D). assert (0 < b) by lra. split; [apply Rmult_le_pos; [exact P|left; now apply Rinv_0_lt_compat]|].
  apply (Rmult_le_reg_r b); [lra|]. unfold Rdiv. rewrite Rmult_assoc, Rinv_l by lra. lra.
Qed.
Lemma eval_rbp sort g results m : graded g ->
  get (lit "rbp50") (eval sort g results m) = Some (Some (rbp (1 / 2) g (map fst results))) /\
  get (lit "rbp95") (eval sort g results m) = Some (Some (rbp (95 / 100) g (map fst results))) /\
  get (lit "tbg") (eval sort g results m) = Some (Some (time_biased g 0 results)).
Proof.
  intros G. unfold eval, tbg_eval. destruct (rbp_eval_ok g results (ndcg_eval sort g results (trec_eval g results m)) G) as [H1 H2].
  rewrite tbg_loop_ok by exact G. repeat split; keys; auto. do 2 f_equal. lra.
Qed.
(** Without repetitions, shares are shares. *)
Lemma shares g l : graded g -> NoDup l -> many (relevants g l) <= many (relevants g (map fst g)).
Proof.
  intros G D. unfold many. apply le_INR. apply NoDup_incl_length; [now apply NoDup_filter|]. intros p I. apply filter_In in I. destruct I as [_ I].
  apply filter_In. split; [|exact I]. destruct (in_dec Z.eq_dec p (map fst g)) as [J|J]; [exact J|]. rewrite grade_out in I by auto. destruct (Rlt_dec 0 0); [lra|discriminate].
Qed.
Lemma over_range a b : 0 <= a <= b -> 0 <= over a b <= 1.
Proof.
  intros H. unfold over. destruct (Req_EM_T b 0); [lra|]. split; [apply Rmult_le_pos; [lra|left; apply Rinv_0_lt_compat; lra]|].
  apply (Rmult_le_reg_r b); [lra|]. unfold Rdiv. rewrite Rmult_assoc, Rinv_l by lra. lra.
Qed.
Lemma relevants_le g l : many (relevants g l) <= many l.
Proof. unfold many, relevants. apply le_INR. induction l as [|x l IH]; cbn; [lia|]. destruct (Rlt_dec 0 (grade g x)); cbn; lia. Qed.
Lemma precision_range g k l : 0 <= precision_at g k l <= 1.
Proof.
  unfold precision_at. destruct k as [|k].
  - cbn [firstn relevants filter]. unfold many. cbn [length INR]. unfold Rdiv. lra.
  - assert (P : 0 < INR (S k)) by (apply lt_0_INR; lia). pose proof (relevants_le g (firstn (S k) l)) as L.
    assert (L2 : many (firstn (S k) l) <= INR (S k)) by (unfold many; apply le_INR; apply firstn_le_length).
    assert (L3 : 0 <= many (relevants g (firstn (S k) l))) by apply pos_INR.
    split; [apply Rmult_le_pos; [lra|left; now apply Rinv_0_lt_compat]|]. apply (Rmult_le_reg_r (INR (S k))); [lra|]. unfold Rdiv. rewrite Rmult_assoc, Rinv_l by lra. lra.
Qed.
Lemma ap_range g l : graded g -> NoDup l -> 0 <= average_precision g l <= 1.
Proof.
  intros G D. unfold average_precision. apply over_range.
  pose proof (shares g l G D) as S0.
  cut (0 <= Rsum (map (ap_term g l) (seq 1 (length l))) <= many (relevants g l)); [unfold ap_term; lra|].
  assert (K : forall n, (n <= length l)%nat -> 0 <= Rsum (map (ap_term g l) (seq 1 n)) <= many (relevants g (firstn n l))).
  { induction n as [|n IH]; intros L; [unfold many; cbn; lra|]. specialize (IH ltac:(lia)). rewrite seq_S, map_app, Rsum_app. cbn [Nat.add map].
    change (Rsum [ap_term g l (S n)]) with (ap_term g l (S n) + 0).
    assert (E : firstn (S n) l = firstn n l ++ [nth n l 0%Z]).
    { clear - L. revert n L. induction l as [|x l IH]; intros [|n] L; cbn in *; try lia; [reflexivity|]. f_equal. apply IH. lia. }
    rewrite E, relevants_app, many_app. unfold ap_term at 2 4. replace (S n - 1)%nat with n by lia.
    change (relevants g [nth n l 0%Z]) with (if (if Rlt_dec 0 (grade g (nth n l 0%Z)) then true else false) then [nth n l 0%Z] else []).
    pose proof (precision_range g (S n) l). destruct (Rlt_dec 0 (grade g (nth n l 0%Z))); [change (many [nth n l 0%Z]) with 1|change (many []) with 0]; lra. }
  specialize (K (length l) (Nat.le_refl _)). rewrite firstn_all in K. exact K.
Qed.
