(** Gains: the loops, and that falling grades have the largest gain. *)
From Coq Require Import Reals Lra Permutation Sorted.
From Verif Require Import Base Bytes RecipeModel RankerSpec EvalModel EvalSpec EvalProofs.
Local Open Scope R_scope.

Lemma ln2_pos : 0 < ln 2.
Proof. rewrite <- ln_1. apply ln_increasing; lra. Qed.
Lemma log_pos i : 0 < ln (INR i + 2).
Proof. pose proof (pos_INR i). rewrite <- ln_1. apply ln_increasing; lra. Qed.
Lemma log_rises i j : (i <= j)%nat -> ln (INR i + 2) <= ln (INR j + 2).
Proof.
  intros H. apply le_INR in H. pose proof (pos_INR i). destruct (Rle_lt_or_eq_dec _ _ H) as [L|E]; [|rewrite E; lra].
  left. apply ln_increasing; lra.
Qed.
(** The weight of rank i. *)
Definition weight (i : nat) : R := 1 / (ln (INR i + 2) / ln 2).
Lemma weight_pos i : 0 < weight i.
Proof. unfold weight. pose proof ln2_pos. pose proof (log_pos i). apply Rdiv_lt_0_compat; [lra|]. apply Rdiv_lt_0_compat; lra. Qed.
Lemma weight_falls i j : (i <= j)%nat -> weight j <= weight i.
Proof.
  intros H. unfold weight, Rdiv. rewrite !Rmult_1_l. apply Rinv_le_contravar.
  - apply Rmult_lt_0_compat; [apply log_pos|apply Rinv_0_lt_compat, ln2_pos].
  - apply Rmult_le_compat_r; [left; apply Rinv_0_lt_compat, ln2_pos|now apply log_rises].
Qed.

(** * Sums over ranks *)
Fixpoint upto (f : nat -> R) (n : nat) : R := match n with O => 0 | S m => f O + upto (fun i => f (S i)) m end.
Lemma upto_ext f h n : (forall i, (i < n)%nat -> f i = h i) -> upto f n = upto h n.
Proof. revert f h. induction n as [|n IH]; cbn; intros f h H; [reflexivity|]. rewrite (H O) by lia. rewrite (IH _ (fun i => h (S i))); [reflexivity|]. intros i Hi. apply H. lia. Qed.
(** Summation by parts. *)
Lemma abel n : forall (D : R) (a b w : nat -> R), (forall i, 0 <= w i) -> (forall i, w (S i) <= w i) ->
  (forall j, (j <= n)%nat -> 0 <= D + upto b j - upto a j) ->
  0 <= D * w O + upto (fun i => (b i - a i) * w i) n.
Proof.
  induction n as [|n IH]; intros D a b w W1 W2 H.
  - cbn. specialize (H O (Nat.le_refl _)). cbn in H. pose proof (W1 O). assert (0 <= D * w O) by (apply Rmult_le_pos; lra). lra.
  - cbn [upto]. assert (H1 : 0 <= D + (b O - a O)). { specialize (H 1%nat ltac:(lia)). cbn in H. lra. }
    pose proof (IH (D + (b O - a O)) (fun i => a (S i)) (fun i => b (S i)) (fun i => w (S i)) (fun i => W1 (S i)) (fun i => W2 (S i))) as K.
    cbn beta in K. assert (K' : 0 <= (D + (b O - a O)) * w 1%nat + upto (fun i => (b (S i) - a (S i)) * w (S i)) n).
    { apply K. intros j Hj. specialize (H (S j) ltac:(lia)). cbn [upto] in H. lra. }
    assert ((D + (b O - a O)) * w 1%nat <= (D + (b O - a O)) * w O) by (apply Rmult_le_compat_l; [lra|apply W2]). lra.
Qed.
Lemma upto_sub (a b w : nat -> R) n : upto (fun i => (b i - a i) * w i) n = upto (fun i => b i * w i) n - upto (fun i => a i * w i) n.
Proof. revert a b w. induction n as [|n IH]; cbn; intros a b w; [lra|]. rewrite (IH (fun i => a (S i)) (fun i => b (S i)) (fun i => w (S i))). lra. Qed.
Lemma upto_nth l : forall j, upto (fun i => nth i l 0) j = Rsum (firstn j l).
Proof.
  induction l as [|x l IH]; intros [|j]; try reflexivity.
  - cbn [firstn upto]. cbn [nth]. change (Rsum []) with 0. assert (E : forall m, upto (fun _ => 0) m = 0) by (induction m; cbn; lra).
    rewrite E. lra.
  - cbn [upto firstn nth]. rewrite IH. reflexivity.
Qed.
Lemma discounted_upto v : forall i n, (length v <= n)%nat -> discounted i v = upto (fun j => nth j v 0 * weight (i + j)) n.
Proof.
  induction v as [|x v IH]; intros i n L.
  - cbn [discounted]. assert (E : forall m k, upto (fun j => nth j (@nil R) 0 * weight (k + j)) m = 0).
    { intros m. clear L. assert (E0 : forall f, (forall j, f j = 0) -> upto f m = 0). { induction m as [|m IH]; cbn; intros f F; [reflexivity|]. rewrite F, IH; [lra|auto]. }
      intros k. apply E0. intros [|j]; cbn; lra. }
    symmetry. apply E.
  - destruct n as [|n]; [cbn in L; lia|]. cbn [discounted upto nth]. rewrite (IH (S i) n) by (cbn in L; lia). rewrite Nat.add_0_r.
    replace (x / (ln (INR i + 2) / ln 2)) with (x * weight i) by (unfold weight, Rdiv; lra). f_equal. apply upto_ext. intros j _. now rewrite Nat.add_succ_r.
Qed.

(** * The largest sums *)
Lemma firstn_mono_sum s : Forall (fun x => 0 <= x) s -> forall i j, (i <= j)%nat -> Rsum (firstn i s) <= Rsum (firstn j s).
Proof.
  induction 1 as [|x s Hx Hs IH]; intros i j L; [rewrite !firstn_nil; lra|].
  destruct i as [|i]; [|destruct j as [|j]; [lia|cbn; pose proof (IH i j ltac:(lia)); unfold Rsum in *; lra]].
  cbn [firstn]. change (Rsum []) with 0. apply Rsum_nonneg. clear - Hx Hs. destruct j; cbn; [constructor|]. constructor; [lra|].
  clear Hx. revert j. induction Hs; intros [|j]; cbn; auto.
Qed.
Lemma sub_sum s : falls s -> Forall (fun x => 0 <= x) s -> forall a rest, Permutation (a ++ rest) s -> forall j, (length a <= j)%nat -> Rsum a <= Rsum (firstn j s).
Proof.
  induction 1 as [|x s S IH X]; intros N a rest P j L.
  - apply Permutation_sym, Permutation_nil, app_eq_nil in P. destruct P as [-> ->]. rewrite firstn_nil. lra.
  - inversion N as [|? ? N1 N2]; subst. destruct a as [|y a].
    + change (Rsum []) with 0. apply Rsum_nonneg. clear - N. revert j. induction N; intros [|j]; cbn; auto.
    + destruct j as [|j]; [cbn in L; lia|]. cbn [firstn]. change (Rsum (x :: firstn j s)) with (x + Rsum (firstn j s)).
      assert (I : In x ((y :: a) ++ rest)) by (apply (Permutation_in x (Permutation_sym P)); now left).
      destruct (in_app_or _ _ _ I) as [I1|I1].
      * destruct (in_split _ _ I1) as (u & v & E). rewrite E in *. assert (P' : Permutation ((u ++ v) ++ rest) s).
        { apply (Permutation_cons_inv (a := x)). rewrite <- P. rewrite <- !app_assoc. cbn [app]. apply Permutation_middle. }
        pose proof (IH N2 _ _ P' j) as K. rewrite app_length in L. cbn [length] in L. rewrite app_length in K. specialize (K ltac:(lia)).
        rewrite Rsum_app in *. change (Rsum (x :: v)) with (x + Rsum v). lra.
      * destruct (in_split _ _ I1) as (u & v & ->).
        assert (P' : Permutation ((y :: a) ++ u ++ v) s).
        { apply (Permutation_cons_inv (a := x)). rewrite <- P. rewrite !app_assoc. apply Permutation_middle. }
        assert (P2 : Permutation (a ++ y :: u ++ v) s). { rewrite <- P'. symmetry. cbn [app]. apply Permutation_middle. }
        pose proof (IH N2 _ _ P2 j) as K. cbn [length] in L. specialize (K ltac:(lia)).
        change (Rsum (y :: a)) with (y + Rsum a).
        assert (y <= x). { rewrite Forall_forall in X. apply X. apply (Permutation_in y P'). now left. } lra.
Qed.
Lemma NoDup_take {A} n (l : list A) : NoDup l -> NoDup (firstn n l).
Proof.
  intros N. revert n. induction N as [|x l X N IH]; intros [|n]; cbn; try constructor; auto.
  intros I. apply X. clear - I. revert n I. induction l as [|y l IH]; intros [|n] I; cbn in *; try tauto. destruct I as [->|I]; eauto.
Qed.
(** What is without repetitions and inside [k] can be filled up to [k]. *)
Lemma fill_up (k : list Z) : forall l, NoDup l -> incl l k -> exists rest, Permutation (l ++ rest) k.
Proof.
  induction k as [|x k IH]; intros l N I.
  - destruct l as [|y l]; [exists []; constructor|]. destruct (I y (or_introl eq_refl)).
  - destruct (in_dec Z.eq_dec x l) as [X|X].
    + destruct (in_split _ _ X) as (u & v & ->). destruct (in_dec Z.eq_dec x k) as [Y|Y].
      * destruct (IH (u ++ v)) as (rest & P).
        -- apply NoDup_remove_1 in N. exact N.
        -- intros y Y'. destruct (I y) as [<-|Z]; [rewrite in_app_iff in *; cbn; tauto| |exact Z]. apply NoDup_remove_2 in N. contradiction.
        -- exists rest. rewrite <- P. rewrite <- !app_assoc. cbn. symmetry. apply Permutation_middle.
      * destruct (IH (u ++ v)) as (rest & P).
        -- apply NoDup_remove_1 in N. exact N.
        -- intros y Y'. destruct (I y) as [<-|Z]; [rewrite in_app_iff in *; cbn; tauto| |exact Z]. apply NoDup_remove_2 in N. contradiction.
        -- exists rest. rewrite <- P. rewrite <- !app_assoc. cbn. symmetry. apply Permutation_middle.
    + destruct (IH l N) as (rest & P). { intros y Y. destruct (I y Y) as [<-|Z]; [contradiction|exact Z]. }
      exists (x :: rest). rewrite <- P. symmetry. apply Permutation_middle.
Qed.
Section Best.
Variable (g : list (Z * R)) (G : graded g) (N : not_negative g) (s : list R) (P : Permutation s (map snd g)) (F : falls s).
Lemma s_nonneg : Forall (fun x => 0 <= x) s.
Proof using N P.
  apply Forall_forall. intros x I. apply (Permutation_in x P) in I. apply in_map_iff in I. destruct I as [y [<- I]].
  unfold not_negative in N. rewrite Forall_forall in N. now apply N.
Qed.
Lemma keys_grades : map (grade g) (map fst g) = map snd g.
Proof using G. rewrite map_map. apply map_ext_in. intros [p v] I. apply (grade_in _ _ _ G I). Qed.
Lemma prefix_sum l j : NoDup l -> (length l <= j)%nat -> Rsum (map (grade g) l) <= Rsum (firstn j s).
Proof using G N P F.
  intros D L. set (inside := filter (fun p => if in_dec Z.eq_dec p (map fst g) then true else false) l).
  assert (E : Rsum (map (grade g) l) = Rsum (map (grade g) inside)).
  { unfold inside. clear D L inside. induction l as [|p l IH]; [reflexivity|]. cbn [map filter]. change (Rsum (grade g p :: map (grade g) l)) with (grade g p + Rsum (map (grade g) l)).
    rewrite IH. destruct (in_dec Z.eq_dec p (map fst g)) as [I|I]; [reflexivity|]. rewrite grade_out by auto. lra. }
  rewrite E. destruct (fill_up (map fst g) inside) as (rest & Q).
  - unfold inside. apply NoDup_filter, D.
  - intros p I. unfold inside in I. apply filter_In in I. destruct I as [_ I]. destruct (in_dec Z.eq_dec p (map fst g)); [auto|discriminate].
  - apply (sub_sum s F s_nonneg _ (map (grade g) rest)).
    + rewrite <- map_app. rewrite (Permutation_map (grade g) Q), keys_grades. symmetry. exact P.
    + rewrite map_length. unfold inside. etransitivity; [|exact L]; clear; induction l as [|x l IH]; cbn; [lia|]; destruct (in_dec Z.eq_dec x (map fst g)); cbn; lia.
Qed.
End Best.
