(** The largest difference between two rankings, and means of measures. *)
From Coq Require Import Reals Lra Permutation Sorted.
From Verif Require Import Base Bytes RecipeModel RankerSpec EvalModel EvalSpec EvalProofs EvalGain EvalFinal EvalMore.
From Verif Require RankerProofs RankerText.
Local Open Scope R_scope.

(** * Maps *)
Lemma find_zput {A} p a (v : A) m : find p (zput a v m) = if Z.eqb p a then Some v else find p m.
Proof.
  induction m as [|[b x] m IH]; cbn [zput find]; [reflexivity|]. destruct (Z.eqb_spec a b) as [->|D].
  - cbn [find]. destruct (Z.eqb p b); reflexivity.
  - destruct (Z.ltb a b); cbn [find]; [reflexivity|]. rewrite IH. destruct (Z.eqb_spec p b) as [->|]; [|reflexivity]. destruct (Z.eqb_spec b a); [congruence|reflexivity].
Qed.
Lemma find_none {A} p (m : list (Z * A)) : find p m = None <-> ~ In p (map fst m).
Proof.
  induction m as [|[b x] m IH]; cbn [find map fst In]; [tauto|]. destruct (Z.eqb_spec p b) as [->|D].
  - split; [discriminate|]. intros H. elim H. now left.
  - rewrite IH. split; [intros H [E|E]; [congruence|tauto]|tauto].
Qed.
Lemma find_in {A} p (v : A) m : NoDup (map fst m) -> (find p m = Some v <-> In (p, v) m).
Proof.
  induction m as [|[b x] m IH]; cbn [find map fst In]; intros N; [split; [discriminate|tauto]|]. inversion N as [|? ? N1 N2]; subst.
  destruct (Z.eqb_spec p b) as [->|D].
  - split; [intros E; injection E as ->; now left|]. intros [E|I]; [now injection E as ->|]. elim N1. apply (in_map fst m (b, v) I).
  - rewrite (IH N2). split; [now right|]. intros [E|I]; [congruence|exact I].
Qed.
Lemma zput_new {A} p (v : A) m : ~ In p (map fst m) -> Permutation (zput p v m) ((p, v) :: m).
Proof.
  induction m as [|[b x] m IH]; cbn [zput map fst In]; intros N; [reflexivity|]. destruct (Z.eqb_spec p b) as [->|D]; [tauto|].
  destruct (Z.ltb p b); [reflexivity|]. rewrite IH by tauto. apply perm_swap.
Qed.
Lemma unless_find p a v m : find p (unless_there a v m) = match find p m with Some x => Some x | None => if Z.eqb p a then Some v else None end.
Proof.
  unfold unless_there. destruct (find a m) eqn:E.
  - destruct (find p m) eqn:Q; [reflexivity|]. destruct (Z.eqb_spec p a) as [->|]; congruence.
  - rewrite find_zput. destruct (Z.eqb_spec p a) as [->|]; [now rewrite E|]. destruct (find p m); reflexivity.
Qed.
Lemma unless_graded a v m : graded m -> graded (unless_there a v m).
Proof.
  unfold unless_there, graded. destruct (find a m) eqn:E; [auto|]. intros N. apply find_none in E.
  apply (Permutation_NoDup (l := map fst ((a, v) :: m))); [apply Permutation_map; symmetry; now apply zput_new|]. constructor; auto.
Qed.
Lemma unless_within a v m : 0 <= v <= 1 -> grades_within 0 1 m -> grades_within 0 1 (unless_there a v m).
Proof.
  unfold unless_there, grades_within. destruct (find a m) eqn:E; [auto|]. intros V W. apply find_none in E.
  apply (Permutation_Forall (Permutation_sym (zput_new a v m E))). constructor; auto.
Qed.
(** * Where an item stands *)
Fixpoint posn (l : list Z) (p : Z) : option nat := match l with [] => None | a :: r => if Z.eqb p a then Some O else option_map S (posn r p) end.
Lemma posn_none l p : posn l p = None <-> ~ In p l.
Proof.
  induction l as [|a l IH]; cbn; [tauto|]. destruct (Z.eqb_spec p a) as [->|D]; [split; [discriminate|intros H; elim H; now left]|].
  destruct (posn l p); cbn; split; try discriminate; intros H.
  - elim H. right. destruct (in_dec Z.eq_dec p l); [auto|]. assert (Some n = None) by tauto. discriminate.
  - intros [E|I]; [congruence|]. tauto.
  - reflexivity.
Qed.
Lemma posn_lt l p i : posn l p = Some i -> (i < length l)%nat.
Proof. revert i. induction l as [|a l IH]; cbn; [discriminate|]. intros i. destruct (Z.eqb p a); [intros E; injection E as <-; lia|]. destruct (posn l p); cbn; [|discriminate]. intros E. injection E as <-. specialize (IH n eq_refl). lia. Qed.
Definition optimistic (i j : option nat) (n : nat) : option R :=
  match i, j with
  | Some i, Some j => if Nat.leb i j then Some 1 else Some 0
  | Some _, None => Some 1
  | None, Some j => if Nat.ltb j n then Some 0 else None
  | None, None => None
  end.
Lemma med_loop_ok p one : forall two m, find p (med_loop one two m) =
  match find p m with Some x => Some x | None => optimistic (posn (map fst one) p) (posn (map fst two) p) (length one) end.
Proof.
  induction one as [|a one IH]; intros two m.
  - cbn [med_loop map posn length]. destruct (find p m); [reflexivity|]. cbn. destruct (posn (map fst two) p); reflexivity.
  - destruct two as [|b two]; cbn [med_loop map posn length].
    + rewrite IH, unless_find. destruct (find p m); [reflexivity|]. destruct (Z.eqb p (fst a)); [reflexivity|]. cbn [map posn optimistic].
      destruct (posn (map fst one) p); reflexivity.
    + rewrite IH, !unless_find. destruct (find p m); [reflexivity|]. destruct (Z.eqb p (fst a)).
      * cbn. destruct (Z.eqb p (fst b)); [reflexivity|]. destruct (posn (map fst two) p); reflexivity.
      * destruct (Z.eqb p (fst b)); [cbn; destruct (posn (map fst one) p); reflexivity|].
        destruct (posn (map fst one) p) as [i|]; destruct (posn (map fst two) p) as [j|]; reflexivity.
Qed.
Lemma med_graded one : forall two m, graded m -> graded (med_loop one two m).
Proof. induction one as [|a one IH]; intros [|b two] m H; cbn [med_loop]; auto; apply IH; repeat apply unless_graded; exact H. Qed.
Lemma med_within one : forall two m, grades_within 0 1 m -> grades_within 0 1 (med_loop one two m).
Proof. induction one as [|a one IH]; intros [|b two] m H; cbn [med_loop]; auto; apply IH; repeat apply unless_within; auto; lra. Qed.
(** * Sums over ranks and sums over items *)
Fixpoint wsum (w : nat -> R) (i : nat) (v : list R) : R := match v with [] => 0 | x :: r => x * w i + wsum w (S i) r end.
Definition item_weight (w : nat -> R) (l : list Z) (p : Z) : R := match posn l p with Some i => w i | None => 0 end.
Lemma wsum_items (f : Z -> R) w l : NoDup l -> forall i, wsum w i (map f l) = Rsum (map (fun p => f p * item_weight (fun j => w (i + j)%nat) l p) l).
Proof.
  induction 1 as [|a l N D IH]; intros i; [reflexivity|]. cbn [map wsum].
  change (Rsum (?x :: ?y)) with (x + Rsum y). unfold item_weight at 1. cbn [posn]. rewrite Z.eqb_refl, Nat.add_0_r. f_equal.
  rewrite IH. f_equal. apply map_ext_in. intros p P. f_equal. unfold item_weight. cbn [posn]. destruct (Z.eqb_spec p a) as [->|]; [contradiction|].
  destruct (posn l p); cbn; [|reflexivity]. f_equal. lia.
Qed.
Lemma wsum_union (f : Z -> R) w l u : NoDup l -> NoDup u -> incl l u -> wsum w 0 (map f l) = Rsum (map (fun p => f p * item_weight w l p) u).
Proof.
  intros N U I. destruct (fill_up u l N I) as (rest & P). rewrite (wsum_items f w l N 0).
  rewrite <- (Rsum_perm _ _ (Permutation_map (fun p => f p * item_weight w l p) P)), map_app, Rsum_app.
  replace (Rsum (map (fun p => f p * item_weight w l p) rest)) with 0; [cbn [Nat.add]; change (fun j => w j) with w; lra|].
  symmetry. assert (Q : forall p, In p rest -> ~ In p l).
  { intros p R1 L. assert (NA : NoDup (l ++ rest)) by (apply (Permutation_NoDup (Permutation_sym P) U)). clear - R1 L NA.
    induction l as [|a l IH]; [destruct L|]. cbn in NA. inversion NA; subst. destruct L as [->|L]; [|now apply IH]. apply H1. apply in_or_app. now right. }
  clear P I. induction rest as [|p r IH]; [reflexivity|]. cbn [map]. change (Rsum (?x :: ?y)) with (x + Rsum y). rewrite IH by (intros; apply Q; now right).
  unfold item_weight. assert (E : posn l p = None) by (apply posn_none, Q; now left). rewrite E. lra.
Qed.
Section Med.
Variable (w : nat -> R) (W1 : forall i, 0 <= w i) (W2 : forall i j, (i <= j)%nat -> w j <= w i).
Definition gain (g : list (Z * R)) (l : list Z) : R := wsum w 0 (map (grade g) l).
Lemma med_is_max one two : NoDup (map fst one) -> NoDup (map fst two) -> forall g, graded g -> grades_within 0 1 g ->
  gain g (map fst one) - gain g (map fst two) <= gain (med_qrels one two) (map fst one) - gain (med_qrels one two) (map fst two).
Proof using W1 W2.
  intros N1 N2 g G W. set (A := map fst one) in *. set (B := map fst two) in *. set (h := med_qrels one two).
  set (u := nodup Z.eq_dec (A ++ B)). assert (U : NoDup u) by apply NoDup_nodup.
  assert (IA : incl A u) by (intros x X; apply nodup_In, in_or_app; now left). assert (IB : incl B u) by (intros x X; apply nodup_In, in_or_app; now right).
  unfold gain. rewrite !(wsum_union _ w A u N1 U IA), !(wsum_union _ w B u N2 U IB).
  assert (GH : graded h) by (apply med_graded; constructor).
  assert (K : forall p, grade g p * item_weight w A p - grade g p * item_weight w B p <= grade h p * item_weight w A p - grade h p * item_weight w B p).
  { intros p. pose proof (grade_within g p G W) as X. assert (E : grade h p = match optimistic (posn A p) (posn B p) (length one) with Some x => x | None => 0 end).
    { rewrite <- (find_grade h p GH). unfold h, med_qrels. rewrite med_loop_ok. reflexivity. }
    rewrite E. set (x := grade g p) in *. unfold item_weight, optimistic. destruct (posn A p) as [i|]; destruct (posn B p) as [j|].
    - destruct (Nat.leb_spec i j) as [L|L].
      + pose proof (W2 i j L) as Y. assert (x * (w i - w j) <= 1 * (w i - w j)) by (apply Rmult_le_compat_r; lra). lra.
      + pose proof (W2 j i ltac:(lia)) as Y. assert (0 <= x * (w j - w i)) by (apply Rmult_le_pos; lra). lra.
    - pose proof (W1 i). assert (x * w i <= 1 * w i) by (apply Rmult_le_compat_r; lra). lra.
    - pose proof (W1 j). assert (0 <= x * w j) by (apply Rmult_le_pos; lra). destruct (Nat.ltb j (length one)); lra.
    - lra. }
  clear - K. induction u as [|p r IH]; [cbn; lra|]. cbn [map]. repeat change (Rsum (?x :: ?y)) with (x + Rsum y). specialize (K p). lra.
Qed.
Lemma gain_nil l : gain [] l = 0.
Proof. unfold gain. generalize 0%nat. induction l as [|p l IH]; intros i; cbn [map wsum]; [reflexivity|]. rewrite IH. change (grade [] p) with 0. lra. Qed.
Lemma med_largest one two : NoDup (map fst one) -> NoDup (map fst two) ->
  let d1 := gain (med_qrels one two) (map fst one) - gain (med_qrels one two) (map fst two) in
  let d2 := gain (med_qrels two one) (map fst two) - gain (med_qrels two one) (map fst one) in
  largest_difference gain (map fst one) (map fst two) (Rmax d1 d2) /\ 0 <= d1 /\ 0 <= d2.
Proof using W1 W2.
  intros N1 N2 d1 d2.
  assert (D1 : 0 <= d1). { pose proof (med_is_max one two N1 N2 [] ltac:(constructor) ltac:(constructor)) as K. rewrite !gain_nil in K. unfold d1. lra. }
  assert (D2 : 0 <= d2). { pose proof (med_is_max two one N2 N1 [] ltac:(constructor) ltac:(constructor)) as K. rewrite !gain_nil in K. unfold d2. lra. }
  split; [|split; assumption]. split.
  - intros g G W. pose proof (med_is_max one two N1 N2 g G W) as K1. pose proof (med_is_max two one N2 N1 g G W) as K2. fold d1 in K1. fold d2 in K2.
    pose proof (Rmax_l d1 d2). pose proof (Rmax_r d1 d2). apply Rabs_le. lra.
  - unfold Rmax. destruct (Rle_dec d1 d2).
    + exists (med_qrels two one). split; [apply med_graded; constructor|]. split; [apply med_within; constructor|]. rewrite Rabs_left1 by (fold d2; unfold d2 in D2; lra). unfold d2. lra.
    + exists (med_qrels one two). split; [apply med_graded; constructor|]. split; [apply med_within; constructor|]. rewrite Rabs_right by (unfold d1 in D1; lra). reflexivity.
Qed.
End Med.
Lemma largest_ext M M' a b m : (forall g l, M g l = M' g l) -> largest_difference M a b m -> largest_difference M' a b m.
Proof.
  intros E [H1 H2]. split.
  - intros g G W. rewrite <- !E. auto.
  - destruct H2 as (g & G & W & H). exists g. rewrite <- !E. auto.
Qed.
Lemma dcg_gain g l : gain weight g l = dcg g l.
Proof.
  unfold gain, dcg. generalize 0%nat (map (grade g) l). intros i v. revert i. induction v as [|x v IH]; intros i; cbn [wsum discounted]; [reflexivity|].
  rewrite IH. unfold weight, Rdiv. lra.
Qed.
Lemma rbp_gain p g l : gain (fun i => (1 - p) * p ^ i) g l = rbp p g l.
Proof.
  unfold gain, rbp. assert (K : forall v i, wsum (fun i => (1 - p) * p ^ i) i v = (1 - p) * p ^ i * persisting p v).
  { induction v as [|x v IH]; intros i; cbn [wsum persisting]; [lra|]. rewrite IH. cbn [pow]. lra. }
  rewrite K. cbn [pow]. lra.
Qed.
Lemma fake_loop_ok n : forall i a, fake_loop n i a = a + raw i (repeat 1 n).
Proof. induction n as [|n IH]; intros i a; cbn [fake_loop repeat raw]; [lra|]. rewrite IH. lra. Qed.
Lemma gets_half sort one two : sorts_down sort ->
  med_half sort one two =
    (Some (dcg (med_qrels one two) (map fst one) - dcg (med_qrels one two) (map fst two)),
     Some (rbp (1 / 2) (med_qrels one two) (map fst one) - rbp (1 / 2) (med_qrels one two) (map fst two)),
     Some (rbp (95 / 100) (med_qrels one two) (map fst one) - rbp (95 / 100) (med_qrels one two) (map fst two))).
Proof.
  intros S. unfold med_half. cbv zeta. set (g := med_qrels one two).
  assert (G : graded g) by (apply med_graded; constructor). assert (W : grades_within 0 1 g) by (apply med_within; constructor).
  assert (D : forall r, get (lit "dcg") (rbp_eval g r (ndcg_eval sort g r [])) = Some (Some (dcg g (map fst r)))).
  { intros r. unfold rbp_eval. destruct (rbp_loop g r (0, 1, 0, 1)) as [[[a b] c] d]. keys.
    apply (ndcg_eval_ok sort g r [] S G (within_nonneg g W) (lit "dcg") (lit "ndcg") None). now left. }
  unfold at_key. rewrite !D.
  destruct (rbp_eval_ok g one (ndcg_eval sort g one []) G) as [-> ->]. destruct (rbp_eval_ok g two (ndcg_eval sort g two []) G) as [-> ->]. reflexivity.
Qed.
Lemma med_ok sort one two m : sorts_down sort -> NoDup (map fst one) -> NoDup (map fst two) ->
  forall name measure, In (name, measure) med_names ->
  exists x, get name (med sort one two m) = Some (Some x) /\ largest_difference measure (map fst one) (map fst two) x.
Proof.
  intros S N1 N2 name measure I. unfold med. rewrite (gets_half sort one two S), (gets_half sort two one S). cbn [lift].
  assert (P : forall p, 0 < p < 1 -> (forall i, 0 <= (1 - p) * p ^ i) /\ (forall i j, (i <= j)%nat -> (1 - p) * p ^ j <= (1 - p) * p ^ i)).
  { intros p Hp. split; [intros i; apply Rmult_le_pos; [lra|apply pow_le; lra]|]. intros i j L. apply Rmult_le_compat_l; [lra|].
    induction L as [|j L IH]; [lra|]. cbn [pow]. pose proof (pow_le p j ltac:(lra)). assert (p * p ^ j <= 1 * p ^ j) by (apply Rmult_le_compat_r; lra). lra. }
  cbn [med_names In] in I. destruct I as [E|[E|[E|[]]]]; injection E as <- <-; eexists; (split; [keys; reflexivity|]).
  - rewrite <- !dcg_gain. apply (largest_ext (gain weight)); [intros; apply dcg_gain|].
    apply (med_largest weight (fun i => Rlt_le _ _ (weight_pos i)) weight_falls one two N1 N2).
  - destruct (P (1 / 2) ltac:(lra)) as [P1 P2]. rewrite <- !rbp_gain. apply (largest_ext (gain (fun i => (1 - 1 / 2) * (1 / 2) ^ i))); [intros; apply rbp_gain|].
    apply (med_largest _ P1 P2 one two N1 N2).
  - destruct (P (95 / 100) ltac:(lra)) as [P1 P2]. rewrite <- !rbp_gain. apply (largest_ext (gain (fun i => (1 - 95 / 100) * (95 / 100) ^ i))); [intros; apply rbp_gain|].
    apply (med_largest _ P1 P2 one two N1 N2).
Qed.
Lemma raw_repeat_mono n k i : (n <= k)%nat -> raw i (repeat 1 n) <= raw i (repeat 1 k).
Proof.
  intros L. revert i k L. induction n as [|n IH]; intros i k L.
  - cbn [repeat raw]. apply raw_nonneg. apply Forall_forall. intros x X. apply repeat_spec in X. lra.
  - destruct k as [|k]; [lia|]. cbn [repeat raw]. specialize (IH (S i) k ltac:(lia)). lra.
Qed.
Lemma raw_ones v : Forall (fun x => x <= 1) v -> forall i, raw i v <= raw i (repeat 1 (length v)).
Proof.
  induction 1 as [|x v H _ IH]; intros i; cbn [raw repeat length]; [lra|]. specialize (IH (S i)). pose proof (log_pos i) as L.
  assert (x / ln (INR i + 2) <= 1 / ln (INR i + 2)) by (apply Rmult_le_compat_r; [left; now apply Rinv_0_lt_compat|exact H]). lra.
Qed.
Lemma dcg_bound g l n : graded g -> grades_within 0 1 g -> (length l <= n)%nat -> 0 <= dcg g l <= discounted 0 (repeat 1 n).
Proof.
  intros G W L. unfold dcg. rewrite !raw_discounted. pose proof ln2_pos. split.
  - apply Rmult_le_pos; [lra|]. apply raw_nonneg. apply Forall_forall. intros x X. apply in_map_iff in X. destruct X as [p [<- _]]. apply (grade_within g p G W).
  - apply Rmult_le_compat_l; [lra|]. eapply Rle_trans; [apply raw_ones|apply raw_repeat_mono; now rewrite map_length].
    apply Forall_forall. intros x X. apply in_map_iff in X. destruct X as [p [<- _]]. apply (grade_within g p G W).
Qed.
(** The last measure: the part of what a ranking of that depth can have at most. *)
Lemma med_ndcg_ok sort one two m : sorts_down sort -> NoDup (map fst one) -> NoDup (map fst two) -> one <> [] \/ two <> [] ->
  exists x d, get (lit "med-dcg") (med sort one two m) = Some (Some d) /\ get (lit "med-ndcg") (med sort one two m) = Some (Some x) /\
    x = d / discounted 0 (repeat 1 (Nat.max (length one) (length two))) /\ 0 <= x <= 1.
Proof.
  intros S N1 N2 NE. set (n := Nat.max (length one) (length two)).
  assert (NP : (0 < n)%nat). { unfold n. destruct NE as [NE|NE]; [destruct one; [contradiction|cbn [length]; lia]|destruct two; [contradiction|cbn [length]; lia]]. }
  assert (IP : 0 < discounted 0 (repeat 1 n)).
  { rewrite raw_discounted. apply Rmult_lt_0_compat; [apply ln2_pos|]. pose proof (raw_repeat_mono 1 n 0 NP) as K. cbn [repeat raw] in K. pose proof (log_pos 0).
    assert (0 < 1 / ln (INR 0 + 2)) by (apply Rdiv_lt_0_compat; lra). lra. }
  pose proof (med_largest weight (fun i => Rlt_le _ _ (weight_pos i)) weight_falls one two N1 N2) as K. cbv zeta in K. rewrite !dcg_gain in K.
  destruct K as (_ & K1 & K2).
  unfold med. rewrite (gets_half sort one two S), (gets_half sort two one S). cbn [lift].
  set (d1 := dcg (med_qrels one two) (map fst one) - dcg (med_qrels one two) (map fst two)) in *.
  set (d2 := dcg (med_qrels two one) (map fst two) - dcg (med_qrels two one) (map fst one)) in *.
  assert (M : 0 <= Rmax d1 d2 <= discounted 0 (repeat 1 n)).
  { assert (B : forall a b l, (length l <= n)%nat -> 0 <= dcg (med_qrels a b) l <= discounted 0 (repeat 1 n)).
    { intros a b l L. apply dcg_bound; [apply med_graded; constructor|apply med_within; constructor|exact L]. }
    pose proof (B one two (map fst one)) as B1. pose proof (B one two (map fst two)) as B2. pose proof (B two one (map fst one)) as B3. pose proof (B two one (map fst two)) as B4.
    rewrite !map_length in *. unfold n in *. specialize (B1 ltac:(lia)). specialize (B2 ltac:(lia)). specialize (B3 ltac:(lia)). specialize (B4 ltac:(lia)).
    unfold Rmax, d1, d2 in *. destruct (Rle_dec _ _); lra. }
  exists (Rmax d1 d2 / discounted 0 (repeat 1 n)), (Rmax d1 d2). split; [keys; reflexivity|]. split.
  - keys. unfold med_fake_ideal_dcg. rewrite fake_loop_ok. fold n. replace (ln 2 * (0 + raw 0 (repeat 1 n))) with (discounted 0 (repeat 1 n)) by (rewrite raw_discounted; lra).
    unfold fdiv. replace (eqR (discounted 0 (repeat 1 n)) 0) with false by (symmetry; apply eqR_false; lra). reflexivity.
  - split; [reflexivity|]. split; [apply Rmult_le_pos; [lra|left; now apply Rinv_0_lt_compat]|].
    apply (Rmult_le_reg_r (discounted 0 (repeat 1 n))); [lra|]. unfold Rdiv. rewrite Rmult_assoc, Rinv_l by lra. lra.
Qed.
