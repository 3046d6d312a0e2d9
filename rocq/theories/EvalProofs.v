(** Lemmas about the evaluation of rankings. *)
From Coq Require Import Reals Lra Permutation.
From Verif Require Import Base Bytes RecipeModel RankerSpec EvalModel EvalSpec.
Local Open Scope R_scope.

Lemma ltR_iff a b : ltR a b = true <-> a < b.
Proof. unfold ltR. destruct (Rlt_dec a b); split; intros; try discriminate; auto; contradiction. Qed.
Lemma ltR_false a b : ltR a b = false <-> b <= a.
Proof. unfold ltR. destruct (Rlt_dec a b); split; intros; try discriminate; auto; lra. Qed.
Lemma eqR_iff a b : eqR a b = true <-> a = b.
Proof. unfold eqR. destruct (Req_EM_T a b); split; intros; try discriminate; auto; contradiction. Qed.
Lemma eqR_false a b : eqR a b = false <-> a <> b.
Proof. unfold eqR. destruct (Req_EM_T a b); split; intros; try discriminate; auto; contradiction. Qed.
Lemma Rsum_app a b : Rsum (a ++ b) = Rsum a + Rsum b.
Proof. unfold Rsum. induction a as [|x a IH]; cbn [app fold_right]; [lra|]. rewrite IH. lra. Qed.
Lemma Rsum_perm a b : Permutation a b -> Rsum a = Rsum b.
Proof. unfold Rsum. induction 1; cbn; lra. Qed.
Lemma Rsum_nonneg a : Forall (fun x => 0 <= x) a -> 0 <= Rsum a.
Proof. unfold Rsum. induction 1; cbn; lra. Qed.

Lemma find_grade g p : graded g -> match find p g with None => 0 | Some v => v end = grade g p.
Proof.
  unfold graded, grade. induction g as [|[p' v] g IH]; cbn [map fst snd find filter]; intros N; [reflexivity|].
  inversion N as [|? ? N1 N2]; subst. destruct (Z.eqb_spec p p') as [->|D].
  - rewrite Z.eqb_refl. cbn [map snd]. cut (filter (fun x : Z * R => Z.eqb (fst x) p') g = []); [intros ->; unfold Rsum; cbn; lra|].
    clear IH N N2. induction g as [|[a b] g IH]; cbn; [reflexivity|]. cbn in N1. destruct (Z.eqb_spec a p') as [->|]; [tauto|]. apply IH. tauto.
  - destruct (Z.eqb_spec p' p) as [E|_]; [congruence|]. apply IH, N2.
Qed.
Lemma value_grade g r : graded g -> value g r = grade g (fst r).
Proof. intros G. apply (find_grade g (fst r) G). Qed.
Lemma grade_in g p v : graded g -> In (p, v) g -> grade g p = v.
Proof.
  intros G I. rewrite <- (find_grade g p G). unfold graded in G. induction g as [|[a b] g IH]; [destruct I|]. cbn [map fst find] in *.
  inversion G as [|? ? N1 N2]; subst. destruct I as [E|I].
  - injection E as -> ->. now rewrite Z.eqb_refl.
  - destruct (Z.eqb_spec p a) as [->|]; [|now apply IH]. elim N1. now apply (in_map fst g (a, v)).
Qed.
Lemma grade_out g p : ~ In p (map fst g) -> grade g p = 0.
Proof.
  unfold grade. induction g as [|[a b] g IH]; cbn [map fst filter]; intros N; [reflexivity|]. cbn in N.
  destruct (Z.eqb_spec a p) as [->|]; [tauto|]. apply IH. tauto.
Qed.
Lemma grade_nonneg g p : graded g -> not_negative g -> 0 <= grade g p.
Proof.
  intros G N. destruct (in_dec Z.eq_dec p (map fst g)) as [I|I]; [|rewrite grade_out by auto; lra].
  apply in_map_iff in I. destruct I as [[a v] [<- I]]. cbn. rewrite (grade_in _ _ _ G I). unfold not_negative in N. rewrite Forall_forall in N. apply (N _ I).
Qed.
Lemma grade_within g p : graded g -> grades_within 0 1 g -> 0 <= grade g p <= 1.
Proof.
  intros G N. destruct (in_dec Z.eq_dec p (map fst g)) as [I|I]; [|rewrite grade_out by auto; lra].
  apply in_map_iff in I. destruct I as [[a v] [<- I]]. cbn. rewrite (grade_in _ _ _ G I). unfold grades_within in N. rewrite Forall_forall in N. apply (N _ I).
Qed.
Lemma within_nonneg g : grades_within 0 1 g -> not_negative g.
Proof. unfold grades_within, not_negative. apply Forall_impl. intros; lra. Qed.

Lemma count_ok g : graded g -> count_binary_rels g = many (relevants g (map fst g)).
Proof.
  intros G. unfold count_binary_rels, many, relevants.
  assert (K : forall h c, (forall x, In x h -> grade g (fst x) = snd x) ->
    fold_left (fun count qrel => if ltR 0 (snd qrel) then count + 1 else count) h c
    = c + INR (length (filter (fun p => if Rlt_dec 0 (grade g p) then true else false) (map fst h)))).
  { induction h as [|[p v] h IH]; cbn [fold_left map fst snd filter]; intros c H; [cbn; lra|].
    rewrite IH by (intros; apply H; now right). replace (grade g p) with v by (symmetry; apply (H (p, v)); now left). unfold ltR.
    destruct (Rlt_dec 0 v); [|reflexivity]. cbn [length]. rewrite S_INR. lra. }
  rewrite K; [lra|]. intros [p v] I. apply (grade_in _ _ _ G I).
Qed.
Lemma relevants_app g a b : relevants g (a ++ b) = relevants g a ++ relevants g b.
Proof. unfold relevants. apply filter_app. Qed.
Lemma many_app a b : many (a ++ b) = many a + many b.
Proof. unfold many. rewrite app_length, plus_INR. reflexivity. Qed.

(** * The counts *)
Section Trec.
Variable (g : list (Z * R)) (G : graded g) (l : list Z).
Definition ap_term (k : nat) : R := if Rlt_dec 0 (grade g (nth (k - 1) l 0%Z)) then precision_at g k l else 0.
Definition at_depth (k n : nat) (x : R) : Prop := x = if Nat.leb k n then precision_at g k l else 0.
Definition counted (c : counts) (done : list Z) : Prop :=
  rels_seen c = many (relevants g done) /\ t_ap c = Rsum (map ap_term (seq 1 (length done))) /\
  at_depth 5 (length done) (t_p05 c) /\ at_depth 10 (length done) (t_p10 c) /\ at_depth 20 (length done) (t_p20 c).
Lemma at_depth_next k n x y : at_depth k n x -> (k = S n -> y = precision_at g k l) -> at_depth k (S n) (if Nat.eqb k (S n) then y else x).
Proof.
  unfold at_depth. intros H E. destruct (Nat.eqb_spec k (S n)) as [->|D].
  - rewrite Nat.leb_refl. auto.
  - rewrite H. destruct (Nat.leb_spec k n); destruct (Nat.leb_spec k (S n)); auto; lia.
Qed.
Lemma rank_eqb (n : nat) (k : nat) : Z.eqb (Z.of_nat (S n)) (Z.of_nat k) = Nat.eqb k (S n).
Proof. destruct (Nat.eqb_spec k (S n)) as [->|D]; [apply Z.eqb_refl|]. apply Z.eqb_neq. lia. Qed.
Lemma trec_loop_ok results : forall done c, l = done ++ map fst results -> counted c done ->
  exists c', trec_loop g (Z.of_nat (S (length done))) results c = (Z.of_nat (S (length l)), c') /\ counted c' l.
Proof.
  induction results as [|r results IH]; intros done c E H.
  - cbn [map] in E. rewrite app_nil_r in E. exists c. rewrite E. split; [reflexivity|exact H].
  - cbn [trec_loop map]. set (c1 := Counts _ _ _ _ _ _).
    assert (E' : l = (done ++ [fst r]) ++ map fst results) by (rewrite <- app_assoc; exact E).
    assert (P : firstn (S (length done)) l = done ++ [fst r]).
    { rewrite E', firstn_app. replace (length (done ++ [fst r])) with (S (length done)) by (rewrite app_length; cbn; lia).
      rewrite firstn_all2 by (rewrite app_length; cbn; lia). rewrite Nat.sub_diag. cbn. now rewrite app_nil_r. }
    assert (Sn : (if ltR 0 (value g r) then rels_seen c + 1 else rels_seen c) = many (relevants g (done ++ [fst r]))).
    { destruct H as (H1 & _). rewrite relevants_app, many_app, H1, value_grade by exact G. change (relevants g [fst r]) with (if (if Rlt_dec 0 (grade g (fst r)) then true else false) then [fst r] else []). unfold ltR.
      destruct (Rlt_dec 0 (grade g (fst r))); [change (many [fst r]) with 1|change (many []) with 0]; lra. }
    assert (K : forall k : nat, k = S (length done) ->
      (if ltR 0 (value g r) then rels_seen c + 1 else rels_seen c) / INR k = precision_at g k l).
    { intros k ->. rewrite Sn. unfold precision_at. now rewrite P. }
    assert (H1 : counted c1 (done ++ [fst r])).
    { destruct H as (H1 & H2 & H3 & H4 & H5). unfold c1, counted. cbn [rels_seen t_ap t_p05 t_p10 t_p20].
      replace (length (done ++ [fst r])) with (S (length done)) by (rewrite app_length; cbn; lia). split; [exact Sn|]. split.
      - rewrite seq_S, map_app, Rsum_app, <- H2. cbn [map Rsum fold_right].
        replace (ap_term (1 + length done)) with (if ltR 0 (value g r) then (if ltR 0 (value g r) then rels_seen c + 1 else rels_seen c) / IZR (Z.of_nat (S (length done))) else 0).
        + destruct (ltR 0 (value g r)); lra.
        + rewrite <- INR_IZR_INZ. rewrite K by reflexivity. unfold ap_term. cbn [Nat.add]. replace (S (length done) - 1)%nat with (length done) by lia.
          rewrite E, app_nth2 by lia. rewrite Nat.sub_diag. cbn [map nth]. rewrite value_grade by exact G. unfold ltR. destruct (Rlt_dec 0 (grade g (fst r))); reflexivity.
      - split; [|split].
        + change 5%Z with (Z.of_nat 5). rewrite rank_eqb. apply at_depth_next; [exact H3|]. intros D. rewrite <- (K 5%nat D). f_equal. cbn; lra.
        + change 10%Z with (Z.of_nat 10). rewrite rank_eqb. apply at_depth_next; [exact H4|]. intros D. rewrite <- (K 10%nat D). f_equal. cbn; lra.
        + change 20%Z with (Z.of_nat 20). rewrite rank_eqb. apply at_depth_next; [exact H5|]. intros D. rewrite <- (K 20%nat D). f_equal. cbn; lra. }
    destruct (IH _ _ E' H1) as (c' & R1 & R2). exists c'. split; [|exact R2].
    rewrite <- R1. f_equal. rewrite app_length. cbn [length]. lia.
Qed.
End Trec.
