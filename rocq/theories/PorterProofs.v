(** The operations of the stemmer on the buffer. *)
From Verif Require Import Base Bytes PorterModel PorterSpec.
Local Arguments chr s%string_scope.

Definition holding (s : ps) (w : bytes) : Prop :=
  length (pb s) = 33%nat /\ w <> [] /\ pk s = Z.of_nat (length w) - 1 /\ (length w <= 32)%nat /\ exists r, pb s = w ++ r.
Definition stem_at (s : ps) (u : bytes) : Prop := pj s = Z.of_nat (length u) - 1.

Lemma rd_ok s u r i : pb s = u ++ r -> 0 <= i < Z.of_nat (length u) -> rd s i = Ok (nth (Z.to_nat i) u 0).
Proof.
  intros E H. unfold rd. rewrite E, app_length. rewrite (proj2 (Z.leb_le _ _)), (proj2 (Z.ltb_lt _ _)); [|lia|lia]. cbn [andb].
  rewrite app_nth1; [reflexivity|lia].
Qed.
Lemma rd_last s u c : holding s (u ++ [c]) -> rd s (pk s) = Ok c.
Proof.
  intros (_ & _ & K & _ & r & E). rewrite app_length in K. cbn [length] in K. rewrite (rd_ok s (u ++ [c]) r); [|exact E|rewrite app_length; cbn; lia].
  rewrite app_nth2; [|lia]. replace (_ - _)%nat with O by lia. reflexivity.
Qed.

(** ** Consonants *)
Lemma vowel_same c : a_vowel c = is_vowel c.
Proof. unfold a_vowel, is_vowel. cbn [lit existsb]. rewrite orb_false_r, !orb_assoc. reflexivity. Qed.
Definition kind (c : Z) (p : bool) : bool := negb (is_vowel c) && negb ((c =? chr "y") && p).
Lemma cons_length p w : length (consonants p w) = length w.
Proof. revert p. induction w as [|c w IH]; intros p; cbn; [reflexivity|]. rewrite IH. reflexivity. Qed.
Lemma cons_next w : forall p i, (S i < length w)%nat ->
  nth (S i) (consonants p w) false = kind (nth (S i) w 0) (nth i (consonants p w) false).
Proof.
  induction w as [|c w IH]; intros p i H; [cbn in H; lia|]. cbn [length] in H. cbn [consonants]. fold (kind c p).
  destruct i as [|i].
  - destruct w as [|d w]; [cbn in H; lia|]. reflexivity.
  - change (nth (S i) (consonants (kind c p) w) false = kind (nth (S i) w 0) (nth i (consonants (kind c p) w) false)). apply IH. lia.
Qed.
Lemma cons_at_ok w : forall i, (i < length w)%nat -> cons_at w i = nth i (consonants false w) false.
Proof.
  induction i as [|i IH]; intros H.
  - destruct w as [|c w]; [cbn in H; lia|]. cbn [cons_at nth consonants]. rewrite vowel_same. rewrite andb_false_r. cbn [negb]. rewrite andb_true_r.
    destruct (is_vowel c); [reflexivity|]. destruct (c =? chr "y"); reflexivity.
  - rewrite cons_next by exact H. rewrite <- IH by lia. cbn [cons_at]. rewrite vowel_same. unfold kind.
    destruct (is_vowel _); [reflexivity|]. destruct (_ =? chr "y"); [|reflexivity]. cbn [negb andb]. reflexivity.
Qed.
Lemma cons_app u r : forall p, exists f, consonants p (u ++ r) = consonants p u ++ f.
Proof.
  induction u as [|c u IH]; intros p; cbn [app consonants]; [eexists; reflexivity|].
  destruct (IH (negb (is_vowel c) && negb ((c =? chr "y") && p))) as (f & ->). exists f. reflexivity.
Qed.
Lemma cons_snoc u c : exists f, consonants false (u ++ [c]) = consonants false u ++ [f].
Proof.
  destruct (cons_app u [c] false) as (f & E). pose proof (f_equal (@length _) E) as L.
  rewrite app_length, !cons_length, app_length in L. cbn [length] in L. destruct f as [|f [|? ?]]; cbn [length] in L; try lia. exists f. exact E.
Qed.
Lemma cons_ok s u r i : pb s = u ++ r -> 0 <= i < Z.of_nat (length u) -> cons s i = Ok (nth (Z.to_nat i) (consonants false u) false).
Proof.
  intros E H. unfold cons. rewrite (rd_ok s u r i E H). cbn [bind]. rewrite E, cons_at_ok by (rewrite app_length; lia).
  destruct (cons_app u r false) as (f & ->). rewrite app_nth1; [reflexivity|rewrite cons_length; lia].
Qed.

(** ** The measure *)
Fixpoint pos (want : bool) (l : list bool) : option nat :=
  match l with [] => None | x :: r => if Bool.eqb x want then Some O else option_map S (pos want r) end.
Lemma skipn_cons {A} (l : list A) i x r d : skipn i l = x :: r -> (i < length l)%nat /\ nth i l d = x /\ skipn (S i) l = r.
Proof.
  revert i. induction l as [|a l IH]; intros [|i] H; cbn [skipn] in *; try discriminate.
  - injection H as -> ->. cbn. repeat split; lia.
  - destruct (IH i H) as (A1 & A2 & A3). cbn [length nth]. split; [lia|]. split; [exact A2|exact A3].
Qed.
Lemma scan_to_ok s u r want : pb s = u ++ r -> stem_at s u -> forall L i n, skipn i (consonants false u) = L -> (length L < n)%nat ->
  scan_to n s want (Z.of_nat i) = Ok (option_map (fun k => Z.of_nat (i + k)) (pos want L)) \/ (length u < i)%nat.
Proof.
  intros E J. induction L as [|x L IH]; intros i n Sk Ln; destruct n as [|n]; cbn [length] in Ln; try lia; cbn [scan_to].
  - assert (length (consonants false u) <= i)%nat as G.
    { pose proof (skipn_length i (consonants false u)) as Q. rewrite Sk in Q. cbn in Q. lia. }
    rewrite cons_length in G. unfold stem_at in J. rewrite J. rewrite (proj2 (Z.ltb_lt _ _)) by lia. left. reflexivity.
  - destruct (skipn_cons _ _ _ _ false Sk) as (G & Nx & Sk'). rewrite cons_length in G. unfold stem_at in J. rewrite J.
    rewrite (proj2 (Z.ltb_ge _ _)) by lia. rewrite (cons_ok s u r _ E) by lia. cbn [bind]. rewrite Nat2Z.id, Nx. cbn [pos].
    destruct (Bool.eqb x want); [left; cbn [option_map]; rewrite Nat.add_0_r; reflexivity|].
    replace (Z.of_nat i + 1) with (Z.of_nat (S i)) by lia. destruct (IH (S i) n Sk' ltac:(lia)) as [IH1|IH1]; [|lia]. left. rewrite IH1.
    destruct (pos want L) as [k|]; cbn [option_map]; [|reflexivity]. rewrite Nat.add_succ_r. reflexivity.
Qed.
Lemma turns_pos want L : turns (negb want :: L) = match pos want L with None => 0 | Some n => (if want then 1 else 0) + turns (skipn n L) end.
Proof.
  induction L as [|x L IH]; [reflexivity|]. cbn [pos]. destruct (Bool.eqb x want) eqn:B.
  - apply Bool.eqb_prop in B. subst x. cbn [skipn]. change (turns (negb want :: want :: L)) with ((if negb (negb want) && want then 1 else 0) + turns (want :: L)).
    destruct want; reflexivity.
  - assert (x = negb want) as -> by (destruct x, want; cbn in *; congruence).
    change (turns (negb want :: negb want :: L)) with ((if negb (negb want) && negb want then 1 else 0) + turns (negb want :: L)).
    replace (negb (negb want) && negb want) with false by (destruct want; reflexivity). rewrite IH.
    destruct (pos want L); cbn [option_map skipn]; lia.
Qed.
Lemma pos_lt want L n : pos want L = Some n -> (n < length L)%nat /\ nth n L false = want /\ exists r, skipn n L = want :: r.
Proof.
  revert n. induction L as [|x L IH]; intros n H; cbn [pos] in H; [discriminate|]. destruct (Bool.eqb x want) eqn:B.
  - injection H as <-. apply Bool.eqb_prop in B. subst. cbn. split; [lia|]. split; [reflexivity|eauto].
  - destruct (pos want L) as [k|]; [|discriminate]. injection H as <-. destruct (IH k eq_refl) as (A1 & A2 & A3). cbn [length nth skipn]. split; [lia|]. auto.
Qed.
Lemma skipn_more {A} (l : list A) i k : skipn (i + k) l = skipn k (skipn i l).
Proof. revert l. induction i as [|i IH]; intros l; [reflexivity|]. destruct l; [cbn; rewrite skipn_nil; reflexivity|]. apply IH. Qed.
Lemma m_loop_ok s u r : pb s = u ++ r -> stem_at s u -> forall n i L c, skipn i (consonants false u) = L -> (i <= length u)%nat -> (length L < n)%nat ->
  m_loop n s (Z.of_nat i) c = Ok (c + turns (false :: L)).
Proof.
  intros E J. assert (p_fuel s = length u + 2)%nat as F by (unfold p_fuel; unfold stem_at in J; rewrite J; lia).
  induction n as [|n IH]; intros i L c Sk Hi Ln; [lia|]. cbn [m_loop]. rewrite F.
  assert (length L <= length u)%nat as Lu by (rewrite <- Sk, skipn_length, cons_length; lia).
  destruct (scan_to_ok s u r true E J L i (length u + 2) Sk ltac:(lia)) as [->|X]; [|lia]. cbn [bind].
  pose proof (turns_pos true L) as T. cbn [negb] in T. rewrite T.
  destruct (pos true L) as [k|] eqn:P; cbn [option_map]; [|f_equal; lia].
  destruct (pos_lt _ _ _ P) as (P1 & P2 & L2 & P3).
  assert (skipn (S (i + k)) (consonants false u) = L2) as Sk2.
  { assert (skipn (i + k) (consonants false u) = true :: L2) as Q by (rewrite skipn_more, Sk; exact P3). apply (skipn_cons _ _ _ _ false Q). }
  assert (i + k < length u)%nat as Hk by (rewrite <- Sk, skipn_length, cons_length in P1; lia).
  replace (Z.of_nat (i + k) + 1) with (Z.of_nat (S (i + k))) by lia.
  assert (length L2 <= length u)%nat as Lu2 by (rewrite <- Sk2, skipn_length, cons_length; lia).
  destruct (scan_to_ok s u r false E J L2 (S (i + k)) (length u + 2) Sk2 ltac:(lia)) as [->|X]; [|lia]. cbn [bind].
  rewrite P3. pose proof (turns_pos false L2) as T2. cbn [negb] in T2. rewrite T2.
  destruct (pos false L2) as [k2|] eqn:Q; cbn [option_map]; [|f_equal; lia].
  destruct (pos_lt _ _ _ Q) as (Q1 & Q2 & L3 & Q3).
  assert (skipn (S (S (i + k) + k2)) (consonants false u) = L3) as Sk3.
  { assert (skipn (S (i + k) + k2) (consonants false u) = false :: L3) as Q0 by (rewrite skipn_more, Sk2; exact Q3). apply (skipn_cons _ _ _ _ false Q0). }
  replace (Z.of_nat (S (i + k) + k2) + 1) with (Z.of_nat (S (S (i + k) + k2))) by lia.
  assert (length L3 < length L2)%nat by (apply (f_equal (@length _)) in Q3; rewrite skipn_length in Q3; cbn [length] in Q3; lia).
  assert (length L2 < length L)%nat by (apply (f_equal (@length _)) in P3; rewrite skipn_length in P3; cbn [length] in P3; lia).
  rewrite (IH _ L3 (c + 1) Sk3); [f_equal; rewrite Q3; lia| |lia].
  rewrite <- Sk2, skipn_length, cons_length in Q1. lia.
Qed.
Lemma m_ok s u r : pb s = u ++ r -> stem_at s u -> p_m s = Ok (measure u).
Proof.
  intros E J. assert (p_fuel s = length u + 2)%nat as F by (unfold p_fuel; unfold stem_at in J; rewrite J; lia).
  unfold p_m, measure. rewrite F. pose proof (cons_length false u) as CL.
  destruct (scan_to_ok s u r false E J (consonants false u) 0 (length u + 2) eq_refl ltac:(lia)) as [S0|X]; [|lia].
  change (Z.of_nat 0) with 0 in S0. rewrite S0. cbn [bind]. clear S0.
  assert (turns (consonants false u) = turns (true :: consonants false u)) as T by (destruct (consonants false u) as [|x l]; [reflexivity|cbn [turns negb andb]; lia]).
  rewrite T. pose proof (turns_pos false (consonants false u)) as T2. cbn [negb] in T2. rewrite T2.
  destruct (pos false (consonants false u)) as [k|] eqn:P; cbn [option_map]; [|reflexivity].
  destruct (pos_lt _ _ _ P) as (P1 & P2 & L2 & P3). destruct (skipn_cons _ _ _ _ false P3) as (_ & _ & Sk).
  replace (Z.of_nat (0 + k) + 1) with (Z.of_nat (S k)) by lia.
  rewrite (m_loop_ok s u r E J (length u + 2) (S k) L2 0 Sk); [rewrite P3; f_equal; lia|lia|].
  apply (f_equal (@length _)) in P3. rewrite skipn_length in P3. cbn [length] in P3. lia.
Qed.
Lemma pos_none want L : pos want L = None <-> ~ In want L.
Proof.
  induction L as [|x L IH]; cbn [pos In]; [tauto|]. destruct (Bool.eqb x want) eqn:B.
  - apply Bool.eqb_prop in B. subst. split; [discriminate|tauto].
  - assert (x <> want) by (intros ->; rewrite Bool.eqb_reflx in B; discriminate).
    destruct (pos want L); cbn [option_map]; split; try discriminate; try tauto.
    + intros H2. exfalso. destruct IH as [_ IH]. assert (~ In want L) as Y by tauto. specialize (IH Y). discriminate.
Qed.
Lemma vowel_ok s u r : pb s = u ++ r -> stem_at s u -> exists b, vowelinstem s = Ok b /\ (b = true <-> has_vowel u).
Proof.
  intros E J. assert (p_fuel s = length u + 2)%nat as F by (unfold p_fuel; unfold stem_at in J; rewrite J; lia).
  unfold vowelinstem, has_vowel. rewrite F. pose proof (cons_length false u) as CL.
  destruct (scan_to_ok s u r false E J (consonants false u) 0 (length u + 2) eq_refl ltac:(lia)) as [S0|X]; [|lia].
  change (Z.of_nat 0) with 0 in S0. rewrite S0. cbn [bind]. eexists. split; [reflexivity|].
  destruct (pos false (consonants false u)) as [k|] eqn:P; cbn [option_map].
  - split; [|reflexivity]. intros _. destruct (pos_lt _ _ _ P) as (P1 & P2 & _). pose proof (nth_In _ false P1) as Q. rewrite P2 in Q. exact Q.
  - split; [discriminate|]. intros H. apply pos_none in P. contradiction.
Qed.

(** ** Ends of words *)
Lemma app_last {A} (u v : list A) x y : u ++ [x] = v ++ [y] -> u = v /\ x = y. Proof. apply app_inj_tail. Qed.
Lemma double_ok s w r : pb s = w ++ r -> exists b, doublec s (Z.of_nat (length w) - 1) = Ok b /\ (b = true <-> double w).
Proof.
  intros E. unfold doublec. destruct (Z.ltb_spec (Z.of_nat (length w) - 1) 1) as [L|L].
  { exists false. split; [reflexivity|]. split; [discriminate|]. intros (u & c & fs & -> & _). rewrite app_length in L. cbn [length] in L. lia. }
  destruct (exists_last (l := w)) as (w1 & b & ->); [intros ->; cbn in L; lia|].
  destruct (exists_last (l := w1)) as (u & a & ->); [intros ->; cbn in L; lia|].
  rewrite (rd_ok s _ r _ E) by (rewrite !app_length in *; cbn [length] in *; lia).
  rewrite (rd_ok s _ r _ E) by (rewrite !app_length in *; cbn [length] in *; lia). cbn [bind].
  rewrite !app_length. cbn [length].
  replace (Z.to_nat (Z.of_nat (length u + 1 + 1) - 1)) with (length u + 1)%nat by lia.
  replace (Z.to_nat (Z.of_nat (length u + 1 + 1) - 1 - 1)) with (length u) by lia.
  rewrite (app_nth2 (u ++ [a])) by (rewrite app_length; cbn [length]; lia). rewrite app_length. cbn [length].
  replace (length u + 1 - (length u + 1))%nat with O by lia. cbn [nth].
  rewrite (app_nth1 (u ++ [a])) by (rewrite app_length; cbn [length]; lia). rewrite app_nth2 by lia. rewrite Nat.sub_diag. cbn [nth].
  destruct (cons_snoc (u ++ [a]) b) as (f & Ef).
  destruct (Z.eqb_spec b a) as [->|N].
  - rewrite (cons_ok s _ r _ E) by (rewrite !app_length in *; cbn [length] in *; lia). rewrite Ef. eexists. split; [reflexivity|].
    replace (Z.to_nat (Z.of_nat (length u + 1 + 1) - 1)) with (length (consonants false (u ++ [a]))) by (rewrite cons_length, app_length; cbn [length]; lia).
    rewrite app_nth2 by lia. rewrite Nat.sub_diag. cbn [nth]. split.
    + intros ->. exists u, a, (consonants false (u ++ [a])). split; [rewrite <- app_assoc; reflexivity|exact Ef].
    + intros (u' & c & fs & _ & H). rewrite Ef in H. apply app_last in H. tauto.
  - exists false. split; [reflexivity|]. split; [discriminate|]. intros (u' & c & fs & H & _).
    change [c; c] with ([c] ++ [c]) in H. rewrite app_assoc in H. apply app_last in H. destruct H as [H ->]. apply app_last in H. destruct H as [_ ->]. congruence.
Qed.
Lemma short_ok s w r : pb s = w ++ r -> exists b, cvc s (Z.of_nat (length w) - 1) = Ok b /\ (b = true <-> short w).
Proof.
  intros E. unfold cvc. destruct (Z.ltb_spec (Z.of_nat (length w) - 1) 2) as [L|L].
  { exists false. split; [reflexivity|]. split; [discriminate|]. intros (u & c & fs & _ & H & _). apply (f_equal (@length _)) in H.
    rewrite cons_length, app_length in H. cbn [length] in H. lia. }
  destruct (exists_last (l := w)) as (w1 & c & ->); [intros ->; cbn in L; lia|].
  destruct (exists_last (l := w1)) as (w2 & b & ->); [intros ->; cbn in L; lia|].
  destruct (exists_last (l := w2)) as (u & a & ->); [intros ->; cbn in L; lia|].
  destruct (cons_snoc ((u ++ [a]) ++ [b]) c) as (f3 & E3). destruct (cons_snoc (u ++ [a]) b) as (f2 & E2). destruct (cons_snoc u a) as (f1 & E1).
  rewrite E2, E1 in E3. set (F := consonants false u) in *. assert (length F = length u) as LF by apply cons_length.
  assert (length (((u ++ [a]) ++ [b]) ++ [c]) = length u + 3)%nat as Lw by (rewrite !app_length; cbn [length]; lia).
  rewrite (cons_ok s _ r _ E), (cons_ok s _ r _ E), (cons_ok s _ r _ E) by lia. rewrite E3, Lw.
  replace (Z.to_nat (Z.of_nat (length u + 3) - 1)) with (S (S (length F))) by lia.
  replace (Z.to_nat (Z.of_nat (length u + 3) - 1 - 1)) with (S (length F)) by lia.
  replace (Z.to_nat (Z.of_nat (length u + 3) - 1 - 2)) with (length F) by lia.
  rewrite <- !app_assoc. cbn [app]. rewrite !app_nth2 by lia.
  replace (S (S (length F)) - length F)%nat with 2%nat by lia. replace (S (length F) - length F)%nat with 1%nat by lia. rewrite Nat.sub_diag. cbn [nth bind].
  rewrite <- !app_assoc in E3. cbn [app] in E3.
  rewrite (rd_ok s _ r _ E) by lia. replace (Z.to_nat (Z.of_nat (length u + 3) - 1)) with (length ((u ++ [a]) ++ [b])) by (rewrite !app_length; cbn [length]; lia).
  rewrite (app_nth2 ((u ++ [a]) ++ [b])) by lia. rewrite Nat.sub_diag. cbn [nth bind].
  assert (forall fs, F ++ [f1; f2; f3] = fs ++ [true; false; true] -> f1 = true /\ f2 = false /\ f3 = true) as Sp.
  { intros fs H. change [f1; f2; f3] with ([f1; f2] ++ [f3]) in H. change [true; false; true] with ([true; false] ++ [true]) in H. rewrite !app_assoc in H.
    apply app_last in H. destruct H as [H ->]. change [f1; f2] with ([f1] ++ [f2]) in H. change [true; false] with ([true] ++ [false]) in H. rewrite !app_assoc in H.
    apply app_last in H. destruct H as [H ->]. apply app_last in H. tauto. }
  destruct (negb f3 || f2 || negb f1) eqn:B.
  - exists false. split; [reflexivity|]. split; [discriminate|]. intros (u' & c' & fs & _ & H & _).
    rewrite <- ?app_assoc in H. cbn [app] in H. rewrite E3 in H. destruct (Sp _ H) as (-> & -> & ->). discriminate.
  - eexists. split; [reflexivity|]. assert (f1 = true /\ f2 = false /\ f3 = true) as (-> & -> & ->) by (destruct f1, f2, f3; cbn in B; auto; discriminate).
    rewrite negb_true_iff. cbn [lit In chr]. split.
    + intros H. exists ((u ++ [a]) ++ [b]), c, F. split; [rewrite <- !app_assoc; reflexivity|]. split; [rewrite <- ?app_assoc; cbn [app]; exact E3|].
      cbn [lit In]. apply orb_false_elim in H. destruct H as [H H3]. apply orb_false_elim in H. destruct H as [H1 H2].
      rewrite Z.eqb_neq in H1, H2, H3. cbn [chr lit] in *. intros [X|[X|[X|[]]]]; [apply H1|apply H2|apply H3]; symmetry; exact X.
    + intros (u' & c' & fs & Hw & _ & Nc). change [a; b; c] with ([a] ++ [b] ++ [c]) in Hw. rewrite !app_assoc in Hw. apply app_last in Hw. destruct Hw as [_ ->]. cbn [lit In] in Nc.
      destruct (c' =? _) eqn:X1; [apply Z.eqb_eq in X1; subst; exfalso; apply Nc; auto|].
      destruct (c' =? _) eqn:X2 in |- *; [apply Z.eqb_eq in X2; subst; exfalso; apply Nc; auto|].
      destruct (c' =? _) eqn:X3 in |- *; [apply Z.eqb_eq in X3; subst; exfalso; apply Nc; auto|]. reflexivity.
Qed.

(** ** Suffixes *)
Lemma ends_ok t s w : holding s w -> t <> [] ->
  (exists u, w = u ++ t /\ ends t s = Ok (true, set_j s (Z.of_nat (length u) - 1))) \/
  ((forall u, w <> u ++ t) /\ ends t s = Ok (false, s)).
Proof.
  intros H Nt. pose proof H as (Lb & Nw & K & Lw & r & E). unfold ends.
  destruct (exists_last (l := w) Nw) as (w1 & c & ->). rewrite (rd_last s w1 c H). cbn [bind].
  destruct (Z.eqb_spec (last t 0) c) as [Lc|Lc]; cbn [negb].
  2:{ right. split; [|reflexivity]. intros u Hu. apply Lc. destruct (exists_last Nt) as (t1 & d & ->). rewrite last_last.
      rewrite app_assoc in Hu. apply app_last in Hu. symmetry. tauto. }
  rewrite app_length in K. cbn [length] in K.
  destruct (Z.ltb_spec (pk s + 1) (Z.of_nat (length t))) as [G|G].
  { right. split; [|reflexivity]. intros u Hu. apply (f_equal (@length _)) in Hu. rewrite !app_length in Hu. cbn [length] in Hu. lia. }
  assert (exists u v, w1 ++ [c] = u ++ v /\ length v = length t) as (u & v & Ew & Lv).
  { exists (firstn (length w1 + 1 - length t) (w1 ++ [c])), (skipn (length w1 + 1 - length t) (w1 ++ [c])).
    rewrite firstn_skipn, skipn_length, app_length. cbn [length]. split; [reflexivity|lia]. }
  assert (length u = length w1 + 1 - length t)%nat as Lu by (apply (f_equal (@length _)) in Ew; rewrite !app_length in Ew; cbn [length] in Ew; lia).
  assert (firstn (length t) (skipn (Z.to_nat (pk s - Z.of_nat (length t) + 1)) (pb s)) = v) as Ev.
  { rewrite E, Ew. replace (Z.to_nat _) with (length u) by lia. rewrite <- app_assoc, skipn_app, skipn_all, Nat.sub_diag. cbn [app skipn].
    rewrite <- Lv, firstn_app, firstn_all, Nat.sub_diag. cbn [firstn]. apply app_nil_r. }
  rewrite Ev. destruct (eqb_bytes v t) eqn:B.
  - apply eqb_bytes_eq in B. clear Ev. rewrite B in Ew. left. exists u. split; [exact Ew|]. do 3 f_equal. lia.
  - right. split; [|reflexivity]. intros u' Hu. rewrite Hu in Ew. apply eqb_bytes_neq in B. apply B.
    assert (length u' = length u) as Le by (apply (f_equal (@length _)) in Ew; rewrite !app_length in Ew; lia).
    clear - Ew Le. revert u Ew Le. induction u' as [|x u' IH]; intros [|y u] Ew Le; cbn in *; try lia; [congruence|]. injection Ew as _ Ew. apply (IH u); [exact Ew|lia].
Qed.
Lemma put_ok s u v t r : pb s = u ++ v ++ r -> length v = length t -> put s (Z.of_nat (length u)) t = Ok (Ps (u ++ t ++ r) (pk s) (pj s)).
Proof.
  intros E L. unfold put. rewrite E, !app_length. rewrite (proj2 (Z.leb_le _ _)), (proj2 (Z.leb_le _ _)) by lia. cbn [andb]. do 2 f_equal.
  rewrite Nat2Z.id. rewrite firstn_app, firstn_all, Nat.sub_diag. cbn [firstn]. rewrite app_nil_r. f_equal. f_equal.
  rewrite skipn_app, (skipn_all2 u) by lia. cbn [app]. replace (length u + length t - length u)%nat with (length t) by lia.
  rewrite <- L, skipn_app, skipn_all, Nat.sub_diag. reflexivity.
Qed.
Lemma setto_ok s u t r : length (pb s) = 33%nat -> pb s = u ++ r -> stem_at s u -> (length u + length t <= 32)%nat -> u ++ t <> [] ->
  exists s', setto t s = Ok s' /\ holding s' (u ++ t) /\ stem_at s' u.
Proof.
  intros Lb E J L N. unfold setto. unfold stem_at in J. replace (pj s + 1) with (Z.of_nat (length u)) by lia.
  assert (length r = 33 - length u)%nat as Lr by (rewrite E, app_length in Lb; lia).
  rewrite (put_ok s u (firstn (length t) r) t (skipn (length t) r)).
  - cbn [bind]. eexists. split; [reflexivity|]. cbn [set_k pb pk pj]. split; [|exact J].
    split; [cbn [pb set_k]; rewrite !app_length, skipn_length; lia|]. split; [exact N|]. cbn [pb pk set_k]. rewrite app_length. split; [lia|]. split; [lia|].
    exists (skipn (length t) r). rewrite app_assoc. reflexivity.
  - rewrite firstn_skipn. exact E.
  - rewrite firstn_length. lia.
Qed.
Lemma holding_j s w j : holding s w -> holding (set_j s j) w. Proof. intros H. exact H. Qed.
Lemma holding_cut s u v k : holding s (u ++ v) -> u <> [] -> k = Z.of_nat (length u) - 1 -> holding (set_k s k) u.
Proof.
  intros (A & B & C & D & r & E) N K. rewrite app_length in D. split; [exact A|]. split; [exact N|]. cbn [set_k pk pb]. split; [exact K|]. split; [lia|].
  exists (v ++ r). rewrite E, app_assoc. reflexivity.
Qed.
