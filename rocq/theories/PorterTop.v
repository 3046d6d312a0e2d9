(** The whole stemmer: one call after another, on any word. *)
From Verif Require Import Base Bytes PorterModel PorterSpec PorterProofs PorterSteps.
Local Arguments chr s%string_scope.

(** ** The rules leave no choice *)
Definition functional (table : list (bytes * bytes)) : bool :=
  forallb (fun x => forallb (fun y => negb (eqb_bytes (fst x) (fst y)) || eqb_bytes (snd x) (snd y)) table) table.
Lemma same_end (u u' t t' : bytes) : u ++ t = u' ++ t' -> length t = length t' -> u = u' /\ t = t'.
Proof.
  intros E L. assert (length u = length u') as L' by (apply (f_equal (@length _)) in E; rewrite !app_length in E; lia).
  split; [rewrite <- (firstn_all u), L'|].
  - apply (f_equal (firstn (length u'))) in E. rewrite !firstn_app, firstn_all, Nat.sub_diag, <- L', firstn_all, Nat.sub_diag in E. cbn [firstn] in E.
    rewrite !app_nil_r in E. rewrite <- L', firstn_all. exact E.
  - apply (f_equal (skipn (length u))) in E. rewrite !skipn_app, skipn_all, Nat.sub_diag, L', skipn_all, Nat.sub_diag in E. exact E.
Qed.
Lemma fitting_one table w u s r u' s' r' : functional table = true -> fitting table w u s r -> fitting table w u' s' r' -> u = u' /\ s = s' /\ r = r'.
Proof.
  intros Fn (I & W & G) (I' & W' & G'). pose proof (G _ _ _ I' W'). pose proof (G' _ _ _ I W).
  destruct (same_end u u' s s') as [-> ->]; [congruence|lia|]. split; [reflexivity|]. split; [reflexivity|].
  unfold functional in Fn. rewrite forallb_forall in Fn. specialize (Fn _ I). rewrite forallb_forall in Fn. specialize (Fn _ I'). cbn [fst snd] in Fn.
  rewrite eqb_bytes_refl in Fn. cbn [negb orb] in Fn. apply eqb_bytes_eq, Fn.
Qed.
Lemma by_rules_one table cond w a b : functional table = true -> by_rules table cond w a -> by_rules table cond w b -> a = b.
Proof.
  intros Fn A B. destruct A as [u s r F C|u s r F C|N]; destruct B as [u' s' r' F' C'|u' s' r' F' C'|N']; try reflexivity.
  - destruct (fitting_one _ _ _ _ _ _ _ _ Fn F F') as (-> & _ & ->). reflexivity.
  - destruct (fitting_one _ _ _ _ _ _ _ _ Fn F F') as (-> & -> & _). contradiction.
  - destruct F as (I & W & _). exfalso. exact (N' _ _ _ I W).
  - destruct (fitting_one _ _ _ _ _ _ _ _ Fn F F') as (-> & -> & _). contradiction.
  - destruct F' as (I & W & _). exfalso. exact (N _ _ _ I W).
Qed.
Lemma tidied_one w a b : tidied w a -> tidied w b -> a = b.
Proof.
  intros A B. destruct A as [u s r F|u c N D W C|u c N D W C|N D M S|N D X]; destruct B as [u' s' r' F'|u' c' N' D' W' C'|u' c' N' D' W' C'|N' D' M' S'|N' D' X'];
    try reflexivity; try (exfalso; eapply N; eassumption); try (exfalso; eapply N'; eassumption); try contradiction.
  - destruct (fitting_one rules_1b2 _ _ _ _ _ _ _ eq_refl F F') as (-> & _ & ->). reflexivity.
  - rewrite W in W'. apply app_last in W'. tauto.
  - rewrite W in W'. apply app_last in W'. destruct W' as [_ <-]. contradiction.
  - rewrite W in W'. apply app_last in W'. destruct W' as [_ <-]. contradiction.
  - exfalso. apply X'. auto.
  - exfalso. apply X. auto.
Qed.
Lemma eed_fits w u : w = u ++ lit "eed" -> forall u' s r, fitting rules_1b w u' s r -> s = lit "eed".
Proof.
  intros W u' s r F. destruct (fitting_one rules_1b w u' s r u (lit "eed") (lit "ee") eq_refl F) as (_ & -> & _); [|reflexivity].
  split; [cbn; auto|]. split; [exact W|]. intros u2 s2 r2 I _. unfold rules_1b in I. in_rules I; cbn; lia.
Qed.
Lemma step_1b_one w a b : step_1b w a -> step_1b w b -> a = b.
Proof.
  assert (forall u x, w = u ++ lit "eed" -> step_1b w x -> (1 <= measure u /\ x = u ++ lit "ee") \/ (measure u < 1 /\ x = w)) as Q.
  { intros u x W A. destruct A as [u' W' M|u' W' M|u' s r w' F N V T|u' s r F N V|N].
    - rewrite W in W'. apply app_inv_tail in W'. subst u'. auto.
    - rewrite W in W'. apply app_inv_tail in W'. subst u'. auto.
    - exfalso. apply N. eapply eed_fits; eassumption.
    - exfalso. apply N. eapply eed_fits; eassumption.
    - exfalso. apply (N u (lit "eed") (lit "ee")); [cbn; auto|exact W]. }
  intros A B. pose proof A as A0. pose proof B as B0.
  destruct A as [u W M|u W M|u s r w1 F N V T|u s r F N V|N].
  - destruct (Q u b W B) as [[_ ->]|[X _]]; [reflexivity|lia].
  - destruct (Q u b W B) as [[X _]|[_ ->]]; [lia|reflexivity].
  - destruct B as [u' W' M'|u' W' M'|u' s' r' w2 F' N' V' T'|u' s' r' F' N' V'|N'].
    + exfalso. apply N. eapply eed_fits; eassumption.
    + exfalso. apply N. eapply eed_fits; eassumption.
    + destruct (fitting_one rules_1b _ _ _ _ _ _ _ eq_refl F F') as (-> & _ & _). eapply tidied_one; eassumption.
    + destruct (fitting_one rules_1b _ _ _ _ _ _ _ eq_refl F F') as (-> & _ & _). contradiction.
    + destruct F as (I & W & _). exfalso. exact (N' _ _ _ I W).
  - destruct B as [u' W' M'|u' W' M'|u' s' r' w2 F' N' V' T'|u' s' r' F' N' V'|N']; try reflexivity.
    + exfalso. apply N. eapply eed_fits; eassumption.
    + destruct (fitting_one rules_1b _ _ _ _ _ _ _ eq_refl F F') as (-> & _ & _). contradiction.
  - destruct B as [u' W' M'|u' W' M'|u' s' r' w2 F' N' V' T'|u' s' r' F' N' V'|N']; try reflexivity.
    + exfalso. apply (N u' (lit "eed") (lit "ee")); [cbn; auto|exact W'].
    + destruct F' as (I & W & _). exfalso. exact (N _ _ _ I W).
Qed.
Lemma step_5a_one w a b : step_5a w a -> step_5a w b -> a = b.
Proof.
  intros A B. destruct A as [u W M|u W M|N]; destruct B as [u' W' M'|u' W' M'|N']; try reflexivity;
    try (rewrite W in W'; apply app_inv_tail in W'; subst u'; try reflexivity; contradiction); exfalso; [exact (N' _ W)|exact (N _ W')].
Qed.
Lemma step_5b_one w a b : step_5b w a -> step_5b w b -> a = b.
Proof.
  intros A B. destruct A as [u W M|u W M|N]; destruct B as [u' W' M'|u' W' M'|N']; try reflexivity; try lia;
    try (rewrite W in W'; apply app_inv_tail in W'; subst u'; reflexivity); exfalso; [exact (N' _ W)|exact (N _ W')].
Qed.
Lemma after_1_one w a b : after_1 w a -> after_1 w b -> a = b.
Proof.
  intros (a1 & a2 & A1 & A2 & A3) (b1 & b2 & B1 & B2 & B3).
  pose proof (by_rules_one _ _ _ _ _ (eq_refl : functional rules_1a = true) A1 B1) as <-. pose proof (step_1b_one _ _ _ A2 B2) as <-.
  exact (by_rules_one _ _ _ _ _ (eq_refl : functional rules_1c = true) A3 B3).
Qed.
Lemma after_3_one w a b : after_3 w a -> after_3 w b -> a = b.
Proof.
  intros (a1 & a2 & A1 & A2 & A3) (b1 & b2 & B1 & B2 & B3). pose proof (after_1_one _ _ _ A1 B1) as <-.
  pose proof (by_rules_one _ _ _ _ _ (eq_refl : functional rules_2 = true) A2 B2) as <-.
  exact (by_rules_one _ _ _ _ _ (eq_refl : functional rules_3 = true) A3 B3).
Qed.
Lemma stem_of_one w a b : stem_of w a -> stem_of w b -> a = b.
Proof.
  intros (a3 & a4 & a5 & A1 & A2 & A3 & A4) (b3 & b4 & b5 & B1 & B2 & B3 & B4). pose proof (after_3_one _ _ _ A1 B1) as <-.
  pose proof (by_rules_one _ _ _ _ _ (eq_refl : functional rules_4 = true) A2 B2) as <-. pose proof (step_5a_one _ _ _ A3 B3) as <-.
  exact (step_5b_one _ _ _ A4 B4).
Qed.

(** ** All the steps *)
Lemma measure_long u : 1 <= measure u -> (2 <= length u)%nat.
Proof. destruct u as [|a [|b u]]; cbn [length]; [cbn; lia|cbn; lia|lia]. Qed.
Lemma by_rules_long table w w' : by_rules table (fun _ u => 1 <= measure u) w w' -> (2 <= length w)%nat -> (2 <= length w')%nat.
Proof. intros [u s r F M|u s r F M|N] L; [|exact L|exact L]. rewrite app_length. apply measure_long in M. lia. Qed.
Lemma step1_ok s w : holding s w -> (3 <= length w)%nat -> exists s1 s2 s3 w1, step1a s = Ok s1 /\ step1b s1 = Ok s2 /\ step1c s2 = Ok s3 /\
  holding s3 w1 /\ after_1 w w1 /\ (length w1 <= length w)%nat.
Proof.
  intros H L. destruct (step1a_ok s w H ltac:(lia)) as (s1 & w1 & R1 & H1 & B1 & L1). destruct (step1b_ok s1 w1 H1) as (s2 & w2 & R2 & H2 & B2 & L2).
  destruct (step1c_ok s2 w2 H2) as (s3 & w3 & R3 & H3 & B3 & L3). exists s1, s2, s3, w3. split; [exact R1|]. split; [exact R2|]. split; [exact R3|].
  split; [exact H3|]. split; [exists w1, w2; auto|lia].
Qed.
Lemma step4_ion s : holding s (lit "ion") -> step4 s = UB.
Proof.
  intros H. pose proof H as (Lb & Nw & K & Lw & q & E). unfold step4. cbn [length lit] in K. rewrite (rd_ok s (lit "ion") q) by (try exact E; cbn [length lit]; lia).
  replace (pk s - 1) with 1 by lia. cbn [bind]. change (cases4 (nth (Z.to_nat 1) (lit "ion") 0)) with [lit "ion"; lit "ou"]. cbn [suffix4].
  destruct (ends_ok (lit "ion") s (lit "ion") H ltac:(discriminate)) as [(u & W & ->)|(N & _)]; [|exfalso; apply (N []); reflexivity].
  assert (u = []) as -> by (destruct u; [reflexivity|apply (f_equal (@length _)) in W; rewrite app_length in W; cbn in W; lia]). reflexivity.
Qed.
Lemma porter_ok s w : holding s w -> (3 <= length w)%nat ->
  (exists s' w', porter s (Z.of_nat (length w) - 1) = Ok s' /\ holding s' w' /\ stem_of w w' /\ (length w' <= length w)%nat /\
     (forall c, ~ after_1 w [c]) /\ ~ after_3 w (lit "ion")) \/
  (porter s (Z.of_nat (length w) - 1) = UB /\ ((exists c, after_1 w [c]) \/ after_3 w (lit "ion"))).
Proof.
  intros H L. pose proof H as (_ & _ & K & _). unfold porter. replace (set_k s (Z.of_nat (length w) - 1)) with s by (rewrite <- K; destruct s; reflexivity).
  replace (pk s <=? 1) with false by (symmetry; apply Z.leb_gt; lia).
  destruct (step1_ok s w H L) as (s1 & s2 & s3 & w1 & -> & R2 & R3 & H3 & A1 & L1). cbn [bind]. rewrite R2. cbn [bind]. rewrite R3. cbn [bind].
  destruct (Nat.le_gt_cases 2 (length w1)) as [G|G].
  2:{ right. pose proof H3 as (_ & N & K3 & _). split.
      - unfold step2. replace (pk s3 - 1) with (-1) by (destruct w1 as [|? [|? ?]]; cbn [length] in *; [congruence|lia|lia]). rewrite rd_before. reflexivity.
      - left. destruct w1 as [|c [|d w1]]; [congruence|exists c; exact A1|cbn in G; lia]. }
  assert (forall c, ~ after_1 w [c]) as N1 by (intros c A; rewrite (after_1_one _ _ _ A1 A) in G; cbn in G; lia).
  destruct (step2_ok s3 w1 H3 G) as (s4 & w2 & -> & H4 & B2 & L2). cbn [bind]. destruct (step3_ok s4 w2 H4) as (s5 & w3 & -> & H5 & B3 & L3). cbn [bind].
  pose proof (by_rules_long _ _ _ B2 G) as G2. pose proof (by_rules_long _ _ _ B3 G2) as G3.
  assert (after_3 w w3) as A3 by (exists w1, w2; auto).
  destruct (step4_ok s5 w3 H5 G3) as [(-> & ->)|(s6 & w4 & R4 & H6 & B4 & L4)]; [right; split; [reflexivity|right; exact A3]|].
  rewrite R4. cbn [bind]. destruct (step5_ok s6 w4 H6) as (s7 & w5 & w6 & R & H7 & B5 & B6 & L6).
  destruct (list_eq_dec Z.eq_dec w3 (lit "ion")) as [X|X].
  { exfalso. subst w3. pose proof (step4_ion s5 H5). congruence. }
  left. exists s7, w6. split; [exact R|]. split; [exact H7|]. split; [exists w3, w4, w5; auto|]. split; [lia|]. split; [exact N1|].
  intros A. exact (X (after_3_one _ _ _ A3 A)).
Qed.

(** ** The word in the buffer *)
Lemma letter_nonzero c : letter c = true -> (c =? 0) = false.
Proof. intros L. apply Z.eqb_neq. intros ->. discriminate. Qed.
Lemma load_ok w : Forall (fun c => letter c = true) w -> forall s u r, pb s = u ++ r -> (length w <= length r)%nat ->
  exists s', load s (Z.of_nat (length u)) w = Ok (true, s') /\ pb s' = u ++ map lower w ++ skipn (length w) r.
Proof.
  induction w as [|c w IH]; intros F s u r E L; [exists s; split; [reflexivity|rewrite E; reflexivity]|].
  inversion F as [|? ? F1 F2]; subst. cbn [load]. rewrite (letter_nonzero c F1), F1. destruct r as [|x r]; [cbn in L; lia|]. cbn [length] in L.
  rewrite (put_ok s u [x] [lower c] r) by (try exact E; reflexivity). cbn [bind].
  destruct (IH F2 (Ps (u ++ [lower c] ++ r) (pk s) (pj s)) (u ++ [lower c]) r) as (s' & R & E'); [cbn [pb]; rewrite <- app_assoc; reflexivity|lia|].
  exists s'. rewrite app_length in R. cbn [length] in R. replace (Z.of_nat (length u) + 1) with (Z.of_nat (length u + 1)) by lia. split; [exact R|].
  rewrite E', <- app_assoc. reflexivity.
Qed.
Lemma load_no w c r : Forall (fun c => letter c = true) w -> letter c = false -> c <> 0 -> forall s u q, pb s = u ++ q -> (length w <= length q)%nat ->
  exists s', load s (Z.of_nat (length u)) (w ++ c :: r) = Ok (false, s').
Proof.
  intros F Lc Nc. induction w as [|d w IH]; intros s u q E L.
  - exists s. cbn [app load]. replace (c =? 0) with false by (symmetry; apply Z.eqb_neq, Nc). rewrite Lc. reflexivity.
  - inversion F as [|? ? F1 F2]; subst. cbn [app load]. rewrite (letter_nonzero d F1), F1. destruct q as [|x q]; [cbn in L; lia|]. cbn [length] in L.
    rewrite (put_ok s u [x] [lower d] q) by (try exact E; reflexivity). cbn [bind].
    destruct (IH F2 (Ps (u ++ [lower d] ++ q) (pk s) (pj s)) (u ++ [lower d]) q) as (s' & R); [cbn [pb]; rewrite <- app_assoc; reflexivity|lia|].
    exists s'. rewrite app_length in R. cbn [length] in R. replace (Z.of_nat (length u) + 1) with (Z.of_nat (length u + 1)) by lia. exact R.
Qed.

(** ** Earlier calls *)
Definition keeps {A} (f : ps -> res A) (out : A -> ps) : Prop := forall s a, f s = Ok a -> length (pb (out a)) = length (pb s).
Lemma put_len s i t s' : put s i t = Ok s' -> length (pb s') = length (pb s).
Proof.
  unfold put. destruct (_ && _) eqn:B; [|discriminate]. intros E. injection E as <-. cbn [pb]. apply andb_prop in B. destruct B as [B1 B2].
  apply Z.leb_le in B1. apply Z.leb_le in B2. rewrite !app_length, firstn_length, skipn_length. lia.
Qed.
Lemma bind_ok {A B} (x : res A) (f : A -> res B) b : bind x f = Ok b -> exists a, x = Ok a /\ f a = Ok b.
Proof. destruct x; [|discriminate|discriminate]. cbn [bind]. eauto. Qed.
Lemma ends_len t s e s' : ends t s = Ok (e, s') -> length (pb s') = length (pb s).
Proof.
  unfold ends. intros E. apply bind_ok in E. destruct E as (c & _ & E). destruct (negb _); [congruence|]. destruct (_ <? _); [congruence|].
  destruct (eqb_bytes _ _); injection E as _ <-; reflexivity.
Qed.
Lemma setto_len t s s' : setto t s = Ok s' -> length (pb s') = length (pb s).
Proof. unfold setto. intros E. apply bind_ok in E. destruct E as (s1 & P & E). injection E as <-. exact (put_len _ _ _ _ P). Qed.
Lemma p_r_len t s s' : p_r t s = Ok s' -> length (pb s') = length (pb s).
Proof. unfold p_r. intros E. apply bind_ok in E. destruct E as (n & _ & E). destruct (_ <? _); [exact (setto_len _ _ _ E)|congruence]. Qed.
Ltac len1 := repeat match goal with
  | E : bind _ _ = Ok _ |- _ => apply bind_ok in E; destruct E as (? & ? & ?)
  | x : (_ * _)%type |- _ => destruct x
  | E : (if ?b then _ else _) = Ok _ |- _ => destruct b
  | E : Ok ?a = Ok ?b |- _ => injection E; clear E; intros; subst
  | E : ends _ _ = Ok _ |- _ => apply ends_len in E
  | E : setto _ _ = Ok _ |- _ => apply setto_len in E
  | E : p_r _ _ = Ok _ |- _ => apply p_r_len in E
  | E : put _ _ _ = Ok _ |- _ => apply put_len in E
  end; cbn [set_k set_j pb] in *; try congruence.
Lemma step1a_len s s' : step1a s = Ok s' -> length (pb s') = length (pb s).
Proof. unfold step1a. intros E. len1. Qed.
Lemma tidy_len s s' : tidy s = Ok s' -> length (pb s') = length (pb s).
Proof. unfold tidy. cbn zeta. intros E. len1. Qed.
Lemma step1b_len s s' : step1b s = Ok s' -> length (pb s') = length (pb s).
Proof. unfold step1b. intros E. len1; apply tidy_len in H3; cbn [set_k pb] in *; congruence. Qed.
Lemma step1c_len s s' : step1c s = Ok s' -> length (pb s') = length (pb s).
Proof. unfold step1c. intros E. len1. Qed.
Lemma rules_len l : forall s s', rules l s = Ok s' -> length (pb s') = length (pb s).
Proof. induction l as [|[t r] l IH]; cbn [rules]; intros s s' E; [congruence|]. len1. apply IH in H0. congruence. Qed.
Lemma suffix4_len l : forall s e s', suffix4 l s = Ok (e, s') -> length (pb s') = length (pb s).
Proof.
  induction l as [|t l IH]; cbn [suffix4]; intros s e s' E; [congruence|].
  apply bind_ok in E. destruct E as ([e1 s1] & E1 & E). apply ends_len in E1. apply bind_ok in E. destruct E as (e2 & _ & E).
  destruct e2; [congruence|]. apply IH in E. congruence.
Qed.
Lemma step2_len s s' : step2 s = Ok s' -> length (pb s') = length (pb s).
Proof. unfold step2. intros E. apply bind_ok in E. destruct E as (c & _ & E). exact (rules_len _ _ _ E). Qed.
Lemma step3_len s s' : step3 s = Ok s' -> length (pb s') = length (pb s).
Proof. unfold step3. intros E. apply bind_ok in E. destruct E as (c & _ & E). exact (rules_len _ _ _ E). Qed.
Lemma step4_len s s' : step4 s = Ok s' -> length (pb s') = length (pb s).
Proof.
  unfold step4. intros E. apply bind_ok in E. destruct E as (c & _ & E). apply bind_ok in E. destruct E as ([e s1] & E1 & E). apply suffix4_len in E1.
  len1.
Qed.
Lemma step5_len s s' : step5 s = Ok s' -> length (pb s') = length (pb s).
Proof. unfold step5. cbn zeta. intros E. len1. Qed.
Lemma porter_len s j s' : porter s j = Ok s' -> length (pb s') = length (pb s).
Proof.
  unfold porter. cbn zeta. destruct (_ <=? _); [intros E; injection E as <-; reflexivity|]. intros E.
  apply bind_ok in E. destruct E as (s1 & E1 & E). apply bind_ok in E. destruct E as (s2 & E2 & E). apply bind_ok in E. destruct E as (s3 & E3 & E).
  apply bind_ok in E. destruct E as (s4 & E4 & E). apply bind_ok in E. destruct E as (s5 & E5 & E). apply bind_ok in E. destruct E as (s6 & E6 & E).
  apply step1a_len in E1. apply step1b_len in E2. apply step1c_len in E3. apply step2_len in E4. apply step3_len in E5. apply step4_len in E6. apply step5_len in E.
  cbn [set_k pb] in E1. congruence.
Qed.
Lemma load_len w : forall s p b s', load s p w = Ok (b, s') -> length (pb s') = length (pb s).
Proof.
  induction w as [|c w IH]; cbn [load]; intros s p b s' E; [congruence|]. destruct (c =? 0); [congruence|]. destruct (letter c); [|congruence].
  apply bind_ok in E. destruct E as (s1 & E1 & E). apply put_len in E1. apply IH in E. congruence.
Qed.
Lemma stem_len s w t b s' : stem s w = Ok (t, b, s') -> length (pb s') = length (pb s).
Proof.
  unfold stem. cbn zeta. destruct (_ || _); [congruence|]. intros E. apply bind_ok in E. destruct E as ([ok s1] & E1 & E). apply load_len in E1.
  destruct ok; [|congruence]. apply bind_ok in E. destruct E as (s2 & E2 & E). apply porter_len in E2. congruence.
Qed.

(** A stemmer in use: made with whatever its memory held, then called any number of times. *)
Inductive in_use : ps -> Prop :=
| made b k j : length b = Z.to_nat (huge_word + 1) -> in_use (Ps b k j)
| called s w t f s' : in_use s -> stem s w = Ok (t, f, s') -> in_use s'.
Lemma in_use_len s : in_use s -> length (pb s) = 33%nat.
Proof. induction 1 as [b k j L|s w t f s' _ IH E]; [exact L|]. apply stem_len in E. congruence. Qed.

Definition word_of_letters (w : bytes) : Prop := (3 <= length w <= 32)%nat /\ Forall (fun c => letter c = true) w.
Lemma load_holding s w : in_use s -> word_of_letters w -> exists s', load s 0 w = Ok (true, s') /\ pb s' = map lower w ++ skipn (length w) (pb s).
Proof.
  intros U [L F]. apply in_use_len in U. destruct (load_ok w F s [] (pb s) eq_refl) as (s' & R & E); [lia|]. exists s'. split; [exact R|exact E].
Qed.
Lemma stem_ok s w : in_use s -> word_of_letters w ->
  (exists s' w', stem s w = Ok (lit "porter:" ++ w', true, s') /\ stem_of (map lower w) w' /\ (1 <= length w' <= length w)%nat /\
     (forall c, ~ after_1 (map lower w) [c]) /\ ~ after_3 (map lower w) (lit "ion")) \/
  (stem s w = UB /\ ((exists c, after_1 (map lower w) [c]) \/ after_3 (map lower w) (lit "ion"))).
Proof.
  intros U V. destruct (load_holding s w U V) as (s1 & R1 & E1). destruct V as [L F]. unfold stem. cbn zeta.
  replace (Z.of_nat (length w) <? 3) with false by (symmetry; apply Z.ltb_ge; lia). replace (huge_word <? Z.of_nat (length w)) with false by (symmetry; apply Z.ltb_ge; unfold huge_word; lia).
  cbn [orb]. rewrite R1. cbn [bind].
  assert (holding (set_k s1 (Z.of_nat (length w) - 1)) (map lower w)) as H.
  { apply in_use_len in U. split; [cbn [set_k pb]; apply load_len in R1; congruence|]. split; [destruct w; [cbn in L; lia|discriminate]|]. cbn [set_k pb pk]. rewrite map_length.
    split; [reflexivity|]. split; [lia|]. exists (skipn (length w) (pb s)). exact E1. }
  pose proof (porter_ok _ _ H) as P. rewrite map_length in P. specialize (P ltac:(lia)).
  replace (porter (set_k s1 (Z.of_nat (length w) - 1)) (Z.of_nat (length w) - 1)) with (porter s1 (Z.of_nat (length w) - 1)) in P by reflexivity.
  destruct P as [(s' & w' & -> & H' & S & L' & N1 & N2)|(-> & X)].
  - left. cbn [bind]. exists s', w'. pose proof H' as (_ & Nw & K & _ & q & E). split; [|split; [exact S|split; [destruct w'; [congruence|cbn [length] in *; lia]|split; [exact N1|exact N2]]]].
    rewrite K, E. replace (Z.to_nat (Z.of_nat (length w') - 1 + 1)) with (length w') by lia. rewrite firstn_app, firstn_all, Nat.sub_diag. cbn [firstn]. rewrite app_nil_r. reflexivity.
  - right. split; [reflexivity|exact X].
Qed.
Lemma stem_iff s w : in_use s -> word_of_letters w ->
  (stem s w = UB <-> (exists c, after_1 (map lower w) [c]) \/ after_3 (map lower w) (lit "ion")).
Proof.
  intros U V. destruct (stem_ok s w U V) as [(s' & w' & -> & _ & _ & N1 & N2)|(E & X)]; [|tauto].
  split; [discriminate|]. intros [[c A]|A]; [exfalso; exact (N1 c A)|contradiction].
Qed.
Lemma stem_same s w : in_use s ->
  ((length w < 3)%nat \/ (32 < length w)%nat \/ exists u c r, w = u ++ c :: r /\ Forall (fun c => letter c = true) u /\ letter c = false /\ c <> 0) ->
  exists s', stem s w = Ok (w, false, s').
Proof.
  intros U D. unfold stem. cbn zeta. destruct (_ || _) eqn:B; [exists s; reflexivity|]. apply orb_false_elim in B. destruct B as [B1 B2].
  apply Z.ltb_ge in B1. apply Z.ltb_ge in B2. unfold huge_word in B2. destruct D as [D|[D|(u & c & r & -> & F & Lc & Nc)]]; [lia|lia|].
  rewrite app_length in B2. cbn [length] in B2. apply in_use_len in U.
  destruct (load_no u c r F Lc Nc s [] (pb s) eq_refl) as (s' & R); [lia|]. change (Z.of_nat (length (@nil Z))) with 0 in R. rewrite R. cbn [bind]. exists s'. reflexivity.
Qed.

(** ** Words cut to one letter by step 1 *)
Lemma one_app (u t : bytes) c : u ++ t = [c] -> t <> [] -> u = [] /\ t = [c].
Proof. destruct u as [|a u]; [auto|]. cbn. intros E N. injection E as _ E. apply app_eq_nil in E. destruct E; congruence. Qed.
Lemma tidied_short u c : has_vowel u -> tidied u [c] -> u = [c] /\ is_vowel c = true.
Proof.
  intros V T. assert (forall x, has_vowel [x] -> is_vowel x = true) as V1.
  { intros x Vx. unfold has_vowel in Vx. cbn [consonants In] in Vx. rewrite andb_false_r in Vx. cbn [negb] in Vx. rewrite andb_true_r in Vx. destruct Vx as [X|[]].
    apply negb_false_iff, X. }
  inversion T as [u' s r F E|u' d N D W C|u' d N D W C E|N D M S E|N D X E].
  - exfalso. destruct F as (I & _). apply (f_equal (@length _)) in E. rewrite app_length in E. cbn [length] in E.
    unfold rules_1b2 in I. in_rules I; cbn in E; lia.
  - exfalso. subst u'. destruct D as (u2 & x & fs & W2 & Cn). rewrite W in *. cbn [app] in *. destruct u2 as [|y u2]; [|apply (f_equal (@length _)) in W2; cbn in W2; rewrite app_length in W2; cbn in W2; lia].
    cbn [app] in W2. injection W2 as -> ->. unfold has_vowel in V. cbn [consonants] in V, Cn. rewrite andb_false_r in V, Cn. cbn [negb] in V, Cn. rewrite andb_true_r in V, Cn.
    destruct fs as [|f [|g fs]]; cbn [app] in Cn; [discriminate| |destruct fs; discriminate]. injection Cn as C1 C2. destruct (is_vowel x); [discriminate|]. cbn [negb andb] in *.
    destruct V as [V|[V|[]]]; [discriminate|]. congruence.
  - subst u. split; [reflexivity|apply V1, V].
  - exfalso. destruct (one_app _ _ _ E) as [-> _]; [discriminate|]. exact V.
  - subst u. split; [reflexivity|apply V1, V].
Qed.
Lemma one_left w c : (3 <= length w)%nat -> after_1 w [c] -> one_letter_left w.
Proof.
  intros L (w1 & w2 & A & B & C). assert (w2 = [c]) as ->.
  { inversion C as [u s r F V E|u s r F V E|N E]; [|reflexivity|reflexivity]. destruct F as (I & W & _). unfold rules_1c in I. in_rules I.
    destruct (one_app _ _ _ E) as [-> _]; [discriminate|]. destruct V. }
  clear C. assert (w1 = [c] \/ exists t, In t [lit "ed"; lit "ing"] /\ w1 = c :: t /\ w1 <> lit "eed" /\ is_vowel c = true) as D.
  { inversion B as [u W M E|u W M E|u s r w' F N V T E|u s r F N V E|N E]; [|left; congruence| |left; congruence|left; congruence].
    - exfalso. apply (f_equal (@length _)) in E. rewrite app_length in E. cbn in E. lia.
    - right. subst w'. destruct (tidied_short u c V T) as [-> Vc]. pose proof F as (I & W & _). exists s. split; [|split; [exact W|split; [|exact Vc]]].
      2:{ intros X. apply N. exact (eed_fits w1 [] X [c] s r F). }
      unfold rules_1b in I. cbn [In] in I. destruct I as [I|[I|[I|[]]]]; injection I as <- _; [exfalso; apply N; reflexivity|cbn; auto|cbn; auto]. }
  destruct D as [->|(t & It & -> & Ne & Vc)].
  - left. inversion A as [u s r F V E|u s r F V E|N E]; [|rewrite E in L; cbn in L; lia|rewrite E in L; cbn in L; lia]. destruct F as (I & W & _). rewrite W in L |- *.
    rewrite app_length in L. apply (f_equal (@length _)) in E. rewrite app_length in E. cbn [length] in E. unfold rules_1a in I. cbn [In] in I.
    destruct I as [I|[I|[I|[I|[]]]]]; injection I as <- <-; cbn in L, E; try lia. destruct u; [reflexivity|cbn in E; lia].
  - right. assert (last (c :: t) 0 <> chr "s" /\ last (c :: t) 0 <> chr "i") as [Z1 Z2] by (cbn [In] in It; destruct It as [<-|[<-|[]]]; split; vm_compute; discriminate).
    inversion A as [u s r F V E|u s r F V E|N E]; [|exfalso; apply V; exact I|].
    + destruct F as (I & W & _). unfold rules_1a in I. cbn [In] in I. destruct I as [I|[I|[I|[I|[]]]]]; injection I as <- <-;
        try (exfalso; rewrite <- E, last_app in Z1, Z2 by discriminate; (apply Z1; reflexivity) || (apply Z2; reflexivity)).
      rewrite app_nil_r in E. subst u. exists c, (t ++ lit "s"). split; [exact Vc|]. split; [cbn [In] in It; destruct It as [<-|[<-|[]]]; cbn; auto|]. split; [exact W|].
      rewrite W. split; intros X; [|apply Ne, (app_inv_tail (lit "s")), X]. apply (f_equal (fun w => last w 0)) in X. rewrite last_app in X by discriminate. discriminate.
    + exists c, t. split; [exact Vc|]. split; [cbn [In] in *; destruct It as [<-|[<-|[]]]; auto|]. split; [reflexivity|]. split; [exact Ne|].
      intros X. rewrite X in Z1. apply Z1. reflexivity.
Qed.
Definition buf (w : bytes) : ps := Ps (w ++ repeat 0 (33 - length w)) (Z.of_nat (length w) - 1) 0.
Lemma buf_holding w : (1 <= length w <= 32)%nat -> holding (buf w) w.
Proof.
  intros L. split; [cbn [buf pb]; rewrite app_length, repeat_length; lia|]. split; [destruct w; [cbn in L; lia|discriminate]|]. split; [reflexivity|]. split; [lia|].
  eexists. reflexivity.
Qed.
Lemma left_one w : one_letter_left w -> exists c, after_1 w [c].
Proof.
  intros O. assert ((3 <= length w <= 32)%nat /\ exists s1 s2 s3, step1a (buf w) = Ok s1 /\ step1b s1 = Ok s2 /\ step1c s2 = Ok s3 /\ pk s3 = 0) as (L & s1 & s2 & s3 & R1 & R2 & R3 & K).
  { destruct O as [->|(v & t & Vv & It & -> & N1 & N2)]; [split; [cbn; lia|]; do 3 eexists; repeat (split; [vm_compute; reflexivity|]); reflexivity|].
    assert (In v (lit "aeiou")) as Iv. { unfold is_vowel in Vv. apply existsb_exists in Vv. destruct Vv as (x & Ix & Ex). apply Z.eqb_eq in Ex. subst. exact Ix. }
    clear Vv. cbn [In lit] in Iv, It. repeat (destruct Iv as [<-|Iv]; [|]); [| | | | |destruct Iv]; (repeat (destruct It as [<-|It]; [|]); [| | | |destruct It]);
      first [exfalso; apply N1; reflexivity|exfalso; apply N2; reflexivity|split; [cbn; lia|]; do 3 eexists; repeat (split; [vm_compute; reflexivity|]); reflexivity]. }
  destruct (step1_ok (buf w) w (buf_holding w ltac:(lia)) ltac:(lia)) as (t1 & t2 & t3 & w1 & Q1 & Q2 & Q3 & H & A & _).
  assert (t3 = s3) as -> by congruence. destruct H as (_ & N & K' & _). rewrite K in K'. destruct w1 as [|c [|d w1]]; [congruence|exists c; exact A|cbn [length] in K'; lia].
Qed.
