(** Proofs about shard names. *)
From Verif Require Import Base Bytes NameModel NameSpec FeatProofs ParseProofs.
From Coq Require Import Sorting.Permutation Sorting.Sorted.

Lemma forallb_digits s : forallb is_digit s = true <-> Forall (fun c => 48 <= c <= 57) s.
Proof.
  induction s as [|c s IH]; cbn; [split; [constructor|reflexivity]|]. rewrite andb_true_iff, IH. unfold is_digit.
  split; [intros [A B]; constructor; [lia|exact B]|]. intros H. inversion H; subst. split; [lia|assumption].
Qed.
Lemma all_digits_of s : all_digits s = true <-> digits_of s (dec_val 0 s).
Proof.
  unfold all_digits, digits_of. destruct s as [|c s]; [split; [discriminate|intros (A & _); contradiction]|].
  rewrite forallb_digits. split; [intros H; repeat split; [discriminate|exact H]|intros (_ & H & _); exact H].
Qed.
Lemma dec_val_zeros n s : dec_val 0 (repeat 48 n ++ s) = dec_val 0 s.
Proof. induction n as [|n IH]; [reflexivity|]. cbn [repeat app]. unfold dec_val in *. cbn [fold_left]. change (10 * 0 + (48 - 48)) with 0. exact IH. Qed.
Lemma dec_pos s : 0 <= s -> dec s = dec_nat s.
Proof. intros H. unfold dec. destruct (s <? 0) eqn:E; [lia|reflexivity]. Qed.
Lemma seq2str_digits s : 0 <= s -> digits_of (seq2str s) s.
Proof.
  intros H. unfold seq2str. rewrite dec_pos by exact H. destruct (dec_nat_ok s H) as (A & B & C & _). repeat split.
  - destruct (repeat 48 _); [exact C|discriminate].
  - apply Forall_app. split; [|apply forallb_digits; exact A]. apply Forall_forall. intros x Hx. apply repeat_spec in Hx. lia.
  - rewrite dec_val_zeros. symmetry. exact B.
Qed.
(** Leading digit. *)
Lemma dec_val_lower ds : forall v, Forall (fun c => 48 <= c <= 57) ds -> 0 <= v -> v * 10 ^ Z.of_nat (length ds) <= dec_val v ds.
Proof.
  induction ds as [|c ds IH]; intros v H Hv; cbn [length dec_val fold_left]; [change (10 ^ Z.of_nat 0) with 1; lia|].
  inversion H; subst. specialize (IH (10 * v + (c - 48)) ltac:(assumption) ltac:(lia)). unfold dec_val in IH.
  rewrite Nat2Z.inj_succ, Z.pow_succ_r by lia.
  assert (0 < 10 ^ Z.of_nat (length ds)) by (apply Z.pow_pos_nonneg; lia). nia.
Qed.
Lemma dec_length s : 0 <= s <= maxf -> (length (dec s) <= 19)%nat.
Proof.
  intros H. rewrite dec_pos by lia. destruct (dec_nat_ok s ltac:(lia)) as (A & B & C & D & E).
  destruct (Z.eq_dec s 0) as [->|N]; [rewrite E by reflexivity; cbn; lia|]. specialize (D ltac:(lia)).
  destruct (dec_nat s) as [|c r]; [contradiction|]. cbn [hd] in D. apply forallb_digits in A. inversion A as [|? ? A1 A2].
  pose proof (dec_val_lower r (c - 48) A2 ltac:(lia)) as K.
  assert (B' : dec_val (c - 48) r = s). { rewrite <- B. unfold dec_val. cbn [fold_left]. reflexivity. }
  rewrite B' in K. cbn [length]. destruct (le_lt_dec (length r) 18) as [L|L]; [lia|]. exfalso.
  assert (10 ^ 19 <= 10 ^ Z.of_nat (length r)) by (apply Z.pow_le_mono_r; lia).
  change (10 ^ 19) with 10000000000000000000 in *. unfold maxf in H.
  assert (1 * 10 ^ Z.of_nat (length r) <= (c - 48) * 10 ^ Z.of_nat (length r)) by (apply Z.mul_le_mono_nonneg_r; lia). lia.
Qed.
Lemma seq2str_length s : 0 <= s <= maxf -> length (seq2str s) = 20%nat.
Proof. intros H. unfold seq2str. pose proof (dec_length s H). rewrite app_length, repeat_length. lia. Qed.
Lemma strip_spec p n r : strip p n = Some r <-> n = p ++ r.
Proof.
  revert n. induction p as [|c p IH]; intros n; cbn [strip app]; [split; congruence|]. destruct n as [|d n]; [split; discriminate|].
  destruct (c =? d) eqn:E.
  - apply Z.eqb_eq in E. subst. rewrite IH. split; [intros ->; reflexivity|]. intros H. injection H as ->. reflexivity.
  - split; [discriminate|]. intros H. injection H as <- _. rewrite Z.eqb_refl in E. discriminate.
Qed.
Lemma cut_dot_some s : forall a b, cut_dot s = Some (a, b) -> s = a ++ 46 :: b /\ ~ In 46 a.
Proof.
  induction s as [|c s IH]; intros a b; cbn [cut_dot]; [discriminate|].
  destruct (c =? 46) eqn:E.
  - apply Z.eqb_eq in E. subst c. intros H. injection H as <- <-. split; [reflexivity|intros []].
  - destruct (cut_dot s) as [[x y]|]; [|discriminate]. intros H. injection H as <- <-.
    destruct (IH x y eq_refl) as [-> N]. split; [reflexivity|]. intros [K|K]; [lia|exact (N K)].
Qed.
Lemma cut_dot_at a b : ~ In 46 a -> cut_dot (a ++ 46 :: b) = Some (a, b).
Proof.
  induction a as [|c a IH]; intros N; cbn [app cut_dot]; [reflexivity|]. destruct (Z.eqb_spec c 46) as [->|K].
  - exfalso. apply N. left. reflexivity.
  - rewrite IH; [reflexivity|]. intros K'. apply N. right. exact K'.
Qed.
Lemma digits_no_dot ds n : digits_of ds n -> ~ In 46 ds.
Proof. intros (_ & H & _) K. rewrite Forall_forall in H. specialize (H _ K). cbn in H. lia. Qed.
Lemma digits_nonneg ds n : digits_of ds n -> 0 <= n.
Proof. intros (_ & H & ->). apply dec_val_ge; [lia|]. apply forallb_digits. exact H. Qed.
Lemma digits_all ds n : digits_of ds n -> all_digits ds = true /\ n = dec_val 0 ds.
Proof. intros H. split; [|apply H]. apply all_digits_of. destruct H as (A & B & ->). repeat split; assumption. Qed.
(** The names that are parsed are exactly those that name a range. *)
Theorem parse_exact : forall name prefix s e, parse_shard_name name prefix = Some (s, e) <-> names_range prefix name s e.
Proof.
  intros name prefix s e. unfold parse_shard_name, names_range. split.
  - destruct (strip (prefix ++ [46]) name) as [r|] eqn:Es; [|discriminate]. apply strip_spec in Es.
    destruct (cut_dot r) as [[a b]|] eqn:Ec; [|discriminate]. apply cut_dot_some in Ec. destruct Ec as [-> N].
    destruct (all_digits a) eqn:Ea; [|discriminate]. destruct (all_digits b) eqn:Eb; [|discriminate]. cbn [negb orb].
    unfold stoll. destruct (dec_val 0 a <=? maxf) eqn:La; [|discriminate]. destruct (dec_val 0 b <=? maxf) eqn:Lb; [|discriminate].
    destruct ((dec_val 0 a <? 0) || (dec_val 0 b <? dec_val 0 a)) eqn:E; [discriminate|]. intros H. injection H as <- <-.
    split; [lia|]. split; [lia|]. exists a, b. split; [apply all_digits_of; exact Ea|]. split; [apply all_digits_of; exact Eb|].
    rewrite Es, <- app_assoc. reflexivity.
  - intros (Hs & He & ds & de & Ds & De & ->).
    replace (strip (prefix ++ [46]) _) with (Some (ds ++ 46 :: de)) by (symmetry; apply strip_spec; rewrite <- app_assoc; reflexivity).
    rewrite cut_dot_at by (apply (digits_no_dot _ _ Ds)). destruct (digits_all _ _ Ds) as [-> Es]. destruct (digits_all _ _ De) as [-> Ee].
    cbn [negb orb]. unfold stoll. rewrite <- Es, <- Ee.
    destruct (s <=? maxf) eqn:E1; [|lia]. destruct (e <=? maxf) eqn:E2; [|lia].
    destruct ((s <? 0) || (e <? s)) eqn:E3; [lia|reflexivity].
Qed.
Theorem shard_name_range : forall prefix s e, 0 <= s <= e -> e <= maxf -> names_range prefix (shard_name prefix s e) s e.
Proof.
  intros prefix s e H He. split; [exact H|]. split; [exact He|]. exists (seq2str s), (seq2str e).
  split; [apply seq2str_digits; lia|]. split; [apply seq2str_digits; lia|]. reflexivity.
Qed.
Theorem name_back : forall prefix s e, 0 <= s <= e -> e <= maxf -> parse_shard_name (shard_name prefix s e) prefix = Some (s, e).
Proof. intros. apply parse_exact, shard_name_range; assumption. Qed.
Theorem name_inj : forall prefix s e s' e', 0 <= s <= e -> e <= maxf -> 0 <= s' <= e' -> e' <= maxf ->
  shard_name prefix s e = shard_name prefix s' e' -> s = s' /\ e = e'.
Proof.
  intros prefix s e s' e' H He H' He' E. pose proof (name_back prefix s e H He) as A. rewrite E, name_back in A by assumption.
  injection A as -> ->. auto.
Qed.
(** A name has one range. *)
Theorem range_unique : forall prefix name s e s' e', names_range prefix name s e -> names_range prefix name s' e' -> s = s' /\ e = e'.
Proof. intros prefix name s e s' e' A B. apply parse_exact in A, B. rewrite A in B. injection B as -> ->. auto. Qed.

(** * Order *)
Lemma before_app p s t : before s t -> before (p ++ s) (p ++ t).
Proof. intros H. induction p as [|c p IH]; [exact H|]. cbn. apply Before_later. exact IH. Qed.
Lemma before_irr s : ~ before s s.
Proof. induction s as [|c s IH]; intros H; inversion H; subst; [lia|]. apply IH. assumption. Qed.
Lemma before_tail s t u v : length s = length t -> before s t -> before (s ++ u) (t ++ v).
Proof.
  revert t. induction s as [|c s IH]; intros t L H; destruct t as [|d t]; try discriminate; [inversion H|].
  cbn in L |- *. inversion H; subst; [apply Before_here; assumption|]. apply Before_later. apply IH; [lia|assumption].
Qed.
Lemma digits_before ds : forall de v w, Forall (fun c => 48 <= c <= 57) ds -> Forall (fun c => 48 <= c <= 57) de -> length ds = length de ->
  0 <= v -> 0 <= w -> dec_val v ds < dec_val w de -> v < w \/ (v = w /\ before ds de).
Proof.
  induction ds as [|c ds IH]; intros [|d de] v w Hs He L Hv Hw H; try discriminate.
  - left. exact H.
  - inversion Hs; inversion He; subst. cbn [dec_val fold_left] in H.
    destruct (IH de (10 * v + (c - 48)) (10 * w + (d - 48))) as [K|[K B]]; try assumption; try lia; [cbn in L; lia| |].
    + destruct (Z.lt_trichotomy v w) as [|[->|]]; [left; assumption| |lia]. right. split; [reflexivity|]. apply Before_here. lia.
    + assert (v = w /\ c = d) as [-> ->] by lia. right. split; [reflexivity|]. apply Before_later. exact B.
Qed.
Lemma seq2str_before s t : 0 <= s <= maxf -> 0 <= t <= maxf -> s < t -> before (seq2str s) (seq2str t).
Proof.
  intros Hs Ht H. destruct (seq2str_digits s ltac:(lia)) as (_ & A & B). destruct (seq2str_digits t ltac:(lia)) as (_ & C & D).
  destruct (digits_before (seq2str s) (seq2str t) 0 0) as [K|[_ K]]; try assumption; try lia.
  rewrite !seq2str_length by assumption. reflexivity.
Qed.
Theorem name_order : forall prefix s e s' e', 0 <= s <= e -> e <= maxf -> 0 <= s' <= e' -> e' <= maxf ->
  (before (shard_name prefix s e) (shard_name prefix s' e') <-> (s < s' \/ (s = s' /\ e < e'))).
Proof.
  intros prefix s e s' e' H He H' He'.
  assert (F : forall s e s' e', 0 <= s <= e -> e <= maxf -> 0 <= s' <= e' -> e' <= maxf -> (s < s' \/ (s = s' /\ e < e')) ->
    before (shard_name prefix s e) (shard_name prefix s' e')).
  { clear. intros s e s' e' H He H' He' [K|[-> K]]; unfold shard_name.
    - apply before_app. apply (before_app [46]). apply before_tail; [rewrite !seq2str_length by lia; reflexivity|]. apply seq2str_before; lia.
    - do 3 apply before_app. apply (before_app [46]). apply seq2str_before; lia. }
  split; [|apply F; assumption]. intros B.
  destruct (Z.lt_trichotomy s s') as [|[->|K]]; [left; assumption| |].
  - right. split; [reflexivity|]. destruct (Z.lt_trichotomy e e') as [|[->|K]]; [assumption| |]; exfalso.
    + exact (before_irr _ B).
    + assert (C := F s' e' s' e H' He' H He (or_intror (conj eq_refl K))).
      assert (Tr : forall a b, before a b -> before b a -> False).
      { clear. intros a b X. induction X; intros Y; inversion Y; subst; try lia; auto. }
      exact (Tr _ _ B C).
  - exfalso. assert (C := F s' e' s e H' He' H He (or_introl K)).
    assert (Tr : forall a b, before a b -> before b a -> False).
    { clear. intros a b X. induction X; intros Y; inversion Y; subst; try lia; auto. }
    exact (Tr _ _ B C).
Qed.

(** * Hazel names and their sidecars *)
Lemma hazel_name s e : hazel_default_name s e = shard_name (lit "hazel") s e.
Proof. reflexivity. Qed.
Theorem hazel_parsers : forall name s e, parse_shard_name name (lit "hazel") = Some (s, e) <-> (parse_hazel_name name = Some (s, e) /\ s <= e).
Proof.
  intros name s e. unfold parse_shard_name, parse_hazel_name. change (lit "hazel" ++ [46]) with (lit "hazel.").
  destruct (strip (lit "hazel.") name) as [r|]; [|split; [discriminate|intros [A _]; discriminate]].
  destruct (cut_dot r) as [[a b]|]; [|split; [discriminate|intros [A _]; discriminate]].
  destruct (negb (all_digits a) || negb (all_digits b)) eqn:Ed; [split; [discriminate|intros [A _]; discriminate]|].
  unfold stoll. destruct (dec_val 0 a <=? maxf); [|split; [discriminate|intros [A _]; discriminate]].
  destruct (dec_val 0 b <=? maxf); [|split; [discriminate|intros [A _]; discriminate]].
  apply orb_false_iff in Ed. destruct Ed as [Ea Eb]. apply negb_false_iff in Ea. pose proof (digits_nonneg _ _ (proj1 (all_digits_of a) Ea)) as Na.
  destruct ((dec_val 0 a <? 0) || (dec_val 0 b <? dec_val 0 a)) eqn:E.
  - split; [discriminate|]. intros [A B]. injection A as <- <-. lia.
  - split; [intros A; injection A as <- <-; split; [reflexivity|lia]|]. intros [A _]. exact A.
Qed.
Theorem sidecar_exact : forall name kind s e, parse_hazel_sidecar name kind = Some (s, e) <->
  exists n, name = kind ++ [46] ++ n /\ names_range (lit "hazel") n s e.
Proof.
  intros name kind s e. unfold parse_hazel_sidecar. destruct (strip (kind ++ [46]) name) as [r|] eqn:Es.
  - apply strip_spec in Es. rewrite <- app_assoc in Es. rewrite parse_exact. split; [intros H; exists r; auto|].
    intros (n & E & H). rewrite Es in E. apply app_inv_head in E. injection E as <-. exact H.
  - split; [discriminate|]. intros (n & -> & _). exfalso.
    assert (K : strip (kind ++ [46]) (kind ++ [46] ++ n) = Some n) by (apply strip_spec; rewrite <- app_assoc; reflexivity). congruence.
Qed.
Theorem sidecar_back : forall kind s e, 0 <= s <= e -> e <= maxf ->
  parse_hazel_sidecar (hazel_sidecar_name (hazel_default_name s e) kind) kind = Some (s, e).
Proof.
  intros kind s e H He. apply sidecar_exact. exists (hazel_default_name s e). split; [reflexivity|]. apply shard_name_range; assumption.
Qed.
