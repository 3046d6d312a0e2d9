(** Proofs about featurizers. *)
From Verif Require Import Base Bytes HopperModel ShardModel FeatModel FeatSpec TextStore.

Lemma try_digit_ok c : 48 <= c <= 57 -> try_digit c = c - 48.
Proof. intros H. unfold try_digit. replace ((48 <=? c) && (c <=? 57)) with true by lia. reflexivity. Qed.
Lemma try_digit_bad c : ~ 48 <= c <= 57 -> try_digit c = minf.
Proof. intros H. unfold try_digit. replace ((48 <=? c) && (c <=? 57)) with false by lia. reflexivity. Qed.
Lemma val_ge s : forall v, 0 <= v -> Forall (fun c => 48 <= c <= 57) s -> v <= dec_val v s.
Proof.
  induction s as [|c s IH]; intros v Hv F; [cbn; lia|]. assert (48 <= c <= 57) by (inversion F; assumption).
  change (dec_val v (c :: s)) with (dec_val (10 * v + (c - 48)) s). specialize (IH (10 * v + (c - 48)) ltac:(lia) ltac:(inversion F; assumption)). lia.
Qed.
Lemma try_digits_ok s : forall v, 0 <= v <= maxf -> 
  (Forall (fun c => 48 <= c <= 57) s /\ dec_val v s <= maxf /\ try_digits s v = dec_val v s) \/
  (~ (Forall (fun c => 48 <= c <= 57) s /\ dec_val v s <= maxf) /\ try_digits s v = minf).
Proof.
  induction s as [|c s IH]; intros v Hv; cbn [try_digits]; [left; split; [constructor|]; split; [cbn; lia|reflexivity]|].
  destruct (Z.leb_spec 48 c) as [L1|L1]; [destruct (Z.leb_spec c 57) as [L2|L2]|].
  - rewrite (try_digit_ok c) by lia. replace (c - 48 <? 0) with false by lia.
    change (dec_val v (c :: s)) with (dec_val (10 * v + (c - 48)) s). cbv zeta.
    destruct ((v <? maxf / 10) || ((v =? maxf / 10) && (c - 48 <=? maxf mod 10))) eqn:E.
    + change (maxf / 10) with 922337203685477580 in E. change (maxf mod 10) with 7 in E.
      assert (Hn : 0 <= 10 * v + (c - 48) <= maxf) by (unfold maxf; lia).
      destruct (IH _ Hn) as [(A & B & C)|(A & B)]; [left|right].
      * split; [constructor; [lia|exact A]|]. auto.
      * split; [|exact B]. intros [F K]. apply A. split; [inversion F; assumption|exact K].
    + right. split; [|reflexivity]. intros [F K]. change (maxf / 10) with 922337203685477580 in E. change (maxf mod 10) with 7 in E.
      pose proof (val_ge s (10 * v + (c - 48)) ltac:(lia) ltac:(inversion F; assumption)). unfold maxf in *. lia.
  - rewrite try_digit_bad by lia. replace (minf <? 0) with true by reflexivity. right. split; [|reflexivity].
    intros [F _]. assert (48 <= c <= 57) by (inversion F; assumption). lia.
  - rewrite try_digit_bad by lia. replace (minf <? 0) with true by reflexivity. right. split; [|reflexivity].
    intros [F _]. assert (48 <= c <= 57) by (inversion F; assumption). lia.
Qed.
(** The literal test of featurize. *)
Lemma literal_ok c r : let l := if c =? 35 then try_literal r else minf in
  (exists n, numeral (c :: r) n /\ l = n /\ 0 <= n) \/ ((forall n, ~ numeral (c :: r) n) /\ l = minf).
Proof.
  cbv zeta. destruct (Z.eqb_spec c 35) as [->|N].
  - destruct r as [|d r]; [right; split; [|reflexivity]; intros n (ds & E & Nd & _); injection E as <-; contradiction|].
    unfold try_literal. destruct (try_digits_ok (d :: r) 0 ltac:(unfold maxf; lia)) as [(A & B & C)|(A & B)].
    + left. exists (dec_val 0 (d :: r)). split; [|split; [exact C|apply val_ge; [lia|exact A]]]. exists (d :: r). split; [reflexivity|]. split; [discriminate|]. auto.
    + right. split; [|exact B]. intros n (ds & E & _ & F & En & K). injection E as <-. apply A. split; [exact F|lia].
  - right. split; [|reflexivity]. intros n (ds & E & _). injection E as E _. contradiction.
Qed.

Lemma pack_range s : Forall (fun c => 0 <= c < 256) s -> 0 <= pack s < 256 ^ Z.of_nat (length s).
Proof.
  induction s as [|c s IH]; intros F; [cbn; lia|]. cbn [pack length]. assert (0 <= c < 256) by (inversion F; assumption).
  specialize (IH ltac:(inversion F; assumption)). rewrite Nat2Z.inj_succ, Z.pow_succ_r by lia. lia.
Qed.
Lemma unpack_pack n : forall s, Forall (fun c => 0 <= c < 256) s -> (length s <= n)%nat -> unpack n (pack s) = s ++ repeat 0 (n - length s).
Proof.
  induction n as [|n IH]; intros s F L; [destruct s; [reflexivity|cbn in L; lia]|].
  destruct s as [|c s]; cbn [unpack pack length].
  - specialize (IH [] ltac:(constructor) ltac:(cbn; lia)). cbn [pack app length] in IH. rewrite Nat.sub_0_r in IH.
    change (0 / 256) with 0. change (0 mod 256) with 0. rewrite IH. reflexivity.
  - assert (0 <= c < 256) by (inversion F; assumption). cbn in L.
    replace ((c + 256 * pack s) mod 256) with c by (rewrite Z.mul_comm, Z_mod_plus_full, Z.mod_small; lia).
    replace ((c + 256 * pack s) / 256) with (pack s) by (rewrite Z.mul_comm, Z_div_plus_full by lia; rewrite Z.div_small; lia).
    rewrite IH by (lia || (inversion F; assumption)). reflexivity.
Qed.
Lemma c_str_app s r : Forall (fun c => 0 < c < 256) s -> c_str (s ++ 0 :: r) = s.
Proof.
  induction s as [|c s IH]; intros F; [reflexivity|]. cbn [app c_str]. assert (0 < c < 256) by (inversion F; assumption).
  replace (c =? 0) with false by lia. rewrite IH; [reflexivity|]. inversion F; assumption.
Qed.
Lemma ordinary_bytes t : ordinary t -> Forall (fun c => 0 <= c < 256) t.
Proof. intros (_ & F & _). rewrite Forall_forall in *. intros c Hc. specialize (F c Hc). lia. Qed.
Lemma pow7 : 256 ^ 7 = 72057594037927936. Proof. reflexivity. Qed.
Lemma short_pack t : ordinary t -> short t -> 0 < pack t < 72057594037927936.
Proof.
  intros O S. pose proof (pack_range t (ordinary_bytes t O)) as R.
  assert (P : 256 ^ Z.of_nat (length t) <= 256 ^ 7) by (apply Z.pow_le_mono_r; unfold short in S; lia). rewrite pow7 in P.
  destruct O as (N & F & _). destruct t as [|c t]; [contradiction|]. assert (0 < c < 256) by (inversion F; assumption).
  assert (Ft : Forall (fun c => 0 <= c < 256) t) by (inversion F; subst; eapply Forall_impl; [|eassumption]; cbn; intros; lia).
  pose proof (pack_range t Ft). cbn [pack] in *. lia.
Qed.
Lemma featurize_short t : ordinary t -> short t -> featurize t = Ok (pack t).
Proof.
  intros O S. destruct O as (N & _ & Nu). destruct t as [|c r]; [contradiction|]. unfold featurize.
  destruct (literal_ok c r) as [(n & K & _)|[_ ->]]; [destruct (Nu n K)|]. change (0 <=? minf) with false. cbv iota.
  unfold short in S. replace (Z.of_nat (length (c :: r)) <? 8) with true by lia. reflexivity.
Qed.
Theorem short_name : forall t f, ordinary t -> short t -> featurize t = Ok f -> feature_name f = t.
Proof.
  intros t f O S. rewrite (featurize_short t O S). intros [= <-]. pose proof (short_pack t O S) as R.
  unfold feature_name, null_feature. replace (pack t =? 0) with false by lia.
  assert (W : wrap64 (pack t) = pack t) by (unfold wrap64; apply Z.mod_small; lia). rewrite W, unpack_pack; [|apply ordinary_bytes, O|unfold short in S; lia].
  unfold short in S. assert (H7 : nth 7 (t ++ repeat 0 (8 - length t)) 0 = 0).
  { rewrite app_nth2 by lia. destruct (nth_in_or_default (7 - length t) (repeat 0 (8 - length t)) 0) as [H|H]; [apply repeat_spec in H; exact H|exact H]. }
  cbv zeta. rewrite H7. cbn [Z.eqb negb]. replace (8 - length t)%nat with (Datatypes.S (7 - length t))%nat by lia. cbn [repeat]. apply c_str_app. apply O.
Qed.
Theorem short_unique : forall t u f, ordinary t -> ordinary u -> short t -> short u -> featurize t = Ok f -> featurize u = Ok f -> t = u.
Proof. intros t u f Ot Ou St Su Ft Fu. rewrite <- (short_name t f Ot St Ft), <- (short_name u f Ou Su Fu). reflexivity. Qed.

Lemma murmur_range s seed : 0 <= murmur s seed < 18446744073709551616.
Proof.
  unfold murmur. destruct (mur_blocks _ _ _) as [h r]. cbv zeta. set (g := match r with [] => h | _ => _ end).
  assert (R : 0 <= mur_mul (mur_mix g) < 2 ^ 64) by (unfold mur_mul, wrap64; apply Z.mod_pos_bound; reflexivity).
  set (x := mur_mul (mur_mix g)) in *. clearbody x. change 18446744073709551616 with (2 ^ 64). unfold mur_mix.
  assert (S0 : 0 <= Z.shiftr x 47) by (apply Z.shiftr_nonneg; lia).
  split; [apply Z.lxor_nonneg; lia|].
  destruct (Z.eq_dec (Z.lxor x (Z.shiftr x 47)) 0) as [E|E]; [rewrite E; reflexivity|].
  assert (L0 : 0 <= Z.lxor x (Z.shiftr x 47)) by (apply Z.lxor_nonneg; lia).
  apply Z.log2_lt_pow2; [lia|]. eapply Z.le_lt_trans; [apply Z.log2_lxor; lia|].
  assert (Lx : Z.log2 x < 64) by (destruct (Z.eq_dec x 0) as [->|]; [reflexivity|apply Z.log2_lt_pow2; lia]).
  apply Z.max_lub_lt; [exact Lx|]. assert (x <> 0) by (intros ->; apply E; reflexivity). rewrite Z.log2_shiftr by lia. lia.
Qed.
Lemma signed_range u : 0 <= u < 18446744073709551616 -> minf <= signed64 u <= maxf.
Proof. unfold signed64, minf, maxf. destruct (Z.ltb_spec u 9223372036854775808); lia. Qed.
(** Setting bit 56. *)
Lemma lor_56 a : 0 <= a <= maxf -> 72057594037927936 <= Z.lor a 72057594037927936 <= maxf.
Proof.
  intros H. change 72057594037927936 with (2 ^ 56). set (b := Z.lor a (2 ^ 56)).
  assert (N : 0 <= b) by (apply Z.lor_nonneg; split; [lia|apply Z.pow_nonneg; lia]).
  split.
  - assert (T : Z.testbit b 56 = true) by (unfold b; rewrite Z.lor_spec, Z.pow2_bits_true by lia; apply orb_true_r).
    destruct (Z.lt_ge_cases b (2 ^ 56)) as [L|L]; [|exact L]. exfalso.
    assert (F : Z.testbit b 56 = false).
    { rewrite <- (Z.mod_small b (2 ^ 56)) by lia. apply Z.mod_pow2_bits_high. lia. }
    congruence.
  - assert (B : b < 2 ^ 63); [|unfold maxf; change (2 ^ 63) with 9223372036854775808 in B; lia].
    destruct (Z.eq_dec b 0) as [->|Nb]; [reflexivity|]. apply Z.log2_lt_pow2; [lia|]. unfold b. rewrite Z.log2_lor by (lia || (apply Z.pow_nonneg; lia)).
    rewrite Z.log2_pow2 by lia. apply Z.max_lub_lt; [|lia]. destruct (Z.eq_dec a 0) as [->|]; [reflexivity|]. apply Z.log2_lt_pow2; [lia|]. unfold maxf in H. change (2 ^ 63) with 9223372036854775808. lia.
Qed.
Lemma hash_ok s : let h := murmur s 588503011 in
  (h = 9223372036854775808 /\ featurize_hash s = UB) \/
  (h <> 9223372036854775808 /\ exists f, featurize_hash s = Ok f /\ 72057594037927936 <= f <= maxf).
Proof.
  cbv zeta. pose proof (murmur_range s 588503011) as R. unfold featurize_hash. set (h := murmur s 588503011) in *. clearbody h.
  pose proof (signed_range h R) as S. destruct (Z.ltb_spec 0 (signed64 h)) as [L|L].
  - right. cbn [bind]. split; [intros ->; vm_compute in L; discriminate|]. eexists. split; [reflexivity|]. apply lor_56. lia.
  - destruct (Z.eq_dec h 9223372036854775808) as [E|E].
    + left. split; [exact E|]. rewrite E. reflexivity.
    + right. split; [exact E|]. assert (signed64 h <> minf).
      { unfold signed64, minf in *. destruct (Z.ltb_spec h 9223372036854775808); lia. }
      rewrite chk_ok by (unfold minf, maxf in *; lia). cbn [bind]. eexists. split; [reflexivity|]. apply lor_56. unfold minf, maxf in *. lia.
Qed.
Lemma featurize_long t : ordinary t -> ~ short t -> featurize t = featurize_hash t.
Proof.
  intros O S. destruct O as (N & _ & Nu). destruct t as [|c r]; [contradiction|]. unfold featurize.
  destruct (literal_ok c r) as [(n & K & _)|[_ ->]]; [destruct (Nu n K)|]. change (0 <=? minf) with false. cbv iota.
  unfold short in S. replace (Z.of_nat (length (c :: r)) <? 8) with false by lia. reflexivity.
Qed.
Theorem feature_kinds : forall t f, ordinary t -> featurize t = Ok f -> 0 < f <= maxf /\ (short t <-> f < 72057594037927936).
Proof.
  intros t f O E. destruct (le_lt_dec 8 (length t)) as [L|L].
  - assert (S : ~ short t) by (unfold short; lia). rewrite (featurize_long t O S) in E.
    destruct (hash_ok t) as [[_ K]|(_ & g & K & R)]; rewrite K in E; [discriminate|]. injection E as <-. split; [lia|]. split; [contradiction|lia].
  - assert (S : short t) by exact L. rewrite (featurize_short t O S) in E. injection E as <-. pose proof (short_pack t O S). unfold maxf. split; [lia|]. split; [lia|auto].
Qed.
Theorem short_not_long : forall t u f, ordinary t -> ordinary u -> short t -> ~ short u -> featurize t = Ok f -> featurize u <> Ok f.
Proof. intros t u f Ot Ou St Su Ft Fu. apply (feature_kinds t f Ot) in Ft. apply (feature_kinds u f Ou) in Fu. tauto. Qed.
Theorem featurize_defined : forall t, ordinary t -> (exists f, featurize t = Ok f) \/ (~ short t /\ murmur t 588503011 = 9223372036854775808).
Proof.
  intros t O. destruct (le_lt_dec 8 (length t)) as [L|L].
  - assert (S : ~ short t) by (unfold short; lia). rewrite (featurize_long t O S). destruct (hash_ok t) as [[K _]|(_ & g & K & _)]; [right; auto|left; eauto].
  - left. exists (pack t). apply featurize_short; [exact O|exact L].
Qed.
Theorem numeral_feature : forall t n, numeral t n -> featurize t = Ok n.
Proof.
  intros t n (ds & -> & K). pose proof K as (N & F & V & M). unfold featurize. destruct (literal_ok 35 ds) as [(m & (ds' & E & _ & _ & Em & _) & -> & P)|[Nn _]].
  - injection E as <-. replace (0 <=? m) with true by lia. congruence.
  - destruct (Nn n). exists ds. split; [reflexivity|exact K].
Qed.
Lemma nth_unpack n : forall k v, (k < n)%nat -> nth k (unpack n v) 0 = (v / 256 ^ Z.of_nat k) mod 256.
Proof.
  induction n as [|n IH]; intros k v L; [lia|]. destruct k as [|k]; cbn [unpack nth]; [change (256 ^ Z.of_nat 0) with 1; rewrite Z.div_1_r; reflexivity|].
  rewrite IH by lia. rewrite Nat2Z.inj_succ, Z.pow_succ_r, Z.div_div by lia. reflexivity.
Qed.
(** The name of a feature number that is not a short term's is its numeral. *)
Lemma long_name f : 72057594037927936 <= f <= maxf -> feature_name f = 35 :: dec_nat f.
Proof.
  intros R. unfold feature_name, null_feature. replace (f =? 0) with false by lia.
  assert (W : wrap64 f = f) by (unfold wrap64; apply Z.mod_small; unfold maxf in R; lia). rewrite W. cbv zeta.
  assert (B : nth 7 (unpack 8 f) 0 <> 0).
  { rewrite nth_unpack by lia. change (256 ^ Z.of_nat 7) with 72057594037927936.
    assert (1 <= f / 72057594037927936 < 128).
    { split; [apply Z.div_le_lower_bound; lia|apply Z.div_lt_upper_bound; unfold maxf in R; lia]. }
    rewrite Z.mod_small by lia. lia. }
  destruct (Z.eqb_spec (nth 7 (unpack 8 f) 0) 0) as [E0|_]; [contradiction|]. cbn [negb]. unfold dec. replace (f <? 0) with false by lia. reflexivity.
Qed.
Theorem long_back : forall t f, ordinary t -> ~ short t -> featurize t = Ok f -> numeral (feature_name f) f /\ featurize (feature_name f) = Ok f.
Proof.
  intros t f O S E. pose proof (feature_kinds t f O E) as [R K]. assert (L : 72057594037927936 <= f) by (destruct (Z.le_gt_cases 72057594037927936 f) as [L|L]; [exact L|]; apply K in L; contradiction).
  assert (N : numeral (feature_name f) f).
  { rewrite long_name by lia. destruct (dec_nat_ok f ltac:(lia)) as (D1 & D2 & D3 & _). exists (dec_nat f). split; [reflexivity|]. split; [exact D3|].
    split; [|split; [symmetry; exact D2|lia]]. apply Forall_forall. intros c Hc. rewrite forallb_forall in D1. specialize (D1 c Hc). unfold is_digit in D1. lia. }
  split; [exact N|]. apply numeral_feature. exact N.
Qed.

(** * Where it fails *)
Lemma nul_shared : exists t u f, t <> u /\ short t /\ short u /\ featurize t = Ok f /\ featurize u = Ok f.
Proof. exists (lit "a"), (lit "a" ++ [0]), 97. repeat split; try (cbn; unfold short; cbn; lia); discriminate. Qed.
Lemma number_shared : exists t u f, t <> u /\ ordinary u /\ featurize t = Ok f /\ featurize u = Ok f.
Proof.
  exists (lit "#65"), (lit "A"), 65. split; [discriminate|]. split; [|split; reflexivity]. split; [discriminate|]. split; [repeat constructor; cbn; lia|].
  intros n (ds & E & _). discriminate.
Qed.
Lemma hash_undefined : exists t, ordinary t /\ featurize t = UB.
Proof.
  exists [130; 212; 201; 76; 200; 7; 211; 200]. split; [|vm_compute; reflexivity]. split; [discriminate|]. split; [repeat constructor; lia|].
  intros n (ds & E & _). discriminate.
Qed.
Lemma null_shared : featurize [] = Ok null_feature /\ featurize (lit "#0") = Ok null_feature.
Proof. split; reflexivity. Qed.
Lemma feat_ex : ordinary (lit "#dog") /\ short (lit "#dog") /\ ordinary (lit "elephants") /\ ~ short (lit "elephants") /\
  (exists f, featurize (lit "#dog") = Ok f /\ feature_name f = lit "#dog") /\
  (exists f, featurize (lit "elephants") = Ok f /\ featurize (feature_name f) = Ok f).
Proof.
  assert (O1 : ordinary (lit "#dog")).
  { split; [discriminate|]. split; [repeat constructor; cbn; lia|]. intros n (ds & E & _ & F & _). injection E as <-. apply Forall_inv in F. cbn in F. lia. }
  assert (O2 : ordinary (lit "elephants")).
  { split; [discriminate|]. split; [repeat constructor; cbn; lia|]. intros n (ds & E & _). discriminate. }
  split; [exact O1|]. split; [unfold short; cbn; lia|]. split; [exact O2|]. split; [unfold short; cbn; lia|]. split.
  - eexists. split; [vm_compute; reflexivity|]. vm_compute. reflexivity.
  - eexists. split; [vm_compute; reflexivity|]. vm_compute. reflexivity.
Qed.

(** * Tags *)
Lemma tagged_ordinary tag key : Forall (fun c => 0 < c < 256) (tag ++ key) -> ordinary ((tag ++ lit ":") ++ key).
Proof.
  intros H. apply Forall_app in H. destruct H as [H1 H2]. split; [destruct tag; discriminate|]. split.
  - apply Forall_app. split; [apply Forall_app; split; [exact H1|]|exact H2]. repeat constructor; cbn; lia.
  - intros n (ds & E & _ & F & _). assert (I : In 58 (35 :: ds)) by (rewrite <- E; apply in_or_app; left; apply in_or_app; right; left; reflexivity).
    destruct I as [I|I]; [discriminate|]. pose proof (proj1 (Forall_forall _ _) F _ I). cbn in *. lia.
Qed.
Lemma colon_split (a b c d : bytes) : ~ In 58 a -> ~ In 58 c -> (a ++ lit ":") ++ b = (c ++ lit ":") ++ d -> a = c /\ b = d.
Proof.
  revert c. induction a as [|x a IH]; intros [|y c] Ha Hc E; cbn in E.
  - injection E as <-. auto.
  - injection E as <- _. destruct Hc. left. reflexivity.
  - injection E as -> _. destruct Ha. left. reflexivity.
  - injection E as <- E. destruct (IH c ltac:(intros K; apply Ha; right; exact K) ltac:(intros K; apply Hc; right; exact K) E) as [-> ->]. auto.
Qed.
Theorem tags_apart : forall tag key tag' key' f, Forall (fun c => 0 < c < 256) (tag ++ key) -> Forall (fun c => 0 < c < 256) (tag' ++ key') ->
  ~ In 58 tag -> ~ In 58 tag' -> (length tag + length key < 7)%nat -> (length tag' + length key' < 7)%nat ->
  tagging tag key = Ok f -> tagging tag' key' = Ok f -> tag = tag' /\ key = key'.
Proof.
  intros tag key tag' key' f B B' C C' L L' E E'. apply colon_split; [exact C|exact C'|].
  apply (short_unique _ _ f); [apply tagged_ordinary; exact B|apply tagged_ordinary; exact B'| | |exact E|exact E'];
    unfold short; rewrite !app_length; cbn [lit length]; change (length (lit ":")) with 1%nat; lia.
Qed.
Theorem tagged_name : forall tag key f, Forall (fun c => 0 < c < 256) (tag ++ key) -> (length tag + length key < 7)%nat ->
  tagging tag key = Ok f -> feature_name f = tag ++ lit ":" ++ key.
Proof.
  intros tag key f B L E. rewrite app_assoc. apply short_name; [apply tagged_ordinary; exact B| |exact E].
  unfold short. rewrite !app_length. change (length (lit ":")) with 1%nat. lia.
Qed.
Lemma tags_shared : exists tag key tag' key' f, tag <> tag' /\ tagging tag key = Ok f /\ tagging tag' key' = Ok f.
Proof. exists (lit "a"), (lit "b:c"), (lit "a:b"), (lit "c"). eexists. split; [discriminate|]. split; vm_compute; reflexivity. Qed.
Lemma tagged_not_back : exists tag key f, tagging tag key = Ok f /\ feature_name f <> key.
Proof. exists (lit "x"), (lit "dog"). eexists. split; [vm_compute; reflexivity|]. vm_compute. discriminate. Qed.
Lemma tag_ex : exists f g, tagging (lit "df") (lit "dog") = Ok f /\ tagging (lit "tf") (lit "dog") = Ok g /\ f <> g /\ feature_name f = lit "df:dog".
Proof. eexists _, _. split; [vm_compute; reflexivity|]. split; [vm_compute; reflexivity|]. split; [discriminate|vm_compute; reflexivity]. Qed.
