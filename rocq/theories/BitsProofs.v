(** Proofs about bit packing (bits.h) and the tf/df codec. *)
From Verif Require Import Base Bytes CodecModel CodecSpec CodecProofs.

(** * Bits of bytes *)
Definition cur_bits (k : nat) (c : Z) : list bool := map (fun i => Z.testbit c (Z.of_nat i)) (seq 0 k).
Definition byte_bits (c : Z) : list bool := cur_bits 8 c.
Definition unbits (b : bytes) : list bool := flat_map byte_bits b.
Definition bval (l : list bool) : Z := fold_right (fun b v => Z.b2z b + 2 * v) 0 l.

Lemma cur_bits_length k c : length (cur_bits k c) = k.
Proof. unfold cur_bits. rewrite map_length, seq_length. reflexivity. Qed.
Lemma cur_bits_S k c : cur_bits (S k) c = Z.testbit c 0 :: cur_bits k (Z.shiftr c 1).
Proof.
  unfold cur_bits. cbn [seq map]. f_equal. rewrite <- seq_shift, map_map. apply map_ext. intros i.
  rewrite Z.shiftr_spec by lia. f_equal. lia.
Qed.
Lemma unbits_length b : length (unbits b) = (8 * length b)%nat.
Proof.
  induction b as [|c b IH]; [reflexivity|]. unfold unbits in *. cbn [flat_map length].
  rewrite app_length, IH. unfold byte_bits. rewrite cur_bits_length. lia.
Qed.
Lemma unbits_app a b : unbits (a ++ b) = unbits a ++ unbits b.
Proof. apply flat_map_app. Qed.
Lemma bval_bound l : 0 <= bval l < 2 ^ len l.
Proof.
  induction l as [|b l IH]; [cbn; change (2 ^ len []) with 1; lia|].
  rewrite len_cons. rewrite Z.pow_add_r by (pose proof (len_nonneg l); lia). change (2 ^ 1) with 2.
  cbn [bval fold_right]. fold (bval l). destruct b; cbn [Z.b2z]; lia.
Qed.
Lemma bval_app a b : bval (a ++ b) = bval a + 2 ^ len a * bval b.
Proof.
  induction a as [|x a IH]; [cbn [app]; change (2 ^ len []) with 1; cbn; lia|].
  cbn [app]. rewrite len_cons. rewrite Z.pow_add_r by (pose proof (len_nonneg a); lia). change (2 ^ 1) with 2.
  cbn [bval fold_right]. fold (bval (a ++ b)). fold (bval a). rewrite IH. lia.
Qed.
Lemma byte_bits_bval l : length l = 8%nat -> byte_bits (bval l) = l.
Proof.
  intros H. do 8 (destruct l as [|? l]; [discriminate H|]). destruct l; [|discriminate H].
  repeat match goal with b : bool |- _ => destruct b end; vm_compute; reflexivity.
Qed.
Lemma bval_byte_bits c : is_byte c -> bval (byte_bits c) = c.
Proof.
  intros Hc. apply Z.eqb_eq. revert c Hc.
  apply (all_below 256 (fun c => bval (byte_bits c) =? c)). vm_compute. reflexivity.
Qed.

(** * BitsIn *)
Definition in_rep (b : bits_in) (bs : list bool) : Prop :=
  exists part, bs = unbits (bi_out b) ++ part /\ (length part < 8)%nat /\ bi_cur b = bval part /\
    bi_mask b = 2 ^ len part /\ bi_count b = len bs /\ Forall is_byte (bi_out b).

Lemma bi_new_rep : in_rep bi_new [].
Proof. exists []. cbn. repeat split; auto; lia. Qed.

Lemma bi_push_rep b bs bit : in_rep b bs -> in_rep (bi_push b bit) (bs ++ [negb (bit =? 0)]).
Proof.
  intros (part & Ebs & Hlen & Hcur & Hmask & Hcount & Hout).
  set (x := negb (bit =? 0)).
  assert (Ec : (if bit =? 0 then bi_cur b else Z.lor (bi_cur b) (bi_mask b)) = bval (part ++ [x])).
  { rewrite bval_app. subst x. destruct (bit =? 0); cbn [negb].
    - change (bval [false]) with 0. lia.
    - change (bval [true]) with 1. rewrite Hcur, Hmask.
      pose proof (lor_high (bval part) 1 (len part) (len_nonneg part) (bval_bound part) ltac:(lia)) as H.
      rewrite Z.shiftl_1_l in H. rewrite H. lia. }
  unfold bi_push. rewrite Ec.
  assert (Hmod : bi_count b + 1 = 8 * len (bi_out b) + (len part + 1)).
  { rewrite Hcount, Ebs, len_app. unfold len at 1. rewrite unbits_length. unfold len. lia. }
  assert (Hlp : len part < 8) by (unfold len; lia). pose proof (len_nonneg part) as Hlp0.
  destruct (Z.eqb_spec ((bi_count b + 1) mod 8) 0) as [H0|H0].
  - assert (Hl7 : len part = 7).
    { rewrite Hmod, Z.add_comm, Z.mul_comm, Z.mod_add in H0 by lia.
      destruct (Z.eq_dec (len part) 7); [assumption|]. rewrite Z.mod_small in H0 by lia. lia. }
    assert (L8 : length (part ++ [x]) = 8%nat) by (rewrite app_length; unfold len in Hl7; cbn; lia).
    exists []. cbn [bi_out bi_cur bi_mask bi_count]. rewrite app_nil_r, unbits_app.
    split; [|split; [cbn; lia|split; [reflexivity|split; [reflexivity|split]]]].
    + rewrite Ebs, <- app_assoc. f_equal. unfold unbits. cbn [flat_map]. rewrite app_nil_r.
      symmetry. apply byte_bits_bval. exact L8.
    + rewrite len_app, Hcount. reflexivity.
    + apply Forall_app. split; [exact Hout|]. constructor; [|constructor].
      unfold is_byte. pose proof (bval_bound (part ++ [x])) as H. unfold len in H. rewrite L8 in H. exact H.
  - assert (Hl7 : len part + 1 < 8).
    { destruct (Z.eq_dec (len part) 7) as [E|]; [|lia].
      exfalso. apply H0. rewrite Hmod, E. replace (8 * len (bi_out b) + (7 + 1)) with ((len (bi_out b) + 1) * 8) by lia.
      apply Z.mod_mul. lia. }
    exists (part ++ [x]). cbn [bi_out bi_cur bi_mask bi_count].
    split; [rewrite Ebs, <- app_assoc; reflexivity|].
    split; [rewrite app_length; cbn; unfold len in Hl7; lia|].
    split; [reflexivity|]. split; [|split; [rewrite len_app, Hcount; reflexivity|exact Hout]].
    rewrite len_app. change (len [x]) with 1. rewrite Hmask, Z.shiftl_mul_pow2 by lia. change (2 ^ 1) with 2.
    rewrite Z.pow_add_r by lia. change (2 ^ 1) with 2. apply Z.mod_small. split; [lia|].
    assert (2 ^ len part <= 2 ^ 6) by (apply Z.pow_le_mono_r; lia). change (2 ^ 6) with 64 in H. lia.
Qed.

Lemma push_all_rep bs : forall b pre, in_rep b pre -> in_rep (push_all bs b) (pre ++ bs).
Proof.
  induction bs as [|x bs IH]; intros b pre H; [rewrite app_nil_r; exact H|].
  cbn [push_all fold_left]. replace (pre ++ x :: bs) with ((pre ++ [x]) ++ bs) by (rewrite <- app_assoc; reflexivity).
  apply IH. pose proof (bi_push_rep b pre (Z.b2z x) H) as H1. destruct x; exact H1.
Qed.
Lemma bi_bits_rep b bs : in_rep b bs ->
  exists pad, unbits (bi_bits b) = bs ++ pad /\ Forall is_byte (bi_bits b) /\ len (bi_bits b) = len bs / 8 + 1.
Proof.
  intros (part & Ebs & Hlen & Hcur & Hmask & Hcount & Hout).
  assert (Hb : is_byte (bi_cur b)).
  { rewrite Hcur. unfold is_byte. pose proof (bval_bound part) as H.
    assert (2 ^ len part <= 2 ^ 8) by (apply Z.pow_le_mono_r; unfold len; lia). change (2 ^ 8) with 256 in *. lia. }
  exists (repeat false (8 - length part)). unfold bi_bits. rewrite unbits_app. split; [|split].
  - rewrite Ebs, <- app_assoc. f_equal. unfold unbits. cbn [flat_map]. rewrite app_nil_r, Hcur.
    replace (bval part) with (bval (part ++ repeat false (8 - length part))).
    + apply byte_bits_bval. rewrite app_length, repeat_length. lia.
    + rewrite bval_app. replace (bval (repeat false (8 - length part))) with 0; [lia|].
      generalize (8 - length part)%nat. induction n as [|n IH]; [reflexivity|].
      cbn [repeat bval fold_right]. fold (bval (repeat false n)). rewrite <- IH. reflexivity.
  - apply Forall_app. split; [exact Hout|]. repeat constructor; apply Hb.
  - rewrite len_app. change (len [bi_cur b]) with 1. f_equal. rewrite Ebs, len_app. unfold len at 2.
    rewrite unbits_length. apply Z.div_unique with (len part); unfold len; lia.
Qed.

(** * BitsOut *)
Definition out_rep (b : bits_out) (l : list bool) : Prop :=
  0 <= bo_front b /\ bo_count b - bo_front b = len l /\
  (l <> [] -> exists tail, cur_bits (8 - Z.to_nat (bo_front b mod 8)) (bo_cur b) ++ unbits (bo_next b) = l ++ tail).

Lemma bo_empty_rep b l : out_rep b l -> bo_empty b = match l with [] => true | _ => false end.
Proof.
  intros (H0 & H1 & _). unfold bo_empty. destruct l as [|x l].
  - unfold len in H1; cbn in H1. lia.
  - rewrite len_cons in H1. pose proof (len_nonneg l). lia.
Qed.
Lemma land_1 c : Z.land c 1 = Z.b2z (Z.testbit c 0).
Proof.
  change 1 with (Z.ones 1). rewrite Z.land_ones by lia. change (2 ^ 1) with 2. rewrite Z.bit0_odd.
  rewrite Zmod_odd. destruct (Z.odd c); reflexivity.
Qed.
Lemma out_room f : exists k, (8 - Z.to_nat (f mod 8))%nat = S k.
Proof. pose proof (Z.mod_pos_bound f 8 ltac:(lia)). exists (7 - Z.to_nat (f mod 8))%nat. lia. Qed.
Lemma bo_bit_rep b x l : out_rep b (x :: l) -> bo_bit b = Z.b2z x.
Proof.
  intros (H0 & H1 & H2). destruct H2 as (tail & E); [discriminate|].
  destruct (out_room (bo_front b)) as (k & Ek). rewrite Ek, cur_bits_S in E. cbn [app] in E.
  injection E as E _. unfold bo_bit. rewrite land_1, E. reflexivity.
Qed.
Lemma bo_pop_rep b x l : out_rep b (x :: l) -> exists b', bo_pop b = Ok b' /\ out_rep b' l.
Proof.
  intros (H0 & H1 & H2). destruct H2 as (tail & E); [discriminate|]. rewrite len_cons in H1.
  unfold bo_pop. destruct (Z.leb_spec (bo_count b) (bo_front b + 1)) as [Hc|Hc].
  - eexists. split; [reflexivity|]. pose proof (len_nonneg l).
    assert (l = []) as -> by (destruct l; [reflexivity|]; rewrite len_cons in *; pose proof (len_nonneg l); lia).
    unfold out_rep. cbn. split; [lia|]. split; [unfold len in *; cbn in *; lia|]. intros HH; contradiction.
  - pose proof (Z.mod_pos_bound (bo_front b) 8 ltac:(lia)) as Hm.
    pose proof (Z.div_mod (bo_front b) 8 ltac:(lia)) as Hdm.
    destruct (Z.eqb_spec ((bo_front b + 1) mod 8) 0) as [H8|H8].
    + assert (Hf : bo_front b mod 8 = 7).
      { destruct (Z.eq_dec (bo_front b mod 8) 7); [assumption|]. exfalso.
        rewrite Hdm in H8. replace (8 * (bo_front b / 8) + bo_front b mod 8 + 1)
          with (bo_front b mod 8 + 1 + (bo_front b / 8) * 8) in H8 by lia.
        rewrite Z.mod_add, Z.mod_small in H8 by lia. lia. }
      rewrite Hf in E. change (8 - Z.to_nat 7)%nat with 1%nat in E. rewrite cur_bits_S in E. cbn [cur_bits seq map app] in E.
      injection E as _ E. destruct (bo_next b) as [|c r].
      * exfalso. cbn in E. destruct l; [unfold len in H1; cbn in H1; lia|discriminate E].
      * eexists. split; [reflexivity|]. unfold out_rep. cbn [bo_front bo_count bo_next bo_cur].
        split; [lia|]. split; [lia|]. intros _. exists tail. rewrite H8. exact E.
    + assert (Hf : bo_front b mod 8 < 7).
      { destruct (Z.eq_dec (bo_front b mod 8) 7) as [E7|]; [|lia]. exfalso. apply H8.
        rewrite Hdm, E7. replace (8 * (bo_front b / 8) + 7 + 1) with ((bo_front b / 8 + 1) * 8) by lia. apply Z.mod_mul. lia. }
      eexists. split; [reflexivity|]. unfold out_rep. cbn [bo_front bo_count bo_next bo_cur].
      split; [lia|]. split; [lia|]. intros _. exists tail.
      assert (Hf1 : (bo_front b + 1) mod 8 = bo_front b mod 8 + 1).
      { rewrite Hdm at 1. replace (8 * (bo_front b / 8) + bo_front b mod 8 + 1)
          with (bo_front b mod 8 + 1 + (bo_front b / 8) * 8) by lia. rewrite Z.mod_add, Z.mod_small by lia. reflexivity. }
      rewrite Hf1. replace (8 - Z.to_nat (bo_front b mod 8))%nat with (S (8 - Z.to_nat (bo_front b mod 8 + 1))) in E by lia.
      rewrite cur_bits_S in E. cbn [app] in E. injection E as _ E. exact E.
Qed.
Lemma bo_new_rep buf l pad : unbits buf = l ++ pad -> exists b, bo_new buf (len l) = Ok b /\ out_rep b l.
Proof.
  intros E. unfold bo_new. destruct (Z.ltb_spec 0 (len l)) as [Hl|Hl].
  - destruct buf as [|c r]; [destruct l; [unfold len in Hl; cbn in Hl; lia|discriminate E]|].
    eexists. split; [reflexivity|]. unfold out_rep. cbn [bo_front bo_count bo_next bo_cur].
    split; [lia|]. split; [lia|]. intros _. exists pad. exact E.
  - eexists. split; [reflexivity|]. pose proof (len_nonneg l).
    assert (l = []) as -> by (destruct l as [|? l]; [reflexivity|]; rewrite len_cons in *; pose proof (len_nonneg l); lia).
    unfold out_rep. cbn. split; [lia|]. split; [reflexivity|]. intros HH; contradiction.
Qed.

Lemma read_bits_ok l : forall n b, out_rep b l -> (length l <= n)%nat -> read_bits n b = Ok (map Z.b2z l).
Proof.
  induction l as [|x l IH]; intros n b H Hn.
  - destruct n; cbn [read_bits]; rewrite (bo_empty_rep b [] H); reflexivity.
  - cbn [length] in Hn. destruct n as [|n]; [lia|]. cbn [read_bits]. rewrite (bo_empty_rep b _ H).
    rewrite (bo_bit_rep b x l H). destruct (bo_pop_rep b x l H) as (b' & E & H'). rewrite E. cbn [bind].
    rewrite (IH n b' H') by lia. reflexivity.
Qed.

(** * The code of one number *)
Fixpoint addr_code (j : nat) (a : Z) : list bool :=
  match j with O => [true] | S m => false :: Z.testbit a 0 :: addr_code m (Z.shiftr a 1) end.
Lemma push_addr_rep j : forall a b bs, in_rep b bs -> in_rep (push_addr j a b) (bs ++ addr_code j a).
Proof.
  induction j as [|j IH]; intros a b bs H; cbn [push_addr addr_code].
  - exact (bi_push_rep b bs 1 H).
  - replace (bs ++ false :: Z.testbit a 0 :: addr_code j (Z.shiftr a 1))
      with (((bs ++ [false]) ++ [Z.testbit a 0]) ++ addr_code j (Z.shiftr a 1)) by (rewrite <- !app_assoc; reflexivity).
    apply IH. pose proof (bi_push_rep b bs 0 H) as H1.
    pose proof (bi_push_rep _ _ (Z.land a 1) H1) as H2. rewrite land_1 in H2 |- *.
    destruct (Z.testbit a 0); exact H2.
Qed.
Lemma addr_code_length j : forall a, length (addr_code j a) = (2 * j + 1)%nat.
Proof. induction j as [|j IH]; intros a; cbn [addr_code length]; [reflexivity|]. rewrite IH. lia. Qed.
Lemma addr_code_end j : forall a, exists x, addr_code j a = x ++ [true].
Proof.
  induction j as [|j IH]; intros a; [exists []; reflexivity|]. destruct (IH (Z.shiftr a 1)) as (x & E).
  exists (false :: Z.testbit a 0 :: x). cbn [addr_code]. rewrite E. reflexivity.
Qed.
Lemma high_bit_ok n : forall a i j, 0 <= i -> 0 < a < 2 ^ (i + Z.of_nat n) ->
  (i <= Z.log2 a \/ j = Z.log2 a) -> high_bit n a i j = Z.log2 a.
Proof.
  induction n as [|n IH]; intros a i j Hi Ha Hj; cbn [high_bit].
  - destruct Hj as [Hj|Hj]; [|exact Hj]. exfalso. rewrite Z.add_0_r in Ha.
    destruct Ha as [Ha1 Ha2]. apply Z.log2_lt_pow2 in Ha2; lia.
  - apply IH; [lia| |].
    + replace (i + 1 + Z.of_nat n) with (i + Z.of_nat (S n)) by lia. exact Ha.
    + destruct (Z.testbit a i) eqn:E.
      * destruct (Z_le_gt_dec i (Z.log2 a)) as [H|H]; [destruct (Z.eq_dec i (Z.log2 a)); [right; assumption|left; lia]|].
        rewrite Z.bits_above_log2 in E by lia. discriminate.
      * destruct Hj as [Hj|Hj]; [|right; exact Hj]. left.
        destruct (Z.eq_dec i (Z.log2 a)) as [->|]; [|lia]. rewrite Z.bit_log2 in E by lia. discriminate.
Qed.
Definition code (a : Z) : list bool := addr_code (Z.to_nat (Z.log2 a)) a.
Definition tfdf_range (a : Z) : Prop := 1 <= a <= TFDF_BIG.
Lemma log2_range a : tfdf_range a -> 0 <= Z.log2 a <= 30.
Proof.
  intros [H1 H2]. split; [apply Z.log2_nonneg|]. unfold TFDF_BIG in H2.
  assert (Z.log2 a < 31); [|lia]. apply Z.log2_lt_pow2; [lia|]. change (2 ^ 31) with 2147483648. lia.
Qed.
Lemma crush_addr_ok a b bs : tfdf_range a -> in_rep b bs ->
  exists b', crush_addr a b = Some b' /\ in_rep b' (bs ++ code a).
Proof.
  intros Ha H. unfold crush_addr. destruct Ha as [H1 H2].
  destruct ((a <=? 0) || (TFDF_BIG <? a)) eqn:E; [lia|]. eexists. split; [reflexivity|].
  unfold code. rewrite (high_bit_ok 31 a 0 0); [apply push_addr_rep; exact H|lia| |].
  - unfold TFDF_BIG in H2. change (2 ^ (0 + Z.of_nat 31)) with 2147483648. lia.
  - left. apply Z.log2_nonneg.
Qed.
Lemma crush_addr_none a b : ~ tfdf_range a -> crush_addr a b = None.
Proof.
  unfold tfdf_range, crush_addr. intros H. destruct ((a <=? 0) || (TFDF_BIG <? a)) eqn:E; [reflexivity|lia].
Qed.
Lemma crush_addrs_ok l : forall b bs, Forall tfdf_range l -> in_rep b bs ->
  exists b', crush_addrs l b = Some b' /\ in_rep b' (bs ++ flat_map code l).
Proof.
  induction l as [|a l IH]; intros b bs Hl H; cbn [crush_addrs flat_map].
  - exists b. rewrite app_nil_r. auto.
  - inversion Hl as [|? ? Ha Hl']; subst. destruct (crush_addr_ok a b bs Ha H) as (b1 & E1 & H1). rewrite E1.
    destruct (IH b1 _ Hl' H1) as (b2 & E2 & H2). exists b2. rewrite app_assoc. auto.
Qed.
Lemma crush_addrs_none l : forall b, ~ Forall tfdf_range l -> crush_addrs l b = None.
Proof.
  induction l as [|a l IH]; intros b H; [exfalso; apply H; constructor|]. cbn [crush_addrs].
  destruct (crush_addr a b) as [b'|] eqn:E; [|reflexivity]. apply IH. intros Hl. apply H. constructor; [|exact Hl].
  unfold crush_addr in E. destruct ((a <=? 0) || (TFDF_BIG <? a)) eqn:Eb; [discriminate|]. unfold tfdf_range. lia.
Qed.

Lemma tang_addr_ok j : forall n b a acc s tail,
  out_rep b (addr_code j a ++ tail) -> 2 ^ Z.of_nat j <= a < 2 ^ (Z.of_nat j + 1) ->
  0 <= s -> s + Z.of_nat j <= 61 -> 0 <= acc < 2 ^ s -> (j < n)%nat ->
  exists b', tang_addr n b acc (2 ^ s) = Ok (acc + a * 2 ^ s, b') /\ out_rep b' tail.
Proof.
  induction j as [|j IH]; intros n b a acc s tail H Ha Hs Hsj Hacc Hn; destruct n as [|n]; try lia; cbn [tang_addr addr_code app] in *.
  - rewrite (bo_bit_rep _ _ _ H). change (Z.b2z true =? 0) with false. cbn [Z.eqb].
    destruct (bo_pop_rep _ _ _ H) as (b' & E & H'). rewrite E. cbn [bind]. exists b'. split; [|exact H'].
    change (2 ^ Z.of_nat 0) with 1 in Ha. change (2 ^ (Z.of_nat 0 + 1)) with 2 in Ha. assert (a = 1) as -> by lia.
    rewrite <- (Z.shiftl_1_l s), lor_high by lia. rewrite Z.shiftl_1_l. reflexivity.
  - rewrite (bo_bit_rep _ _ _ H). change (Z.b2z false =? 0) with true. cbn iota.
    destruct (bo_pop_rep _ _ _ H) as (b1 & E1 & H1). rewrite E1. cbn [bind].
    rewrite (bo_bit_rep _ _ _ H1).
    assert (Hp : 0 < 2 ^ s) by (apply Z.pow_pos_nonneg; lia).
    assert (Hps : 2 ^ (s + 1) = 2 * 2 ^ s) by (rewrite Z.pow_add_r by lia; change (2 ^ 1) with 2; lia).
    assert (Emask : chk (Z.shiftl (2 ^ s) 1) = Ok (2 ^ (s + 1))).
    { rewrite Z.shiftl_mul_pow2 by lia. change (2 ^ 1) with 2.
      assert (2 ^ (s + 1) <= 2 ^ 62) by (apply Z.pow_le_mono_r; lia). change (2 ^ 62) with 4611686018427387904 in H0.
      unfold chk, minf, maxf. destruct (Z.leb_spec (-9223372036854775808) (2 ^ s * 2)); [|lia].
      destruct (Z.leb_spec (2 ^ s * 2) 9223372036854775807); [|lia]. cbn. f_equal. lia. }
    rewrite Emask. cbn [bind].
    destruct (bo_pop_rep _ _ _ H1) as (b2 & E2 & H2). rewrite E2. cbn [bind].
    assert (Ea : a = Z.b2z (Z.testbit a 0) + 2 * Z.shiftr a 1).
    { rewrite Z.shiftr_div_pow2 by lia. change (2 ^ 1) with 2. rewrite Z.bit0_mod.
      pose proof (Z.div_mod a 2 ltac:(lia)). lia. }
    assert (Hacc' : (if Z.b2z (Z.testbit a 0) =? 1 then Z.lor acc (2 ^ s) else acc) = acc + Z.b2z (Z.testbit a 0) * 2 ^ s).
    { destruct (Z.testbit a 0); cbn [Z.b2z].
      - change (1 =? 1) with true. cbn iota. rewrite <- (Z.shiftl_1_l s), lor_high by lia. rewrite Z.shiftl_1_l. reflexivity.
      - change (0 =? 1) with false. cbn iota. lia. }
    rewrite Hacc'.
    assert (Hj1 : 2 ^ Z.of_nat (S j) = 2 * 2 ^ Z.of_nat j) by (rewrite Nat2Z.inj_succ, Z.pow_succ_r by lia; reflexivity).
    assert (Hj2 : 2 ^ (Z.of_nat (S j) + 1) = 2 * 2 ^ (Z.of_nat j + 1)).
    { replace (Z.of_nat (S j) + 1) with (1 + (Z.of_nat j + 1)) by lia. rewrite (Z.pow_add_r 2 1) by lia. reflexivity. }
    assert (Hb : 0 <= Z.b2z (Z.testbit a 0) <= 1) by (destruct (Z.testbit a 0); cbn; lia).
    destruct (IH n b2 (Z.shiftr a 1) (acc + Z.b2z (Z.testbit a 0) * 2 ^ s) (s + 1) tail H2) as (b' & E & H').
    + lia.
    + lia.
    + lia.
    + split; [nia|]. rewrite Hps. nia.
    + lia.
    + exists b'. split; [|exact H']. rewrite E. f_equal. f_equal. rewrite Hps. rewrite Ea at 3. ring.
Qed.

Lemma tang_addrs_ok l : forall n b, Forall tfdf_range l -> out_rep b (flat_map code l) ->
  (length (flat_map code l) <= n)%nat -> tang_addrs n b = Ok l.
Proof.
  induction l as [|a l IH]; intros n b Hl H Hn.
  - destruct n; cbn [tang_addrs]; rewrite (bo_empty_rep b [] H); reflexivity.
  - inversion Hl as [|? ? Ha Hl']; subst. cbn [flat_map] in *. unfold code at 1 in Hn. rewrite app_length, addr_code_length in Hn.
    destruct n as [|n]; [lia|]. cbn [tang_addrs]. rewrite (bo_empty_rep b _ H).
    destruct (addr_code_end (Z.to_nat (Z.log2 a)) a) as (x & Ex). unfold code at 1. rewrite Ex.
    replace (match (x ++ [true]) ++ flat_map code l with [] => true | _ :: _ => false end) with false by (destruct x; reflexivity).
    pose proof (log2_range a Ha) as Hlog. pose proof (Z.log2_spec a ltac:(destruct Ha; lia)) as Hsp.
    destruct (tang_addr_ok (Z.to_nat (Z.log2 a)) (S (S n)) b a 0 0 (flat_map code l) H) as (b' & E & H').
    + rewrite Z2Nat.id by lia. unfold Z.succ in Hsp. exact Hsp.
    + lia.
    + lia.
    + change (2 ^ 0) with 1. lia.
    + lia.
    + change (2 ^ 0) with 1 in E. rewrite E. cbn [bind]. rewrite (IH n b' Hl' H') by lia. cbn [bind].
      f_equal. f_equal. lia.
Qed.

(** * Padding and the last byte *)
Lemma bi_pad_rep b bs : in_rep b bs ->
  exists k, in_rep (bi_pad 7 b) (bs ++ repeat false k) /\ (k < 8)%nat /\ bi_count (bi_pad 7 b) mod 8 = 0.
Proof.
  assert (G : forall n b bs, in_rep b bs -> (len bs mod 8 = 0 \/ 8 - len bs mod 8 <= Z.of_nat n) ->
    exists k, in_rep (bi_pad n b) (bs ++ repeat false k) /\ (k <= n)%nat /\ bi_count (bi_pad n b) mod 8 = 0).
  { clear b bs. induction n as [|n IH]; intros b bs H Hm; pose proof (Z.mod_pos_bound (len bs) 8 ltac:(lia)) as Hb;
      assert (Hc : bi_count b = len bs) by (destruct H as (part & _ & _ & _ & _ & Hc & _); exact Hc); cbn [bi_pad].
    - exists 0%nat. cbn [repeat]. rewrite app_nil_r. split; [exact H|]. split; [lia|]. rewrite Hc. lia.
    - destruct (Z.eqb_spec (bi_count b mod 8) 0) as [H0|H0].
      + exists 0%nat. cbn [repeat]. rewrite app_nil_r. split; [exact H|]. split; [lia|exact H0].
      + rewrite Hc in H0. destruct Hm as [Hm|Hm]; [contradiction|].
        destruct (IH (bi_push b 0) (bs ++ [false])) as (k & Hk & Hkn & Hk8).
        * exact (bi_push_rep b bs 0 H).
        * rewrite len_app. change (len [false]) with 1. pose proof (Z.div_mod (len bs) 8 ltac:(lia)) as Hdm.
          destruct (Z.eq_dec (len bs mod 8) 7) as [E|].
          -- left. rewrite Hdm, E. replace (8 * (len bs / 8) + 7 + 1) with ((len bs / 8 + 1) * 8) by lia. apply Z.mod_mul. lia.
          -- right. replace (len bs + 1) with (len bs mod 8 + 1 + (len bs / 8) * 8) by lia.
             rewrite Z.mod_add, Z.mod_small by lia. lia.
        * exists (S k). cbn [repeat]. rewrite <- app_assoc in Hk. cbn [app] in Hk. split; [exact Hk|]. split; [lia|exact Hk8]. }
  intros H. pose proof (Z.mod_pos_bound (len bs) 8 ltac:(lia)).
  destruct (G 7%nat b bs H) as (k & H1 & H2 & H3); [lia|]. exists k. split; [exact H1|]. split; [lia|exact H3].
Qed.

Lemma last_count_shift n : forall c mask a x, last_count n c mask (a + x) = let* r := last_count n c mask a in Ok (r + x).
Proof.
  induction n as [|n IH]; intros c mask a x; [reflexivity|]. cbn [last_count].
  destruct (Z.land c mask =? 0); [|reflexivity]. replace (a + x - 1) with (a - 1 + x) by lia. apply IH.
Qed.
Lemma last_count_log c count : is_byte c -> c <> 0 -> last_count 8 c 128 count = Ok (count - (7 - Z.log2 c)).
Proof.
  intros Hc H0. replace count with (0 + count) at 1 by lia. rewrite last_count_shift.
  assert (E : last_count 8 c 128 0 = Ok (Z.log2 c - 7)).
  { assert (G : (c =? 0) || match last_count 8 c 128 0 with Ok r => r =? Z.log2 c - 7 | _ => false end = true).
    { revert c Hc H0. intros c Hc _. revert c Hc.
      apply (all_below 256 (fun c => (c =? 0) || match last_count 8 c 128 0 with Ok r => r =? Z.log2 c - 7 | _ => false end)).
      vm_compute. reflexivity. }
    destruct (Z.eqb_spec c 0); [contradiction|]. cbn [orb] in G. destruct (last_count 8 c 128 0); try discriminate.
    f_equal. lia. }
  rewrite E. cbn. f_equal. lia.
Qed.
Lemma last_byte out x k : unbits out = x ++ true :: repeat false k -> (k < 8)%nat -> Forall is_byte out ->
  exists out' c, out = out' ++ [c] /\ is_byte c /\ c <> 0 /\ 8 * len out - (7 - Z.log2 c) = len (x ++ [true]).
Proof.
  intros E Hk Hb. destruct (@exists_last _ out) as (out' & c & Eo).
  { intros ->. destruct x; discriminate E. }
  exists out', c. split; [exact Eo|]. subst out. apply Forall_app in Hb. destruct Hb as [_ Hc].
  assert (Hc' : is_byte c) by (inversion Hc; assumption). clear Hc.
  rewrite unbits_app in E. unfold unbits at 2 in E. cbn [flat_map] in E. rewrite app_nil_r in E.
  assert (HL : (8 * length out' + 8 = length x + 1 + k)%nat).
  { pose proof (f_equal (@length bool) E) as HL. rewrite !app_length, unbits_length in HL. cbn [length] in HL.
    rewrite repeat_length in HL. unfold byte_bits in HL. rewrite cur_bits_length in HL. lia. }
  assert (Ec : byte_bits c = skipn (8 * length out') x ++ true :: repeat false k).
  { pose proof (f_equal (skipn (8 * length out')) E) as ES. rewrite !skipn_app in ES.
    rewrite unbits_length, Nat.sub_diag in ES. rewrite skipn_all2 in ES by (rewrite unbits_length; lia).
    cbn [skipn app] in ES. replace (8 * length out' - length x)%nat with 0%nat in ES by lia. exact ES. }
  set (y := skipn (8 * length out') x) in *.
  assert (Hz : bval (true :: repeat false k) = 1).
  { cbn [bval fold_right]. fold (bval (repeat false k)). replace (bval (repeat false k)) with 0; [reflexivity|].
    clear. induction k as [|k IH]; [reflexivity|]. cbn [repeat bval fold_right]. fold (bval (repeat false k)). rewrite <- IH. reflexivity. }
  assert (Ev : c = bval y + 2 ^ len y).
  { rewrite <- (bval_byte_bits c Hc') at 1. rewrite Ec, bval_app, Hz. lia. }
  pose proof (bval_bound y) as Hy. split; [exact Hc'|]. split; [lia|].
  assert (Hlog : Z.log2 c = len y).
  { apply Z.log2_unique; [apply len_nonneg|]. unfold Z.succ. rewrite Z.pow_add_r by (pose proof (len_nonneg y); lia). change (2 ^ 1) with 2. lia. }
  rewrite Hlog. rewrite !len_app. unfold len. cbn [length].
  assert (length y = (length x - 8 * length out')%nat) by (unfold y; apply skipn_length). lia.
Qed.

(** * The codec *)
Lemma code_len l : Forall tfdf_range l -> (length (flat_map code l) <= 61 * length l)%nat.
Proof.
  induction 1 as [|a l Ha Hl IH]; [cbn; lia|]. cbn [flat_map length]. rewrite app_length. unfold code at 1.
  rewrite addr_code_length. pose proof (log2_range a Ha). lia.
Qed.
Lemma flat_code_end l : l <> [] -> exists x, flat_map code l = x ++ [true].
Proof.
  intros H. destruct (exists_last H) as (l' & a & ->). rewrite flat_map_app. cbn [flat_map]. rewrite app_nil_r.
  destruct (addr_code_end (Z.to_nat (Z.log2 a)) a) as (x & Ex). exists (flat_map code l' ++ x). unfold code at 2.
  rewrite Ex, app_assoc. reflexivity.
Qed.

(** What tfdf_crush produces for a non-empty list in range. *)
Lemma coded l : Forall tfdf_range l -> l <> [] ->
  exists b out x k, crush_addrs l bi_new = Some b /\ out = take_bytes (bi_count (bi_pad 7 b) / 8) (bi_bits (bi_pad 7 b)) /\
    bi_count (bi_pad 7 b) / 8 = len out /\ unbits out = x ++ true :: repeat false k /\ (k < 8)%nat /\
    flat_map code l = x ++ [true] /\ Forall is_byte out /\ 1 <= len out <= 8 * len l.
Proof.
  intros Hl Hne. destruct (crush_addrs_ok l bi_new [] Hl bi_new_rep) as (b & Eb & Hb). cbn [app] in Hb.
  destruct (bi_pad_rep b _ Hb) as (k & Hk & Hk8 & Hmod). destruct (flat_code_end l Hne) as (x & Ex).
  set (p := bi_pad 7 b) in *. destruct Hk as (part & Ebs & Hlen & Hcur & Hmask & Hcount & Hout).
  assert (Ec : bi_count p = 8 * len (bi_out p) + len part).
  { rewrite Hcount, Ebs, len_app. unfold len at 1. rewrite unbits_length. unfold len. lia. }
  assert (Hp0 : part = []).
  { rewrite Ec, Z.add_comm, Z.mul_comm, Z.mod_add, Z.mod_small in Hmod by (unfold len; lia).
    destruct part; [reflexivity|rewrite len_cons in Hmod; pose proof (len_nonneg part); lia]. }
  subst part. change (len []) with 0 in Ec. rewrite app_nil_r in Ebs.
  assert (Ed : bi_count p / 8 = len (bi_out p)) by (rewrite Ec, Z.add_0_r, Z.mul_comm; apply Z.div_mul; lia).
  exists b, (bi_out p), x, k. fold p. split; [exact Eb|].
  split.
  { rewrite Ed. unfold take_bytes, bi_bits. unfold len. rewrite Nat2Z.id, firstn_app, Nat.sub_diag, firstn_all. cbn. rewrite app_nil_r. reflexivity. }
  split; [exact Ed|]. split; [rewrite <- Ebs, Ex, <- app_assoc; reflexivity|]. split; [exact Hk8|]. split; [exact Ex|].
  split; [exact Hout|].
  pose proof (f_equal (@length bool) Ebs) as HL. rewrite app_length, repeat_length, unbits_length in HL.
  pose proof (code_len l Hl) as HC. unfold len. destruct l; [contradiction|]. cbn [length] in *.
  pose proof (f_equal (@length bool) Ex) as HX. rewrite app_length in HX. cbn [length] in HX. lia.
Qed.

Lemma decoded l out x k component : Forall tfdf_range l -> l <> [] -> unbits out = x ++ true :: repeat false k -> (k < 8)%nat ->
  flat_map code l = x ++ [true] -> Forall is_byte out -> 
  (component = false -> len out mod 8 <> 0 -> tfdf_tang false out = Ok (word_bytes l)) /\
  (component = false -> len out mod 8 = 0 -> tfdf_tang false (out ++ [0]) = Ok (word_bytes l)) /\
  (component = true -> tfdf_tang true out = Ok (word_bytes l)).
Proof.
  intros Hl Hne E Hk Ex Hb. destruct (last_byte out x k E Hk Hb) as (out' & c & Eo & Hc & Hc0 & Hcount).
  assert (Elast : idx out (len out - 1) = Ok c).
  { unfold idx. rewrite Eo at 1. rewrite len_app. change (len [c]) with 1.
    destruct (Z.ltb_spec (len out' + 1 - 1) 0) as [H|_]; [pose proof (len_nonneg out'); lia|].
    rewrite Eo. rewrite len_app. change (len [c]) with 1. rewrite nth_error_app2 by (unfold len; lia).
    replace (Z.to_nat (len out' + 1 - 1) - length out')%nat with 0%nat by (unfold len; lia). reflexivity. }
  assert (Core : (let* c := idx out (len out - 1) in if c =? 0 then UB else
     let* count := last_count 8 c 128 (8 * len out) in let* b := bo_new out count in
     let* l := tang_addrs (Z.to_nat count) b in Ok (word_bytes l)) = Ok (word_bytes l)).
  { rewrite Elast. cbn [bind]. destruct (Z.eqb_spec c 0) as [|_]; [contradiction|].
    rewrite (last_count_log c _ Hc Hc0). cbn [bind]. rewrite Hcount.
    destruct (bo_new_rep out (x ++ [true]) (repeat false k)) as (b & Eb & Rb); [rewrite E, <- app_assoc; reflexivity|].
    rewrite Eb. cbn [bind]. rewrite (tang_addrs_ok l); [reflexivity|exact Hl|rewrite Ex; exact Rb|].
    rewrite Ex. unfold len. lia. }
  split; [|split]; intros Hcomp; [intros Hm|intros Hm|].
  - unfold tfdf_tang. cbn [negb andb]. destruct (Z.eqb_spec (len out mod 8) 0) as [|_]; [contradiction|].
    rewrite Elast at 1. cbn [bind]. destruct (Z.eqb_spec c 0) as [|_]; [contradiction|]. exact Core.
  - unfold tfdf_tang. cbn [negb andb]. rewrite len_app. change (len [0]) with 1.
    replace ((len out + 1) mod 8 =? 0) with false.
    2:{ symmetry. apply Z.eqb_neq. pose proof (Z.div_mod (len out) 8 ltac:(lia)).
        replace (len out + 1) with (1 + (len out / 8) * 8) by lia. rewrite Z.mod_add by lia. change (1 mod 8) with 1. lia. }
    assert (E0 : idx (out ++ [0]) (len out + 1 - 1) = Ok 0).
    { unfold idx. destruct (Z.ltb_spec (len out + 1 - 1) 0) as [H|_]; [pose proof (len_nonneg out); lia|].
      rewrite nth_error_app2 by (unfold len; lia). replace (Z.to_nat (len out + 1 - 1) - length out)%nat with 0%nat by (unfold len; lia). reflexivity. }
    rewrite E0. cbn [bind]. change (0 =? 0) with true. cbn iota. rewrite removelast_last. exact Core.
  - unfold tfdf_tang. cbn [negb andb]. rewrite Elast at 1. cbn [bind]. exact Core.
Qed.

Lemma len_word_mod l : len (word_bytes l) mod 8 = 0.
Proof. rewrite len_word_bytes, Z.mul_comm. apply Z.mod_mul. lia. Qed.
Lemma word_bytes_nil l : word_bytes l = [] -> l = [].
Proof. destruct l; [reflexivity|discriminate]. Qed.
Lemma tfdf_range_dec l : Forall tfdf_range l \/ ~ Forall tfdf_range l.
Proof.
  destruct (Forall_dec (fun a => 1 <= a <= TFDF_BIG)) with (l := l) as [H|H]; [|left; exact H|right; exact H].
  intros a. destruct (Z_le_dec 1 a); destruct (Z_le_dec a TFDF_BIG); [left|right|right|right]; lia.
Qed.
Lemma crush_unfold c b available : len b + extra c (len b) <= available -> b <> [] ->
  crush c b available = crush_ c b available.
Proof.
  intros H Hb. unfold crush. destruct (Z.ltb_spec available (len b + extra c (len b))); [lia|].
  destruct b; [contradiction|reflexivity].
Qed.
(** The value codec loses nothing, whatever the values. *)
Lemma tfdf_lossless l : Forall is_addr l -> lossless (tfdf_compressor false) (word_bytes l).
Proof.
  intros HA available Hav. pose proof (len_word_mod l) as Hm8. pose proof (len_word_bytes l) as Lw. pose proof (len_nonneg l) as Ln.
  change (extra (tfdf_compressor false) (len (word_bytes l))) with (len (word_bytes l) + 1) in *.
  destruct (list_eq_dec Z.eq_dec l []) as [->|Hne].
  - exists []. unfold crush. cbn. cbn in Hav. change (len []) with 0 in *. 
    destruct (Z.ltb_spec available (0 + (0 + 1))); [lia|]. repeat split; auto; lia.
  - assert (Hwne : word_bytes l <> []) by (intros E; apply Hne; apply word_bytes_nil; exact E).
    rewrite crush_unfold by (exact Hav || exact Hwne). cbn [crush_ tfdf_compressor]. unfold tfdf_crush.
    rewrite Hm8. change (negb (0 =? 0)) with false. cbn iota. rewrite words_bytes by exact HA.
    destruct (tfdf_range_dec l) as [Hr|Hr].
    + destruct (coded l Hr Hne) as (b & out & x & k & Eb & Eo & Ed & Eu & Hk & Ex & Hob & Hol).
      destruct (decoded l out x k false Hr Hne Eu Hk Ex Hob) as (D1 & D2 & _).
      rewrite Eb. rewrite <- Eo, Ed. cbn [negb andb].
      destruct (Z.eqb_spec (len out mod 8) 0) as [H0|H0].
      * exists (out ++ [0]). split; [reflexivity|]. rewrite len_app. change (len [0]) with 1. split; [lia|].
        split; [apply Forall_app; split; [exact Hob|repeat constructor; unfold is_byte; lia]|].
        split; [intros _; destruct out; discriminate|]. intros room _. unfold tang.
        destruct (out ++ [0]) eqn:Eq; [destruct out; discriminate Eq|]. cbn [tang_ tfdf_compressor]. apply D2; auto.
      * exists out. split; [reflexivity|]. split; [lia|]. split; [exact Hob|].
        split; [intros _ ->; change (len []) with 0 in Hol; lia|]. intros room _. unfold tang.
        destruct out as [|c out]; [change (len []) with 0 in Hol; lia|]. cbn [tang_ tfdf_compressor]. apply D1; auto.
    + rewrite crush_addrs_none by exact Hr. exists (word_bytes l). split; [reflexivity|]. split; [lia|].
      split; [apply word_bytes_byte|]. split; [auto|]. intros room _. unfold tang.
      destruct (word_bytes l) as [|w ws] eqn:Ew; [reflexivity|]. rewrite <- Ew in *. cbn [tang_ tfdf_compressor].
      unfold tfdf_tang. rewrite Hm8. reflexivity.
Qed.
(** As a component it reports (by writing nothing) that it cannot take a list. *)
Lemma tfdf_component_lossless l : Forall (fun a => 1 <= a <= 1073741824) l -> lossless (tfdf_compressor true) (word_bytes l).
Proof.
  intros Hr available Hav. pose proof (len_word_mod l) as Hm8. pose proof (len_word_bytes l) as Lw. pose proof (len_nonneg l) as Ln.
  assert (HA : Forall is_addr l).
  { revert Hr. apply Forall_impl. intros a H. unfold is_addr, minf, maxf. lia. }
  change (extra (tfdf_compressor true) (len (word_bytes l))) with (len (word_bytes l) + 1) in *.
  destruct (list_eq_dec Z.eq_dec l []) as [->|Hne].
  - exists []. unfold crush. cbn. cbn in Hav. change (len []) with 0 in *. 
    destruct (Z.ltb_spec available (0 + (0 + 1))); [lia|]. repeat split; auto; lia.
  - assert (Hwne : word_bytes l <> []) by (intros E; apply Hne; apply word_bytes_nil; exact E).
    rewrite crush_unfold by (exact Hav || exact Hwne). cbn [crush_ tfdf_compressor]. unfold tfdf_crush.
    rewrite Hm8. change (negb (0 =? 0)) with false. cbn iota. rewrite words_bytes by exact HA.
    destruct (coded l Hr Hne) as (b & out & x & k & Eb & Eo & Ed & Eu & Hk & Ex & Hob & Hol).
    destruct (decoded l out x k true Hr Hne Eu Hk Ex Hob) as (_ & _ & D3).
    rewrite Eb. rewrite <- Eo, Ed. cbn [negb andb]. exists out. split; [reflexivity|]. split; [lia|]. split; [exact Hob|].
    split; [intros _ ->; change (len []) with 0 in Hol; lia|]. intros room _. unfold tang.
    destruct out as [|c out]; [change (len []) with 0 in Hol; lia|]. cbn [tang_ tfdf_compressor]. apply D3; auto.
Qed.
Lemma tfdf_component_refuses l available : Forall is_addr l -> l <> [] -> 2 * len (word_bytes l) + 1 <= available ->
  crush (tfdf_compressor true) (word_bytes l) available = Ok [] <-> ~ Forall (fun a => 1 <= a <= 1073741824) l.
Proof.
  intros HA Hne Hav. pose proof (len_word_mod l) as Hm8.
  assert (Hwne : word_bytes l <> []) by (intros E; apply Hne; apply word_bytes_nil; exact E).
  split.
  - intros E Hr. destruct (tfdf_component_lossless l Hr available) as (z & Ez & _ & _ & Hz & _).
    + change (extra (tfdf_compressor true) (len (word_bytes l))) with (len (word_bytes l) + 1). lia.
    + rewrite Ez in E. injection E as ->. exact (Hz Hwne eq_refl).
  - intros Hr. rewrite crush_unfold; [|change (extra (tfdf_compressor true) (len (word_bytes l))) with (len (word_bytes l) + 1); lia|exact Hwne].
    cbn [crush_ tfdf_compressor]. unfold tfdf_crush. rewrite Hm8. change (negb (0 =? 0)) with false. cbn iota.
    rewrite words_bytes by exact HA. rewrite crush_addrs_none by exact Hr. reflexivity.
Qed.

(** * Null and bad *)
Lemma take_all b n : len b <= n -> take_bytes n b = b.
Proof. intros H. unfold take_bytes. apply firstn_all2. unfold len in H. lia. Qed.
Lemma null_lossless b : Forall is_byte b -> lossless null_compressor b.
Proof.
  intros Hb available Hav. change (extra null_compressor (len b)) with 0 in *.
  exists b. unfold crush. change (extra null_compressor (len b)) with 0.
  destruct (Z.ltb_spec available (len b + 0)); [lia|].
  assert (Ec : forall a, len b <= a -> match b with [] => Ok [] | _ => Ok (take_bytes (Z.min (len b) a) b) end = Ok b).
  { intros a Ha. destruct b as [|c r] eqn:E; [reflexivity|]. rewrite <- E in *. rewrite take_all by lia. reflexivity. }
  split; [apply Ec; lia|]. split; [lia|]. split; [exact Hb|]. split; [auto|]. intros room Hr. exact (Ec room Hr).
Qed.
Lemma bad_lossless b : Forall is_byte b -> lossless bad_compressor b.
Proof.
  intros Hb available Hav. change (extra bad_compressor (len b)) with (len b) in *.
  assert (Hl : len (flat_map (fun c => [c; c]) b) = 2 * len b).
  { clear. induction b as [|c b IH]; [reflexivity|]. cbn [flat_map app]. rewrite !len_cons, IH. lia. }
  assert (Hh : bad_halve (flat_map (fun c => [c; c]) b) = Ok b).
  { clear. induction b as [|c b IH]; [reflexivity|]. cbn [flat_map app bad_halve]. rewrite Z.eqb_refl, IH. reflexivity. }
  exists (flat_map (fun c => [c; c]) b). unfold crush. change (extra bad_compressor (len b)) with (len b).
  destruct (Z.ltb_spec available (len b + len b)); [lia|].
  split.
  { destruct b as [|c r] eqn:E; [reflexivity|]. rewrite <- E in *. cbn [crush_ bad_compressor].
    destruct (Z.ltb_spec available (2 * len b)); [lia|]. reflexivity. }
  split; [lia|]. split.
  { clear - Hb. induction Hb; cbn; auto. }
  split; [destruct b; [contradiction|discriminate]|]. intros room Hr. unfold tang.
  destruct (flat_map (fun c => [c; c]) b) as [|y ys] eqn:E.
  - destruct b; [reflexivity|discriminate E].
  - rewrite <- E in *. cbn [tang_ bad_compressor]. rewrite Hl. rewrite Z.mul_comm, Z.mod_mul, Z.div_mul by lia.
    change (0 =? 0) with true. cbn [andb]. destruct (Z.leb_spec (len b) room); [|lia]. exact Hh.
Qed.

Lemma bits_round_trip bs :
  exists b, bo_new (bi_bits (push_all bs bi_new)) (bi_count (push_all bs bi_new)) = Ok b /\
            read_bits (length bs) b = Ok (map Z.b2z bs).
Proof.
  pose proof (push_all_rep bs bi_new [] bi_new_rep) as H. cbn [app] in H.
  destruct (bi_bits_rep _ _ H) as (pad & E & _ & _).
  assert (Hc : bi_count (push_all bs bi_new) = len bs) by (destruct H as (part & _ & _ & _ & _ & Hc & _); exact Hc).
  rewrite Hc. destruct (bo_new_rep _ _ _ E) as (b & Eb & Rb). exists b. split; [exact Eb|].
  apply read_bits_ok; [exact Rb|lia].
Qed.
Lemma bits_buffer bs : len (bi_bits (push_all bs bi_new)) = len bs / 8 + 1.
Proof.
  pose proof (push_all_rep bs bi_new [] bi_new_rep) as H. cbn [app] in H.
  destruct (bi_bits_rep _ _ H) as (pad & _ & _ & E). exact E.
Qed.

(** Nothing else can be compressed by PostCompressor: the loop does not end. *)
Lemma encode_all_not_ascending n l : forall p, ~ ascending p l -> forall b, encode_all n p l <> Ok b.
Proof.
  induction l as [|a l IH]; intros p H b; [exfalso; apply H; exact I|]. cbn [encode_all].
  destruct (chk (a - p)) as [d| |] eqn:Ed; cbn [bind]; try discriminate.
  unfold chk in Ed. destruct (_ && _); [|discriminate]. injection Ed as <-.
  destruct (Z_lt_dec a p) as [Hlt|Hge]; [rewrite encode_1_negative by lia; discriminate|].
  destruct (encode_1 n (a - p)) as [x| |]; cbn [bind]; try discriminate.
  destruct (encode_all n a l) as [t| |] eqn:Et; cbn [bind]; try discriminate.
  exfalso. apply (IH a) with t; [|exact Et]. intros Ha. apply H. split; [lia|exact Ha].
Qed.
Lemma post_only_ascending n l available b : Forall is_addr l -> ~ ascending 0 l ->
  crush (post_compressor_with n) (word_bytes l) available <> Ok b.
Proof.
  intros HA Hn. unfold crush. destruct (available <? _); [discriminate|].
  destruct (word_bytes l) as [|w ws] eqn:E.
  - exfalso. apply Hn. rewrite (word_bytes_nil l E). exact I.
  - rewrite <- E. cbn [crush_ post_compressor_with]. rewrite words_bytes by exact HA. apply encode_all_not_ascending. exact Hn.
Qed.
