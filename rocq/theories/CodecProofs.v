(** Proofs about the compressors. *)
From Verif Require Import Base Bytes CodecModel CodecSpec.

Global Arguments Z.land : simpl never.
Global Arguments Z.lor : simpl never.
Global Arguments Z.shiftl : simpl never.
Global Arguments Z.shiftr : simpl never.
Global Arguments Z.testbit : simpl never.
Global Arguments Z.pow : simpl never.

(** * Words *)
Lemma le_val_le_bytes n : forall z, le_val (le_bytes n z) = z mod 2 ^ (8 * Z.of_nat n).
Proof.
  induction n as [|n IH]; intros z; cbn [le_val le_bytes].
  - symmetry. apply Z.mod_1_r.
  - rewrite IH. replace (8 * Z.of_nat (S n)) with (8 + 8 * Z.of_nat n) by lia.
    rewrite Z.pow_add_r by lia. change (2 ^ 8) with 256.
    rewrite Z.rem_mul_r; [reflexivity|lia|apply Z.pow_pos_nonneg; lia].
Qed.
Lemma addr_of_bytes z : is_addr z -> addr_of (addr_bytes z) = z.
Proof.
  unfold is_addr, addr_of, addr_bytes. intros Hz. rewrite le_val_le_bytes.
  change (2 ^ (8 * Z.of_nat 8)) with 18446744073709551616. unfold minf, maxf in *.
  destruct (Z.ltb_spec z 0).
  - rewrite <- (Z.mod_unique_pos z 18446744073709551616 (-1) (z + 18446744073709551616)) by lia.
    destruct (Z.ltb_spec 9223372036854775807 (z + 18446744073709551616)); lia.
  - rewrite Z.mod_small by lia. destruct (Z.ltb_spec 9223372036854775807 z); lia.
Qed.
Lemma words_cons z r : words (addr_bytes z ++ r) = addr_of (addr_bytes z) :: words r.
Proof. reflexivity. Qed.
Lemma words_app l : forall r, Forall is_addr l -> words (word_bytes l ++ r) = l ++ words r.
Proof.
  induction l as [|z l IH]; intros r H; [reflexivity|].
  inversion H as [|? ? Hz Hl]; subst. unfold word_bytes. cbn [flat_map]. rewrite <- app_assoc, words_cons.
  rewrite addr_of_bytes by exact Hz. fold (word_bytes l). rewrite IH by exact Hl. reflexivity.
Qed.
Lemma words_bytes l : Forall is_addr l -> words (word_bytes l) = l.
Proof.
  intros H. pose proof (words_app l [] H) as E. rewrite app_nil_r in E. rewrite E. cbn. apply app_nil_r.
Qed.
Lemma word_bytes_app a b : word_bytes (a ++ b) = word_bytes a ++ word_bytes b.
Proof. apply flat_map_app. Qed.
Lemma len_app {A} (a b : list A) : len (a ++ b) = len a + len b.
Proof. unfold len. rewrite app_length. lia. Qed.
Lemma len_nonneg {A} (a : list A) : 0 <= len a.
Proof. unfold len. lia. Qed.
Lemma len_cons {A} (x : A) l : len (x :: l) = 1 + len l.
Proof. unfold len. cbn [length]. lia. Qed.
Lemma len_addr_bytes z : len (addr_bytes z) = 8.
Proof. reflexivity. Qed.
Lemma len_word_bytes l : len (word_bytes l) = 8 * len l.
Proof.
  induction l as [|z l IH]; [reflexivity|]. unfold word_bytes in *. cbn [flat_map].
  rewrite len_app, IH, len_addr_bytes, len_cons. lia.
Qed.
Lemma le_bytes_byte n : forall z, Forall is_byte (le_bytes n z).
Proof.
  induction n; intros z; cbn; constructor; auto. unfold is_byte. apply Z.mod_pos_bound. lia.
Qed.
Lemma word_bytes_byte l : Forall is_byte (word_bytes l).
Proof.
  induction l as [|a l IH]; [constructor|]. change (word_bytes (a :: l)) with (addr_bytes a ++ word_bytes l).
  apply Forall_app. split; [apply le_bytes_byte|assumption].
Qed.
Lemma le_bytes_le_val b : Forall is_byte b -> le_bytes (length b) (le_val b) = b.
Proof.
  induction 1 as [|c r Hc Hr IH]; [reflexivity|]. cbn [length le_bytes le_val]. unfold is_byte in Hc.
  replace (c + 256 * le_val r) with (le_val r * 256 + c) by lia.
  rewrite Z.add_comm, Z.mod_add, Z.mod_small by lia. rewrite Z.div_add, Z.div_small by lia.
  rewrite Z.add_0_l, IH. reflexivity.
Qed.
Lemma le_bytes_shift n : forall z k, le_bytes n (z + k * 2 ^ (8 * Z.of_nat n)) = le_bytes n z.
Proof.
  induction n as [|n IH]; intros z k; [reflexivity|]. cbn [le_bytes].
  replace (8 * Z.of_nat (S n)) with (8 + 8 * Z.of_nat n) by lia.
  rewrite Z.pow_add_r by lia. change (2 ^ 8) with 256.
  replace (z + k * (256 * 2 ^ (8 * Z.of_nat n))) with (z + (k * 2 ^ (8 * Z.of_nat n)) * 256) by lia.
  rewrite Z.mod_add, Z.div_add, IH by lia. reflexivity.
Qed.
Lemma le_val_bound b : Forall is_byte b -> 0 <= le_val b < 2 ^ (8 * len b).
Proof.
  induction 1 as [|c r Hc Hr IH]; [cbn; change (2 ^ (8 * len [])) with 1; lia|]. cbn [le_val].
  rewrite len_cons. replace (8 * (1 + len r)) with (8 + 8 * len r) by lia. unfold is_byte in Hc.
  rewrite Z.pow_add_r by (pose proof (len_nonneg r); lia). change (2 ^ 8) with 256. lia.
Qed.
Lemma addr_bytes_of b : Forall is_byte b -> length b = 8%nat -> addr_bytes (addr_of b) = b.
Proof.
  intros Hb Hl. unfold addr_bytes, addr_of. rewrite <- Hl.
  destruct (maxf <? le_val b); [|apply le_bytes_le_val; exact Hb].
  replace (le_val b - 18446744073709551616) with (le_val b + (-1) * 2 ^ (8 * Z.of_nat (length b)))
    by (rewrite Hl; change (2 ^ (8 * Z.of_nat 8)) with 18446744073709551616; lia).
  rewrite le_bytes_shift. apply le_bytes_le_val; exact Hb.
Qed.
Lemma addr_of_is_addr b : Forall is_byte b -> length b = 8%nat -> is_addr (addr_of b).
Proof.
  intros Hb Hl. pose proof (le_val_bound b Hb) as H. unfold len in H. rewrite Hl in H.
  change (2 ^ (8 * Z.of_nat 8)) with 18446744073709551616 in H.
  unfold is_addr, addr_of, minf, maxf. destruct (Z.ltb_spec 9223372036854775807 (le_val b)); lia.
Qed.
Lemma bytes_words n : forall b, length b = (8 * n)%nat -> Forall is_byte b ->
  word_bytes (words b) = b /\ Forall is_addr (words b) /\ length (words b) = n.
Proof.
  induction n as [|n IH]; intros b Hl Hb.
  - destruct b; [|cbn in Hl; lia]. cbn. auto.
  - destruct b as [|a0 [|a1 [|a2 [|a3 [|a4 [|a5 [|a6 [|a7 r]]]]]]]]; cbn [length] in Hl; try lia.
    assert (H8 : Forall is_byte [a0; a1; a2; a3; a4; a5; a6; a7] /\ Forall is_byte r).
    { change (a0 :: a1 :: a2 :: a3 :: a4 :: a5 :: a6 :: a7 :: r)
        with ([a0; a1; a2; a3; a4; a5; a6; a7] ++ r) in Hb. apply Forall_app in Hb. exact Hb. }
    destruct H8 as [H8 Hr]. destruct (IH r) as (E & F & L); [lia|exact Hr|].
    cbn [words]. unfold word_bytes in *. cbn [flat_map]. rewrite E, addr_bytes_of by (exact H8 || reflexivity).
    split; [reflexivity|]. split; [|cbn; lia]. constructor; [|exact F]. apply addr_of_is_addr; [exact H8|reflexivity].
Qed.

(** * Small bit facts *)
Lemma lor_high w x s : 0 <= s -> 0 <= w < 2 ^ s -> 0 <= x -> Z.lor w (Z.shiftl x s) = w + x * 2 ^ s.
Proof.
  intros Hs Hw Hx. rewrite <- Z.shiftl_mul_pow2 by exact Hs. symmetry.
  assert (Z.land w (Z.shiftl x s) = 0) as H0.
  { apply Z.bits_inj'. intros n Hn. rewrite Z.land_spec, Z.bits_0, Z.shiftl_spec by exact Hn.
    destruct (Z.ltb_spec n s).
    - rewrite (Z.testbit_neg_r x) by lia. apply andb_false_r.
    - destruct (Z.eq_dec w 0) as [->|Hne]; [rewrite Z.bits_0; reflexivity|].
      rewrite (Z.bits_above_log2 w); [reflexivity|lia|].
      apply Z.log2_lt_pow2; [lia|]. apply Z.lt_le_trans with (2 ^ s); [lia|]. apply Z.pow_le_mono_r; lia. }
  rewrite Z.add_nocarry_lxor by exact H0. apply Z.lxor_lor. exact H0.
Qed.

(** Facts about the 256 byte values, by computation. *)
Lemma all_below (n : nat) (P : Z -> bool) :
  forallb P (map Z.of_nat (seq 0 n)) = true -> forall c, 0 <= c < Z.of_nat n -> P c = true.
Proof.
  intros H c Hc. rewrite forallb_forall in H. apply H. apply in_map_iff. exists (Z.to_nat c).
  split; [lia|]. apply in_seq. lia.
Qed.
Lemma seven_facts c : 0 <= c < 128 ->
  Z.lor c 128 = c + 128 /\ Z.land (Z.lor c 128) 127 = c /\ Z.land (Z.lor c 128) 128 <> 0 /\
  Z.land c 127 = c /\ Z.land c 128 = 0.
Proof.
  intros Hc.
  assert (H : (Z.lor c 128 =? c + 128) && (Z.land (Z.lor c 128) 127 =? c) && negb (Z.land (Z.lor c 128) 128 =? 0) &&
     (Z.land c 127 =? c) && (Z.land c 128 =? 0) = true).
  { revert c Hc. apply (all_below 128). vm_compute. reflexivity. }
  repeat (apply andb_prop in H; destruct H as [H ?]). repeat split; lia.
Qed.

(** * PostCompressor *)
Lemma low_high d : Z.land d 127 = d mod 128 /\ Z.shiftr d 7 = d / 128.
Proof.
  split.
  - change 127 with (Z.ones 7). rewrite Z.land_ones by lia. reflexivity.
  - rewrite Z.shiftr_div_pow2 by lia. reflexivity.
Qed.

Lemma encode_1_ok n : forall d, 0 <= d < 2 ^ (7 * Z.of_nat n) -> (0 < n)%nat ->
  exists b, encode_1 n d = Ok b /\ 1 <= len b <= Z.of_nat n /\ Forall is_byte b /\
  forall r w s, 0 <= s -> s + 7 * len b <= 70 -> 0 <= w < 2 ^ s -> d * 2 ^ s <= maxf ->
    decode_1 (b ++ r) w s = Ok (w + d * 2 ^ s, r).
Proof.
  induction n as [|n IH]; intros d Hd Hn; [lia|].
  cbn [encode_1]. destruct (low_high d) as [-> ->].
  pose proof (Z.mod_pos_bound d 128 ltac:(lia)) as Hm.
  pose proof (Z.div_mod d 128 ltac:(lia)) as Hdm.
  destruct (seven_facts (d mod 128) Hm) as (E1 & E2 & E3 & E4 & E5).
  assert (Hq : 0 <= d / 128) by (apply Z.div_pos; lia).
  destruct (Z.eqb_spec (d / 128) 0) as [H0|H0].
  - exists [d mod 128]. split; [reflexivity|]. split; [cbn; unfold len; cbn; lia|].
    split; [repeat constructor; unfold is_byte; lia|].
    intros r w s Hs Hs7 Hw Hmax. cbn [app decode_1]. unfold len in Hs7; cbn in Hs7.
    destruct (Z.ltb_spec 63 s) as [H63|_]; [lia|].
    rewrite E4. assert (Ed : d mod 128 = d) by lia. rewrite Ed in *.
    unfold chk. rewrite Z.shiftl_mul_pow2 by exact Hs.
    assert (0 <= d * 2 ^ s) by (apply Z.mul_nonneg_nonneg; lia).
    destruct (Z.leb_spec minf (d * 2 ^ s)) as [_|HH]; [|unfold minf in HH; lia].
    destruct (Z.leb_spec (d * 2 ^ s) maxf) as [_|HH]; [|lia]. cbn [bind andb].
    rewrite E5. cbn [Z.eqb]. change (0 =? 0) with true. cbn.
    rewrite <- Z.shiftl_mul_pow2 by exact Hs. rewrite lor_high by lia. rewrite Z.shiftl_mul_pow2 by exact Hs. reflexivity.
  - assert (Hn' : (0 < n)%nat).
    { destruct n; [|lia]. change (2 ^ (7 * Z.of_nat 1)) with 128 in Hd.
      rewrite Z.div_small in H0 by lia. lia. }
    destruct (IH (d / 128)) as (b & Eb & Lb & Bb & Db); auto.
    { split; [exact Hq|]. apply Z.div_lt_upper_bound; [lia|].
      replace (7 * Z.of_nat (S n)) with (7 + 7 * Z.of_nat n) in Hd by lia.
      rewrite Z.pow_add_r in Hd by lia. change (2 ^ 7) with 128 in Hd. lia. }
    rewrite Eb. cbn [bind]. exists (Z.lor (d mod 128) 128 :: b). split; [reflexivity|].
    rewrite len_cons. split; [lia|]. split; [constructor; [unfold is_byte; lia|exact Bb]|].
    intros r w s Hs Hs7 Hw Hmax. cbn [app decode_1].
    destruct (Z.ltb_spec 63 s) as [H63|_]; [lia|].
    rewrite E2. unfold chk. rewrite Z.shiftl_mul_pow2 by exact Hs.
    assert (Hp : 0 < 2 ^ s) by (apply Z.pow_pos_nonneg; lia).
    assert (0 <= d mod 128 * 2 ^ s) by (apply Z.mul_nonneg_nonneg; lia).
    assert (d mod 128 * 2 ^ s <= d * 2 ^ s) by (apply Z.mul_le_mono_nonneg_r; lia).
    destruct (Z.leb_spec minf (d mod 128 * 2 ^ s)) as [_|HH]; [|unfold minf in HH; lia].
    destruct (Z.leb_spec (d mod 128 * 2 ^ s) maxf) as [_|HH]; [|lia]. cbn [bind andb].
    destruct (Z.eqb_spec (Z.land (Z.lor (d mod 128) 128) 128) 0) as [HH|_]; [contradiction|].
    rewrite <- Z.shiftl_mul_pow2 by exact Hs. rewrite lor_high by lia.
    assert (Hp7 : 2 ^ (s + 7) = 128 * 2 ^ s) by (rewrite Z.pow_add_r by lia; change (2 ^ 7) with 128; lia).
    rewrite Db.
    + f_equal. f_equal. rewrite Hp7. rewrite Hdm at 3. ring.
    + lia.
    + lia.
    + rewrite Hp7. split; [lia|]. nia.
    + rewrite Hp7. apply Z.le_trans with (d * 2 ^ s); [|exact Hmax]. rewrite Hdm at 2. nia.
Qed.

Lemma encode_all_ok l : forall p, 0 <= p -> ascending p l -> Forall (fun a => a <= maxf) l ->
  exists b, encode_all 9 p l = Ok b /\ len l <= len b <= 9 * len l /\ Forall is_byte b /\
  forall n, (length l <= n)%nat -> decode_all n b p = Ok l.
Proof.
  induction l as [|a l IH]; intros p Hp Ha Hm.
  - exists []. cbn. repeat split; try (unfold len; cbn; lia); auto. intros [|n] _; reflexivity.
  - destruct Ha as [Hpa Ha]. inversion Hm as [|? ? Hma Hml]; subst.
    cbn [encode_all].
    assert (Ec : chk (a - p) = Ok (a - p)).
    { unfold chk. destruct (Z.leb_spec minf (a - p)) as [_|H]; [|unfold minf in H; lia].
      destruct (Z.leb_spec (a - p) maxf) as [_|H]; [|lia]. reflexivity. }
    rewrite Ec. cbn [bind].
    destruct (encode_1_ok 9 (a - p)) as (b & Eb & Lb & Bb & Db).
    { change (2 ^ (7 * Z.of_nat 9)) with 9223372036854775808. unfold maxf in *. lia. } { lia. }
    rewrite Eb. cbn [bind].
    destruct (IH a) as (t & Et & Lt & Bt & Dt); [lia|exact Ha|exact Hml|].
    rewrite Et. cbn [bind]. exists (b ++ t). split; [reflexivity|].
    rewrite len_app, len_cons. split; [lia|]. split; [apply Forall_app; auto|].
    intros n Hn. cbn [length] in Hn. destruct n as [|n]; [lia|].
    assert (Hne : exists x y, b ++ t = x :: y).
    { destruct b as [|x y]; [unfold len in Lb; cbn in Lb; lia|]. exists x, (y ++ t). reflexivity. }
    destruct Hne as (x & y & Exy). rewrite Exy. cbn [decode_all]. rewrite <- Exy.
    rewrite Db; [|lia|lia|change (2 ^ 0) with 1; lia|change (2 ^ 0) with 1; lia].
    cbn [bind]. replace (p + (0 + (a - p) * 2 ^ 0)) with a by (change (2 ^ 0) with 1; lia).
    unfold chk. destruct (Z.leb_spec minf a) as [_|H]; [|unfold minf in H; lia].
    destruct (Z.leb_spec a maxf) as [_|H]; [|lia]. cbn [bind andb].
    rewrite Dt by lia. reflexivity.
Qed.

Lemma ascending_ge l : forall p, ascending p l -> Forall (fun a => p <= a) l.
Proof.
  induction l as [|a l IH]; intros p H; [constructor|]. destruct H as [H1 H2]. constructor; [exact H1|].
  specialize (IH a H2). revert IH. apply Forall_impl. intros; lia.
Qed.

Lemma post_lossless l : ascending 0 l -> Forall (fun a => a <= maxf) l -> lossless post_compressor (word_bytes l).
Proof.
  intros Ha Hm available Hav.
  assert (HA : Forall is_addr l).
  { pose proof (ascending_ge l 0 Ha) as Hg. apply Forall_forall. intros x Hx.
    rewrite Forall_forall in Hm, Hg. specialize (Hm x Hx). specialize (Hg x Hx). cbn in *. unfold is_addr, minf. lia. }
  destruct (encode_all_ok l 0 ltac:(lia) Ha Hm) as (b & Eb & Lb & Bb & Db).
  pose proof (len_word_bytes l) as Lw. pose proof (len_nonneg l) as Ln.
  unfold crush. destruct (Z.ltb_spec available (len (word_bytes l) + extra post_compressor (len (word_bytes l)))) as [H|_]; [lia|].
  destruct l as [|a l].
  - exists []. cbn. repeat split; auto; try (unfold len; cbn; lia). 
  - exists b. destruct (word_bytes (a :: l)) as [|w ws] eqn:Ew; [rewrite len_cons in Lw; pose proof (len_nonneg l); unfold len at 1 in Lw; cbn in Lw; lia|].
    cbn [crush_ post_compressor post_compressor_with].
    rewrite <- Ew in *. rewrite words_bytes by exact HA. split; [exact Eb|].
    assert (Hext : extra post_compressor (len (word_bytes (a :: l))) = len (a :: l) + 2).
    { change (len (word_bytes (a :: l)) / 8 + 2 = len (a :: l) + 2). rewrite Lw. rewrite Z.mul_comm, Z.div_mul by lia. reflexivity. }
    rewrite Hext, Lw. split; [lia|]. split; [exact Bb|]. rewrite len_cons in Lb. pose proof (len_nonneg l).
    split; [intros _ ->; unfold len at 2 in Lb; cbn in Lb; lia|].
    intros room Hroom. unfold tang. destruct b as [|x b]; [unfold len at 2 in Lb; cbn in Lb; lia|].
    cbn [tang_ post_compressor post_compressor_with]. rewrite Db; [reflexivity|].
    assert (len (a :: l) <= room / 8) by (apply Z.div_le_lower_bound; lia).
    unfold len in H0. lia.
Qed.

(** A list that goes down never finishes: no number of rounds is enough. *)
Lemma encode_1_negative n : forall d, d < 0 -> encode_1 n d = NoFuel.
Proof.
  induction n as [|n IH]; intros d Hd; [reflexivity|]. cbn [encode_1]. destruct (low_high d) as [_ ->].
  assert (d / 128 < 0) by (apply Z.div_lt_upper_bound; lia).
  destruct (Z.eqb_spec (d / 128) 0) as [E|_]; [lia|]. rewrite IH by exact H. reflexivity.
Qed.
