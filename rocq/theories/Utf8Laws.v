(** The UTF-8 tokenizer has the laws the text store relies on. *)
From Verif Require Import Base Bytes CodecModel TokenModel TokenSpec TextModel TextSpec TextBack FileSpec Utf8Table Utf8Model Utf8Spec Utf8Proofs.

(** * Bytes *)
Lemma byte_check (P : Z -> bool) : forallb P (map Z.of_nat (seq 0 256)) = true -> forall c, is_byte c -> P c = true.
Proof.
  intros H c [Hc1 Hc2]. apply (proj1 (forallb_forall P _) H). apply in_map_iff. exists (Z.to_nat c). split; [lia|]. apply in_seq. lia.
Qed.
Definition class_ok (c : Z) : bool :=
  Nat.eqb (unit_length c)
    (if Z.land c 128 =? 0 then 1 else if Z.land c 224 =? 192 then 2 else if Z.land c 240 =? 224 then 3 else if Z.land c 248 =? 240 then 4 else 1).
Lemma class_all c : is_byte c -> class_ok c = true.
Proof. apply byte_check. vm_compute. reflexivity. Qed.
(** A whole unit is taken, whatever follows. *)
Lemma unicode_unit b r : is_byte b -> length r = (unit_length b - 1)%nat ->
  exists cp, forall t, unicode (b :: r ++ t) = (cp, S (length r)).
Proof.
  intros Hb Hr. pose proof (class_all b Hb) as C. unfold class_ok in C. apply Nat.eqb_eq in C. rewrite C in Hr. clear C. unfold unicode.
  destruct (Z.land b 128 =? 0); [destruct r; [|discriminate]; eexists; reflexivity|].
  destruct (Z.land b 224 =? 192); [destruct r as [|x [|y r]]; try discriminate; eexists; reflexivity|].
  destruct (Z.land b 240 =? 224); [destruct r as [|x [|y [|z r]]]; try discriminate; eexists; reflexivity|].
  destruct (Z.land b 248 =? 240); [destruct r as [|x [|y [|z [|w r]]]]; try discriminate; eexists; reflexivity|].
  destruct r; [|discriminate]. eexists. reflexivity.
Qed.
Definition other_ok (c : Z) : bool :=
  if (c <? 128) && negb ((48 <=? c) && (c <=? 57)) && negb ((65 <=? c) && (c <=? 90)) && negb ((97 <=? c) && (c <=? 122)) then
    (Z.land c 128 =? 0) && (match actions c with Nontoken => true | _ => false end)
  else true.
Lemma other_all c : is_byte c -> other_ok c = true.
Proof. apply byte_check. vm_compute. reflexivity. Qed.
Lemma other_nontoken x : ascii_other x -> actions x = Nontoken /\ forall t, unicode (x :: t) = (x, 1%nat).
Proof.
  intros (H1 & H2 & H3 & H4). pose proof (other_all x ltac:(unfold is_byte; lia)) as C. unfold other_ok in C.
  replace ((x <? 128) && negb ((48 <=? x) && (x <=? 57)) && negb ((65 <=? x) && (x <=? 90)) && negb ((97 <=? x) && (x <=? 122))) with true in C by lia.
  apply andb_prop in C. destruct C as [C1 C2]. split; [destruct (actions x); congruence|]. intros t. unfold unicode. rewrite C1. reflexivity.
Qed.
Lemma newline_other : ascii_other 10. Proof. unfold ascii_other. lia. Qed.

(** * Complete texts *)
Lemma firstn_unit {A} (b : A) r t : firstn (S (length r)) (b :: r ++ t) = b :: r.
Proof. cbn [firstn]. rewrite firstn_app, firstn_all, Nat.sub_diag. cbn. rewrite app_nil_r. reflexivity. Qed.
Lemma ulex_unit b r t off st cp : unicode (b :: r ++ t) = (cp, S (length r)) ->
  ulex (b :: r ++ t) 0 off st =
  (let g := ulex t 0 (off + 1 + len r) in
   match st, actions cp with
   | None, Nontoken => g None
   | None, InToken => g (Some (b :: r, off))
   | None, Unigram => Word off (Z.of_nat (S (length r))) (b :: r) :: g None
   | None, Fold p => g (Some (folded p, off))
   | Some (x, o), Nontoken => Word o (off - o) x :: g None
   | Some (x, o), InToken => g (Some (x ++ b :: r, o))
   | Some (x, o), Unigram => Word o (off - o) x :: Word off (Z.of_nat (S (length r))) (b :: r) :: g None
   | Some (x, o), Fold p => g (Some (x ++ folded p, o))
   end).
Proof.
  intros U. cbn [ulex]. rewrite U. cbn [fst snd]. rewrite firstn_unit. replace (S (length r) - 1)%nat with (length r) by lia.
  destruct (actions cp), st as [[x o]|]; cbv zeta; rewrite ?ulex_skip; reflexivity.
Qed.
Lemma ulex_joined u : complete u -> Forall is_byte u -> forall x v off st, ascii_other x ->
  ulex (u ++ x :: v) 0 off st = ulex (u ++ [x]) 0 off st ++ ulex v 0 (off + len u + 1) None.
Proof.
  induction 1 as [|b r t Hr Ht IH]; intros Hb x v off st Hx.
  - destruct (other_nontoken x Hx) as [A U]. pose proof (ulex_unit x [] v off st x (U _)) as E1. pose proof (ulex_unit x [] [] off st x (U _)) as E2. cbn [app] in *. rewrite E1, E2, A.
    replace (off + len (@nil Z) + 1) with (off + 1 + len (@nil Z)) by lia. destruct st as [[y o]|]; reflexivity.
  - assert (Hb1 : is_byte b) by (inversion Hb; assumption). assert (Hb2 : Forall is_byte t) by (inversion Hb as [|? ? ? K]; apply Forall_app in K; apply K).
    destruct (unicode_unit b r Hb1 Hr) as (cp & U). rewrite <- !app_comm_cons, <- !app_assoc, !(ulex_unit b r _ off st cp (U _)).
    cbv zeta. replace (off + len (b :: r ++ t) + 1) with (off + 1 + len r + len t + 1) by (unfold len; cbn [length]; rewrite app_length; lia).
    destruct (actions cp), st as [[y o]|]; rewrite (IH Hb2 x v _ _ Hx); reflexivity.
Qed.
Lemma ulex_ended u : complete u -> Forall is_byte u -> forall x off st, ascii_other x -> ulex (u ++ [x]) 0 off st = ulex u 0 off st.
Proof.
  induction 1 as [|b r t Hr Ht IH]; intros Hb x off st Hx.
  - destruct (other_nontoken x Hx) as [A U]. pose proof (ulex_unit x [] [] off st x (U _)) as E2. cbn [app] in *. rewrite E2, A. destruct st as [[y o]|]; reflexivity.
  - assert (Hb1 : is_byte b) by (inversion Hb; assumption). assert (Hb2 : Forall is_byte t) by (inversion Hb as [|? ? ? K]; apply Forall_app in K; apply K).
    destruct (unicode_unit b r Hb1 Hr) as (cp & U). rewrite <- !app_comm_cons, <- !app_assoc, !(ulex_unit b r _ off st cp (U _)).
    cbv zeta. destruct (actions cp), st as [[y o]|]; rewrite (IH Hb2 x _ _ Hx); reflexivity.
Qed.

(** * The laws *)
Definition utf8_starts (s : bytes) : list Z := map w_offset (ulex s 0 0 None).
Lemma starts_at s d : map w_offset (ulex s 0 d None) = map (fun o => o + d) (utf8_starts s).
Proof.
  pose proof (ulex_shift d s 0 0 None) as E. rewrite Z.add_0_l in E. cbn [option_map] in E. rewrite E. unfold utf8_starts. rewrite !map_map. reflexivity.
Qed.
Theorem utf8_laws : forall featurize, tokenizer_laws (utokenize featurize) uskip utf8_ends utf8_starts.
Proof.
  intros featurize. split.
  - intros s. apply laid_ascending. pose proof (ulex_layout s 0 0 None ltac:(lia) ltac:(discriminate)) as L. exact L.
  - intros s. apply (reported_at featurize). apply utokenize_lex.
  - intros s n Hn. unfold uskip, utf8_starts. rewrite (uskip_lex s 0 0 n None) by congruence.
    destruct (nth_error (ulex s 0 0 None) (Z.to_nat n)) as [w|] eqn:E.
    + symmetry. apply nth_error_nth. rewrite nth_error_map, E. reflexivity.
    + rewrite nth_overflow; [lia|]. rewrite map_length. apply nth_error_None. exact E.
  - intros s i o H. unfold utf8_starts in H. rewrite nth_error_map in H. destruct (nth_error (ulex s 0 0 None) i) as [w|] eqn:E; [|discriminate].
    injection H as <-. pose proof (ulex_from s 0 0 None i w ltac:(lia) E ltac:(congruence)) as F. rewrite Z.sub_0_r in F.
    unfold utf8_starts at 2. rewrite skipn_map, <- F, starts_at, map_map. rewrite <- (map_id (utf8_starts _)) at 1. apply map_ext. intros z. lia.
  - intros s x (u & y & E & Hb & Hu & Hy). apply app_inj_tail in E. destruct E as [<- <-]. unfold utf8_starts. rewrite ulex_ended by assumption. reflexivity.
  - intros a (u & x & -> & Hb & Hu & Hx) b. rewrite <- app_assoc. cbn [app]. unfold utf8_starts at 1. rewrite ulex_joined by assumption. rewrite map_app. f_equal.
    rewrite starts_at. apply map_ext. intros o. unfold len. rewrite app_length. cbn [length]. lia.
  - intros s. destruct (other_nontoken 10 newline_other) as [A U]. unfold utf8_starts at 1. pose proof (ulex_unit 10 [] s 0 None 10 (U _)) as E2. cbn [app] in *. rewrite E2, A. cbv zeta. rewrite starts_at.
    apply map_ext. intros o. unfold len. cbn. lia.
Qed.
Theorem utf8_cut : cut_law utf8_starts.
Proof.
  intros s i o H. unfold utf8_starts in *. rewrite nth_error_map in H. destruct (nth_error (ulex s 0 0 None) i) as [w|] eqn:E; [|discriminate].
  injection H as <-. pose proof (ulex_cut s 0 0 None i w ltac:(lia) E ltac:(congruence)) as F. rewrite Z.sub_0_r in F. rewrite F, firstn_map. reflexivity.
Qed.
Theorem utf8_agree : forall featurize s, exists ws,
  laid_out 0 ws (Z.of_nat (length s)) /\
  (exists rest, map w_term ws = usplit s ++ rest /\ (~ In 0 s -> rest = [])) /\
  reported featurize 0 ws (utokenize featurize s) /\
  (forall n, uskip s n = match nth_error ws (Z.to_nat n) with Some w => w_offset w | None => Z.of_nat (length s) end).
Proof.
  intros featurize s. exists (ulex s 0 0 None). split; [|split; [|split]].
  - exact (ulex_layout s 0 0 None ltac:(lia) ltac:(discriminate)).
  - exact (usplit_lex s 0 0 None).
  - apply utokenize_lex.
  - intros n. unfold uskip. rewrite (uskip_lex s 0 0 n None) by congruence. destruct (nth_error _ _); [reflexivity|]. unfold len. lia.
Qed.
(** Encoded codepoints are complete. *)
Lemma encode_unit c : codepoint c -> exists b r, encode_one c = b :: r /\ length r = (unit_length b - 1)%nat /\ Forall is_byte (encode_one c).
Proof.
  unfold codepoint. intros Hc. unfold encode_one, unit_length, is_byte.
  pose proof (Z.mod_pos_bound c 64 ltac:(lia)). pose proof (Z.mod_pos_bound (c / 64) 64 ltac:(lia)). pose proof (Z.mod_pos_bound (c / 4096) 64 ltac:(lia)).
  pose proof (Z.div_pos c 64 ltac:(lia) ltac:(lia)). pose proof (Z.div_pos c 4096 ltac:(lia) ltac:(lia)). pose proof (Z.div_pos c 262144 ltac:(lia) ltac:(lia)).
  assert (c / 262144 < 8) by (apply Z.div_lt_upper_bound; lia).
  destruct (Z.ltb_spec c 128); [|destruct (Z.ltb_spec c 2048); [|destruct (Z.ltb_spec c 65536)]]; eexists _, _; (split; [reflexivity|]).
  - replace (c <? 192) with true by lia. split; [reflexivity|]. repeat constructor; lia.
  - assert (c / 64 < 32) by (apply Z.div_lt_upper_bound; lia). assert (2 <= c / 64) by (apply Z.div_le_lower_bound; lia).
    replace (192 + c / 64 <? 192) with false by lia. replace (192 + c / 64 <? 224) with true by lia. split; [reflexivity|]. repeat constructor; lia.
  - assert (c / 4096 < 16) by (apply Z.div_lt_upper_bound; lia).
    replace (224 + c / 4096 <? 192) with false by lia. replace (224 + c / 4096 <? 224) with false by lia. replace (224 + c / 4096 <? 240) with true by lia. split; [reflexivity|]. repeat constructor; lia.
  - replace (240 + c / 262144 <? 192) with false by lia. replace (240 + c / 262144 <? 224) with false by lia. replace (240 + c / 262144 <? 240) with false by lia.
    replace (240 + c / 262144 <? 248) with true by lia. split; [reflexivity|]. repeat constructor; lia.
Qed.
Theorem encode_complete : forall cs, Forall codepoint cs -> complete (encode cs) /\ Forall is_byte (encode cs).
Proof.
  induction 1 as [|c cs Hc Hcs [IH1 IH2]]; [split; constructor|]. destruct (encode_unit c Hc) as (b & r & E & L & B). unfold encode in *. cbn [flat_map]. split.
  - rewrite E. cbn [app]. constructor; assumption.
  - apply Forall_app. split; assumption.
Qed.
