(** The tokens of encoded text are its longest runs of letters and its symbols. *)
From Coq Require Import Sorting.Sorted.
From Verif Require Import Base Bytes CodecModel TokenModel TokenSpec TextModel Utf8Table Utf8Model Utf8Spec Utf8Proofs Utf8Laws.

(** * The table *)
Lemma kind_run l : forall c a, Forall (fun na => 0 <= fst na) l -> kind_is l c a -> run_at l c = a /\ 0 <= c.
Proof.
  intros c a F H. induction H as [n a r c Hc|n a r c b Hk IH]; inversion F as [|? ? F1 F2]; subst; cbn [run_at fst] in *.
  - replace (c <? n) with true by lia. split; [reflexivity|lia].
  - destruct (IH F2) as [E P]. replace (c + n <? n) with false by lia. replace (c + n - n) with c by lia. split; [exact E|lia].
Qed.
Definition total (l : list (Z * Z)) : Z := fold_right (fun na s => fst na + s) 0 l.
Lemma run_kind l : forall c, 0 <= c < total l -> kind_is l c (run_at l c).
Proof.
  induction l as [|[n a] r IH]; intros c Hc; unfold total in *; cbn [fold_right fst run_at] in *; [lia|].
  destruct (Z.ltb_spec c n) as [H|H]; [constructor; lia|]. replace c with (c - n + n) at 1 by lia. constructor. apply IH. lia.
Qed.
Lemma runs_check : forallb (fun na => 0 <=? fst na) compressed_actions = true. Proof. vm_compute. reflexivity. Qed.
Lemma table_nonneg : Forall (fun na => 0 <= fst na) compressed_actions.
Proof.
  apply Forall_forall. intros x Hx. pose proof (proj1 (forallb_forall _ _) runs_check x Hx). lia.
Qed.
Lemma table_total : total compressed_actions = 2097152. Proof. vm_compute. reflexivity. Qed.
Lemma kind_iff c a : codepoint c -> kind_is compressed_actions c a <-> run_at compressed_actions c = a.
Proof.
  intros Hc. split; intros H.
  - exact (proj1 (kind_run _ _ _ table_nonneg H)).
  - rewrite <- H. apply run_kind. rewrite table_total. exact Hc.
Qed.
Lemma kind_values l : forall c a, kind_is l c a -> exists n, In (n, a) l.
Proof. induction 1 as [n a r c|n a r c b H [m IH]]; eexists; [left; reflexivity|right; exact IH]. Qed.
Lemma kinds_check : forallb (fun na => (0 <=? snd na) && (snd na <=? 4)) compressed_actions = true.
Proof. vm_compute. reflexivity. Qed.
Local Opaque compressed_actions.
Lemma kind_range c : codepoint c -> 0 <= run_at compressed_actions c <= 4.
Proof.
  intros Hc. destruct (kind_values _ _ _ (proj2 (kind_iff c _ Hc) eq_refl)) as [n Hn].
  pose proof (proj1 (forallb_forall _ _) kinds_check _ Hn) as K. cbn [snd] in K. lia.
Qed.
(** The codepoints of kind 2. *)
Fixpoint of_kind (l : list (Z * Z)) (a p : Z) : list Z :=
  match l with
  | [] => []
  | (n, b) :: r => (if b =? a then map (fun i => p + Z.of_nat i) (seq 0 (Z.to_nat n)) else []) ++ of_kind r a (p + n)
  end.
Lemma of_kind_all l a : forall c, kind_is l c a -> forall p, In (p + c) (of_kind l a p).
Proof.
  intros c H. induction H as [n a r c Hc|n a' r c a H IH]; intros p; cbn [of_kind]; apply in_or_app.
  - left. rewrite Z.eqb_refl. apply in_map_iff. exists (Z.to_nat c). split; [lia|]. apply in_seq. lia.
  - right. replace (p + (c + n)) with (p + n + c) by lia. apply IH.
Qed.
Definition fold_bytes (c : Z) : bytes := folded (fold_ptr c).
Lemma folds_check : forallb (fun f => eqb_bytes (fold_bytes (fst f)) (encode_one (snd f)) && (0 <=? snd f) && (snd f <? 2097152)) compressed_folds = true.
Proof. vm_cast_no_check (eq_refl true). Qed.
Lemma folds_cover : forallb (fun c => existsb (fun f => fst f =? c) compressed_folds) (of_kind compressed_actions 2 0) = true.
Proof. vm_compute. reflexivity. Qed.
Local Opaque compressed_actions compressed_folds folds fold_ptr.
Lemma fold_entry c : codepoint c -> run_at compressed_actions c = 2 -> exists d, In (c, d) compressed_folds /\ codepoint d /\ fold_bytes c = encode_one d.
Proof.
  intros Hc H. apply (kind_iff c 2 Hc) in H. pose proof (of_kind_all _ _ _ H 0) as I. rewrite Z.add_0_l in I.
  pose proof (proj1 (forallb_forall _ _) folds_cover _ I) as E. apply existsb_exists in E. destruct E as ([s d] & E1 & E2). cbn [fst] in E2. apply Z.eqb_eq in E2. subst s.
  exists d. split; [exact E1|]. pose proof (proj1 (forallb_forall _ _) folds_check _ E1) as K. cbn [fst snd] in K. apply andb_prop in K. destruct K as [K K3]. apply andb_prop in K. destruct K as [K1 K2].
  split; [unfold codepoint; lia|]. apply eqb_bytes_eq. exact K1.
Qed.
(** Folding as a function. *)
Definition fold_of (c : Z) : Z :=
  if run_at compressed_actions c =? 2 then match find (fun f => fst f =? c) compressed_folds with Some f => snd f | None => c end else c.
Lemma fold_spec c : codepoint c -> folds_to c (fold_of c) /\ (forall p, actions c = Fold p -> folded p = encode_one (fold_of c)) /\
  (run_at compressed_actions c <> 2 -> fold_of c = c).
Proof.
  intros Hc. unfold folds_to, fold_of. destruct (Z.eqb_spec (run_at compressed_actions c) 2) as [E|E].
  - destruct (fold_entry c Hc E) as (d0 & I0 & _ & _). destruct (find (fun f => fst f =? c) compressed_folds) as [[s d]|] eqn:F.
    2:{ pose proof (find_none _ _ F _ I0) as K. cbn [fst] in K. lia. }
    apply find_some in F. destruct F as [F1 F2]. cbn [fst snd] in *. apply Z.eqb_eq in F2. subst s.
    split; [left; split; [apply kind_iff; assumption|exact F1]|]. split; [|congruence].
    pose proof (proj1 (forallb_forall _ _) folds_check _ F1) as K. cbn [fst snd] in K. apply andb_prop in K. destruct K as [K _]. apply andb_prop in K. destruct K as [K _]. apply eqb_bytes_eq in K.
    intros p Hp. unfold actions in Hp. cbv zeta in Hp. rewrite E in Hp. change (2 =? 0) with false in Hp. change (2 =? 1) with false in Hp. change (2 =? 2) with true in Hp. cbv iota in Hp.
    injection Hp as <-. exact K.
  - split; [right; split; [rewrite kind_iff by exact Hc; exact E|reflexivity]|]. split; [|reflexivity].
    intros p Hp. unfold actions in Hp. cbv zeta in Hp. repeat match type of Hp with context [?a =? ?b] => destruct (a =? b) eqn:?; try discriminate; try lia end.
Qed.
Definition is_letter (c : Z) : Prop := match actions c with InToken | Fold _ => True | _ => False end.
Lemma letter_iff c : codepoint c -> letter c <-> is_letter c.
Proof.
  intros Hc. unfold letter, is_letter. rewrite !kind_iff by exact Hc. pose proof (kind_range c Hc). unfold actions. cbv zeta.
  destruct (Z.eqb_spec (run_at compressed_actions c) 0); [intuition lia|]. destruct (Z.eqb_spec (run_at compressed_actions c) 1); [intuition lia|].
  destruct (Z.eqb_spec (run_at compressed_actions c) 2); intuition lia.
Qed.
Lemma symbol_iff c : codepoint c -> symbol c <-> actions c = Unigram.
Proof.
  intros Hc. unfold symbol. rewrite !kind_iff by exact Hc. pose proof (kind_range c Hc). unfold actions. cbv zeta.
  destruct (Z.eqb_spec (run_at compressed_actions c) 0); [intuition (try discriminate; lia)|]. destruct (Z.eqb_spec (run_at compressed_actions c) 1); [intuition (try discriminate; lia)|].
  destruct (Z.eqb_spec (run_at compressed_actions c) 2); intuition (try discriminate; lia).
Qed.

(** * Decoding *)
Lemma land_mod a k : 0 <= k -> Z.land a (2 ^ k - 1) = a mod 2 ^ k.
Proof. intros H. rewrite <- Z.land_ones by exact H. rewrite Z.ones_equiv. f_equal. Qed.
Lemma lor_add a b k : 0 <= k -> 0 <= b < 2 ^ k -> Z.lor (Z.shiftl a k) b = a * 2 ^ k + b.
Proof.
  intros Hk Hb. rewrite <- Z.shiftl_mul_pow2 by exact Hk. symmetry. rewrite Z.add_nocarry_lxor.
  - rewrite Z.lxor_lor; [reflexivity|].
    apply Z.bits_inj'. intros n Hn. rewrite Z.land_spec, Z.bits_0. destruct (Z.ltb_spec n k).
    + rewrite Z.shiftl_spec_low by lia. reflexivity.
    + rewrite <- (Z.mod_small b (2 ^ k)) by exact Hb. rewrite Z.mod_pow2_bits_high by lia. apply andb_false_r.
  - apply Z.bits_inj'. intros n Hn. rewrite Z.land_spec, Z.bits_0. destruct (Z.ltb_spec n k).
    + rewrite Z.shiftl_spec_low by lia. reflexivity.
    + rewrite <- (Z.mod_small b (2 ^ k)) by exact Hb. rewrite Z.mod_pow2_bits_high by lia. apply andb_false_r.
Qed.
Lemma land63 x : Z.land (128 + x) 63 = x mod 64.
Proof. rewrite (land_mod _ 6) by lia. replace (128 + x) with (x + 2 * 2 ^ 6) by lia. rewrite Z.mod_add by lia. reflexivity. Qed.
Lemma land_lead a b k : a mod 2 ^ k = 0 -> 0 <= b < 2 ^ k -> 0 <= k -> Z.land (a + b) (2 ^ k - 1) = b.
Proof. intros Ha Hb Hk. rewrite land_mod by exact Hk. rewrite Z.add_mod by lia. rewrite Ha, Z.add_0_l, Z.mod_mod by lia. apply Z.mod_small. exact Hb. Qed.
Lemma unicode_encode c t : codepoint c -> unicode (encode_one c ++ t) = (c, length (encode_one c)).
Proof.
  intros Hc. destruct (encode_unit c Hc) as (b & r & E & L & B). assert (Hb : is_byte b) by (rewrite E in B; inversion B; assumption).
  pose proof (class_all b Hb) as C. unfold class_ok in C. apply Nat.eqb_eq in C. rewrite C in L. clear C B.
  unfold codepoint in Hc. unfold encode_one in *.
  pose proof (Z.mod_pos_bound c 64 ltac:(lia)) as M0. pose proof (Z.mod_pos_bound (c / 64) 64 ltac:(lia)) as M1. pose proof (Z.mod_pos_bound (c / 4096) 64 ltac:(lia)) as M2.
  pose proof (Z.div_mod c 64 ltac:(lia)) as D0. pose proof (Z.div_mod (c / 64) 64 ltac:(lia)) as D1. pose proof (Z.div_mod (c / 4096) 64 ltac:(lia)) as D2.
  rewrite Z.div_div in D1 by lia. rewrite Z.div_div in D2 by lia. change (64 * 64) with 4096 in D1. change (4096 * 64) with 262144 in D2.
  assert (P0 : 0 <= c / 64) by (apply Z.div_pos; lia). assert (P1 : 0 <= c / 4096) by (apply Z.div_pos; lia). assert (P2 : 0 <= c / 262144) by (apply Z.div_pos; lia).
  destruct (Z.ltb_spec c 128) as [H|H]; [|destruct (Z.ltb_spec c 2048) as [H1|H1]; [|destruct (Z.ltb_spec c 65536) as [H2|H2]]]; injection E as <- <-; cbn [app length] in *; unfold unicode.
  - destruct (Z.land c 128 =? 0) eqn:K; [reflexivity|]. exfalso. pose proof (byte_check (fun c => (128 <=? c) || (Z.land c 128 =? 0)) ltac:(vm_compute; reflexivity) c Hb) as Q. cbv beta in Q. lia.
  - assert (c / 64 < 32) by (apply Z.div_lt_upper_bound; lia).
    destruct (Z.land (192 + c / 64) 128 =? 0); [discriminate|]. destruct (Z.land (192 + c / 64) 224 =? 192);
      [|destruct (Z.land (192 + c / 64) 240 =? 224); [discriminate|destruct (Z.land (192 + c / 64) 248 =? 240); discriminate]].
    replace (Z.land (192 + c / 64) 31) with (c / 64) by (symmetry; apply (land_lead 192 (c / 64) 5); [reflexivity|lia|lia]). rewrite land63, Z.mod_mod by lia. rewrite lor_add by lia. f_equal. change (2 ^ 6) with 64. lia.
  - assert (c / 4096 < 16) by (apply Z.div_lt_upper_bound; lia).
    destruct (Z.land (224 + c / 4096) 128 =? 0); [discriminate|]. destruct (Z.land (224 + c / 4096) 224 =? 192); [discriminate|].
    destruct (Z.land (224 + c / 4096) 240 =? 224); [|destruct (Z.land (224 + c / 4096) 248 =? 240); discriminate].
    replace (Z.land (224 + c / 4096) 15) with (c / 4096) by (symmetry; apply (land_lead 224 (c / 4096) 4); [reflexivity|lia|lia]). rewrite !land63, !Z.mod_mod by lia.
    rewrite <- Z.lor_assoc. rewrite (lor_add (c / 64 mod 64) (c mod 64) 6) by lia. rewrite lor_add by (change (2 ^ 12) with 4096; change (2 ^ 6) with 64; lia).
    f_equal. change (2 ^ 12) with 4096. change (2 ^ 6) with 64. lia.
  - assert (c / 262144 < 8) by (apply Z.div_lt_upper_bound; lia).
    destruct (Z.land (240 + c / 262144) 128 =? 0); [discriminate|]. destruct (Z.land (240 + c / 262144) 224 =? 192); [discriminate|].
    destruct (Z.land (240 + c / 262144) 240 =? 224); [discriminate|]. destruct (Z.land (240 + c / 262144) 248 =? 240); [|discriminate].
    replace (Z.land (240 + c / 262144) 7) with (c / 262144) by (symmetry; apply (land_lead 240 (c / 262144) 3); [reflexivity|lia|lia]). rewrite !land63, !Z.mod_mod by lia.
    rewrite <- !Z.lor_assoc. rewrite (lor_add (c / 64 mod 64) (c mod 64) 6) by lia.
    rewrite (lor_add (c / 4096 mod 64) (c / 64 mod 64 * 2 ^ 6 + c mod 64) 12) by (change (2 ^ 12) with 4096; change (2 ^ 6) with 64; lia).
    rewrite lor_add by (change (2 ^ 18) with 262144; change (2 ^ 12) with 4096; change (2 ^ 6) with 64; lia).
    f_equal. change (2 ^ 18) with 262144. change (2 ^ 12) with 4096. change (2 ^ 6) with 64. lia.
Qed.

(** * Runs *)
Fixpoint cterms (cs : list Z) (p : nat) (st : option nat) : list (nat * nat) :=
  match cs with
  | [] => match st with Some b => [(b, p - b)%nat] | None => [] end
  | c :: r =>
      match st, actions c with
      | None, Nontoken => cterms r (S p) None
      | None, Unigram => (p, 1%nat) :: cterms r (S p) None
      | None, _ => cterms r (S p) (Some p)
      | Some b, Nontoken => (b, p - b)%nat :: cterms r (S p) None
      | Some b, Unigram => (b, p - b)%nat :: (p, 1%nat) :: cterms r (S p) None
      | Some b, _ => cterms r (S p) (Some b)
      end
  end.
Definition word_of (all : list Z) (x : nat * nat) : word :=
  Word (len (encode (firstn (fst x) all))) (len (encode (part all (fst x) (snd x)))) (encode (map fold_of (part all (fst x) (snd x)))).
Lemma encode_app a b : encode (a ++ b) = encode a ++ encode b.
Proof. apply flat_map_app. Qed.
Lemma part_snoc pre c r b : (b <= length pre)%nat -> part (pre ++ c :: r) b (S (length pre) - b) = part (pre ++ c :: r) b (length pre - b) ++ [c].
Proof.
  intros H. unfold part. rewrite !skipn_app. replace (b - length pre)%nat with O by lia. cbn [skipn]. rewrite !firstn_app, !skipn_length.
  replace (S (length pre) - b - (length pre - b))%nat with 1%nat by lia. rewrite Nat.sub_diag. cbn [firstn]. rewrite app_nil_r.
  rewrite !firstn_all2 by (rewrite skipn_length; lia). reflexivity.
Qed.
Lemma firstn_pre (pre s : list Z) : firstn (length pre) (pre ++ s) = pre.
Proof. rewrite firstn_app, firstn_all, Nat.sub_diag. cbn. apply app_nil_r. Qed.
Lemma part_all pre s b : (b <= length pre)%nat -> firstn b (pre ++ s) ++ part (pre ++ s) b (length pre - b) = pre.
Proof.
  intros H. unfold part. rewrite skipn_app, !firstn_app, skipn_length. replace (b - length pre)%nat with O by lia. cbn [firstn skipn]. rewrite app_nil_r, Nat.sub_diag. cbn [firstn].
  rewrite app_nil_r, (firstn_all2 (n := length pre - b) (skipn b pre)) by (rewrite skipn_length; lia). apply firstn_skipn.
Qed.
Lemma encoded_word s : forall pre st, Forall codepoint s -> (forall b, st = Some b -> (b <= length pre)%nat) ->
  ulex (encode s) 0 (len (encode pre))
    (option_map (fun b => (encode (map fold_of (part (pre ++ s) b (length pre - b))), len (encode (firstn b (pre ++ s))))) st) =
  map (word_of (pre ++ s)) (cterms s (length pre) st).
Proof.
  assert (W : forall pre s b, (b <= length pre)%nat ->
    Word (len (encode (firstn b (pre ++ s)))) (len (encode pre) - len (encode (firstn b (pre ++ s)))) (encode (map fold_of (part (pre ++ s) b (length pre - b)))) =
    word_of (pre ++ s) (b, (length pre - b)%nat)).
  { intros pre s' b H. unfold word_of. cbn [fst snd]. f_equal. pose proof (part_all pre s' b H) as E. rewrite <- E at 1. rewrite encode_app. unfold len. rewrite app_length. lia. }
  induction s as [|c r IH]; intros pre st F Hb.
  - cbn [encode flat_map ulex cterms]. destruct st as [b|]; [|reflexivity]. cbn [option_map map]. f_equal. apply W. apply Hb. reflexivity.
  - assert (Hc : codepoint c) by (inversion F; assumption). assert (Fr : Forall codepoint r) by (inversion F; assumption).
    change (encode (c :: r)) with (encode_one c ++ encode r).
    destruct (encode_unit c Hc) as (b0 & r0 & E0 & L0 & B0). pose proof (unicode_encode c (encode r) Hc) as U. rewrite E0 in U |- *. cbn [app length] in U |- *.
    rewrite (ulex_unit b0 r0 (encode r) _ _ c U).
    assert (Off : len (encode pre) + 1 + len r0 = len (encode (pre ++ [c]))).
    { rewrite encode_app. unfold encode at 3. cbn [flat_map]. rewrite app_nil_r, E0. unfold len. rewrite app_length. cbn [length]. lia. }
    rewrite Off. cbv zeta.
    assert (Eq : pre ++ c :: r = (pre ++ [c]) ++ r) by (rewrite <- app_assoc; reflexivity).
    assert (Lp : length (pre ++ [c]) = S (length pre)) by (rewrite app_length; cbn; lia).
    destruct (fold_spec c Hc) as (FS1 & FS2 & FS3).
    assert (Uni : Word (len (encode pre)) (Z.of_nat (S (length r0))) (b0 :: r0) = word_of (pre ++ c :: r) (length pre, 1%nat) \/ actions c <> Unigram).
    { destruct (actions c) eqn:A; try (right; discriminate). left. unfold word_of. cbn [fst snd]. rewrite firstn_pre. unfold part. rewrite skipn_app, skipn_all, Nat.sub_diag. cbn [skipn app firstn map].
      rewrite FS3. 2:{ apply (symbol_iff c Hc) in A. unfold symbol in A. rewrite !kind_iff in A by exact Hc. lia. }
      cbn [encode flat_map]. rewrite app_nil_r, E0. reflexivity. }
    assert (IN : ulex (encode r) 0 (len (encode (pre ++ [c]))) None = map (word_of (pre ++ c :: r)) (cterms r (S (length pre)) None)).
    { pose proof (IH (pre ++ [c]) None Fr ltac:(discriminate)) as K. rewrite Lp, <- Eq in K. exact K. }
    assert (IS : forall b x, (b <= S (length pre))%nat -> x = encode (map fold_of (part (pre ++ c :: r) b (S (length pre) - b))) ->
      ulex (encode r) 0 (len (encode (pre ++ [c]))) (Some (x, len (encode (firstn b (pre ++ c :: r))))) = map (word_of (pre ++ c :: r)) (cterms r (S (length pre)) (Some b))).
    { intros b x H ->. pose proof (IH (pre ++ [c]) (Some b) Fr ltac:(intros b' [= <-]; lia)) as K. rewrite Lp, <- Eq in K. exact K. }
    assert (Tm : actions c <> Nontoken -> actions c <> Unigram ->
      (forall y, actions c = InToken -> b0 :: r0 = y -> y = encode_one (fold_of c)) /\ (forall p, actions c = Fold p -> folded p = encode_one (fold_of c))).
    { intros _ _. split; [|exact FS2]. intros y A <-. rewrite FS3; [symmetry; exact E0|]. unfold actions in A. cbv zeta in A.
      repeat match type of A with context [?a =? ?b] => destruct (Z.eqb_spec a b); try discriminate; try lia end. }
    assert (P1 : encode (map fold_of (part (pre ++ c :: r) (length pre) (S (length pre) - length pre))) = encode_one (fold_of c)).
    { rewrite part_snoc by lia. rewrite Nat.sub_diag. unfold part. cbn [firstn app map encode flat_map]. apply app_nil_r. }
    assert (P2 : forall b, (b <= length pre)%nat -> encode (map fold_of (part (pre ++ c :: r) b (S (length pre) - b))) =
      encode (map fold_of (part (pre ++ c :: r) b (length pre - b))) ++ encode_one (fold_of c)).
    { intros b H. rewrite part_snoc by exact H. rewrite map_app, encode_app. cbn [map]. f_equal. unfold encode. cbn [flat_map]. apply app_nil_r. }
    assert (Of : len (encode pre) = len (encode (firstn (length pre) (pre ++ c :: r)))) by (rewrite firstn_pre; reflexivity).
    cbn [cterms]. destruct (actions c) as [| | |pf] eqn:A; destruct st as [b|]; cbn [option_map map]; try (assert (Hb' : (b <= length pre)%nat) by (apply Hb; reflexivity)).
    + rewrite W by exact Hb'. f_equal. exact IN.
    + exact IN.
    + apply IS; [lia|]. rewrite P2 by exact Hb'. f_equal. apply (proj1 (Tm ltac:(discriminate) ltac:(discriminate))); reflexivity.
    + rewrite Of. apply IS; [lia|]. rewrite P1. apply (proj1 (Tm ltac:(discriminate) ltac:(discriminate))); reflexivity.
    + rewrite W by exact Hb'. destruct Uni as [Uni|Uni]; [|congruence]. rewrite Uni. f_equal. f_equal. exact IN.
    + destruct Uni as [Uni|Uni]; [|congruence]. rewrite Uni. f_equal. exact IN.
    + apply IS; [lia|]. rewrite P2 by exact Hb'. f_equal. apply FS2. reflexivity.
    + rewrite Of. apply IS; [lia|]. rewrite P1. apply FS2. reflexivity.
Qed.

(** * The runs are the terms *)
Section Terms.
Variable all : list Z.
Hypothesis Hall : Forall codepoint all.
Definition at_letter (j : nat) : Prop := exists c, nth_error all j = Some c /\ letter c.
Lemma run_ends b p i n : (b < p)%nat -> (forall j, (b <= j < p)%nat -> at_letter j) -> (forall j, b = S j -> ~ at_letter j) -> ~ at_letter p ->
  (is_term all i n /\ (b <= i < p)%nat <-> (i, n) = (b, (p - b)%nat)).
Proof.
  intros Hb L B E. split.
  - intros [[[-> (c & Ec & Sc)]|(Hn & Hl & Hbe & Haf)] Hi].
    + exfalso. destruct (L i ltac:(lia)) as (c' & Ec' & Lc). rewrite Ec in Ec'. injection Ec' as <-.
      assert (Hc : codepoint c) by (apply (proj1 (Forall_forall _ _) Hall), (nth_error_In _ _ Ec)).
      apply symbol_iff in Sc; [|exact Hc]. apply letter_iff in Lc; [|exact Hc]. unfold is_letter in Lc. rewrite Sc in Lc. exact Lc.
    + assert (i = b). { destruct (Nat.eq_dec i b); [assumption|]. exfalso. destruct (L (i - 1)%nat ltac:(lia)) as (c & Ec & Lc). exact (Hbe (i - 1)%nat c ltac:(lia) Ec Lc). }
      subst i. f_equal. destruct (Nat.lt_trichotomy (b + n) p) as [H|[H|H]]; [|lia|].
      * exfalso. destruct (L (b + n)%nat ltac:(lia)) as (c & Ec & Lc). exact (Haf c Ec Lc).
      * exfalso. apply E. exact (Hl p ltac:(lia)).
  - intros [= -> ->]. split; [|lia]. right. split; [lia|]. split; [|split].
    + intros j Hj. exact (L j ltac:(lia)).
    + intros j c Hj Ec Lc. apply (B j Hj). exists c. auto.
    + intros c Ec Lc. apply E. replace p with (b + (p - b))%nat by lia. exists c. auto.
Qed.
Lemma cterms_terms s : forall pre st, all = pre ++ s ->
  match st with
  | None => forall j, length pre = S j -> ~ at_letter j
  | Some b => (b < length pre)%nat /\ (forall j, (b <= j < length pre)%nat -> at_letter j) /\ (forall j, b = S j -> ~ at_letter j)
  end ->
  forall i n, In (i, n) (cterms s (length pre) st) <-> is_term all i n /\ ((match st with Some b => b | None => length pre end) <= i)%nat.
Proof.
  induction s as [|c r IH]; intros pre st E Hst i n.
  - assert (NL : ~ at_letter (length pre)).
    { intros (c & Ec & _). rewrite E, app_nil_r in Ec. assert (length pre < length pre)%nat by (apply nth_error_Some; congruence). lia. }
    assert (Hi : is_term all i n -> (i < length pre)%nat).
    { intros [[_ (c & Ec & _)]|(Hn & Hl & _)].
      - rewrite E, app_nil_r in Ec. apply nth_error_Some. congruence.
      - destruct (Hl i ltac:(lia)) as (c & Ec & _). rewrite E, app_nil_r in Ec. apply nth_error_Some. congruence. }
    cbn [cterms]. destruct st as [b|].
    + destruct Hst as (H1 & H2 & H3). pose proof (run_ends b (length pre) i n H1 H2 H3 NL) as R. cbn [In]. split.
      * intros [K|[]]. symmetry in K. apply R in K. split; [apply K|lia].
      * intros [K1 K2]. left. symmetry. apply R. split; [exact K1|]. specialize (Hi K1). lia.
    + split; [intros []|]. intros [K1 K2]. specialize (Hi K1). lia.
  - assert (Ec : nth_error all (length pre) = Some c) by (rewrite E, nth_error_app2, Nat.sub_diag by lia; reflexivity).
    assert (Hc : codepoint c) by (apply (proj1 (Forall_forall _ _) Hall), (nth_error_In _ _ Ec)).
    assert (Lp : length (pre ++ [c]) = S (length pre)) by (rewrite app_length; cbn; lia).
    assert (Eq : all = (pre ++ [c]) ++ r) by (rewrite <- app_assoc; exact E).
    assert (AL : at_letter (length pre) <-> is_letter c).
    { split; [intros (c' & Ec' & Lc); rewrite Ec in Ec'; injection Ec' as <-; apply letter_iff; assumption|]. intros H. exists c. split; [exact Ec|]. apply letter_iff; assumption. }
    assert (IN : ~ at_letter (length pre) -> In (i, n) (cterms r (S (length pre)) None) <-> is_term all i n /\ (S (length pre) <= i)%nat).
    { intros H. pose proof (IH (pre ++ [c]) None Eq) as K. rewrite Lp in K. apply K. intros j [= <-]. exact H. }
    assert (IS : forall b, at_letter (length pre) -> (b <= length pre)%nat -> (forall j, (b <= j < length pre)%nat -> at_letter j) -> (forall j, b = S j -> ~ at_letter j) ->
      In (i, n) (cterms r (S (length pre)) (Some b)) <-> is_term all i n /\ (b <= i)%nat).
    { intros b H1 H2 H3 H4. pose proof (IH (pre ++ [c]) (Some b) Eq) as K. rewrite Lp in K. apply K. split; [lia|]. split; [|exact H4].
      intros j Hj. destruct (Nat.eq_dec j (length pre)) as [->|]; [exact H1|apply H3; lia]. }
    assert (AtP : actions c = Unigram -> is_term all (length pre) n <-> n = 1%nat).
    { intros A. split.
      - intros [[-> _]|(Hn & Hl & _)]; [reflexivity|]. exfalso. assert (L : at_letter (length pre)) by exact (Hl (length pre) ltac:(lia)). apply AL in L. unfold is_letter in L. rewrite A in L. exact L.
      - intros ->. left. split; [reflexivity|]. exists c. split; [exact Ec|]. apply symbol_iff; assumption. }
    assert (NoP : actions c = Nontoken -> ~ is_term all (length pre) n).
    { intros A [[_ (c' & Ec' & Sc)]|(Hn & Hl & _)].
      - rewrite Ec in Ec'. injection Ec' as <-. apply symbol_iff in Sc; [|exact Hc]. congruence.
      - assert (L : at_letter (length pre)) by exact (Hl (length pre) ltac:(lia)). apply AL in L. unfold is_letter in L. rewrite A in L. exact L. }
    cbn [cterms]. destruct (actions c) as [| | |pf] eqn:A; destruct st as [b|].
    + assert (NL : ~ at_letter (length pre)) by (rewrite AL; unfold is_letter; rewrite A; auto). specialize (IN NL). specialize (NoP eq_refl).
      destruct Hst as (H1 & H2 & H3). pose proof (run_ends b (length pre) i n H1 H2 H3 NL) as R. cbn [In]. rewrite IN. split.
      * intros [K|K]; [symmetry in K; apply R in K; split; [apply K|lia]|split; [apply K|lia]].
      * intros [K1 K2]. destruct (Nat.lt_trichotomy i (length pre)) as [L|[L|L]]; [left; symmetry; apply R; auto|subst i; contradiction|right; auto].
    + assert (NL : ~ at_letter (length pre)) by (rewrite AL; unfold is_letter; rewrite A; auto). specialize (IN NL). specialize (NoP eq_refl). rewrite IN. split; intros [K1 K2]; (split; [exact K1|]); [lia|].
      destruct (Nat.eq_dec i (length pre)); [subst i; contradiction|lia].
    + assert (L : at_letter (length pre)) by (apply AL; unfold is_letter; rewrite A; exact Logic.I). destruct Hst as (H1 & H2 & H3). apply IS; [exact L|lia|exact H2|exact H3].
    + assert (L : at_letter (length pre)) by (apply AL; unfold is_letter; rewrite A; exact Logic.I). apply IS; [exact L|lia|intros; lia|exact Hst].
    + assert (NL : ~ at_letter (length pre)) by (rewrite AL; unfold is_letter; rewrite A; auto). specialize (IN NL). specialize (AtP eq_refl).
      destruct Hst as (H1 & H2 & H3). pose proof (run_ends b (length pre) i n H1 H2 H3 NL) as R. cbn [In]. rewrite IN. split.
      * intros [K|[K|K]]; [symmetry in K; apply R in K; split; [apply K|lia]|injection K as <- <-; split; [apply AtP; reflexivity|lia]|split; [apply K|lia]].
      * intros [K1 K2]. destruct (Nat.lt_trichotomy i (length pre)) as [L|[L|L]]; [left; symmetry; apply R; auto|subst i; apply AtP in K1; subst n; right; left; reflexivity|right; right; auto].
    + assert (NL : ~ at_letter (length pre)) by (rewrite AL; unfold is_letter; rewrite A; auto). specialize (IN NL). specialize (AtP eq_refl). cbn [In]. rewrite IN. split.
      * intros [K|K]; [injection K as <- <-; split; [apply AtP; reflexivity|lia]|split; [apply K|lia]].
      * intros [K1 K2]. destruct (Nat.eq_dec i (length pre)); [subst i; apply AtP in K1; subst n; left; reflexivity|right; split; [exact K1|lia]].
    + assert (L : at_letter (length pre)) by (apply AL; unfold is_letter; rewrite A; exact Logic.I). destruct Hst as (H1 & H2 & H3). apply IS; [exact L|lia|exact H2|exact H3].
    + assert (L : at_letter (length pre)) by (apply AL; unfold is_letter; rewrite A; exact Logic.I). apply IS; [exact L|lia|intros; lia|exact Hst].
Qed.
End Terms.
Definition fst_lt (x y : nat * nat) : Prop := (fst x < fst y)%nat.
Lemma cterms_sorted s : forall p st, (forall b, st = Some b -> (b < p)%nat) -> StronglySorted fst_lt (cterms s p st) /\
  Forall (fun x => ((match st with Some b => b | None => p end) <= fst x)%nat) (cterms s p st).
Proof.
  induction s as [|c r IH]; intros p st Hst; cbn [cterms].
  - destruct st as [b|]; [|split; constructor]. split; repeat constructor.
  - assert (Push : forall (x : nat * nat) l k, StronglySorted fst_lt l -> Forall (fun y => (k <= fst y)%nat) l -> (fst x < k)%nat ->
      StronglySorted fst_lt (x :: l) /\ Forall (fun y => (fst x <= fst y)%nat) (x :: l)).
    { intros x l k Hs Hf Hx. split; constructor; auto; eapply Forall_impl; try exact Hf; unfold fst_lt; intros; cbn in *; lia. }
    assert (Weak : forall (l : list (nat * nat)) k k', (k' <= k)%nat -> Forall (fun y => (k <= fst y)%nat) l -> Forall (fun y => (k' <= fst y)%nat) l).
    { intros l k k' H F. eapply Forall_impl; [|exact F]. cbn. lia. }
    destruct (IH (S p) None ltac:(discriminate)) as [N1 N2].
    destruct (actions c); destruct st as [b|]; try (assert (Hb : (b < p)%nat) by (apply Hst; reflexivity)).
    + apply (Push (b, (p - b)%nat) _ (S p)); cbn; auto.
    + split; [exact N1|]. apply (Weak _ (S p)); [lia|exact N2].
    + apply (IH (S p) (Some b)). intros b' [= <-]. lia.
    + destruct (IH (S p) (Some p) ltac:(intros b' [= <-]; lia)) as [S1 S2]. split; [exact S1|exact S2].
    + destruct (Push (p, 1%nat) _ (S p) N1 N2 ltac:(cbn; lia)) as [Q1 Q2]. apply (Push (b, (p - b)%nat) _ p); cbn in *; auto.
    + apply (Push (p, 1%nat) _ (S p)); cbn; auto.
    + apply (IH (S p) (Some b)). intros b' [= <-]. lia.
    + destruct (IH (S p) (Some p) ltac:(intros b' [= <-]; lia)) as [S1 S2]. split; [exact S1|exact S2].
Qed.
Lemma utokenize_words featurize s : forall k off a st i,
  nth_error (utokenize_from featurize s k off a st) i =
  option_map (fun w => Token (featurize (w_term w)) (a + Z.of_nat i) (w_offset w) (w_length w)) (nth_error (ulex s k off st) i).
Proof.
  induction s as [|c r IH]; intros k off a st i.
  - cbn. destruct st as [[x o]|]; destruct i as [|[|i]]; cbn; try reflexivity. f_equal. f_equal. lia.
  - cbn [ulex utokenize_from]. destruct k as [|k]; [|apply IH]. acts (c :: r); destruct st as [[x o]|]; try apply IH.
    + destruct i as [|i]; cbn [nth_error option_map w_term w_offset w_length]; [f_equal; f_equal; lia|]. rewrite IH. replace (a + Z.of_nat (S i)) with (a + 1 + Z.of_nat i) by lia. reflexivity.
    + destruct i as [|[|i]]; cbn [nth_error option_map w_term w_offset w_length]; [f_equal; f_equal; lia|f_equal; f_equal; lia|]. rewrite IH. replace (a + Z.of_nat (S (S i))) with (a + 1 + 1 + Z.of_nat i) by lia. reflexivity.
    + destruct i as [|i]; cbn [nth_error option_map w_term w_offset w_length]; [f_equal; f_equal; lia|]. rewrite IH. replace (a + Z.of_nat (S i)) with (a + 1 + Z.of_nat i) by lia. reflexivity.
Qed.
Theorem utf8_words : forall featurize cs, Forall codepoint cs -> exists ws : list (nat * nat),
  (forall i n, In (i, n) ws <-> is_term cs i n) /\ StronglySorted (fun x y => (fst x < fst y)%nat) ws /\
  length (utokenize featurize (encode cs)) = length ws /\
  forall a i n, nth_error ws a = Some (i, n) -> exists ds, Forall2 folds_to (part cs i n) ds /\
    nth_error (utokenize featurize (encode cs)) a =
      Some (Token (featurize (encode ds)) (Z.of_nat a) (Z.of_nat (length (encode (firstn i cs)))) (Z.of_nat (length (encode (part cs i n))))).
Proof.
  intros featurize cs F. exists (cterms cs 0 None). pose proof (encoded_word cs [] None F ltac:(discriminate)) as E. cbn [option_map app length] in E.
  change (len (encode [])) with 0 in E. split; [|split; [|split]].
  - intros i n. rewrite (cterms_terms cs F cs [] None eq_refl); [cbn; intuition lia|]. discriminate.
  - apply (cterms_sorted cs 0 None). discriminate.
  - rewrite <- (map_length (word_of cs)), <- E. apply Nat.le_antisymm.
    + destruct (nth_error (utokenize featurize (encode cs)) (length (ulex (encode cs) 0 0 None))) eqn:N; [|apply nth_error_None; exact N].
      unfold utokenize in N. rewrite utokenize_words in N. rewrite (proj2 (nth_error_None _ _)) in N by lia. discriminate.
    + destruct (nth_error (ulex (encode cs) 0 0 None) (length (utokenize featurize (encode cs)))) eqn:N; [|apply nth_error_None; exact N].
      pose proof (utokenize_words featurize (encode cs) 0 0 0 None (length (utokenize featurize (encode cs)))) as K. rewrite N in K. cbn [option_map] in K.
      assert (length (utokenize featurize (encode cs)) < length (utokenize featurize (encode cs)))%nat by (apply nth_error_Some; unfold utokenize at 1; rewrite K; discriminate). lia.
  - intros a i n N. exists (map fold_of (part cs i n)). split.
    + assert (Fp : Forall codepoint (part cs i n)).
      { unfold part. apply Forall_forall. intros x Hx. apply (proj1 (Forall_forall _ _) F). rewrite <- (firstn_skipn i cs). apply in_or_app. right. rewrite <- (firstn_skipn n (skipn i cs)). apply in_or_app. left. exact Hx. }
      induction Fp as [|c l Hc Hl IH]; constructor; [apply fold_spec; exact Hc|exact IH].
    + unfold utokenize. rewrite utokenize_words, E, nth_error_map, N. cbn [option_map word_of fst snd w_term w_offset w_length]. rewrite Z.add_0_l. reflexivity.
Qed.
