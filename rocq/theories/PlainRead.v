(** Proofs about reading the text of a single-file index. *)
From Verif Require Import Base Bytes CodecModel CodecSpec ChunkModel ChunkSpec TokenModel PlainModel PlainSpec.
From Verif Require TextSpec TextProofs FileSpec LexCut.
Import TextProofs.

Lemma ascending_nth os : forall o n, TextSpec.ascending o os n ->
  forall i j, (i < j)%nat -> (i < length os)%nat -> nth i os n < nth j os n.
Proof.
  induction os as [|x r IH]; intros o n H i j Hij Hi; [cbn in Hi; lia|].
  cbn [TextSpec.ascending] in H. destruct H as [H1 H2]. destruct j as [|j]; [lia|]. destruct i as [|i].
  - cbn [nth]. assert (x + 1 <= n) by (eapply ascending_le; eauto).
    destruct (Nat.lt_ge_cases j (length r)) as [Hj|Hj].
    + pose proof (ascending_in r _ _ (nth j r n) H2 (nth_In _ _ Hj)). lia.
    + rewrite nth_overflow by lia. lia.
  - cbn [nth]. apply (IH _ _ H2); cbn in Hi; lia.
Qed.
Lemma check_rest (B : Z) l : forall a, (forall k x, nth_error l k = Some x -> r_pq x = a + B * (1 + Z.of_nat k)) -> 0 <= a -> 0 < B ->
  check_blocking l a B = Some B.
Proof.
  induction l as [|x l IH]; intros a H Ha HB; [reflexivity|]. cbn [check_blocking].
  assert (E : r_pq x = a + B) by (specialize (H 0%nat x eq_refl); lia).
  replace (-1 <? a) with true by lia. replace (-1 <? B) with true by lia.
  replace (r_pq x - a =? B) with true by lia. cbn. rewrite E. apply IH; [|lia|lia].
  intros k y Hk. specialize (H (S k) y Hk). lia.
Qed.
Lemma check_all l : (forall k x, nth_error l k = Some x -> r_pq x = TXT_BLOCKING * Z.of_nat k) ->
  check_blocking l (-1) (-1) = Some (if (length l <=? 1)%nat then -1 else TXT_BLOCKING).
Proof.
  intros H. destruct l as [|x [|y l]]; [reflexivity|reflexivity|].
  assert (E0 : r_pq x = 0) by (specialize (H 0%nat x eq_refl); cbn in H; lia).
  assert (E1 : r_pq y = TXT_BLOCKING) by (specialize (H 1%nat y eq_refl); lia).
  cbn [check_blocking length Nat.leb]. replace (-1 <? -1) with false by lia. rewrite E0.
  replace (-1 <? 0) with true by lia. replace (-1 <? -1) with false by lia. rewrite E1.
  replace (TXT_BLOCKING - 0) with TXT_BLOCKING by lia.
  apply check_rest; [|unfold TXT_BLOCKING; lia|unfold TXT_BLOCKING; lia].
  intros k z Hk. specialize (H (S (S k)) z Hk). lia.
Qed.

Lemma nth_first {A} (d : A) : forall k i (l : list A), (i < k)%nat -> nth i (firstn k l) d = nth i l d.
Proof.
  induction k as [|k IH]; intros i l H; [lia|]. destruct l as [|x l]; [rewrite firstn_nil; reflexivity|].
  destruct i as [|i]; [reflexivity|]. cbn. apply IH. lia.
Qed.

Section Finish.
Variable c : compressor.
Variable cs : Z.
Variable held : Z -> bool.
Variable skip : bytes -> Z -> Z.
Definition finish (offset e token_skip token_count : Z) (x : txt) : res (bytes * txt) :=
  let size := e - offset in
  let* token_total := chk (token_skip + token_count) in
  let m := t_memo x in
  let use := m_valid m && (m_offset m =? offset) && (m_skip m <=? token_skip) && (m_end m <=? size) in
  let m' := if use then m else Memo false offset (m_skip m) 0 in
  let o := if use then offset + m_end m else offset in
  let size := if use then size - m_end m else size in
  let token_skip := if use then token_skip - m_skip m else token_skip in
  let off := Memo false (m_offset m') (m_skip m') (m_end m') in
  let* (buffer, w) := io_read c cs held o size (t_io x) in
  let size := len buffer in
  if size <=? 0 then Ok ([], set_memo w off x) else
  let start := skip buffer token_skip in
  if size <=? start then Ok ([], set_memo w off x) else
  let end_ := start + skip (skipn (Z.to_nat start) buffer) token_count in
  let m' := if end_ <? size then Memo true (m_offset m') token_total (m_end m' + end_) else off in
  Ok (firstn (Z.to_nat (end_ - start)) (skipn (Z.to_nat start) buffer), set_memo w m' x).
Lemma translate_eq p q x : translate c cs held skip p q x =
  if p =? maxf then Ok ([], x) else
  let q := if q =? maxf then q - 1 else q in
  let p := if p <? 0 then 0 else p in
  if q <? p then Ok ([], x) else
  let B := t_blocking x in
  let n := len (t_map x) in
  let* p_block := (if B =? -1 then Ok 0 else div p B) in
  if n - 1 <=? p_block then Ok ([], x) else
  let* offset := idx (t_map x) p_block in
  let* q_block := (if B =? -1 then Ok 1 else let* z := div q B in Ok (z + 1)) in
  let q_block := if n <=? q_block then n - 1 else q_block in
  let* e := idx (t_map x) q_block in
  finish offset e (p - p_block * B) (q - p + 1) x.
Proof. reflexivity. Qed.
End Finish.

Section Reading.
Variable c : compressor.
Variable cs : Z.
Variable held : Z -> bool.
Variable tokenize : bytes -> list token.
Variable skip : bytes -> Z -> Z.
Variable stop : bytes -> Prop.
Variable starts : bytes -> list Z.
Variable split : bytes -> list bytes.
Hypothesis laws : TextSpec.tokenizer_laws tokenize skip stop starts.
Hypothesis Hcut : FileSpec.cut_law starts.
Hypothesis Hsplit : split_law split starts.
Variable T : bytes.
Hypothesis HT : len T <= maxf.
Variable I : program -> Prop.
Hypothesis HI : forall w p n, I w -> 0 <= p -> 0 <= n -> p + n <= len T ->
  exists w', io_read c cs held p n w = Ok (TextSpec.between T p (p + n), w') /\ I w'.
Let os := starts T.
Let n := length os.
Let Bn : nat := Z.to_nat TXT_BLOCKING.
Let pos (i : nat) : Z := nth i os (len T).
Let ascend : TextSpec.ascending 0 os (len T) := TextSpec.law_inside _ _ _ _ laws T.

Lemma pos_lt i j : (i < j)%nat -> (i < n)%nat -> pos i < pos j.
Proof. apply (ascending_nth os 0 (len T) ascend). Qed.
Lemma pos_range i : 0 <= pos i <= len T.
Proof. apply nth_range, ascend. Qed.
Lemma pos_over i : (n <= i)%nat -> pos i = len T.
Proof. intros H. unfold pos. apply nth_overflow. exact H. Qed.
Lemma pos_le i j : (i <= j)%nat -> pos i <= pos j.
Proof.
  intros H. destruct (Nat.eq_dec i j) as [->|]; [lia|].
  destruct (Nat.lt_ge_cases i n) as [Hi|Hi]; [pose proof (pos_lt i j); lia|].
  rewrite !pos_over by lia. lia.
Qed.
Lemma pos_inj i j : (i < n)%nat -> (j < n)%nat -> pos i = pos j -> i = j.
Proof.
  intros Hi Hj H. destruct (Nat.lt_trichotomy i j) as [L|[L|L]]; [|exact L|].
  - pose proof (pos_lt i j L Hi). lia.
  - pose proof (pos_lt j i L Hj). lia.
Qed.
Lemma nle i : (i < n)%nat -> Z.of_nat i < len T.
Proof.
  induction i as [|i IH]; intros H.
  - pose proof (pos_lt 0 n). pose proof (pos_range 0). pose proof (pos_range n). lia.
  - assert (forall k, (k < n)%nat -> Z.of_nat k <= pos k) as X.
    { induction k as [|k IHk]; intros Hk; [pose proof (pos_range 0); lia|]. pose proof (pos_lt k (S k)). lia. }
    pose proof (X (S i) H). pose proof (pos_lt (S i) (S (S i))). pose proof (pos_range (S (S i))). lia.
Qed.
Lemma n_le : Z.of_nat n <= len T.
Proof. destruct n as [|m] eqn:E; [unfold len; lia|]. pose proof (nle m). lia. Qed.
Lemma pos_some i : (i < n)%nat -> nth_error os i = Some (pos i).
Proof. intros H. unfold pos. apply nth_error_nth'. exact H. Qed.
Lemma between_len a b : 0 <= a <= b -> b <= len T -> len (TextSpec.between T a b) = b - a.
Proof. intros H1 H2. unfold TextSpec.between, len in *. rewrite firstn_length, skipn_length. lia. Qed.

Lemma window i j : (i < n)%nat -> (i <= j)%nat ->
  starts (TextSpec.between T (pos i) (pos j)) = map (fun x => x - pos i) (firstn (j - i) (skipn i os)).
Proof.
  intros Hi Hij. pose proof (TextSpec.law_from _ _ _ _ laws T i (pos i) (pos_some i Hi)) as E.
  fold os in E. unfold TextSpec.between. destruct (Nat.lt_ge_cases j n) as [Hj|Hj].
  - rewrite (Hcut (skipn (Z.to_nat (pos i)) T) (j - i)%nat (pos j - pos i)).
    + rewrite E, firstn_map. reflexivity.
    + rewrite E, nth_error_map. rewrite (nth_error_nth' _ 0) by (rewrite skipn_length; fold n; lia).
      cbn. f_equal. rewrite nth_skipn. replace (i + (j - i))%nat with j by lia. unfold pos.
      rewrite (nth_indep os 0 (len T)) by (fold n; lia). reflexivity.
  - rewrite (pos_over j Hj), firstn_all2 by (rewrite skipn_length; unfold len; pose proof (pos_range i); lia).
    rewrite E, firstn_all2 by (rewrite skipn_length; fold n; lia). reflexivity.
Qed.
Lemma skip_window i j s : (i < n)%nat -> (i <= j)%nat ->
  skip (TextSpec.between T (pos i) (pos j)) (Z.of_nat s) = pos (Nat.min (i + s) j) - pos i.
Proof.
  intros Hi Hij. rewrite (TextSpec.law_skip _ _ _ _ laws) by lia. rewrite window by assumption.
  rewrite between_len by (pose proof (pos_range i); pose proof (pos_le i j); pose proof (pos_range j); lia).
  rewrite nth_map_sub. rewrite Nat2Z.id. f_equal.
  destruct (Nat.lt_ge_cases s (j - i)) as [H|H].
  - rewrite nth_first by assumption. rewrite nth_skipn. replace (Nat.min (i + s) j) with (i + s)%nat by lia. unfold pos.
    destruct (Nat.lt_ge_cases (i + s) n) as [Hs|Hs]; [apply nth_indep; exact Hs|].
    rewrite !nth_overflow by (fold n; lia). reflexivity.
  - rewrite nth_overflow by (rewrite firstn_length; lia). f_equal. lia.
Qed.
Lemma between_skip a b k : 0 <= a -> a <= b -> b <= len T -> 0 <= k <= b - a ->
  skipn (Z.to_nat k) (TextSpec.between T a b) = TextSpec.between T (a + k) b.
Proof.
  intros. unfold TextSpec.between. rewrite skipn_firstn_comm.
  rewrite (LexCut.skipn_skipn). f_equal; [lia|]. f_equal. lia.
Qed.
Lemma between_first a b k : 0 <= k <= b - a -> firstn (Z.to_nat k) (TextSpec.between T a b) = TextSpec.between T a (a + k).
Proof. intros. unfold TextSpec.between. rewrite firstn_firstn. f_equal. lia. Qed.

(** * The memo *)
Definition minv (m : memo) : Prop :=
  m_valid m = true -> exists k, (Bn * k < n)%nat /\ m_offset m = pos (Bn * k) /\ 0 <= m_skip m /\
    (Bn * k + Z.to_nat (m_skip m) < n)%nat /\ m_end m = pos (Bn * k + Z.to_nat (m_skip m)) - pos (Bn * k).
Lemma finish_ok k j s t x : I (t_io x) -> minv (t_memo x) -> (Bn * k < n)%nat -> (Bn * k <= j)%nat -> (j <= n)%nat ->
  Z.of_nat s + Z.of_nat t <= maxf ->
  exists w m, finish c cs held skip (pos (Bn * k)) (pos j) (Z.of_nat s) (Z.of_nat t) x =
    Ok (TextSpec.between T (pos (Nat.min (Bn * k + s) j)) (pos (Nat.min (Bn * k + s + t) j)), set_memo w m x) /\ I w /\ minv m.
Proof.
  intros Hw Hm Hk Hj Hjn Hst. unfold finish.
  assert (Ec : chk (Z.of_nat s + Z.of_nat t) = Ok (Z.of_nat s + Z.of_nat t)).
  { unfold chk. replace (minf <=? Z.of_nat s + Z.of_nat t) with true by (unfold minf; lia).
    replace (Z.of_nat s + Z.of_nat t <=? maxf) with true by lia. reflexivity. }
  rewrite Ec. cbn [bind].
  set (use := (m_valid (t_memo x) && (m_offset (t_memo x) =? pos (Bn * k)) && (m_skip (t_memo x) <=? Z.of_nat s) &&
    (m_end (t_memo x) <=? pos j - pos (Bn * k)))).
  assert (exists i0 : nat, (Bn * k <= i0)%nat /\ (i0 < n)%nat /\ (i0 <= Bn * k + s)%nat /\ (i0 <= j)%nat /\
     (if use then pos (Bn * k) + m_end (t_memo x) else pos (Bn * k)) = pos i0 /\
     (if use then pos j - pos (Bn * k) - m_end (t_memo x) else pos j - pos (Bn * k)) = pos j - pos i0 /\
     (if use then Z.of_nat s - m_skip (t_memo x) else Z.of_nat s) = Z.of_nat (Bn * k + s - i0) /\
     (m_offset (if use then t_memo x else Memo false (pos (Bn * k)) (m_skip (t_memo x)) 0)) = pos (Bn * k) /\
     (m_end (if use then t_memo x else Memo false (pos (Bn * k)) (m_skip (t_memo x)) 0)) = pos i0 - pos (Bn * k)) as X.
  { destruct use eqn:U.
    - unfold use in U. rewrite !andb_true_iff in U. destruct U as [[[U1 U2] U3] U4].
      destruct (Hm U1) as (k' & A1 & A2 & A3 & A4 & A5).
      assert (Bn * k' = Bn * k)%nat as Ek by (apply pos_inj; [assumption|assumption|lia]).
      rewrite Ek in *. exists (Bn * k + Z.to_nat (m_skip (t_memo x)))%nat.
      assert (Bn * k + Z.to_nat (m_skip (t_memo x)) <= j)%nat.
      { destruct (Nat.le_gt_cases (Bn * k + Z.to_nat (m_skip (t_memo x))) j) as [L|L]; [exact L|].
        pose proof (pos_lt j (Bn * k + Z.to_nat (m_skip (t_memo x)))). lia. }
      cbn [m_offset m_end]. repeat split; lia.
    - exists (Bn * k)%nat. cbn [m_offset m_end]. repeat split; lia. }
  destruct X as (i0 & X1 & X2 & X3 & X4 & -> & -> & -> & Eo & Ee). rewrite Eo, Ee.
  assert (P1 := pos_range i0). assert (P2 := pos_le i0 j X4). assert (P3 := pos_range j).
  destruct (HI (t_io x) (pos i0) (pos j - pos i0)) as (w & Er & Hw'); [assumption|lia|lia|lia|].
  rewrite Er. cbn [bind]. replace (pos i0 + (pos j - pos i0)) with (pos j) by lia.
  rewrite between_len by lia.
  assert (Hoff : forall o a b, minv (Memo false o a b)) by (intros o a b H; cbn in H; discriminate H).
  assert (Empty : (j <= Bn * k + s)%nat -> TextSpec.between T (pos (Nat.min (Bn * k + s) j)) (pos (Nat.min (Bn * k + s + t) j)) = []).
  { intros H. replace (Nat.min (Bn * k + s) j) with j by lia. replace (Nat.min (Bn * k + s + t) j) with j by lia.
    unfold TextSpec.between. replace (pos j - pos j) with 0 by lia. reflexivity. }
  destruct (pos j - pos i0 <=? 0) eqn:Z0.
  { assert (i0 = j)%nat by (destruct (Nat.eq_dec i0 j) as [E|E]; [exact E|]; pose proof (pos_lt i0 j); lia).
    exists w. eexists. split; [rewrite Empty by lia; reflexivity|]. split; [assumption|apply Hoff]. }
  rewrite skip_window by assumption. replace (i0 + (Bn * k + s - i0))%nat with (Bn * k + s)%nat by lia.
  destruct (Nat.le_gt_cases j (Bn * k + s)) as [L|L].
  { replace (Nat.min (Bn * k + s) j) with j by lia. replace (pos j - pos i0 <=? pos j - pos i0) with true by lia.
    exists w. eexists. split; [|split; [assumption|apply Hoff]].
    specialize (Empty L). replace (Nat.min (Bn * k + s) j) with j in Empty by lia. rewrite Empty. reflexivity. }
  replace (Nat.min (Bn * k + s) j) with (Bn * k + s)%nat by lia.
  set (i1 := (Bn * k + s)%nat) in *.
  assert (P4 := pos_lt i1 j). assert (P5 := pos_le i0 i1).
  replace (pos j - pos i0 <=? pos i1 - pos i0) with false by lia.
  rewrite between_skip by lia. replace (pos i0 + (pos i1 - pos i0)) with (pos i1) by lia.
  rewrite skip_window by lia. set (i2 := Nat.min (i1 + t) j) in *.
  replace (pos i1 - pos i0 + (pos i2 - pos i1)) with (pos i2 - pos i0) by lia.
  replace (pos i2 - pos i0 - (pos i1 - pos i0)) with (pos i2 - pos i1) by lia.
  assert (P6 := pos_le i1 i2). assert (P7 := pos_le i2 j).
  rewrite between_first by lia. replace (pos i1 + (pos i2 - pos i1)) with (pos i2) by lia.
  exists w. eexists. split; [reflexivity|]. split; [assumption|].
  destruct (pos i2 - pos i0 <? pos j - pos i0) eqn:Z1; [|apply Hoff].
  intros _. exists k. cbn [m_offset m_skip m_end].
  assert (i2 < j)%nat by (destruct (Nat.eq_dec i2 j) as [E|E]; [rewrite E in Z1; lia|lia]).
  replace (Bn * k + Z.to_nat (Z.of_nat s + Z.of_nat t))%nat with i2 by lia.
  repeat split; try lia.
Qed.

(** * Translating *)
Variable l : list record.
Hypothesis Hrec : recorded starts T l.
Let R := length l.
Lemma rec_len k : (k < R)%nat <-> (Bn * k < n)%nat.
Proof.
  destruct Hrec as [_ H]. specialize (H k). fold os in H. fold Bn in H.
  split; intros X.
  - apply nth_error_Some. fold os. intros E. rewrite E in H. apply nth_error_None in H. rewrite map_length in H. fold R in H. lia.
  - unfold R. rewrite <- (map_length r_start l). apply nth_error_Some. rewrite H. apply nth_error_Some. exact X.
Qed.
Lemma map_at k : (k <= R)%nat -> idx (map r_start l ++ [len T]) (Z.of_nat k) = Ok (if (k <? R)%nat then pos (Bn * k) else len T).
Proof.
  intros H. unfold idx. replace (Z.of_nat k <? 0) with false by lia. rewrite Nat2Z.id.
  destruct (k <? R)%nat eqn:E.
  - apply Nat.ltb_lt in E. rewrite nth_error_app1 by (rewrite map_length; exact E).
    destruct Hrec as [_ Hr]. rewrite Hr. fold os Bn. rewrite pos_some; [reflexivity|apply rec_len; exact E].
  - apply Nat.ltb_ge in E. rewrite nth_error_app2 by (rewrite map_length; exact E).
    rewrite map_length. fold R. replace (k - R)%nat with 0%nat by lia. reflexivity.
Qed.
Definition xinv (x : txt) : Prop :=
  I (t_io x) /\ t_map x = map r_start l ++ [len T] /\ t_blocking x = (if (R <=? 1)%nat then -1 else TXT_BLOCKING) /\ minv (t_memo x) /\
  (t_computed x = None \/ t_computed x = Some (Z.of_nat n)).
Lemma xinv_memo x w m : xinv x -> I w -> minv m -> xinv (set_memo w m x).
Proof. intros (A & B & C & D & E) Hw Hm. split; [exact Hw|]. split; [exact B|]. split; [exact C|]. split; [exact Hm|exact E]. Qed.
Lemma Bn_eq : Z.of_nat Bn = TXT_BLOCKING. Proof. reflexivity. Qed.
Lemma expected_eq p q : 0 <= p <= q ->
  TextSpec.expected T os 0 (fun _ => None) p q =
  if Z.of_nat n <=? p then [] else TextSpec.between T (pos (Z.to_nat p)) (pos (Z.to_nat (q + 1))).
Proof.
  intros H. unfold TextSpec.expected. fold n. rewrite Z.max_l by lia.
  destruct (Z.of_nat n <=? p) eqn:E.
  - replace (Z.min q (0 + Z.of_nat n - 1) <? p) with true by lia. reflexivity.
  - replace (Z.min q (0 + Z.of_nat n - 1) <? p) with false by lia.
    unfold TextSpec.text_start, TextSpec.token_start. rewrite !Z.sub_0_r. unfold pos. f_equal.
    destruct (Z.le_gt_cases q (0 + Z.of_nat n - 1)) as [L|L]; [f_equal; lia|].
    rewrite !nth_overflow by (fold n; lia). reflexivity.
Qed.
Lemma translate_ok p q x : xinv x -> q <= maxf ->
  exists x', translate c cs held skip p q x = Ok (TextSpec.expected T os 0 (fun _ => None) p q, x') /\ xinv x'.
Proof.
  intros Hx Hq. rewrite translate_eq. pose proof n_le as Hn.
  destruct (p =? maxf) eqn:Ep.
  { exists x. split; [|exact Hx]. unfold TextSpec.expected. fold n. 
    replace (Z.min q (0 + Z.of_nat n - 1) <? Z.max p 0) with true by lia. reflexivity. }
  set (q' := if q =? maxf then q - 1 else q). set (p' := if p <? 0 then 0 else p). cbv zeta.
  assert (E : TextSpec.expected T os 0 (fun _ => None) p q = TextSpec.expected T os 0 (fun _ => None) p' q').
  { unfold TextSpec.expected. fold n. replace (Z.max p' 0) with (Z.max p 0) by (unfold p'; destruct (p <? 0) eqn:?; lia).
    replace (Z.min q' (0 + Z.of_nat n - 1)) with (Z.min q (0 + Z.of_nat n - 1)) by (unfold q'; destruct (q =? maxf) eqn:?; lia).
    reflexivity. }
  rewrite E. assert (Hp' : 0 <= p') by (unfold p'; destruct (p <? 0) eqn:?; lia).
  assert (Hq' : q' < maxf) by (unfold q'; destruct (q =? maxf) eqn:?; lia).
  clearbody p' q'. clear E Ep Hq p q. destruct (q' <? p') eqn:Eqp.
  { exists x. split; [|exact Hx]. unfold TextSpec.expected.
    replace (Z.min q' (0 + Z.of_nat (length os) - 1) <? Z.max p' 0) with true by lia. reflexivity. }
  rewrite expected_eq by lia. destruct Hx as (Hw & Hm & Hb & Hmm & Hc).
  assert (Hx : xinv x) by (split; [|split; [|split; [|split]]]; assumption).
  rewrite Hm, Hb. assert (EL : len (map r_start l ++ [len T]) = Z.of_nat R + 1)
    by (unfold len; rewrite app_length, map_length; cbn [length]; unfold R; lia).
  rewrite EL.
  assert (Fin : forall k j, (k < R)%nat -> (Bn * k <= Z.to_nat p')%nat -> (Bn * k <= j)%nat -> (j <= n)%nat ->
     (Z.to_nat p' < n -> Z.to_nat p' < j)%nat ->
     pos (Nat.min (Z.to_nat (q' + 1)) j) = pos (Z.to_nat (q' + 1)) ->
     exists x', finish c cs held skip (pos (Bn * k)) (pos j) (p' - Z.of_nat (Bn * k)) (q' - p' + 1) x =
       Ok (if Z.of_nat n <=? p' then [] else TextSpec.between T (pos (Z.to_nat p')) (pos (Z.to_nat (q' + 1))), x') /\ xinv x').
  { intros k j K1 K2 K3 K4 K5 K6.
    destruct (finish_ok k j (Z.to_nat p' - Bn * k) (Z.to_nat (q' - p' + 1)) x) as (w & m & Ef & Iw & Mm);
      [assumption|assumption|apply rec_len; assumption|assumption|assumption|lia|].
    exists (set_memo w m x). split; [|apply xinv_memo; assumption].
    replace (p' - Z.of_nat (Bn * k)) with (Z.of_nat (Z.to_nat p' - Bn * k)) by lia.
    replace (q' - p' + 1) with (Z.of_nat (Z.to_nat (q' - p' + 1))) by lia. rewrite Ef. do 2 f_equal.
    replace (Bn * k + (Z.to_nat p' - Bn * k))%nat with (Z.to_nat p') by lia.
    replace (Z.to_nat p' + Z.to_nat (q' - p' + 1))%nat with (Z.to_nat (q' + 1)) by lia.
    destruct (Z.of_nat n <=? p') eqn:En.
    - replace (Nat.min (Z.to_nat p') j) with j by lia. replace (Nat.min (Z.to_nat (q' + 1)) j) with j by lia.
      unfold TextSpec.between. replace (pos j - pos j) with 0 by lia. reflexivity.
    - rewrite K6. replace (Nat.min (Z.to_nat p') j) with (Z.to_nat p') by lia. reflexivity. }
  destruct (R <=? 1)%nat eqn:ER.
  - apply Nat.leb_le in ER. replace (-1 =? -1) with true by lia. cbn [bind].
    destruct (Nat.eq_dec R 0) as [R0|R1].
    + rewrite R0. replace (Z.of_nat 0 + 1 - 1 <=? 0) with true by lia. exists x. split; [|exact Hx].
      assert (n = 0)%nat by (destruct (rec_len 0) as [_ H]; destruct n as [|m]; [reflexivity|]; specialize (H ltac:(lia)); lia).
      replace (Z.of_nat n <=? p') with true by lia. reflexivity.
    + assert (RR : R = 1%nat) by lia. replace (Z.of_nat R + 1 - 1 <=? 0) with false by lia.
      change 0 with (Z.of_nat 0) at 1. rewrite map_at by lia. replace (0 <? R)%nat with true by (symmetry; apply Nat.ltb_lt; lia). cbn [bind].
      replace (Z.of_nat R + 1 <=? 1) with false by lia.
      change 1 with (Z.of_nat 1) at 1. rewrite map_at by lia. replace (1 <? R)%nat with false by (symmetry; apply Nat.ltb_ge; lia). cbn [bind].
      replace (p' - 0 * -1) with (p' - Z.of_nat (Bn * 0)) by lia. rewrite <- (pos_over n) by lia.
      apply Fin; try lia. destruct (Nat.le_gt_cases (Z.to_nat (q' + 1)) n) as [L|L]; [f_equal; lia|].
      rewrite (pos_over (Z.to_nat (q' + 1))) by lia. apply pos_over. lia.
  - apply Nat.leb_gt in ER. replace (TXT_BLOCKING =? -1) with false by (unfold TXT_BLOCKING; lia).
    unfold div at 1. replace (TXT_BLOCKING =? 0) with false by (unfold TXT_BLOCKING; lia). cbn [bind].
    rewrite Z.quot_div_nonneg by (unfold TXT_BLOCKING; lia).
    assert (HBn := Bn_eq).
    assert (HB : 0 < TXT_BLOCKING) by (unfold TXT_BLOCKING; lia).
    pose proof (Z.div_pos p' TXT_BLOCKING Hp' HB) as D0.
    pose proof (Z.mul_div_le p' TXT_BLOCKING HB) as D1. pose proof (Z.mul_succ_div_gt p' TXT_BLOCKING HB) as D2.
    set (k := Z.to_nat (p' / TXT_BLOCKING)). assert (Ek : p' / TXT_BLOCKING = Z.of_nat k) by (unfold k; lia).
    rewrite Ek in *. clearbody k.
    destruct (Z.of_nat R + 1 - 1 <=? Z.of_nat k) eqn:Er.
    + exists x. split; [|exact Hx].
      assert (~ (Bn * k < n)%nat) by (rewrite <- rec_len; lia).
      replace (Z.of_nat n <=? p') with true by nia. reflexivity.
    + assert (Kr : (k < R)%nat) by lia. rewrite map_at by lia.
      replace (k <? R)%nat with true by (symmetry; apply Nat.ltb_lt; lia). cbn [bind].
      unfold div. replace (TXT_BLOCKING =? 0) with false by (unfold TXT_BLOCKING; lia). cbn [bind].
      rewrite Z.quot_div_nonneg by (unfold TXT_BLOCKING; lia).
      assert (Hqq : 0 <= q') by lia.
      pose proof (Z.div_pos q' TXT_BLOCKING Hqq HB) as F0.
      pose proof (Z.mul_div_le q' TXT_BLOCKING HB) as F1. pose proof (Z.mul_succ_div_gt q' TXT_BLOCKING HB) as F2.
      pose proof (Z.div_le_mono p' q' TXT_BLOCKING HB ltac:(lia)) as F3. rewrite Ek in F3.
      set (m := Z.to_nat (q' / TXT_BLOCKING)). assert (Em : q' / TXT_BLOCKING = Z.of_nat m) by (unfold m; lia).
      rewrite Em in *. clearbody m.
      assert (Eb : (if Z.of_nat R + 1 <=? Z.of_nat m + 1 then Z.of_nat R + 1 - 1 else Z.of_nat m + 1) = Z.of_nat (Nat.min (m + 1) R)).
      { destruct (Z.of_nat R + 1 <=? Z.of_nat m + 1) eqn:?; lia. }
      rewrite Eb, map_at by lia. cbn [bind].
      replace (p' - Z.of_nat k * TXT_BLOCKING) with (p' - Z.of_nat (Bn * k)) by lia.
      assert (HK : (Bn * k < n)%nat) by (apply rec_len; exact Kr).
      assert (KP : (Bn * k <= Z.to_nat p')%nat) by lia.
      assert (PK : (Z.to_nat p' < Bn * k + Bn)%nat) by lia.
      assert (QM : (Z.to_nat (q' + 1) <= Bn * m + Bn)%nat) by lia.
      assert (KM : (k <= m)%nat) by lia.
      destruct (Nat.min (m + 1) R <? R)%nat eqn:Emr.
      * apply Nat.ltb_lt in Emr. replace (Nat.min (m + 1) R) with (m + 1)%nat by lia.
        assert (Bn * (m + 1) < n)%nat by (apply rec_len; lia).
        assert (Bn * k <= Bn * m)%nat by (apply Nat.mul_le_mono_l; lia).
        apply Fin; try lia. f_equal. lia.
      * apply Nat.ltb_ge in Emr. rewrite <- (pos_over n) by lia.
        apply Fin; try lia. destruct (Nat.le_gt_cases (Z.to_nat (q' + 1)) n) as [L|L]; [f_equal; lia|].
        rewrite (pos_over (Z.to_nat (q' + 1))) by lia. apply pos_over. lia.
Qed.

(** * Counting *)
Lemma tokens_ok x : xinv x -> ~ In 0 T ->
  exists x', tokens c cs held skip split x = Ok (Z.of_nat n, x') /\ xinv x'.
Proof.
  intros Hx H0. unfold tokens. assert (Hx' := Hx). destruct Hx' as (Hw & Hm & Hb & Hmm & [Hc|Hc]); rewrite Hc.
  2: { exists x. split; [reflexivity|exact Hx]. }
  rewrite Hm, Hb. assert (EL : len (map r_start l ++ [len T]) = Z.of_nat R + 1)
    by (unfold len; rewrite app_length, map_length; cbn [length]; unfold R; lia).
  rewrite EL. set (full := if Z.of_nat R + 1 <? 3 then 0 else (if (R <=? 1)%nat then -1 else TXT_BLOCKING) * (Z.of_nat R + 1 - 2)).
  assert (Ef : exists k, full = Z.of_nat (Bn * k) /\ (k = 0 \/ Bn * k < n)%nat).
  { unfold full. destruct (Z.of_nat R + 1 <? 3) eqn:E3; [exists 0%nat; lia|].
    replace (R <=? 1)%nat with false by (symmetry; apply Nat.leb_gt; lia). exists (R - 1)%nat. split; [pose proof Bn_eq; nia|].
    right. apply rec_len. lia. }
  destruct Ef as (k & -> & Hk).
  destruct (translate_ok (Z.of_nat (Bn * k)) maxf x Hx ltac:(lia)) as (x' & Et & Hx'). rewrite Et. cbn [bind].
  assert (Ek : Z.of_nat (Bn * k) + Z.of_nat (length (split (TextSpec.expected T os 0 (fun _ => None) (Z.of_nat (Bn * k)) maxf))) = Z.of_nat n).
  2: { rewrite Ek. eexists. split; [reflexivity|]. destruct Hx' as (A & B & C & D & E).
       split; [exact A|]. split; [exact B|]. split; [exact C|]. split; [exact D|]. right. reflexivity. }
  pose proof n_le as Hn.
  destruct (Z.le_gt_cases (Z.of_nat (Bn * k)) maxf) as [Lk|Lk].
  2: { destruct Hk as [->|Hk]; [unfold maxf in Lk; rewrite Nat.mul_0_r in Lk|]; lia. }
  rewrite expected_eq by lia. destruct (Z.of_nat n <=? Z.of_nat (Bn * k)) eqn:En.
  - assert (Es : starts [] = []).
    { pose proof (TextSpec.law_inside _ _ _ _ laws []) as A. destruct (starts []) as [|y r]; [reflexivity|].
      cbn in A. destruct A as [A1 A2]. apply ascending_le in A2. change (len []) with 0 in A2. lia. }
    rewrite (Hsplit []) by (intros []). rewrite Es. cbn. lia.
  - rewrite Nat2Z.id. rewrite (pos_over (Z.to_nat (maxf + 1))) by lia. rewrite <- (pos_over n) by lia.
    rewrite Hsplit. 2: { unfold TextSpec.between. intros X. apply H0.
      rewrite <- (firstn_skipn (Z.to_nat (pos (Bn * k))) T). apply in_or_app. right.
      rewrite <- (firstn_skipn (Z.to_nat (pos n - pos (Bn * k))) (skipn (Z.to_nat (pos (Bn * k))) T)).
      apply in_or_app. left. exact X. }
    rewrite window by lia. rewrite map_length, firstn_all2 by (rewrite skipn_length; fold n; lia).
    rewrite skipn_length. fold n. lia.
Qed.
Lemma asks_ok la : forall x, xinv x -> (In Tokens la -> ~ In 0 T) -> (forall p q, In (Translate p q) la -> q <= maxf) ->
  asks c cs held skip split la x = Ok (map (answers starts T) la).
Proof.
  induction la as [|a la IH]; intros x Hx H0 Hq; [reflexivity|]. destruct a as [p q|]; cbn [asks map answers].
  - destruct (translate_ok p q x Hx (Hq p q (or_introl eq_refl))) as (x' & E & Hx'). rewrite E. cbn [bind].
    rewrite IH by first [assumption|intros Hin; apply H0; right; assumption|intros p' q' Hin; apply (Hq p' q'); right; assumption]. reflexivity.
  - destruct (tokens_ok x Hx (H0 (or_introl eq_refl))) as (x' & E & Hx'). rewrite E. cbn [bind].
    rewrite IH by first [assumption|intros Hin; apply H0; right; assumption|intros p' q' Hin; apply (Hq p' q'); right; assumption]. reflexivity.
Qed.
Lemma made_ok w : I w -> io_size w = len T ->
  xinv (Txt w (map r_start l ++ [io_size w]) (if (length l <=? 1)%nat then -1 else TXT_BLOCKING) (Memo false 0 0 0) None).
Proof.
  intros Hw Es. rewrite Es. split; [exact Hw|]. split; [reflexivity|]. split; [reflexivity|]. split; [intros H; discriminate H|left; reflexivity].
Qed.
Lemma checked : check_blocking l (-1) (-1) = Some (if (length l <=? 1)%nat then -1 else TXT_BLOCKING).
Proof.
  apply check_all. intros k x Hk. destruct Hrec as [H _]. specialize (H k). rewrite nth_error_map, Hk in H.
  destruct (nth_error (starts T) (Z.to_nat TXT_BLOCKING * k)); cbn [option_map] in H; congruence.
Qed.
End Reading.
