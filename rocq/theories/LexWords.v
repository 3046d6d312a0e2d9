(** Without markup the tokens are the longest runs of letters and digits. *)
From Verif Require Import Base Bytes TokenModel TokenSpec TokenProofs LexProofs.

Lemma run_of_in f s i c : (i < run_of f s)%nat -> nth_error s i = Some c -> f c = true.
Proof.
  revert i. induction s as [|d r IH]; intros i Hi E; cbn in Hi; [lia|].
  destruct (f d) eqn:Ed; [|lia]. destruct i as [|i]; cbn in E; [congruence|]. apply (IH i); [lia|exact E].
Qed.
Lemma run_of_end f s c : nth_error s (run_of f s) = Some c -> f c = false.
Proof.
  induction s as [|d r IH]; cbn; [discriminate|]. destruct (f d) eqn:Ed; cbn; [exact IH|]. intros [= <-]. exact Ed.
Qed.
Lemma at_pre (pre s : bytes) i c : Z.of_nat (length pre) <= i -> (byte_at (pre ++ s) i c <-> nth_error s (Z.to_nat (i - Z.of_nat (length pre))) = Some c).
Proof.
  intros H. unfold byte_at. rewrite nth_error_app2 by lia. replace (Z.to_nat i - length pre)%nat with (Z.to_nat (i - Z.of_nat (length pre))) by lia.
  split; [tauto|]. intros K. split; [lia|exact K].
Qed.
Lemma at_some (s : bytes) i : 0 <= i < Z.of_nat (length s) -> exists c, byte_at s i c.
Proof.
  intros H. destruct (nth_error s (Z.to_nat i)) as [c|] eqn:E; [exists c; split; [lia|exact E]|].
  apply nth_error_None in E. lia.
Qed.
Lemma at_bound (s : bytes) i c : byte_at s i c -> 0 <= i < Z.of_nat (length s).
Proof. intros [H E]. assert (K : nth_error s (Z.to_nat i) <> None) by congruence. apply nth_error_Some in K. lia. Qed.
Lemma at_fun (s : bytes) i c d : byte_at s i c -> byte_at s i d -> c = d.
Proof. intros [_ A] [_ B]. congruence. Qed.

Definition boundary (pre s : bytes) : Prop :=
  forall c d, byte_at (pre ++ s) (Z.of_nat (length pre) - 1) c -> byte_at (pre ++ s) (Z.of_nat (length pre)) d ->
    alphanumeric c = false \/ alphanumeric d = false.
Lemma lex_words : forall n pre s, (length s <= n)%nat -> boundary pre s -> forall o m t,
  In (Word o m t) (lex false s 0 (Z.of_nat (length pre))) <->
  (is_word (pre ++ s) o m /\ Z.of_nat (length pre) <= o /\ t = term_of (slice (pre ++ s) o m)).
Proof.
  induction n as [|n IH]; intros pre s Hn Hb o m t.
  { destruct s; [|cbn in Hn; lia]. cbn. split; [intros []|]. intros ((A & B & C & _) & D & _). rewrite app_nil_r in C. lia. }
  destruct s as [|c r].
  { cbn. split; [intros []|]. intros ((A & B & C & _) & D & _). rewrite app_nil_r in C. lia. }
  set (P := Z.of_nat (length pre)) in *. cbn [length] in Hn.
  assert (Hc : byte_at (pre ++ c :: r) P c). { apply at_pre; [lia|]. subst P. rewrite Z.sub_diag. reflexivity. }
  cbn [lex]. destruct (alphanumeric c) eqn:Ec.
  - set (k := run_of alphanumeric r). pose proof (run_of_le alphanumeric r) as Lk. fold k in Lk.
    rewrite lex_skipn by lia. replace (S k - 1)%nat with k by lia.
    replace (P + 1 + Z.of_nat k) with (Z.of_nat (length (pre ++ firstn (S k) (c :: r)))) by (rewrite app_length, firstn_length; cbn [length]; lia).
    assert (E : pre ++ c :: r = (pre ++ firstn (S k) (c :: r)) ++ skipn k r).
    { rewrite <- app_assoc. f_equal. symmetry. exact (firstn_skipn (S k) (c :: r)). }
    assert (Run : forall i d, P <= i < P + Z.of_nat (S k) -> byte_at (pre ++ c :: r) i d -> alphanumeric d = true).
    { intros i d Hi Hd. apply (run_of_in alphanumeric (c :: r) (Z.to_nat (i - P))); [cbn [run_of]; rewrite Ec; fold k; lia|].
      apply at_pre in Hd; [exact Hd|lia]. }
    assert (End : forall d, byte_at (pre ++ c :: r) (P + Z.of_nat (S k)) d -> alphanumeric d = false).
    { intros d Hd. apply at_pre in Hd; [|lia]. apply (run_of_end alphanumeric (c :: r)). cbn [run_of]. rewrite Ec. fold k.
      rewrite <- Hd. f_equal. lia. }
    assert (Bd : boundary (pre ++ firstn (S k) (c :: r)) (skipn k r)).
    { unfold boundary. rewrite <- E. rewrite app_length, firstn_length. cbn [length].
      intros a d Ha Hd. right. apply End.
      replace (P + Z.of_nat (S k)) with (Z.of_nat (length pre + Nat.min (S k) (S (length r)))) by lia. exact Hd. }
    specialize (IH (pre ++ firstn (S k) (c :: r)) (skipn k r) ltac:(rewrite skipn_length; lia) Bd o m t).
    rewrite <- E in IH. rewrite app_length, firstn_length in IH. cbn [length] in IH.
    cbn [In]. rewrite app_length, firstn_length. cbn [length]. rewrite IH. clear IH. fold P.
    assert (W0 : is_word (pre ++ c :: r) P (Z.of_nat (S k))).
    { split; [lia|]. split; [lia|]. split; [rewrite app_length; cbn [length]; lia|]. split; [exact Run|]. split; [|exact End].
      intros d Hd. destruct (Hb d c Hd Hc) as [K|K]; [exact K|congruence]. }
    assert (T0 : slice (pre ++ c :: r) P (Z.of_nat (S k)) = firstn (S k) (c :: r)).
    { unfold slice. rewrite Nat2Z.id. subst P. rewrite Nat2Z.id. rewrite skipn_app, skipn_all, Nat.sub_diag. reflexivity. }
    split.
    + intros [W|(A & B & C)].
      * injection W as <- <- <-. split; [exact W0|]. split; [lia|]. exact (eq_sym (f_equal term_of T0)).
      * split; [exact A|]. split; [lia|exact C].
    + intros (A & B & C). destruct (Z.eq_dec o P) as [->|No].
      * left. assert (m = Z.of_nat (S k)) as ->.
        { destruct A as (A1 & A2 & A3 & A4 & A5 & A6). destruct W0 as (_ & _ & W3 & W4 & _ & W6).
          destruct (Z.lt_trichotomy m (Z.of_nat (S k))) as [L|[->|L]]; [|reflexivity|].
          - destruct (at_some (pre ++ c :: r) (P + m)) as [d Hd]; [lia|]. specialize (A6 d Hd). change (alphanumeric d = false) in A6. rewrite (Run (P + m) d) in A6; [discriminate|lia|exact Hd].
          - destruct (at_some (pre ++ c :: r) (P + Z.of_nat (S k))) as [d Hd]; [lia|]. specialize (End d Hd). change (letter_or_digit d = false) in End.
            rewrite (A4 (P + Z.of_nat (S k)) d ltac:(lia) Hd) in End. discriminate. }
        rewrite C. f_equal. exact (eq_sym (f_equal term_of T0)).
      * right. split; [exact A|]. split; [|exact C]. destruct (Z_le_gt_dec (P + Z.of_nat (S k)) o) as [K|K]; [lia|]. exfalso.
        destruct A as (A1 & A2 & A3 & A4 & A5 & A6).
        destruct (at_some (pre ++ c :: r) (o - 1)) as [d Hd]; [lia|]. specialize (A5 d Hd). change (alphanumeric d = false) in A5.
        rewrite (Run (o - 1) d) in A5; [discriminate|lia|exact Hd].
  - cbn [andb].
    replace (P + 1) with (Z.of_nat (length (pre ++ [c]))) by (rewrite app_length; cbn; lia).
    assert (E : pre ++ c :: r = (pre ++ [c]) ++ r) by (rewrite <- app_assoc; reflexivity).
    assert (Bd : boundary (pre ++ [c]) r).
    { unfold boundary. rewrite <- E, app_length. cbn [length]. intros a d Ha Hd. left.
      replace (Z.of_nat (length pre + 1) - 1) with P in Ha by lia. rewrite (at_fun _ _ _ _ Ha Hc). exact Ec. }
    rewrite (IH (pre ++ [c]) r ltac:(lia) Bd o m t). rewrite <- E, app_length. cbn [length]. fold P. split.
    + intros (A & B & C). split; [exact A|]. split; [lia|exact C].
    + intros (A & B & C). split; [exact A|]. split; [|exact C]. destruct (Z.eq_dec o P) as [->|]; [|lia]. exfalso.
      destruct A as (_ & A2 & _ & A4 & _). change (letter_or_digit c = false) in Ec. rewrite (A4 P c ltac:(lia) Hc) in Ec. discriminate.
Qed.

(** Features. *)
Lemma alnum_lower c : alphanumeric c = true -> tolower c = lower_char c.
Proof.
  intros H. unfold lower_char. assert (B : 48 <= c <= 122) by (unfold alphanumeric, alphabetic in H; lia).
  assert (K : forall n, (n <= 74)%nat -> let c := 48 + Z.of_nat n in alphanumeric c = true -> tolower c = if isupper c then c + 32 else c).
  { intros n Hn. do 75 (destruct n as [|n]; [vm_compute; (reflexivity || discriminate)|]). lia. }
  specialize (K (Z.to_nat (c - 48)) ltac:(lia)). cbv zeta in K. replace (48 + Z.of_nat (Z.to_nat (c - 48))) with c in K by lia. exact (K H).
Qed.
Lemma uppers_0 w : (uppers w = 0)%nat -> Forall (fun c => isupper c = false) (tl w).
Proof.
  unfold uppers. induction (tl w) as [|c r IH]; cbn; [constructor|]. destruct (isupper c) eqn:E; cbn; [lia|]. intros H. constructor; auto.
Qed.
Lemma uppers_mixed w : (0 < uppers w)%nat <-> mixed_case w.
Proof.
  unfold uppers, mixed_case. split.
  - intros H. destruct (filter isupper (tl w)) as [|c r] eqn:E; [cbn in H; lia|]. exists c.
    assert (K : In c (filter isupper (tl w))) by (rewrite E; left; reflexivity). apply filter_In in K. exact K.
  - intros (c & Hc & Hu). assert (K : In c (filter isupper (tl w))) by (apply filter_In; auto).
    destruct (filter isupper (tl w)); [contradiction|cbn; lia].
Qed.
Lemma map_lower w : Forall (fun c => alphanumeric c = true) w -> map tolower w = map lower_char w.
Proof. intros H. apply map_ext_in. intros c Hc. rewrite Forall_forall in H. apply alnum_lower, H, Hc. Qed.
Lemma low_tail w : Forall (fun c => capital c = false) w -> map lower_char w = w.
Proof. induction 1 as [|c r H _ IH]; cbn; [reflexivity|]. unfold lower_char at 1. rewrite H, IH. reflexivity. Qed.
Lemma run_word r : Forall (fun c => alphanumeric c = true) (firstn (run_of alphanumeric r) r).
Proof. induction r as [|c r IH]; cbn; [constructor|]. destruct (alphanumeric c) eqn:E; cbn; constructor; auto. Qed.
(** Exactly the features reported for each word. *)
Lemma tokenize_features featurize s : forall pre k a f b o m,
  In (Token f b o m) (tokenize_from featurize false s k (Z.of_nat (length pre)) a) <->
  exists i w, nth_error (lex false s k (Z.of_nat (length pre))) i = Some w /\ b = a + Z.of_nat i /\ o = w_offset w /\ m = w_length w /\
    word_feature featurize (pre ++ s) w f.
Proof.
  induction s as [|c r IH]; intros pre k a f b o m.
  { cbn. split; [intros []|]. intros (i & w & H & _). destruct i; discriminate. }
  set (P := Z.of_nat (length pre)).
  assert (E : pre ++ c :: r = (pre ++ [c]) ++ r) by (rewrite <- app_assoc; reflexivity).
  assert (L : P + 1 = Z.of_nat (length (pre ++ [c]))) by (rewrite app_length; cbn; lia).
  cbn [tokenize_from lex]. destruct k as [|k]; [|rewrite L, E; apply IH].
  destruct (alphanumeric c) eqn:Ec; cbn [andb]; [|rewrite L, E; apply IH].
  set (n := S (run_of alphanumeric r)).
  rewrite in_app_iff, L, IH, <- E.
  assert (T0 : slice (pre ++ c :: r) P (Z.of_nat n) = firstn n (c :: r)).
  { unfold slice, P. rewrite !Nat2Z.id. rewrite skipn_app, skipn_all, Nat.sub_diag. reflexivity. }
  assert (F0 : (In (Token f b o m)
     (if (0 <? uppers (firstn n (c :: r)))%nat
      then [Token (featurize (firstn n (c :: r))) a P (Z.of_nat n); Token (featurize (map tolower (firstn n (c :: r)))) a P (Z.of_nat n)]
      else [Token (featurize (tolower c :: tl (firstn n (c :: r)))) a P (Z.of_nat n)])) <->
     (b = a /\ o = P /\ m = Z.of_nat n /\ word_feature featurize (pre ++ c :: r) (Word P (Z.of_nat n) (term_of (firstn n (c :: r)))) f)).
  { unfold word_feature. cbn [w_offset w_length]. rewrite T0.
    assert (A : Forall (fun c => alphanumeric c = true) (firstn n (c :: r))) by (cbn; constructor; [exact Ec|apply run_word]).
    destruct (Nat.ltb_spec 0 (uppers (firstn n (c :: r)))) as [U|U].
    - rewrite (map_lower _ A). apply uppers_mixed in U. cbn [In]. split.
      + intros [K|[K|[]]]; injection K as <- <- <- <-; (split; [reflexivity|]); (split; [reflexivity|]); (split; [reflexivity|]);
          [right; split; [exact U|reflexivity]|left; reflexivity].
      + intros (-> & -> & -> & [->|[_ ->]]); auto.
    - assert (N : ~ mixed_case (firstn n (c :: r))) by (intros K; apply uppers_mixed in K; lia).
      assert (Q : tolower c :: tl (firstn n (c :: r)) = map lower_char (firstn n (c :: r))).
      { cbn [firstn n tl map]. subst n. cbn [firstn map tl]. rewrite (alnum_lower c Ec). f_equal. symmetry. apply low_tail.
        apply (uppers_0 (firstn (S (run_of alphanumeric r)) (c :: r))). lia. }
      rewrite Q. cbn [In]. split.
      + intros [K|[]]; injection K as <- <- <- <-; (split; [reflexivity|]); (split; [reflexivity|]); (split; [reflexivity|]); left; reflexivity.
      + intros (-> & -> & -> & [->|[K _]]); [auto|contradiction]. }
  rewrite F0. clear F0. split.
  - intros [(-> & -> & -> & W)|(i & w & H & -> & -> & -> & W)].
    + exists 0%nat, (Word P (Z.of_nat n) (term_of (firstn n (c :: r)))). cbn [nth_error w_offset w_length].
      split; [reflexivity|]. split; [lia|]. auto.
    + exists (S i), w. split; [exact H|]. split; [lia|]. auto.
  - intros (i & w & H & -> & -> & -> & W). destruct i as [|i].
    + left. cbn in H. injection H as <-. cbn [w_offset w_length]. split; [lia|]. auto.
    + right. exists i, w. split; [exact H|]. split; [lia|]. auto.
Qed.

(** C26, without markup. *)
Theorem ascii_words : forall featurize s, exists ws,
  laid_out 0 ws (Z.of_nat (length s)) /\
  (forall o m, (exists t, In (Word o m t) ws) <-> is_word s o m) /\
  (forall f a o m, In (Token f a o m) (tokenize featurize false s) <->
     exists w, 0 <= a /\ nth_error ws (Z.to_nat a) = Some w /\ o = w_offset w /\ m = w_length w /\ word_feature featurize s w f) /\
  (forall n, skip false s n = match nth_error ws (Z.to_nat n) with Some w => w_offset w | None => Z.of_nat (length s) end).
Proof.
  intros featurize s. exists (lex false s 0 0). split; [exact (lex_layout false s 0 0 ltac:(lia))|]. split; [|split].
  - intros o m. pose proof (lex_words (length s) [] s (le_n _)) as K. cbn [length app Z.of_nat] in K.
    assert (B : boundary [] s). { intros c d [H _] _. cbn in H. lia. }
    split.
    + intros [t Ht]. apply (K B) in Ht. apply Ht.
    + intros W. exists (term_of (slice s o m)). apply (K B). split; [exact W|]. split; [apply W|reflexivity].
  - intros f a o m. unfold tokenize. rewrite (tokenize_features featurize s [] 0 0 f a o m). cbn [length app Z.of_nat]. split.
    + intros (i & w & H & -> & R). exists w. split; [lia|]. replace (Z.to_nat (0 + Z.of_nat i)) with i by lia. auto.
    + intros (w & A & H & R). exists (Z.to_nat a), w. split; [exact H|]. split; [lia|exact R].
  - intros n. apply skip_from_lex.
Qed.
