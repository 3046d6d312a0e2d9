(** The scanner and parser of the infix language read what InfixSpec writes. *)
From Verif Require Import Base Bytes QueryModel ParseProofs InfixModel InfixSpec.

(** ** The scanner *)
(** The scanner shows [t], and [w] is the text that follows. *)
Definition shows (t : itok) (s : scan_state) (w : bytes) : Prop :=
  match t with
  | Kw x => tok s = x /\ is_int s = false /\ is_id s = true /\ rest s = w
  | Kn ds => tok s = ds /\ is_int s = true /\ is_id s = false /\ as_int s = number ds /\ rest s = w
  | Kp x => tok s = x /\ is_int s = false /\ is_id s = false /\ rest s = w
  | Ks c => tok s = [c] /\ is_int s = false /\ is_id s = false /\ rest s = w
  | Kq b => tok s = [34] /\ is_int s = false /\ is_id s = false /\ rest s = b ++ 34 :: w
  end.
Inductive at_ : list itok -> scan_state -> Prop :=
| at_nil s : tok s = [] -> is_int s = false -> is_id s = false -> rest s = [] -> at_ [] s
| at_tok t ts s w : tok_ok t -> shows t s w -> at_ ts (scan w) -> at_ (t :: ts) s.

Lemma number_ok ds : forallb is_digit ds = true -> scan_int ds = number ds.
Proof.
  unfold scan_int, number, dec_val.
  assert (forall ds v, forallb is_digit ds = true -> 0 <= v <= max_unsigned -> (v <= 4294967289 \/ v = max_unsigned) ->
    let w := fold_left (fun v c => 10 * v + (c - 48)) ds v in
    v <= w /\ fold_left (fun v c => if v <=? max_cvf then 10 * v + (c - 48) else max_unsigned) ds v =
              if w <=? 4294967289 then w else max_unsigned) as G.
  { clear ds. induction ds as [|c ds IH]; intros v D B K; cbn [fold_left].
    - split; [lia|]. unfold max_unsigned in *. destruct (Z.leb_spec v 4294967289); lia.
    - cbn [forallb] in D. apply andb_prop in D. destruct D as [D1 D2]. unfold is_digit in D1.
      assert (max_cvf = 429496728) as M by reflexivity. rewrite M.
      destruct (Z.leb_spec v 429496728) as [L|L].
      + destruct (IH (10 * v + (c - 48)) D2) as [I1 I2]; [unfold max_unsigned; lia|lia|]. split; [lia|rewrite M in I2; exact I2].
      + destruct (IH max_unsigned D2) as [I1 I2]; [unfold max_unsigned; lia|auto|].
        assert (forall ds a b, a <= b -> fold_left (fun v c => 10 * v + (c - 48)) ds a <= fold_left (fun v c => 10 * v + (c - 48)) ds b) as Mo.
        { clear. induction ds as [|d ds IH]; intros a b H; cbn [fold_left]; [exact H|]. apply IH. lia. }
        assert (forall ds a, forallb is_digit ds = true -> 0 <= a -> a <= fold_left (fun v c => 10 * v + (c - 48)) ds a) as Ge.
        { clear. induction ds as [|d ds IH]; intros a D H; cbn [fold_left]; [lia|]. cbn [forallb] in D. apply andb_prop in D.
          destruct D as [D1 D2]. unfold is_digit in D1. specialize (IH (10 * a + (d - 48)) D2 ltac:(lia)). lia. }
        pose proof (Ge ds (10 * v + (c - 48)) D2 ltac:(lia)). split; [lia|].
        rewrite M in I2. rewrite I2. destruct (Z.leb_spec (fold_left (fun v c => 10 * v + (c - 48)) ds max_unsigned) 4294967289);
          [unfold max_unsigned in *; lia|].
        replace (_ <=? 4294967289) with false by lia. reflexivity. }
  intros D. destruct (G ds 0 D ltac:(unfold max_unsigned; lia) ltac:(lia)) as [_ G']. exact G'.
Qed.

Lemma span_nil f w : f (peek w) = false -> span f w = ([], w).
Proof. destruct w as [|c w]; [reflexivity|]. cbn. intros ->. reflexivity. Qed.
Lemma span_blanks b w : forallb is_space b = true -> snd (span is_space (b ++ w)) = snd (span is_space w).
Proof.
  induction b as [|c b IH]; intros H; [reflexivity|]. cbn [forallb] in H. apply andb_prop in H. destruct H as [H1 H2].
  cbn [app span]. rewrite H1. destruct (span is_space (b ++ w)) eqn:E. cbn [snd] in *. apply IH, H2.
Qed.
Lemma scan_blanks b w : forallb is_space b = true -> scan (b ++ w) = scan w.
Proof. intros H. unfold scan. rewrite span_blanks by exact H. reflexivity. Qed.
Lemma scan_skip w : is_space (peek w) = false -> snd (span is_space w) = w.
Proof. intros H. rewrite span_nil by exact H. reflexivity. Qed.
Lemma peek_app a w : a <> [] -> peek (a ++ w) = peek a.
Proof. destruct a; [congruence|reflexivity]. Qed.
Lemma stops_span f a r : forallb f a = true -> f (peek r) = false -> span f (a ++ r) = (a, r).
Proof. intros. apply span_stop; auto. Qed.
Lemma class_digit c : is_digit c = true -> is_space c = false /\ is_alpha c = false /\ is_multi c = false /\ c <> 34 /\ c <> 0.
Proof. unfold is_digit, is_space, is_alpha, is_multi. lia. Qed.
Lemma class_alpha c : is_alpha c = true -> is_space c = false /\ is_digit c = false /\ is_multi c = false /\ c <> 34 /\ c <> 0.
Proof. unfold is_digit, is_space, is_alpha, is_multi. lia. Qed.
Lemma class_multi c : is_multi c = true -> is_space c = false /\ is_digit c = false /\ is_alpha c = false /\ c <> 34 /\ c <> 0.
Proof. unfold is_digit, is_space, is_alpha, is_multi. lia. Qed.
Lemma forallb_peek f (a : bytes) : a <> [] -> forallb f a = true -> f (peek a) = true.
Proof. destruct a as [|c a]; [congruence|]. cbn [forallb peek]. intros _ H. apply andb_prop in H. tauto. Qed.

Lemma scan_shows t s : tok_ok t -> ends t s -> shows t (scan (written t ++ s)) s.
Proof.
  destruct t as [w|ds|w|c|b]; cbn [tok_ok ends written shows].
  - intros [H1 H2] H3. assert (w <> []) as N by (destruct w; [discriminate|congruence]).
    pose proof (class_alpha _ H1) as (K1 & K2 & _). unfold scan.
    rewrite scan_skip by (rewrite peek_app; assumption). rewrite peek_app by exact N. rewrite K2, H1.
    rewrite stops_span by assumption. auto.
  - intros [H1 H2] H3. pose proof (class_digit _ (forallb_peek _ _ H1 H2)) as (K1 & K2 & _). unfold scan.
    rewrite scan_skip by (rewrite peek_app; assumption). rewrite peek_app by exact H1. rewrite (forallb_peek _ _ H1 H2).
    rewrite stops_span by assumption. cbn. rewrite number_ok by exact H2. auto.
  - intros [H1 H2] H3. pose proof (class_multi _ (forallb_peek _ _ H1 H2)) as (K1 & K2 & K3 & _). unfold scan.
    rewrite scan_skip by (rewrite peek_app; assumption). rewrite peek_app by exact H1. rewrite K2, K3, (forallb_peek _ _ H1 H2).
    rewrite stops_span by assumption. auto.
  - intros (K1 & K2 & K3 & K4 & _) _. unfold scan. rewrite scan_skip by exact K1. cbn [app peek]. rewrite K2, K3, K4. auto.
  - intros _ _. unfold scan. rewrite scan_skip by reflexivity. cbn [app peek]. change (is_digit 34) with false.
    change (is_alpha 34) with false. change (is_multi 34) with false. cbn [tok is_int is_id rest].
    rewrite <- app_assoc. auto.
Qed.
Lemma at_scan ts s : lexes ts s -> at_ ts (scan s).
Proof.
  induction 1 as [b Hb|b t ts s Hb Ht He Hs IH].
  - rewrite <- (app_nil_r b), scan_blanks by exact Hb. constructor; reflexivity.
  - rewrite scan_blanks by exact Hb. econstructor; [exact Ht|apply scan_shows; assumption|exact IH].
Qed.

(** Every state is one the scanner makes. *)
Definition scanned (s : scan_state) : Prop := exists w, s = scan w.
Lemma scanned_next s : scanned (next s). Proof. eexists. reflexivity. Qed.
Lemma scanned_scan w : scanned (scan w). Proof. eexists. reflexivity. Qed.
#[local] Hint Resolve scanned_next scanned_scan : core.

Lemma span_split f w : let (a, r) := span f w in w = a ++ r /\ forallb f a = true /\ (r = [] \/ f (peek r) = false).
Proof.
  induction w as [|c w IH]; cbn [span]; [auto|]. destruct (f c) eqn:E; [|cbn; auto].
  destruct (span f w) as [a r]. destruct IH as (-> & H1 & H2). cbn [app forallb]. rewrite E. auto.
Qed.
(** What the scanner may show. *)
Lemma scan_cases w : exists b, forallb is_space b = true /\
  ((w = b /\ scan w = Sc [] false false 0 []) \/
   (exists t r, w = b ++ written t ++ r /\ tok_ok t /\ (match t with Kq _ => False | _ => True end) /\ ends t r /\ shows t (scan w) r) \/
   (exists r, w = b ++ 34 :: r /\ scan w = Sc [34] false false 0 r) \/
   (exists r, w = b ++ 0 :: r /\ scan w = Sc [0] false false 0 r)).
Proof.
  pose proof (span_split is_space w) as S. destruct (span is_space w) as [b v] eqn:E. destruct S as (-> & H1 & H2).
  exists b. split; [exact H1|]. rewrite scan_blanks by exact H1.
  destruct v as [|c v]; [left; rewrite app_nil_r; auto|]. right.
  destruct H2 as [H2|H2]; [discriminate|]. cbn [peek] in H2.
  destruct (is_digit c) eqn:D; [|destruct (is_alpha c) eqn:A; [|destruct (is_multi c) eqn:M]].
  - left. pose proof (span_split is_digit (c :: v)) as S. destruct (span is_digit (c :: v)) as [a r]. destruct S as (S1 & S2 & S3).
    assert (a <> []) as N. { intros ->. cbn [app] in S1. subst r. cbn [peek] in S3. destruct S3; congruence. }
    exists (Kn a), r. rewrite S1.
    assert (ends (Kn a) r) as Er by (cbn [ends]; destruct S3 as [->|S3]; [reflexivity|exact S3]).
    split; [reflexivity|]. split; [split; assumption|]. split; [exact I|]. split; [exact Er|].
    apply (scan_shows (Kn a)); [split; assumption|exact Er].
  - left. pose proof (span_split is_alnum (c :: v)) as S. destruct (span is_alnum (c :: v)) as [a r]. destruct S as (S1 & S2 & S3).
    assert (exists a', a = c :: a') as [a' ->].
    { destruct a as [|d a']; [|injection S1 as <- _; eauto]. cbn [app] in S1. subst r. cbn [peek] in S3.
      unfold is_alnum in S3. rewrite A in S3. destruct S3; discriminate. }
    exists (Kw (c :: a')), r. rewrite S1.
    assert (ends (Kw (c :: a')) r) as Er by (cbn [ends]; destruct S3 as [->|S3]; [reflexivity|exact S3]).
    split; [reflexivity|]. split; [split; assumption|]. split; [exact I|]. split; [exact Er|].
    apply (scan_shows (Kw (c :: a'))); [split; assumption|exact Er].
  - left. pose proof (span_split is_multi (c :: v)) as S. destruct (span is_multi (c :: v)) as [a r]. destruct S as (S1 & S2 & S3).
    assert (a <> []) as N. { intros ->. cbn [app] in S1. subst r. cbn [peek] in S3. destruct S3; congruence. }
    exists (Kp a), r. rewrite S1.
    assert (ends (Kp a) r) as Er by (cbn [ends]; destruct S3 as [->|S3]; [reflexivity|exact S3]).
    split; [reflexivity|]. split; [split; assumption|]. split; [exact I|]. split; [exact Er|].
    apply (scan_shows (Kp a)); [split; assumption|exact Er].
  - destruct (Z.eq_dec c 34) as [->|N1]; [|destruct (Z.eq_dec c 0) as [->|N2]].
    + right. left. exists v. auto.
    + right. right. exists v. auto.
    + left. exists (Ks c), v. split; [reflexivity|].
      assert (tok_ok (Ks c)) as K by (cbn; auto 10). split; [exact K|]. split; [exact I|]. split; [exact I|].
      apply (scan_shows (Ks c)); [exact K|exact I].
Qed.

Lemma multi_single x c : forallb is_multi x = true -> x = [c] -> is_multi c = false -> False.
Proof. intros H -> N. cbn in H. rewrite andb_true_r in H. congruence. Qed.
Lemma shows_same t t' s w r : tok_ok t -> shows t s w -> tok_ok t' -> (match t' with Kq _ => False | _ => True end) -> shows t' s r ->
  t = t' /\ w = r.
Proof.
  intros K S K' Q S'.
  destruct t as [x|x|x|c|x], t' as [y|y|y|d|y]; try destruct Q; cbn [shows] in *.
  all: destruct S as (S1 & S2 & S3 & S4), S' as (S1' & S2' & S3' & S4').
  all: try (exfalso; congruence).
  all: try (split; congruence).
  - split; [congruence|]. destruct S4, S4'. congruence.
  - exfalso. destruct K as [_ K]. eapply multi_single; [exact K| |apply K']. congruence.
  - exfalso. destruct K' as [_ K']. eapply multi_single; [exact K'| |apply K]. congruence.
  - exfalso. destruct K' as [_ K']. eapply multi_single; [exact K'| |exact (eq_refl : is_multi 34 = false)]. congruence.
  - exfalso. destruct K' as (_ & _ & _ & _ & K' & _). congruence.
Qed.

Definition no_nul (s : bytes) : Prop := ~ In 0 s.
Lemma lexes_at : forall ts s, no_nul s -> at_ ts (scan s) -> lexes ts s.
Proof.
  unfold no_nul. induction ts as [|t ts IH]; intros s N H; inversion H as [? T1 T2 T3 T4|? ? ? w K S A]; subst.
  - destruct (scan_cases s) as (b & Hb & [[-> _]|[(t & r & E & Kt & Q & He & Hs)|[(r & E & X)|(r & E & X)]]]).
    + constructor. exact Hb.
    + exfalso. destruct t as [x|x|x|c|x]; cbn [shows tok_ok] in *; destruct Hs as [Hs _]; rewrite T1 in Hs; subst.
      * destruct Kt as [Kt _]. discriminate.
      * destruct Kt as [Kt _]. congruence.
      * destruct Kt as [Kt _]. congruence.
      * discriminate.
      * destruct Q.
    + rewrite X in T1. discriminate.
    + rewrite X in T1. discriminate.
  - destruct (scan_cases s) as (b & Hb & [[-> X]|[(t' & r & E & Kt & Q & He & Hs)|[(r & E & X)|(r & E & X)]]]).
    + exfalso. rewrite X in S. destruct t as [x|x|x|c|x]; cbn [shows tok_ok tok is_int is_id rest] in *.
      * destruct S as (_ & _ & S & _). discriminate.
      * destruct S as (_ & S & _). discriminate.
      * destruct S as (S & _). destruct K. congruence.
      * destruct S as (S & _). discriminate.
      * destruct S as (S & _). discriminate.
    + assert (t = t' /\ w = r) as [<- <-].
      { eapply shows_same; eassumption. }
      rewrite E in *. constructor; [exact Hb|exact K|exact He|]. apply IH; [|exact A].
      intros Z. apply N. rewrite !in_app_iff. auto.
    + rewrite X in S. destruct t as [x|x|x|c|x]; cbn [shows tok_ok tok is_int is_id rest] in *.
      * destruct S as (_ & _ & S & _). discriminate.
      * destruct S as (_ & S & _). discriminate.
      * destruct S as (S & _). subst x. destruct K as [_ K]. discriminate.
      * destruct S as (S & _). injection S as <-. tauto.
      * destruct S as (_ & _ & _ & ->). rewrite E in *.
        replace (b ++ 34 :: x ++ 34 :: w) with (b ++ written (Kq x) ++ w) in * by (cbn [written app]; rewrite <- app_assoc; reflexivity).
        constructor; [exact Hb|exact K|exact I|]. apply IH; [|exact A]. intros Z. apply N. rewrite !in_app_iff. auto.
    + exfalso. apply N. rewrite E, in_app_iff. right. left. reflexivity.
Qed.

(** Sizes. *)
Definition sz (s : scan_state) : nat := length (tok s) + length (rest s).
Lemma sz_scan w : (sz (scan w) <= length w)%nat.
Proof.
  destruct (scan_cases w) as (b & Hb & [[-> X]|[(t & r & E & Kt & Q & He & Hs)|[(r & E & X)|(r & E & X)]]]).
  - rewrite X. cbn. lia.
  - rewrite E at 2. unfold sz. rewrite !app_length.
    destruct t; cbn [shows written] in *; try destruct Q; repeat match goal with H : _ /\ _ |- _ => destruct H end;
      repeat match goal with H : tok _ = _ |- _ => rewrite H end;
      repeat match goal with H : rest _ = _ |- _ => rewrite H end; lia.
  - rewrite X, E, app_length. cbn. lia.
  - rewrite X, E, app_length. cbn. lia.
Qed.
Lemma sz_shows t s w : tok_ok t -> shows t s w -> (sz (scan w) < sz s)%nat.
Proof.
  intros K H. pose proof (sz_scan w) as L. unfold sz at 2.
  destruct t as [x|x|x|c|x]; cbn [shows tok_ok] in *; repeat match goal with H : _ /\ _ |- _ => destruct H end;
      repeat match goal with H : tok _ = _ |- _ => rewrite H end;
      repeat match goal with H : rest _ = _ |- _ => rewrite H end.
  - destruct x; [discriminate|cbn; lia].
  - destruct x; [congruence|cbn; lia].
  - destruct x; [congruence|cbn; lia].
  - cbn; lia.
  - rewrite app_length. cbn. lia.
Qed.
Lemma sz_next s : tok s <> [] -> (sz (next s) < sz s)%nat.
Proof.
  intros H. unfold next. pose proof (sz_scan (rest s)). unfold sz at 2. destruct (tok s); [congruence|]. cbn. lia.
Qed.
Lemma look_eq s t : look s t = true <-> tok s = t. Proof. apply eqb_bytes_eq. Qed.
Lemma scanned_int s : scanned s -> is_int s = true -> tok s <> [].
Proof.
  intros [w ->] H. destruct (scan_cases w) as (b & Hb & [[-> X]|[(t & r & E & Kt & Q & He & Hs)|[(r & E & X)|(r & E & X)]]]);
    try (rewrite X in H; discriminate).
  destruct t as [x|x|x|c|x]; cbn [shows tok_ok] in *; repeat match goal with H : _ /\ _ |- _ => destruct H end; congruence || contradiction.
Qed.
Lemma scanned_id s : scanned s -> is_id s = true -> tok s <> [].
Proof.
  intros [w ->] H. destruct (scan_cases w) as (b & Hb & [[-> X]|[(t & r & E & Kt & Q & He & Hs)|[(r & E & X)|(r & E & X)]]]);
    try (rewrite X in H; discriminate).
  destruct t as [x|x|x|c|x]; cbn [shows tok_ok] in *; repeat match goal with H : _ /\ _ |- _ => destruct H end; try congruence || contradiction.
  intros N. rewrite N in *. subst x. discriminate.
Qed.
