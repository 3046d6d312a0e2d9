(** The three functions of the UTF-8 tokenizer agree. *)
From Verif Require Import Base Bytes CodecModel TokenModel TokenSpec TextModel TextSpec TextBack FileSpec Utf8Table Utf8Model Utf8Spec.

Global Arguments actions : simpl never.
Global Arguments unicode : simpl never.
(** One lexer for all three. *)
Fixpoint ulex (s : bytes) (k : nat) (off : Z) (st : option (bytes * Z)) : list word :=
  match s with
  | [] => match st with Some (t, o) => [Word o (off - o) t] | None => [] end
  | c :: r =>
      match k with
      | S k => ulex r k (off + 1) st
      | O =>
          let n := snd (unicode s) in
          let t := firstn n s in
          match st, actions (fst (unicode s)) with
          | None, Nontoken => ulex r (n - 1) (off + 1) None
          | None, InToken => ulex r (n - 1) (off + 1) (Some (t, off))
          | None, Unigram => Word off (Z.of_nat n) t :: ulex r (n - 1) (off + 1) None
          | None, Fold p => ulex r (n - 1) (off + 1) (Some (folded p, off))
          | Some (x, o), Nontoken => Word o (off - o) x :: ulex r (n - 1) (off + 1) None
          | Some (x, o), InToken => ulex r (n - 1) (off + 1) (Some (x ++ t, o))
          | Some (x, o), Unigram => Word o (off - o) x :: Word off (Z.of_nat n) t :: ulex r (n - 1) (off + 1) None
          | Some (x, o), Fold p => ulex r (n - 1) (off + 1) (Some (x ++ folded p, o))
          end
      end
  end.
Ltac acts s := destruct (actions (fst (unicode s))) as [| | |pf] eqn:?Act.

Lemma utokenize_lex featurize s : forall k off a st, reported featurize a (ulex s k off st) (utokenize_from featurize s k off a st).
Proof.
  assert (R : forall a w ws toks, reported featurize (a + 1) ws toks ->
    reported featurize a (w :: ws) (Token (featurize (w_term w)) a (w_offset w) (w_length w) :: toks)).
  { intros a w ws toks H. exists [Token (featurize (w_term w)) a (w_offset w) (w_length w)], toks. split; [reflexivity|]. split; [|exact H].
    exists []. split; [reflexivity|constructor]. }
  induction s as [|c r IH]; intros k off a st.
  - cbn. destruct st as [[x o]|]; [apply (R a (Word o (off - o) x) [] [])|]; reflexivity.
  - cbn [ulex utokenize_from]. destruct k as [|k]; [|apply IH]. acts (c :: r); destruct st as [[x o]|]; try apply IH.
    + apply (R a (Word o (off - o) x)). apply IH.
    + apply (R a (Word o (off - o) x)). apply (R (a + 1) (Word off (Z.of_nat (snd (unicode (c :: r)))) (firstn (snd (unicode (c :: r))) (c :: r)))). apply IH.
    + apply (R a (Word off (Z.of_nat (snd (unicode (c :: r)))) (firstn (snd (unicode (c :: r))) (c :: r)))). apply IH.
Qed.
(** Inside a token the current word is the first. *)
Lemma ulex_open s : forall k off x o, exists m t ws, ulex s k off (Some (x, o)) = Word o m t :: ws.
Proof.
  induction s as [|c r IH]; intros k off x o; cbn [ulex]; [eauto|]. destruct k as [|k]; [|apply IH].
  acts (c :: r); try apply IH; eauto.
Qed.
Ltac first_word off := match goal with |- context [nth_error ?l O] =>
  let E := fresh in assert (E : exists m t ws, l = Word off m t :: ws) by apply ulex_open; destruct E as (? & ? & ? & E); rewrite E end.
Lemma uskip_lex s : forall k off n st, (st <> None -> 0 < n) ->
  uskip_from s k off n (match st with Some _ => true | None => false end) =
  match nth_error (ulex s k off st) (Z.to_nat n) with Some w => w_offset w | None => off + len s end.
Proof.
  induction s as [|c r IH]; intros k off n st Hn.
  - cbn. destruct st as [[x o]|].
    + assert (0 < n) by (apply Hn; discriminate). destruct (Z.to_nat n) as [|m] eqn:E; [lia|]. destruct m; cbn; unfold len; cbn; lia.
    + destruct (Z.to_nat n); unfold len; cbn; lia.
  - assert (L : off + len (c :: r) = off + 1 + len r) by (unfold len; cbn [length]; lia). rewrite L. clear L.
    cbn [ulex uskip_from]. destruct k as [|k]; [|apply IH; exact Hn].
    acts (c :: r); destruct st as [[x o]|]; try (assert (Hp : 0 < n) by (apply Hn; discriminate)).
    + replace (Z.to_nat n) with (S (Z.to_nat (n - 1))) by lia. cbn [nth_error]. apply (IH _ _ _ None). congruence.
    + apply (IH _ _ _ None). congruence.
    + apply (IH _ _ _ (Some _)). auto.
    + destruct (Z.leb_spec n 0).
      * replace (Z.to_nat n) with O by lia.
        first_word off. reflexivity.
      * apply (IH _ _ _ (Some _)). auto.
    + destruct (Z.leb_spec (n - 1) 0).
      * replace (Z.to_nat n) with 1%nat by lia. reflexivity.
      * replace (Z.to_nat n) with (S (S (Z.to_nat (n - 1 - 1)))) by lia. cbn [nth_error]. apply (IH _ _ _ None). congruence.
    + destruct (Z.leb_spec n 0).
      * replace (Z.to_nat n) with O by lia. reflexivity.
      * replace (Z.to_nat n) with (S (Z.to_nat (n - 1))) by lia. cbn [nth_error]. apply (IH _ _ _ None). congruence.
    + apply (IH _ _ _ (Some _)). auto.
    + destruct (Z.leb_spec n 0).
      * replace (Z.to_nat n) with O by lia. first_word off. reflexivity.
      * apply (IH _ _ _ (Some _)). auto.
Qed.
(** Split up to a NUL. *)
Lemma actions_0 : actions 0 = Nontoken. Proof. vm_compute. reflexivity. Qed.
Lemma usplit_lex s : forall k off st,
  exists rest, map w_term (ulex s k off st) = usplit_from s k (option_map fst st) ++ rest /\ (~ In 0 s -> rest = []).
Proof.
  induction s as [|c r IH]; intros k off st.
  - exists []. split; [|auto]. destruct st as [[x o]|]; reflexivity.
  - cbn [ulex usplit_from]. destruct k as [|k].
    2:{ destruct (IH k (off + 1) st) as (rest & E & F). exists rest. split; [exact E|]. intros H. apply F. intros K. apply H. right. exact K. }
    destruct (Z.eqb_spec c 0) as [->|N0].
    { change (unicode (0 :: r)) with (0, 1%nat). cbn [fst snd]. rewrite actions_0. destruct st as [[x o]|]; cbn [option_map fst map].
      - exists (map w_term (ulex r (1 - 1) (off + 1) None)). split; [reflexivity|]. intros H. destruct H. left. reflexivity.
      - exists (map w_term (ulex r (1 - 1) (off + 1) None)). split; [reflexivity|]. intros H. destruct H. left. reflexivity. }
    assert (I : forall k off st, exists rest, map w_term (ulex r k off st) = usplit_from r k (option_map fst st) ++ rest /\ (~ In 0 (c :: r) -> rest = [])).
    { intros k' o' st'. destruct (IH k' o' st') as (rest & E & F). exists rest. split; [exact E|]. intros H. apply F. intros K. apply H. right. exact K. }
    acts (c :: r); destruct st as [[x o]|]; cbn [option_map fst];
      match goal with |- context [ulex r ?k ?o ?st] => destruct (I k o st) as (rest & E & F) end; exists rest; (split; [|exact F]); cbn [map w_term]; rewrite E; reflexivity.
Qed.

(** * Codepoints *)
Lemma unicode_length c r : (1 <= snd (unicode (c :: r)) <= length (c :: r))%nat.
Proof.
  unfold unicode. destruct (Z.land c 128 =? 0), (Z.land c 224 =? 192), (Z.land c 240 =? 224), (Z.land c 248 =? 240);
    destruct r as [|x [|y [|z r]]]; cbn [snd length]; lia.
Qed.
(** Only the bytes it takes matter, and how many there are. *)
Lemma unicode_cut s m : (snd (unicode s) <= m)%nat -> unicode (firstn m s) = unicode s.
Proof.
  destruct s as [|a r]; [rewrite firstn_nil; reflexivity|]. destruct m as [|m]; [pose proof (unicode_length a r); lia|]. cbn [firstn]. unfold unicode.
  destruct (Z.land a 128 =? 0), (Z.land a 224 =? 192), (Z.land a 240 =? 224), (Z.land a 248 =? 240); destruct r as [|x [|y [|z r]]]; cbn [snd]; intros H;
    destruct m as [|[|[|m]]]; cbn [firstn]; try reflexivity; lia.
Qed.
Lemma ulex_skip w : forall rest off st, ulex (w ++ rest) (length w) off st = ulex rest 0 (off + len w) st.
Proof.
  induction w as [|c w IH]; intros rest off st; [cbn; f_equal; unfold len; cbn; lia|]. cbn [app length ulex]. rewrite IH. f_equal. unfold len. cbn [length]. lia.
Qed.
Definition opened (off : Z) (st : option (bytes * Z)) : Z := match st with Some (_, o) => o | None => off end.
Lemma laid_weaken ws : forall o o' n, o' <= o -> laid_out o ws n -> laid_out o' ws n.
Proof. destruct ws; cbn; intros; [lia|]. intuition lia. Qed.
Lemma ulex_layout s : forall k off st, (k <= length s)%nat -> (forall x o, st = Some (x, o) -> o < off + Z.of_nat k) ->
  laid_out (opened (off + Z.of_nat k) st) (ulex s k off st) (off + len s).
Proof.
  induction s as [|c r IH]; intros k off st Hk Ho.
  - cbn in Hk. assert (k = O) by lia. subst k. unfold len. cbn. destruct st as [[x o]|]; cbn; [|lia]. specialize (Ho x o eq_refl). cbn in Ho. lia.
  - replace (off + len (c :: r)) with (off + 1 + len r) by (unfold len; cbn [length]; lia). cbn [ulex]. destruct k as [|k].
    2:{ cbn [length] in Hk. replace (off + Z.of_nat (S k)) with (off + 1 + Z.of_nat k) in * by lia. apply IH; [lia|exact Ho]. }
    pose proof (unicode_length c r) as Hu. set (n := snd (unicode (c :: r))) in *. cbn [length] in Hu.
    replace (off + Z.of_nat 0) with off in * by lia.
    assert (IN : laid_out (off + Z.of_nat n) (ulex r (n - 1) (off + 1) None) (off + 1 + len r)).
    { pose proof (IH (n - 1)%nat (off + 1) None ltac:(lia) ltac:(discriminate)) as K. cbn [opened] in K. replace (off + 1 + Z.of_nat (n - 1)) with (off + Z.of_nat n) in K by lia. exact K. }
    assert (IS : forall x o, o < off + Z.of_nat n -> laid_out o (ulex r (n - 1) (off + 1) (Some (x, o))) (off + 1 + len r)).
    { intros x o H. apply (IH (n - 1)%nat (off + 1) (Some (x, o)) ltac:(lia)). intros x' o' [= <- <-]. lia. }
    acts (c :: r); destruct st as [[x o]|]; cbn [opened] in *; try (assert (Hb : o < off) by (specialize (Ho x o eq_refl); lia)).
    + cbn [laid_out w_offset w_length]. split; [lia|]. split; [lia|]. apply (laid_weaken _ (off + Z.of_nat n)); [lia|exact IN].
    + apply (laid_weaken _ (off + Z.of_nat n)); [lia|exact IN].
    + apply IS. lia.
    + apply IS. lia.
    + cbn [laid_out w_offset w_length]. split; [lia|]. split; [lia|]. split; [lia|]. split; [lia|]. exact IN.
    + cbn [laid_out w_offset w_length]. split; [lia|]. split; [lia|]. exact IN.
    + apply IS. lia.
    + apply IS. lia.
Qed.
(** Where words start. *)
Lemma laid_offset ws : forall o n i w, laid_out o ws n -> nth_error ws i = Some w -> o <= w_offset w <= n.
Proof.
  induction ws as [|v r IH]; intros o n i w H E; [destruct i; discriminate|]. cbn in H. destruct H as (A & B & C).
  destruct i as [|i].
  - injection E as <-. clear IH. split; [lia|]. assert (D : forall l o, laid_out o l n -> o <= n) by (induction l as [|z l IHl]; cbn; intros o1 K; [exact K|destruct K as (K1 & K2 & K3); specialize (IHl _ K3); lia]).
    specialize (D _ _ C). lia.
  - specialize (IH _ _ i w C E). lia.
Qed.
Lemma ulex_later s : forall k off st i w, (k <= length s)%nat -> nth_error (ulex s k off st) i = Some w -> (st <> None -> (0 < i)%nat) ->
  off + Z.of_nat k <= w_offset w.
Proof.
  induction s as [|c r IH]; intros k off st i w Hk E Hi.
  - cbn in E. destruct st as [[x o]|]; [|destruct i; discriminate]. specialize (Hi ltac:(discriminate)). destruct i as [|[|i]]; [lia|discriminate|discriminate].
  - cbn [ulex] in E. cbn [length] in Hk. destruct k as [|k].
    { pose proof (unicode_length c r) as Hu. set (n := snd (unicode (c :: r))) in *. cbn [length] in Hu.
      assert (IN : forall i w, nth_error (ulex r (n - 1) (off + 1) None) i = Some w -> off + Z.of_nat 0 <= w_offset w).
      { intros i' w' E'. pose proof (IH (n - 1)%nat (off + 1) None i' w' ltac:(lia) E' ltac:(congruence)). lia. }
      assert (IS : forall x o, nth_error (ulex r (n - 1) (off + 1) (Some (x, o))) i = Some w -> (0 < i)%nat -> off + Z.of_nat 0 <= w_offset w).
      { intros x o E' Hi'. pose proof (IH (n - 1)%nat (off + 1) (Some (x, o)) i w ltac:(lia) E' ltac:(auto)). lia. }
      assert (IO : forall x : bytes, nth_error (ulex r (n - 1) (off + 1) (Some (x, off))) i = Some w -> off + Z.of_nat 0 <= w_offset w).
      { intros x E'. destruct i as [|i]; [|apply (IS x off E'); lia]. destruct (ulex_open r (n - 1) (off + 1) x off) as (m & t & ws & E1). rewrite E1 in E'. injection E' as <-. cbn. lia. }
      acts (c :: r); destruct st as [[x o]|]; try (assert (Hp : (0 < i)%nat) by (apply Hi; discriminate)).
      - destruct i as [|i]; [lia|]. exact (IN i w E).
      - exact (IN i w E).
      - exact (IS _ _ E Hp).
      - exact (IO _ E).
      - destruct i as [|[|i]]; [lia| |exact (IN i w E)]. injection E as <-. cbn. lia.
      - destruct i as [|i]; [|exact (IN i w E)]. injection E as <-. cbn. lia.
      - exact (IS _ _ E Hp).
      - exact (IO _ E). }
    pose proof (IH k (off + 1) st i w ltac:(lia) E Hi). lia.
Qed.
(** Lexing from the start of a word. *)
Lemma skipn_step {A} z (c : A) r : 0 < z -> skipn (Z.to_nat z) (c :: r) = skipn (Z.to_nat (z - 1)) r.
Proof. intros H. replace (Z.to_nat z) with (S (Z.to_nat (z - 1))) by lia. reflexivity. Qed.
Lemma firstn_step {A} z (c : A) r : 0 < z -> firstn (Z.to_nat z) (c :: r) = c :: firstn (Z.to_nat (z - 1)) r.
Proof. intros H. replace (Z.to_nat z) with (S (Z.to_nat (z - 1))) by lia. reflexivity. Qed.
Lemma ulex_from s : forall k off st i w, (k <= length s)%nat -> nth_error (ulex s k off st) i = Some w -> (st <> None -> (0 < i)%nat) ->
  ulex (skipn (Z.to_nat (w_offset w - off)) s) 0 (w_offset w) None = skipn i (ulex s k off st).
Proof.
  induction s as [|c r IH]; intros k off st i w Hk E Hi.
  - cbn in E. destruct st as [[x o]|]; [|destruct i; discriminate]. specialize (Hi ltac:(discriminate)). destruct i as [|[|i]]; [lia|discriminate|discriminate].
  - cbn [length] in Hk. destruct k as [|k].
    2:{ cbn [ulex] in E |- *. pose proof (ulex_later r k (off + 1) st i w ltac:(lia) E Hi) as L. rewrite skipn_step by lia.
        replace (w_offset w - off - 1) with (w_offset w - (off + 1)) by lia. exact (IH k (off + 1) st i w ltac:(lia) E Hi). }
    pose proof (unicode_length c r) as Hu. cbn [ulex] in E |- *. set (n := snd (unicode (c :: r))) in *. cbn [length] in Hu.
    assert (G : forall st i, nth_error (ulex r (n - 1) (off + 1) st) i = Some w -> (st <> None -> (0 < i)%nat) ->
      ulex (skipn (Z.to_nat (w_offset w - off)) (c :: r)) 0 (w_offset w) None = skipn i (ulex r (n - 1) (off + 1) st)).
    { intros st' i' E' Hi'. pose proof (ulex_later r (n - 1) (off + 1) st' i' w ltac:(lia) E' Hi') as L. rewrite skipn_step by lia.
      replace (w_offset w - off - 1) with (w_offset w - (off + 1)) by lia. exact (IH (n - 1)%nat (off + 1) st' i' w ltac:(lia) E' Hi'). }
    assert (O : forall x : bytes, actions (fst (unicode (c :: r))) = InToken /\ x = firstn n (c :: r) \/ (exists p, actions (fst (unicode (c :: r))) = Fold p /\ x = folded p) ->
      nth_error (ulex r (n - 1) (off + 1) (Some (x, off))) i = Some w ->
      ulex (skipn (Z.to_nat (w_offset w - off)) (c :: r)) 0 (w_offset w) None = skipn i (ulex r (n - 1) (off + 1) (Some (x, off)))).
    { intros x Hx E'. destruct i as [|i]; [|apply G; [exact E'|lia]].
      destruct (ulex_open r (n - 1) (off + 1) x off) as (m & t & ws & E1). rewrite E1 in E'. injection E' as <-. cbn [w_offset]. rewrite Z.sub_diag. cbn [Z.to_nat skipn].
      cbn [ulex]. fold n. destruct Hx as [[-> ->]|(p & -> & ->)]; reflexivity. }
    assert (U : forall i, i = O -> actions (fst (unicode (c :: r))) = Unigram -> w = Word off (Z.of_nat n) (firstn n (c :: r)) ->
      ulex (skipn (Z.to_nat (w_offset w - off)) (c :: r)) 0 (w_offset w) None = Word off (Z.of_nat n) (firstn n (c :: r)) :: ulex r (n - 1) (off + 1) None).
    { intros i' _ HA ->. cbn [w_offset]. rewrite Z.sub_diag. cbn [Z.to_nat skipn ulex]. fold n. rewrite HA. reflexivity. }
    acts (c :: r); destruct st as [[x o]|]; try (assert (Hp : (0 < i)%nat) by (apply Hi; discriminate)).
    + destruct i as [|i]; [lia|]. cbn [nth_error skipn] in *. apply G; [exact E|congruence].
    + apply G; [exact E|congruence].
    + apply G; [exact E|auto].
    + apply O; [left; auto|exact E].
    + destruct i as [|[|i]]; [lia| |].
      * injection E as <-. cbn [skipn]. apply (U O); reflexivity.
      * cbn [nth_error skipn] in *. apply G; [exact E|congruence].
    + destruct i as [|i].
      * injection E as <-. cbn [skipn]. apply (U O); reflexivity.
      * cbn [nth_error skipn] in *. apply G; [exact E|congruence].
    + apply G; [exact E|auto].
    + apply O; [right; eauto|exact E].
Qed.
(** Lexing up to the start of a word. *)
Lemma ulex_nil k off st : ulex [] k off st = match st with Some (t, o) => [Word o (off - o) t] | None => [] end.
Proof. reflexivity. Qed.
Lemma ulex_cut s : forall k off st i w, (k <= length s)%nat -> nth_error (ulex s k off st) i = Some w -> (st <> None -> (0 < i)%nat) ->
  ulex (firstn (Z.to_nat (w_offset w - off)) s) k off st = firstn i (ulex s k off st).
Proof.
  induction s as [|c r IH]; intros k off st i w Hk E Hi.
  - cbn in E. destruct st as [[x o]|]; [|destruct i; discriminate]. specialize (Hi ltac:(discriminate)). destruct i as [|[|i]]; [lia|discriminate|discriminate].
  - cbn [length] in Hk. destruct k as [|k].
    2:{ cbn [ulex] in E. pose proof (ulex_later r k (off + 1) st i w ltac:(lia) E Hi) as L. rewrite firstn_step by lia. cbn [ulex].
        replace (w_offset w - off - 1) with (w_offset w - (off + 1)) by lia. exact (IH k (off + 1) st i w ltac:(lia) E Hi). }
    pose proof (unicode_length c r) as Hu. pose proof E as E0. cbn [ulex] in E. set (n := snd (unicode (c :: r))) in *. cbn [length] in Hu.
    assert (G : forall st0 st' i', nth_error (ulex r (n - 1) (off + 1) st') i' = Some w -> (st' <> None -> (0 < i')%nat) ->
      ulex (firstn (Z.to_nat (w_offset w - off)) (c :: r)) 0 off st0 =
      (let t := firstn n (c :: r) in let g := ulex (firstn (Z.to_nat (w_offset w - (off + 1))) r) (n - 1) (off + 1) in
       match st0, actions (fst (unicode (c :: r))) with
       | None, Nontoken => g None
       | None, InToken => g (Some (t, off))
       | None, Unigram => Word off (Z.of_nat n) t :: g None
       | None, Fold p => g (Some (folded p, off))
       | Some (x, o), Nontoken => Word o (off - o) x :: g None
       | Some (x, o), InToken => g (Some (x ++ t, o))
       | Some (x, o), Unigram => Word o (off - o) x :: Word off (Z.of_nat n) t :: g None
       | Some (x, o), Fold p => g (Some (x ++ folded p, o))
       end) /\ ulex (firstn (Z.to_nat (w_offset w - (off + 1))) r) (n - 1) (off + 1) st' = firstn i' (ulex r (n - 1) (off + 1) st')).
    { intros st0 st' i' E' Hi'. pose proof (ulex_later r (n - 1) (off + 1) st' i' w ltac:(lia) E' Hi') as L. split; [|apply IH; [lia|exact E'|exact Hi']].
      pose proof (unicode_cut (c :: r) (Z.to_nat (w_offset w - off)) ltac:(fold n; lia)) as UC.
      assert (FC : firstn n (firstn (Z.to_nat (w_offset w - off)) (c :: r)) = firstn n (c :: r)).
      { rewrite firstn_firstn. f_equal. lia. }
      rewrite (firstn_step (w_offset w - off) c r) in UC, FC |- * by lia. replace (w_offset w - off - 1) with (w_offset w - (off + 1)) in * by lia.
      cbn [ulex]. rewrite UC. fold n. rewrite FC. reflexivity. }
    assert (Z0 : w_offset w = off -> ulex (firstn (Z.to_nat (w_offset w - off)) (c :: r)) 0 off st = match st with Some (t, o) => [Word o (off - o) t] | None => [] end).
    { intros ->. rewrite Z.sub_diag. reflexivity. }
    assert (O : forall x : bytes, nth_error (ulex r (n - 1) (off + 1) (Some (x, off))) i = Some w -> i = O -> w_offset w = off).
    { intros x E' ->. destruct (ulex_open r (n - 1) (off + 1) x off) as (m & t & ws & E1). rewrite E1 in E'. injection E' as <-. reflexivity. }
    cbn [ulex]. fold n. acts (c :: r); destruct st as [[x o]|]; try (assert (Hp : (0 < i)%nat) by (apply Hi; discriminate)).
    + destruct i as [|i]; [lia|]. cbn [nth_error firstn] in E |- *. destruct (G (Some (x, o)) None i E ltac:(congruence)) as [G1 G2]. rewrite G1. cbv zeta. rewrite G2. reflexivity.
    + destruct (G None None i E ltac:(congruence)) as [G1 G2]. rewrite G1. exact G2.
    + destruct (G (Some (x, o)) (Some (x ++ firstn n (c :: r), o)) i E ltac:(auto)) as [G1 G2]. rewrite G1. exact G2.
    + destruct i as [|i]; [rewrite (Z0 (O _ E eq_refl)); reflexivity|]. destruct (G None (Some (firstn n (c :: r), off)) (S i) E ltac:(lia)) as [G1 G2]. rewrite G1. exact G2.
    + destruct i as [|[|i]]; [lia| |].
      * injection E as <-. rewrite Z0 by reflexivity. reflexivity.
      * cbn [nth_error firstn] in E |- *. destruct (G (Some (x, o)) None i E ltac:(congruence)) as [G1 G2]. rewrite G1. cbv zeta. rewrite G2. reflexivity.
    + destruct i as [|i].
      * injection E as <-. rewrite Z0 by reflexivity. reflexivity.
      * cbn [nth_error firstn] in E |- *. destruct (G None None i E ltac:(congruence)) as [G1 G2]. rewrite G1. cbv zeta. rewrite G2. reflexivity.
    + destruct (G (Some (x, o)) (Some (x ++ folded pf, o)) i E ltac:(auto)) as [G1 G2]. rewrite G1. exact G2.
    + destruct i as [|i]; [rewrite (Z0 (O _ E eq_refl)); reflexivity|]. destruct (G None (Some (folded pf, off)) (S i) E ltac:(lia)) as [G1 G2]. rewrite G1. exact G2.
Qed.
(** Offsets are relative. *)
Definition shifted (d : Z) (w : word) : word := Word (w_offset w + d) (w_length w) (w_term w).
Lemma ulex_shift d s : forall k off st,
  ulex s k (off + d) (option_map (fun p => (fst p, snd p + d)) st) = map (shifted d) (ulex s k off st).
Proof.
  induction s as [|c r IH]; intros k off st.
  - cbn. destruct st as [[x o]|]; [|reflexivity]. cbn. unfold shifted. cbn. f_equal. f_equal. lia.
  - cbn [ulex]. replace (off + d + 1) with (off + 1 + d) by lia. destruct k as [|k]; [|apply IH].
    assert (W : forall o x, Word (o + d) (off + d - (o + d)) x = shifted d (Word o (off - o) x)) by (intros; unfold shifted; cbn; f_equal; lia).
    acts (c :: r); destruct st as [[x o]|]; cbn [option_map fst snd map]; try rewrite W;
      match goal with |- context [ulex r ?k (off + 1 + d) ?st'] =>
        match st' with
        | None => pose proof (IH k (off + 1) None) as E
        | Some (?x, off + d) => pose proof (IH k (off + 1) (Some (x, off))) as E
        | Some (?x, ?o + d) => pose proof (IH k (off + 1) (Some (x, o))) as E
        end end; cbn [option_map fst snd] in E; first [exact E | apply (f_equal2 cons eq_refl E) | apply (f_equal2 cons eq_refl (f_equal2 cons eq_refl E))].
Qed.
