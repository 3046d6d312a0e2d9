(** Laws of the ASCII lexer: starting at a token, joining texts, words. *)
From Verif Require Import Base Bytes TokenModel TokenSpec TokenProofs.

Definition shift (d : Z) (w : word) : word := Word (w_offset w + d) (w_length w) (w_term w).
Lemma shift_0 ws : map (shift 0) ws = ws.
Proof. rewrite <- (map_id ws) at 2. apply map_ext. intros [o n t]. unfold shift. cbn. f_equal. lia. Qed.
Lemma lex_shift xml s : forall k off d, lex xml s k (off + d) = map (shift d) (lex xml s k off).
Proof.
  induction s as [|c r IH]; intros k off d; [reflexivity|]. cbn [lex].
  replace (off + d + 1) with (off + 1 + d) by lia.
  destruct k as [|k]; [|apply IH]. destruct (alphanumeric c); [cbn [map]; f_equal; apply IH|].
  destruct (xml && (c =? 60)).
  - destruct (tokenize_tag (c :: r)) as [[q e]|]; [|apply IH]. cbn [map]. f_equal. apply IH.
  - destruct (xml && (c =? 38)); [|apply IH]. destruct (tokenize_entity (c :: r)); apply IH.
Qed.
Lemma lex_skipn xml s : forall k off, (k <= length s)%nat -> lex xml s k off = lex xml (skipn k s) 0 (off + Z.of_nat k).
Proof.
  induction s as [|c r IH]; intros k off Hk; cbn [length] in Hk; [destruct k; reflexivity|].
  destruct k as [|k]; [cbn [skipn]; f_equal; lia|]. change (lex xml (c :: r) (S k) off) with (lex xml r k (off + 1)).
  cbn [skipn]. rewrite IH by lia. f_equal. lia.
Qed.
(** Lexing from a token on gives the remaining tokens. *)
Lemma lex_from_token xml s : forall k off i w, nth_error (lex xml s k off) i = Some w ->
  off <= w_offset w /\ lex xml (skipn (Z.to_nat (w_offset w - off)) s) 0 (w_offset w) = skipn i (lex xml s k off).
Proof.
  induction s as [|c r IH]; intros k off i w Hi; [destruct i; discriminate|].
  assert (Step : forall ws, lex xml r 0 (off + 1) = ws -> nth_error ws i = Some w ->
            off <= w_offset w /\ lex xml (skipn (Z.to_nat (w_offset w - off)) (c :: r)) 0 (w_offset w) = skipn i ws).
  { intros ws <- H. destruct (IH _ _ _ _ H) as [A B]. split; [lia|]. rewrite <- B.
    replace (Z.to_nat (w_offset w - off)) with (S (Z.to_nat (w_offset w - (off + 1)))) by lia. reflexivity. }
  assert (Later : forall k j, nth_error (lex xml r k (off + 1)) j = Some w ->
            off <= w_offset w /\ lex xml (skipn (Z.to_nat (w_offset w - off)) (c :: r)) 0 (w_offset w) = skipn j (lex xml r k (off + 1))).
  { intros k0 j H. destruct (IH _ _ _ _ H) as [A B]. split; [lia|]. rewrite <- B.
    replace (Z.to_nat (w_offset w - off)) with (S (Z.to_nat (w_offset w - (off + 1)))) by lia. reflexivity. }
  destruct k as [|k]; [|exact (Later k i Hi)].
  assert (First : forall w0 ws, lex xml (c :: r) 0 off = w0 :: ws -> w_offset w0 = off -> nth_error (w0 :: ws) 0 = Some w ->
            off <= w_offset w /\ lex xml (skipn (Z.to_nat (w_offset w - off)) (c :: r)) 0 (w_offset w) = skipn 0 (w0 :: ws)).
  { intros w0 ws E O H. injection H as <-. rewrite O. split; [lia|]. rewrite Z.sub_diag. exact E. }
  cbn [lex] in Hi |- *. cbn [lex] in First.
  destruct (alphanumeric c).
  - destruct i as [|i]; [eapply First; [reflexivity|reflexivity|exact Hi]|]. exact (Later _ i Hi).
  - destruct (xml && (c =? 60)).
    + destruct (tokenize_tag (c :: r)) as [[q e]|]; [|exact (Later 0%nat i Hi)].
      destruct i as [|i]; [eapply First; [reflexivity|reflexivity|exact Hi]|]. exact (Later _ i Hi).
    + destruct (xml && (c =? 38)); [|exact (Later 0%nat i Hi)]. destruct (tokenize_entity (c :: r)); exact (Later _ i Hi).
Qed.

(** * Joining texts *)
Section Join.
Variables (xml : bool) (x : Z) (b : bytes).
Hypothesis Hx : stops xml x.
Lemma stops_alnum : alphanumeric x = false.
Proof. unfold stops in Hx. pose proof Hx as H. destruct xml; [rewrite H; reflexivity|exact H]. Qed.
Lemma run_of_app f s : f x = false -> run_of f (s ++ x :: b) = run_of f s.
Proof. intros H. induction s as [|c r IH]; cbn; [rewrite H; reflexivity|]. destruct (f c); congruence. Qed.
Lemma skipn_app_le {A} n (s t : list A) : (n <= length s)%nat -> skipn n (s ++ t) = skipn n s ++ t.
Proof. intros H. rewrite skipn_app. replace (n - length s)%nat with 0%nat by lia. reflexivity. Qed.
Lemma firstn_app_le {A} n (s t : list A) : (n <= length s)%nat -> firstn n (s ++ t) = firstn n s.
Proof. intros H. rewrite firstn_app. replace (n - length s)%nat with 0%nat by lia. apply app_nil_r. Qed.
Lemma tag_app s : x = 10 -> s <> [] -> tokenize_tag (s ++ x :: b) = tokenize_tag s.
Proof.
  intros Ex Ns. unfold tokenize_tag. cbv zeta. destruct s as [|c0 s]; [contradiction|]. clear Ns. cbn [app tl].
  set (q := match s ++ x :: b with c :: _ => if c =? 47 then 2%nat else 1%nat | [] => 1%nat end).
  set (q' := match s with c :: _ => if c =? 47 then 2%nat else 1%nat | [] => 1%nat end).
  assert (Q : q = q' /\ (1 <= q' <= S (length s))%nat).
  { subst q q'. destruct s as [|d s]; cbn [app length]; [rewrite Ex; change (10 =? 47) with false; cbv iota; lia|]. destruct (d =? 47); lia. }
  destruct Q as [-> Q]. clearbody q'. change (c0 :: s ++ x :: b) with ((c0 :: s) ++ x :: b).
  rewrite skipn_app_le by (cbn [length]; lia).
  destruct (skipn q' (c0 :: s)) as [|c u] eqn:E1.
  { cbn [app]. rewrite Ex. reflexivity. }
  cbn [app]. destruct (tag_initial c) eqn:Ti; [|reflexivity].
  rewrite run_of_app by (rewrite Ex; reflexivity).
  assert (L1 : (q' + 1 + run_of tag_character u <= length (c0 :: s))%nat).
  { pose proof (run_of_le tag_character u). pose proof (skipn_length q' (c0 :: s)) as L. rewrite E1 in L. cbn [length] in *. lia. }
  change (c0 :: s ++ x :: b) with ((c0 :: s) ++ x :: b). rewrite skipn_app_le by exact L1.
  destruct (skipn (q' + 1 + run_of tag_character u) (c0 :: s)) as [|d v] eqn:E2.
  { cbn [app]. rewrite Ex. reflexivity. }
  cbn [app]. destruct (d =? 10) eqn:Ed; [reflexivity|].
  change (d :: v ++ x :: b) with ((d :: v) ++ x :: b). rewrite run_of_app by (rewrite Ex; reflexivity).
  assert (L2 : (q' + 1 + run_of tag_character u + run_of in_tag (d :: v) <= length (c0 :: s))%nat).
  { pose proof (run_of_le in_tag (d :: v)). pose proof (skipn_length (q' + 1 + run_of tag_character u) (c0 :: s)) as L.
    rewrite E2 in L. lia. }
  change (c0 :: s ++ x :: b) with ((c0 :: s) ++ x :: b). rewrite skipn_app_le by exact L2.
  destruct (skipn (q' + 1 + run_of tag_character u + run_of in_tag (d :: v)) (c0 :: s)) as [|e w]; [|reflexivity].
  cbn [app]. rewrite Ex. reflexivity.
Qed.
Lemma entity_app s : x = 10 -> s <> [] -> tokenize_entity (s ++ x :: b) = tokenize_entity s.
Proof.
  intros Ex Ns. unfold tokenize_entity. cbv zeta. destruct s as [|c0 s]; [contradiction|]. clear Ns. cbn [app tl].
  rewrite run_of_app by (rewrite Ex; reflexivity). change (c0 :: s ++ x :: b) with ((c0 :: s) ++ x :: b).
  pose proof (run_of_le in_entity s). rewrite skipn_app_le by (cbn [length]; lia).
  destruct (skipn (1 + run_of in_entity s) (c0 :: s)) as [|c u]; [|reflexivity]. cbn [app]. rewrite Ex. reflexivity.
Qed.
Lemma tag_len s q e : tokenize_tag s = Some (q, e) -> (q <= length s)%nat /\ (e < length s)%nat.
Proof.
  intros H. split; [|exact (tag_lt s q e H)]. revert H.
  unfold tokenize_tag. cbv zeta. destruct (skipn _ s) as [|c u]; [discriminate|]. destruct (tag_initial c); [|discriminate].
  destruct (skipn (_ + 1 + run_of tag_character u) s) as [|d v] eqn:E; [discriminate|]. destruct (d =? 10); [discriminate|].
  destruct (skipn (_ + run_of in_tag (d :: v)) s) as [|y w]; [discriminate|]. destruct (y =? 62); [|discriminate].
  intros [= <- <-]. pose proof (skipn_cons_lt _ _ _ _ E). lia.
Qed.
Lemma lex_join a : forall k off, (k <= length a)%nat ->
  lex xml (a ++ x :: b) k off = lex xml a k off ++ lex xml (x :: b) 0 (off + Z.of_nat (length a)).
Proof.
  induction a as [|c r IH]; intros k off Hk; cbn [length] in Hk.
  - replace k with 0%nat by lia. cbn [app length lex]. replace (off + Z.of_nat 0) with off by lia. reflexivity.
  - cbn [app length]. replace (off + Z.of_nat (S (length r))) with (off + 1 + Z.of_nat (length r)) by lia.
    set (tail := lex xml (x :: b) 0 (off + 1 + Z.of_nat (length r))).
    assert (J : forall k, (k <= length r)%nat -> lex xml (r ++ x :: b) k (off + 1) = lex xml r k (off + 1) ++ tail) by (intros; apply IH; assumption).
    cbn [lex]. destruct k as [|k]; [|apply J; lia].
    destruct (alphanumeric c).
    + rewrite run_of_app by exact stops_alnum. pose proof (run_of_le alphanumeric r).
      change (c :: r ++ x :: b) with ((c :: r) ++ x :: b). rewrite firstn_app_le by (cbn [length]; lia).
      rewrite J by lia. reflexivity.
    + destruct xml eqn:Em; cbn [andb]; [|apply J; lia].
      assert (X10 : x = 10) by exact Hx.
      change (c :: r ++ x :: b) with ((c :: r) ++ x :: b). destruct (c =? 60).
      * rewrite tag_app by (exact X10 || discriminate). destruct (tokenize_tag (c :: r)) as [[q e]|] eqn:E; [|apply J; lia].
        apply tag_len in E. cbn [length] in E. rewrite firstn_app_le by (cbn [length]; lia). rewrite J by lia. reflexivity.
      * destruct (c =? 38); [|apply J; lia]. rewrite entity_app by (exact X10 || discriminate).
        destruct (tokenize_entity (c :: r)) as [q|] eqn:E; [|apply J; lia].
        apply entity_lt in E. cbn [length] in E. apply J. lia.
Qed.
Lemma lex_stop off : lex xml (x :: b) 0 off = lex xml b 0 (off + 1).
Proof.
  cbn [lex]. rewrite stops_alnum. destruct xml eqn:Em; [|reflexivity]. cbn [andb].
  assert (X10 : x = 10) by exact Hx. rewrite X10. reflexivity.
Qed.
End Join.
(** A text that ends in a byte no token crosses, then more text. *)
Lemma lex_joined xml x a b off : stops xml x ->
  lex xml (a ++ x :: b) 0 off = lex xml (a ++ [x]) 0 off ++ lex xml b 0 (off + Z.of_nat (length a) + 1).
Proof.
  intros Hx. rewrite (lex_join xml x b Hx a 0 off) by lia. rewrite (lex_join xml x [] Hx a 0 off) by lia.
  rewrite !(lex_stop xml x _ Hx). cbn [lex]. rewrite app_nil_r. reflexivity.
Qed.
Lemma lex_end xml x a off : stops xml x -> lex xml (a ++ [x]) 0 off = lex xml a 0 off.
Proof.
  intros Hx. rewrite (lex_join xml x [] Hx a 0 off) by lia. rewrite (lex_stop xml x _ Hx). cbn [lex]. apply app_nil_r.
Qed.
