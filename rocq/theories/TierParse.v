(** Reading the texts of tiers. *)
From Verif Require Import Base Bytes HopperModel GclSpec QueryModel QuerySpec ParseProofs RankModel RankSpec TierModel TierSpec.

(** An operand [x] with its text: a word, or a text in brackets. *)
Definition operand (x : bytes * sexpr) : Prop :=
  (plain (fst x) /\ snd x = word_query (fst x)) \/
  (exists s, fst x = 40 :: s) /\ (forall r, exists n, parse_expr n (fst x ++ r) = Ok (41 :: r, Some (snd x))).
Definition operands_text (xs : list (bytes * sexpr)) : bytes := flat_map (fun x => 32 :: fst x) xs.
(** What may end the operands: a closing bracket, with or without a space. *)
Definition ending (T r : bytes) : Prop := T = 41 :: r \/ T = 32 :: 41 :: r.

Lemma skip_space w : skip_ws (32 :: w) = skip_ws w.
Proof. unfold skip_ws. cbn. destruct (span is_ws w); reflexivity. Qed.
Lemma plain_written t : plain t -> written_term t.
Proof. intros H. left. exact H. Qed.
Lemma operands_stop xs T r : ending T r -> stops (operands_text xs ++ T).
Proof. intros [->| ->]; destruct xs; reflexivity. Qed.
Lemma operands_read xs T r : ending T r -> Forall operand xs -> forall acc,
  exists n, parse_args n (skip_ws (operands_text xs ++ T)) acc = Ok (41 :: r, Some (rev acc ++ map snd xs)).
Proof.
  intros HT. induction xs as [|x xs IH]; intros HP acc.
  - exists 1%nat. cbn [operands_text flat_map app map]. rewrite app_nil_r.
    assert (skip_ws T = 41 :: r) as -> by (destruct HT as [->| ->]; reflexivity). reflexivity.
  - inversion HP as [|? ? Px Pxs]; subst. pose proof (operands_stop xs T r HT) as HS. set (R := operands_text xs ++ T) in *.
    assert (ET : operands_text (x :: xs) ++ T = 32 :: fst x ++ R).
    { unfold R. cbn. rewrite <- app_assoc. reflexivity. }
    rewrite ET, skip_space. destruct (IH Pxs (snd x :: acc)) as (n2 & H2).
    cbn [rev] in H2. rewrite <- app_assoc in H2. cbn [app map] in *.
    destruct Px as [(Pw & Es)|((s & Es) & Hx)].
    + pose proof (written_head (fst x) (plain_written _ Pw) R) as Hh.
      rewrite (skip_ws_id (fst x ++ R)) by (apply term_not_ws; exact Hh).
      exists (S (S n2)). cbn [parse_args].
      assert ((peek (fst x ++ R) =? 41) || (peek (fst x ++ R) =? 0) = false /\ (peek (fst x ++ R) =? 40) = false) as [-> Hb]
        by (unfold is_term_char in Hh; lia).
      rewrite Hb, Hh. cbn [parse_expr]. rewrite (skip_ws_id (fst x ++ R)) by (apply term_not_ws; exact Hh). rewrite Hb. cbn [negb].
      rewrite (parse_term_reads (fst x) R (plain_written _ Pw) HS). cbn [bind]. rewrite skip_ws_idem, Es in *.
      apply (proj2 (parse_mono n2)) with (m := S n2) in H2; [|lia]. exact H2.
    + destruct (Hx R) as (n1 & H1). rewrite Es in *. cbn [app] in *.
      change (skip_ws (40 :: s ++ R)) with (40 :: s ++ R).
      exists (S (n1 + n2)). cbn [parse_args peek]. change ((40 =? 41) || (40 =? 0)) with false. change (40 =? 40) with true. cbn iota.
      rewrite (proj1 (parse_mono n1) _ _ (n1 + n2)%nat H1) by lia. cbn [bind peek tl]. change (41 =? 41) with true. cbn iota.
      apply (proj2 (parse_mono n2)) with (m := (n1 + n2)%nat) in H2; [|lia]. exact H2.
Qed.
Lemma node_read k xs T r : k = ONE_OF \/ k = ALL_OF \/ k = FOLLOWED_BY -> ending T r -> Forall operand xs -> xs <> [] ->
  Z.of_nat (length xs) <= 4294967295 ->
  exists n, parse_expr n (40 :: operator_reverse k ++ operands_text xs ++ T) = Ok (41 :: r, Some (SX k [] 0 (map snd xs))).
Proof.
  intros Hk HT HX Hn Hl. assert (k <> TERM) as Kt by (destruct Hk as [->|[->| ->]]; discriminate).
  destruct (operator_reads k Kt) as (O1 & O2 & O3). destruct (operands_read xs T r HT HX []) as (n & Hr). cbn [rev app] in Hr.
  pose proof (operands_stop xs T r HT) as HS. set (A := operands_text xs ++ T) in *.
  exists (S n). cbn [parse_expr]. change (skip_ws (40 :: operator_reverse k ++ A)) with (40 :: operator_reverse k ++ A).
  cbn [peek tl]. change (negb (40 =? 40)) with false. cbn iota.
  assert (Hh : is_term_char (peek (operator_reverse k ++ A)) = true).
  { destruct (operator_reverse k) as [|c l]; [contradiction|]. cbn in *. apply andb_prop in O2. apply O2. }
  rewrite (skip_ws_id (operator_reverse k ++ A)) by (apply term_not_ws; exact Hh). rewrite Hh. cbn [negb].
  rewrite span_stop by auto. rewrite O1, Hr. cbn [bind peek]. change (41 =? 41) with true. cbn [andb]. rewrite map_length.
  assert (1 <= Z.of_nat (length xs)) by (destruct xs; [contradiction|cbn [length]; lia]).
  assert (HZ : (min_operands k <=? Z.of_nat (length xs)) && (Z.of_nat (length xs) <=? max_operands k) = true)
    by (destruct Hk as [->|[->| ->]]; cbn [min_operands max_operands]; lia).
  destruct Hk as [->|[->| ->]]; rewrite HZ; reflexivity.
Qed.

Lemma words_operands c : Forall plain c -> Forall operand (map (fun t => (t, word_query t)) c).
Proof. intros H. apply Forall_map. revert H. apply Forall_impl. intros t Ht. left. split; [exact Ht|reflexivity]. Qed.
Lemma words_text (c : list bytes) : operands_text (map (fun t => (t, word_query t)) c) = flat_map (fun t => 32 :: t) c.
Proof. unfold operands_text. induction c as [|t c IH]; [reflexivity|]. cbn. rewrite IH. reflexivity. Qed.
Lemma set_read c : Forall plain c -> c <> [] -> Z.of_nat (length c) <= 4294967295 -> forall r,
  exists n, parse_expr n (subquery_text c ++ r) = Ok (41 :: r, Some (set_query c)).
Proof.
  intros Hc Hn Hl r. destruct c as [|t [|u c]]; [contradiction| |].
  - inversion Hc as [|? ? Ht _]; subst. clear Hc.
    destruct (node_read FOLLOWED_BY (map (fun t => (t, word_query t)) [t; t]) (41 :: r) r) as (n & E).
    + auto. + left. reflexivity. + apply words_operands. apply Forall_cons; [exact Ht|]. apply Forall_cons; [exact Ht|constructor]. + discriminate. + cbn; lia.
    + exists n. etransitivity; [|exact E]. f_equal. rewrite words_text. cbn [subquery_text flat_map operator_reverse].
      change (lit "(... ") with (40 :: (lit "..." ++ [32])). change (lit " ") with [32]. change (lit ")") with [41].
      rewrite <- ?app_assoc. cbn [app]. rewrite <- ?app_assoc. cbn [app]. rewrite <- ?app_assoc. reflexivity.
  - destruct (node_read ALL_OF (map (fun t => (t, word_query t)) (t :: u :: c)) (32 :: 41 :: r) r) as (n & E).
    + auto. + right. reflexivity. + apply words_operands. exact Hc. + discriminate. + rewrite map_length. exact Hl.
    + exists n. unfold set_query. rewrite map_map in E. cbn [snd] in E. etransitivity; [|exact E]. f_equal. rewrite words_text. unfold subquery_text.
      change (lit "(^") with [40; 94]. change (lit " )") with [32; 41]. change (operator_reverse ALL_OF) with [94].
      rewrite <- ?app_assoc. reflexivity.
Qed.
Lemma set_text_head c : exists s, subquery_text c = 40 :: s.
Proof. destruct c as [|t [|u c]]; eexists; reflexivity. Qed.
Lemma set_parse c : Forall plain c -> c <> [] -> Z.of_nat (length c) <= 4294967295 -> from_string (subquery_text c) = Ok (Some (set_query c)).
Proof. intros H1 H2 H3. destruct (set_read c H1 H2 H3 []) as (n & E). rewrite app_nil_r in E. eapply from_string_reads. exact E. Qed.
Lemma set_query_inj c d : set_query c = set_query d -> c = d.
Proof.
  assert (forall l m, map word_query l = map word_query m -> l = m) as HM.
  { induction l as [|t l IH]; intros [|u m] E; try discriminate; [reflexivity|]. cbn in E. injection E as E1 E2. subst. f_equal. auto. }
  destruct c as [|t [|u c]], d as [|t' [|u' d]]; cbn; intros E; try discriminate; [reflexivity| |]; injection E as E; subst; [reflexivity|].
  repeat f_equal; auto.
Qed.
Lemma set_text_inj c d : Forall plain c -> c <> [] -> Z.of_nat (length c) <= 4294967295 ->
  Forall plain d -> d <> [] -> Z.of_nat (length d) <= 4294967295 -> subquery_text c = subquery_text d -> c = d.
Proof.
  intros C1 C2 C3 D1 D2 D3 E. apply set_query_inj. pose proof (set_parse c C1 C2 C3) as P. rewrite E, (set_parse d D1 D2 D3) in P. congruence.
Qed.
Lemma tier_parse g : g <> [] -> Z.of_nat (length g) <= 4294967295 ->
  (forall c, In c g -> Forall plain c /\ c <> [] /\ Z.of_nat (length c) <= 4294967295) ->
  from_string (tier_text (map subquery_text g)) = Ok (Some (tier_query g)).
Proof.
  intros Hn Hl HC. destruct g as [|c [|d g]]; [contradiction| |].
  - destruct (HC c (or_introl eq_refl)) as (A & B & D). exact (set_parse c A B D).
  - set (G := c :: d :: g) in *.
    destruct (node_read ONE_OF (map (fun c => (subquery_text c, set_query c)) G) [41] []) as (n & E).
    + auto. + left. reflexivity.
    + apply Forall_map. apply Forall_forall. intros x Hx. destruct (HC x Hx) as (X1 & X2 & X3). right. split; [apply set_text_head|].
      exact (set_read x X1 X2 X3).
    + discriminate. + rewrite map_length. exact Hl.
    + eapply from_string_reads with (n := n) (w := [41]).
      replace (tier_text (map subquery_text G)) with (40 :: operator_reverse ONE_OF ++ operands_text (map (fun c => (subquery_text c, set_query c)) G) ++ [41]).
      * rewrite E, map_map. reflexivity.
      * change (tier_text (map subquery_text G)) with (40 :: 43 :: flat_map (fun s => 32 :: s) (map subquery_text G) ++ [41]).
        change (operator_reverse ONE_OF) with [43]. cbn [app]. do 2 f_equal. f_equal.
        clearbody G. clear. induction G as [|x G IH]; [reflexivity|]. cbn. f_equal. f_equal. exact IH.
Qed.
