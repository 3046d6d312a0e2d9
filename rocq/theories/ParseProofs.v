(** The query parser: it always ends, it only builds well-formed trees, and it reads
    back what to_string prints. *)
From Verif Require Import Base Bytes HopperModel GclSpec VectorModel UnaryModel QueryModel QuerySpec QueryProofs.

Lemma span_app f w : w = fst (span f w) ++ snd (span f w).
Proof. induction w as [|c w IH]; cbn; [reflexivity|]. destruct (f c); [|reflexivity]. destruct (span f w); cbn in *. congruence. Qed.
Lemma span_all f w : forallb f (fst (span f w)) = true.
Proof. induction w as [|c w IH]; cbn; [reflexivity|]. destruct (f c) eqn:E; [|reflexivity]. destruct (span f w); cbn in *. rewrite E. exact IH. Qed.
Lemma span_len f w : (length (snd (span f w)) <= length w)%nat.
Proof. rewrite (span_app f w) at 2. rewrite app_length. lia. Qed.
Lemma span_stop f a r : forallb f a = true -> (r = [] \/ f (peek r) = false) -> span f (a ++ r) = (a, r).
Proof.
  induction a as [|c a IH]; cbn; intros H Hr.
  - destruct r as [|c r]; [reflexivity|]. destruct Hr as [?|Hr]; [discriminate|]. cbn in Hr |- *. rewrite Hr. reflexivity.
  - apply andb_prop in H. destruct H as [H1 H2]. rewrite H1, IH by auto. reflexivity.
Qed.
Lemma skip_ws_len w : (length (skip_ws w) <= length w)%nat.
Proof. apply span_len. Qed.
Lemma skip_ws_id w : is_ws (peek w) = false -> skip_ws w = w.
Proof. intros H. unfold skip_ws. pose proof (span_stop is_ws [] w eq_refl (or_intror H)) as E. cbn [app] in E. rewrite E. reflexivity. Qed.
Lemma term_not_ws c : is_term_char c = true -> is_ws c = false.
Proof. unfold is_term_char. destruct (is_ws c); [discriminate|auto]. Qed.
Lemma scan_len q e w : (length (snd (scan_quote q e w)) <= length w)%nat.
Proof.
  revert e. induction w as [|c w IH]; intros e; cbn; [lia|]. destruct (_ && _); cbn; [|lia].
  specialize (IH (c =? 92)). destruct (scan_quote q (c =? 92) w); cbn in *. lia.
Qed.
Lemma tl_len (w : bytes) : (length (tl w) <= length w)%nat.
Proof. destruct w; cbn; lia. Qed.
Lemma tl_len1 (w : bytes) : peek w <> 0 -> (S (length (tl w)) = length w)%nat.
Proof. destruct w; cbn; [congruence|lia]. Qed.
Lemma term_char_nz w : is_term_char (peek w) = true -> peek w <> 0.
Proof. intros H E. rewrite E in H. discriminate. Qed.

Lemma parse_term_len w w' x : parse_term w = (w', x) ->
  (length w' <= length w)%nat /\ (is_term_char (peek w) = true -> (length w' < length w)%nat).
Proof.
  unfold parse_term. destruct (is_term_char (peek w)) eqn:Ht; cbn [negb].
  2:{ intros H; inversion H; subst. split; [lia|discriminate]. }
  pose proof (tl_len1 w (term_char_nz w Ht)) as Hl.
  destruct (is_quote_char (peek w)) eqn:Hq.
  - pose proof (scan_len (peek w) false (tl w)) as Hs. destruct (scan_quote (peek w) false (tl w)) as [t r]. cbn [snd] in Hs.
    destruct (negb _); intros H; inversion H; subst; [split; lia|].
    pose proof (skip_ws_len (tl r)). pose proof (tl_len r). split; lia.
  - destruct w as [|c w]; [discriminate|]. cbn in Ht, Hl |- *. rewrite Ht.
    pose proof (span_len is_term_char w) as Hs. destruct (span is_term_char w) as [t r]. cbn [snd] in Hs.
    intros H; inversion H; subst. pose proof (skip_ws_len r). split; cbn; lia.
Qed.

Lemma parse_len n :
  (forall w w' x, parse_expr n w = Ok (w', x) ->
     (length w' <= length w)%nat /\ (is_term_char (peek w) = true -> (length w' < length w)%nat) /\ (peek w = 40 -> (length w' < length w)%nat)) /\
  (forall w acc w' x, parse_args n w acc = Ok (w', x) -> (length w' <= length w)%nat).
Proof.
  induction n as [|n [IHe IHa]]; [split; intros; discriminate|]. split.
  - intros w w' x. cbn [parse_expr].
    pose proof (skip_ws_len w) as H0.
    assert (Hid : is_ws (peek w) = false -> skip_ws w = w) by apply skip_ws_id.
    destruct (Z.eqb_spec (peek (skip_ws w)) 40) as [E|E]; cbn [negb].
    2:{ intros H. inversion H as [H']. destruct (parse_term_len _ _ _ H') as [L1 L2].
        split; [lia|]. split.
        - intros Ht. rewrite Hid in L2 by (apply term_not_ws; exact Ht). auto.
        - intros Hp. rewrite Hid in E by (rewrite Hp; reflexivity). contradiction. }
    pose proof (tl_len1 (skip_ws w) ltac:(rewrite E; discriminate)) as Ht.
    pose proof (skip_ws_len (tl (skip_ws w))) as H1. set (w1 := skip_ws (tl (skip_ws w))) in *.
    assert (HL : (length w1 < length w)%nat) by lia.
    enough (Hg : forall r, r = Ok (w', x) -> (match r with Ok (v, _) => (length v <= length w1)%nat | _ => True end) -> (length w' < length w)%nat).
    { intros H. enough ((length w' < length w)%nat) by (split; [lia|split; auto]).
      apply (Hg _ H). clear Hg.
      destruct (negb (is_term_char (peek w1))); [cbn; lia|].
      pose proof (span_len is_term_char w1) as Hs. destruct (span is_term_char w1) as [name w2]. cbn [snd] in Hs.
      destruct (find_op operator_forward name) as [k|]; [|lia].
      assert (Hk : forall k', match (let* (w3, subx) := parse_args n (skip_ws w2) [] in
          match subx with None => Ok (w3, None) | Some xs =>
            Ok (w3, if (peek w3 =? 41) && (min_operands k' <=? Z.of_nat (length xs)) && (Z.of_nat (length xs) <=? max_operands k')
                      then Some (SX k' [] 0 xs) else None) end) with Ok (v, _) => (length v <= length w1)%nat | _ => True end).
      { intros k'. destruct (parse_args n (skip_ws w2) []) as [[w3 subx]| |] eqn:Ea; cbn [bind]; auto.
        apply IHa in Ea. pose proof (skip_ws_len w2). destruct subx; cbn; lia. }
      destruct k; try apply Hk. clear Hk.
      pose proof (span_len is_digit (skip_ws w2)) as Hs3. destruct (span is_digit (skip_ws w2)) as [ds w3]. cbn [snd] in Hs3.
      pose proof (skip_ws_len w2). destruct ds as [|c ds]; [lia|]. destruct (parse_width (c - 48) ds); cbn [bind]; auto.
      pose proof (skip_ws_len w3). lia. }
    intros r -> H. lia.
  - intros w acc w' x. cbn [parse_args].
    destruct ((peek w =? 41) || (peek w =? 0)); [intros H; inversion H; subst; lia|].
    destruct (peek w =? 40).
    + destruct (parse_expr n w) as [[w1 y]| |] eqn:Ee; cbn [bind]; try discriminate.
      destruct (IHe _ _ _ Ee) as (L & _). destruct y as [e|].
      * destruct (peek w1 =? 41).
        -- intros H. apply IHa in H. pose proof (skip_ws_len (tl w1)). pose proof (tl_len w1). lia.
        -- intros H; inversion H; subst; lia.
      * intros H; inversion H; subst; lia.
    + destruct (is_term_char (peek w)) eqn:Ht.
      * destruct (parse_expr n w) as [[w1 y]| |] eqn:Ee; cbn [bind]; try discriminate.
        destruct (IHe _ _ _ Ee) as (L & _). intros H. apply IHa in H. pose proof (skip_ws_len w1). lia.
      * intros H; inversion H; subst; lia.
Qed.

Lemma parse_width_fuel v ds : parse_width v ds <> NoFuel.
Proof.
  revert v. induction ds as [|c ds IH]; intros v; cbn; [discriminate|].
  unfold chk. destruct (_ && _); cbn [bind]; [|discriminate]. destruct (_ && _); cbn [bind]; [apply IH|discriminate].
Qed.
Lemma parse_total n :
  (forall w, (2 * length w + 1 <= n)%nat -> parse_expr n w <> NoFuel) /\
  (forall w acc, (2 * length w + 2 <= n)%nat -> parse_args n w acc <> NoFuel).
Proof.
  induction n as [|n [IHe IHa]]; [split; intros; lia|]. split.
  - intros w Hn. cbn [parse_expr]. pose proof (skip_ws_len w) as H0.
    destruct (Z.eqb_spec (peek (skip_ws w)) 40) as [E|E]; cbn [negb]; [|discriminate].
    pose proof (tl_len1 (skip_ws w) ltac:(rewrite E; discriminate)) as Ht.
    pose proof (skip_ws_len (tl (skip_ws w))) as H1. set (w1 := skip_ws (tl (skip_ws w))) in *.
    destruct (negb (is_term_char (peek w1))); [discriminate|].
    pose proof (span_len is_term_char w1) as Hs. destruct (span is_term_char w1) as [name w2]. cbn [snd] in Hs.
    destruct (find_op operator_forward name) as [k|]; [|discriminate].
    pose proof (skip_ws_len w2) as H2.
    assert (Ha : parse_args n (skip_ws w2) [] <> NoFuel) by (apply IHa; lia).
    assert (Hb : forall f, (forall w3 subx, f (w3, subx) <> @NoFuel (bytes * option sexpr)) -> bind (parse_args n (skip_ws w2) []) f <> NoFuel).
    { intros f Hf. destruct (parse_args n (skip_ws w2) []) as [[w3 subx]| |]; cbn [bind]; [apply Hf|discriminate|contradiction]. }
    destruct k; try (apply Hb; intros w3 [xs|]; discriminate).
    destruct (span is_digit (skip_ws w2)) as [ds w3]. destruct ds as [|c ds]; [discriminate|].
    pose proof (parse_width_fuel (c - 48) ds). destruct (parse_width (c - 48) ds); cbn [bind]; discriminate || contradiction.
  - intros w acc Hn. cbn [parse_args].
    destruct ((peek w =? 41) || (peek w =? 0)); [discriminate|].
    assert (He : parse_expr n w <> NoFuel) by (apply IHe; lia).
    destruct (Z.eqb_spec (peek w) 40) as [E|E].
    + destruct (parse_expr n w) as [[w1 y]| |] eqn:Ee; cbn [bind]; try discriminate; [|contradiction].
      apply (proj1 (parse_len n)) in Ee. destruct Ee as (_ & _ & L). specialize (L E).
      destruct y as [e|]; [|discriminate]. destruct (peek w1 =? 41); [|discriminate].
      apply IHa. pose proof (skip_ws_len (tl w1)). pose proof (tl_len w1). lia.
    + destruct (is_term_char (peek w)) eqn:Ht; [|discriminate].
      destruct (parse_expr n w) as [[w1 y]| |] eqn:Ee; cbn [bind]; try discriminate; [|contradiction].
      apply (proj1 (parse_len n)) in Ee. destruct Ee as (_ & L & _). specialize (L Ht).
      apply IHa. pose proof (skip_ws_len w1). lia.
Qed.

(** More fuel changes nothing. *)
Lemma parse_mono n :
  (forall w r m, parse_expr n w = Ok r -> (n <= m)%nat -> parse_expr m w = Ok r) /\
  (forall w acc r m, parse_args n w acc = Ok r -> (n <= m)%nat -> parse_args m w acc = Ok r).
Proof.
  induction n as [|n [IHe IHa]]; [split; intros; discriminate|]. split.
  - intros w r m H Hm. destruct m as [|m]; [lia|]. cbn [parse_expr] in *.
    destruct (negb (peek (skip_ws w) =? 40)); [exact H|].
    set (w1 := skip_ws (tl (skip_ws w))) in *.
    destruct (negb (is_term_char (peek w1))); [exact H|].
    destruct (span is_term_char w1) as [name w2]. destruct (find_op operator_forward name) as [k|]; [|exact H].
    assert (Hb : forall f, bind (parse_args n (skip_ws w2) []) f = Ok r -> bind (parse_args m (skip_ws w2) []) f = Ok r).
    { intros f. destruct (parse_args n (skip_ws w2) []) as [p| |] eqn:Ea; cbn [bind]; try discriminate.
      rewrite (IHa _ _ _ m Ea) by lia. auto. }
    destruct k; try (apply Hb; exact H). exact H.
  - intros w acc r m H Hm. destruct m as [|m]; [lia|]. cbn [parse_args] in *.
    destruct (_ || _); [exact H|].
    assert (Hb : forall f : bytes * option sexpr -> res (bytes * option (list sexpr)), forall g,
              (forall p, f p = Ok r -> g p = Ok r) -> bind (parse_expr n w) f = Ok r -> bind (parse_expr m w) g = Ok r).
    { intros f g Hfg. destruct (parse_expr n w) as [p| |] eqn:Ea; cbn [bind]; try discriminate.
      rewrite (IHe _ _ m Ea) by lia. apply Hfg. }
    destruct (peek w =? 40); [|destruct (is_term_char (peek w)); [|exact H]]; (eapply Hb; [|exact H]).
    + intros [w1 [e|]]; [|auto]. destruct (peek w1 =? 41); [|auto]. intros Ha. apply (IHa _ _ _ m Ha). lia.
    + intros [w1 x] Ha. apply (IHa _ _ _ m Ha). lia.
Qed.
Lemma from_string_reads n s w x : parse_expr n s = Ok (w, x) -> from_string s = Ok x.
Proof.
  intros H. unfold from_string.
  assert (Hf : parse_expr (2 * length s + 2) s <> NoFuel) by (apply parse_total; lia).
  pose proof (proj1 (parse_mono n) s (w, x) (n + (2 * length s + 2))%nat H ltac:(lia)) as H1.
  destruct (parse_expr (2 * length s + 2) s) as [p| |] eqn:E; [| |contradiction].
  - pose proof (proj1 (parse_mono _) _ _ (n + (2 * length s + 2))%nat E ltac:(lia)) as H2.
    assert (p = (w, x)) by congruence. subst. reflexivity.
  - exfalso. revert H E. clear.
    enough (Hu : forall n, (forall w r m, parse_expr n w = Ok r -> parse_expr m w <> UB) /\
                           (forall w acc r m, parse_args n w acc = Ok r -> parse_args m w acc <> UB)).
    { intros H E. exact (proj1 (Hu n) _ _ _ H E). }
    clear. induction n as [|n [IHe IHa]]; [split; intros; discriminate|]. split.
    + intros w r m H. destruct m as [|m]; [discriminate|]. cbn [parse_expr] in *.
      destruct (negb (peek (skip_ws w) =? 40)); [discriminate|].
      set (w1 := skip_ws (tl (skip_ws w))) in *.
      destruct (negb (is_term_char (peek w1))); [discriminate|].
      destruct (span is_term_char w1) as [name w2]. destruct (find_op operator_forward name) as [k|]; [|discriminate].
      assert (Hb : forall f g, (forall p, g p <> @UB (bytes * option sexpr)) -> bind (parse_args n (skip_ws w2) []) f = Ok r -> bind (parse_args m (skip_ws w2) []) g <> UB).
      { intros f g Hg. destruct (parse_args n (skip_ws w2) []) as [p| |] eqn:Ea; cbn [bind]; try discriminate.
        intros _. pose proof (IHa _ _ _ m Ea). destruct (parse_args m (skip_ws w2) []); cbn [bind]; [apply Hg|contradiction|discriminate]. }
      destruct k; try (revert H; apply Hb; intros [w3 [xs|]]; discriminate).
      congruence.
    + intros w acc r m H. destruct m as [|m]; [discriminate|]. cbn [parse_args] in *.
      destruct (_ || _); [discriminate|].
      destruct (parse_expr n w) as [[w1 y]| |] eqn:Ea; cbn [bind] in H.
      2,3: destruct (peek w =? 40); [discriminate|destruct (is_term_char (peek w)); discriminate].
      pose proof (IHe _ _ m Ea) as Hm.
      destruct (parse_expr m w) as [[w2 z]| |] eqn:Eb; cbn [bind]; [|contradiction|].
      2: destruct (peek w =? 40); [discriminate|destruct (is_term_char (peek w)); discriminate].
      pose proof (proj1 (parse_mono n) _ _ (n + m)%nat Ea ltac:(lia)) as E1.
      pose proof (proj1 (parse_mono m) _ _ (n + m)%nat Eb ltac:(lia)) as E2.
      assert (Ep : (w1, y) = (w2, z)) by congruence. inversion Ep; subst.
      destruct (peek w =? 40); [|destruct (is_term_char (peek w)); [|discriminate]].
      * destruct z; [|discriminate]. destruct (peek w2 =? 41); [|discriminate]. eauto.
      * eauto.
Qed.

(** ** Quoted terms *)
Fixpoint qbody (q : Z) (e : bool) (b : bytes) : Prop :=
  match b with
  | [] => e = false
  | c :: r => c <> 0 /\ (c = q -> e = true) /\ qbody q (c =? 92) r
  end.
Lemma qbody_spec q b : q <> 92 -> forall e, qbody q e b <->
  (~ In 0 b /\ (forall u v, b = u ++ q :: v -> (exists u', u = u' ++ [92]) \/ (u = [] /\ e = true)) /\
   (forall u, b <> u ++ [92]) /\ (b = [] -> e = false)).
Proof.
  intros Hq. induction b as [|c b IH]; intros e; cbn [qbody].
  - split.
    + intros ->. split; [auto|]. split; [intros [|? ?] ? ?; discriminate|]. split; [intros [|? ?]; discriminate|auto].
    + intros (_ & _ & _ & H). auto.
  - rewrite IH. split.
    + intros (H0 & Hc & N & U & B & Z0). split; [intros [->|Hi]; auto|].
      split; [|split; [|discriminate]].
      * intros u v E. destruct u as [|d u]; cbn in E; inversion E; subst; [right; auto|].
        destruct (U u v eq_refl) as [(u' & ->)|[-> He]]; left.
        -- exists (d :: u'). reflexivity.
        -- apply Z.eqb_eq in He. subst. exists []. reflexivity.
      * intros u E. destruct u as [|d u]; cbn in E; inversion E; subst.
        -- specialize (Z0 eq_refl). discriminate.
        -- exact (B u eq_refl).
    + intros (N & U & B & _). split; [intros ->; apply N; left; reflexivity|].
      split. { intros ->. destruct (U [] b eq_refl) as [(u' & E)|[_ H]]; [destruct u'; discriminate|exact H]. }
      split; [intros H; apply N; right; exact H|].
      split; [|split].
      * intros u v ->. destruct (U (c :: u) v eq_refl) as [(u' & E)|[E _]]; [|discriminate].
        destruct u' as [|d u']; cbn in E; inversion E; subst; [right; auto|left; exists u'; auto].
      * intros u ->. apply (B (c :: u)). reflexivity.
      * intros ->. destruct (Z.eqb_spec c 92) as [->|]; [|reflexivity]. exfalso. apply (B []). reflexivity.
Qed.
Lemma qbody_quoted q b : q <> 92 -> qbody q false b <-> quoted_body q b.
Proof.
  intros Hq. rewrite qbody_spec by exact Hq. unfold quoted_body. split.
  - intros (N & U & B & _). split; [exact N|]. split; [|exact B]. intros u v E. destruct (U u v E) as [H|[_ H]]; [exact H|discriminate].
  - intros (N & U & B). split; [exact N|]. split; [|split; [exact B|auto]]. intros u v E. left. eauto.
Qed.
Lemma scan_reads q : q <> 0 -> forall b e r, qbody q e b -> scan_quote q e (b ++ q :: r) = (b, q :: r).
Proof.
  intros Hq b. induction b as [|c b IH]; intros e r H; cbn in *.
  - subst. destruct (Z.eqb_spec q 0); [contradiction|]. rewrite Z.eqb_refl. reflexivity.
  - destruct H as (H0 & Hc & Hb). destruct (Z.eqb_spec c 0); [contradiction|].
    destruct (Z.eqb_spec c q) as [E|E]; cbn [negb andb orb].
    + rewrite (Hc E). rewrite (IH _ r Hb). reflexivity.
    + rewrite (IH _ r Hb). reflexivity.
Qed.
Lemma scan_gives q : forall w e b r, scan_quote q e w = (b, r) -> peek r = q -> q <> 0 -> qbody q e b.
Proof.
  induction w as [|c w IH]; intros e b r H Hp Hq; cbn in H.
  - injection H as <- <-. cbn in Hp; congruence.
  - destruct (negb (c =? 0) && (negb (c =? q) || e)) eqn:E.
    + destruct (scan_quote q (c =? 92) w) as [t r'] eqn:Es. injection H as <- <-. cbn. 
      split; [lia|]. split; [intros Ec; destruct e; [reflexivity|]; lia|]. eapply IH; eauto.
    + injection H as <- <-. cbn in *. destruct e; [|reflexivity]. lia.
Qed.
Lemma scan_stops q : forall w e b r, scan_quote q e w = (b, r) -> peek r = q \/ peek r = 0.
Proof.
  induction w as [|c w IH]; intros e b r H; cbn in H; [inversion H; subst; auto|].
  destruct (negb (c =? 0) && (negb (c =? q) || e)) eqn:E.
  - destruct (scan_quote q (c =? 92) w) as [t r'] eqn:Es. inversion H; subst. eapply IH; eauto.
  - inversion H; subst. cbn. lia.
Qed.
Lemma quote_facts q : is_quote_char q = true -> q <> 0 /\ q <> 92 /\ q <> 40 /\ is_term_char q = true.
Proof. unfold is_quote_char, is_term_char, is_ws. lia. Qed.

(** ** Reading back what is printed *)
Definition stops (r : bytes) : Prop := is_term_char (peek r) = false.
Lemma skip_ws_idem w : skip_ws (skip_ws w) = skip_ws w.
Proof.
  induction w as [|c w IH]; [reflexivity|]. unfold skip_ws in *. cbn. destruct (is_ws c) eqn:E.
  - destruct (span is_ws w); cbn in *. exact IH.
  - cbn. rewrite E. reflexivity.
Qed.
Lemma written_head t : written_term t -> forall r, is_term_char (peek (t ++ r)) = true.
Proof.
  intros [(N & H & _)|(q & b & Hq & _ & ->)] r.
  - destruct t as [|c t]; [contradiction|]. cbn in *. apply andb_prop in H. apply H.
  - cbn. apply quote_facts. exact Hq.
Qed.
Lemma parse_term_reads t r : written_term t -> stops r -> parse_term (t ++ r) = (skip_ws r, Some (SX TERM t 0 [])).
Proof.
  intros Ht Hr. unfold parse_term. rewrite (written_head t Ht r). cbn [negb].
  destruct Ht as [(N & H & Hq)|(q & b & Hq & Hb & ->)].
  - assert (Hp : peek (t ++ r) = peek t) by (destruct t; [contradiction|reflexivity]).
    rewrite Hp, Hq. rewrite span_stop by auto. reflexivity.
  - cbn [app peek tl]. rewrite Hq. destruct (quote_facts q Hq) as (Q0 & Q1 & _).
    apply qbody_quoted in Hb; [|exact Q1]. rewrite <- app_assoc. cbn [app].
    rewrite (scan_reads q Q0 b false r Hb). cbn [peek tl]. rewrite Z.eqb_refl. reflexivity.
Qed.

Lemma operator_reads k : k <> TERM ->
  find_op operator_forward (operator_reverse k) = Some k /\
  forallb is_term_char (operator_reverse k) = true /\ operator_reverse k <> [].
Proof. intros H. destruct k; try contradiction; repeat split; try (vm_compute; reflexivity); discriminate. Qed.

Lemma chk_in z : minf <= z <= maxf -> chk z = Ok z.
Proof. intros H. unfold chk. destruct ((minf <=? z) && (z <=? maxf)) eqn:E; [reflexivity|lia]. Qed.
Lemma digits_width : forall ds v, forallb is_digit ds = true -> 0 <= v -> dec_val v ds <= maxf -> parse_width v ds = Ok (dec_val v ds).
Proof.
  induction ds as [|c ds IH]; intros v H Hv Hm; [reflexivity|].
  cbn in H. apply andb_prop in H. destruct H as [Hc Hd]. assert (Hc' : 48 <= c <= 57) by (unfold is_digit in Hc; lia). clear Hc.
  cbn [parse_width]. change (dec_val v (c :: ds)) with (dec_val (10 * v + (c - 48)) ds) in *.
  pose proof (dec_val_ge (10 * v + (c - 48)) ds ltac:(lia) Hd) as Hge.
  rewrite (chk_in (10 * v)) by (unfold minf, maxf in *; lia). cbn [bind].
  rewrite chk_in by (unfold minf, maxf in *; lia). cbn [bind]. apply IH; auto; lia.
Qed.
Lemma digit_term_char c : is_digit c = true -> is_term_char c = true.
Proof. unfold is_digit, is_term_char, is_ws. lia. Qed.

Definition rest_after (e : sexpr) (r : bytes) : bytes :=
  match sx_kind e with TERM => skip_ws r | _ => 41 :: r end.
Definition reads (e : sexpr) : Prop :=
  forall r, stops r -> exists n, parse_expr n (to_string e ++ r) = Ok (rest_after e r, Some e).

Definition args_text (xs : list sexpr) : bytes := flat_map (fun x => 32 :: to_string x) xs.
Lemma args_text_stops xs r : stops (args_text xs ++ 41 :: r).
Proof. destruct xs; reflexivity. Qed.
Lemma printable_head e r : printable e ->
  (sx_kind e = TERM -> is_term_char (peek (to_string e ++ r)) = true) /\
  (sx_kind e <> TERM -> peek (to_string e ++ r) = 40).
Proof.
  intros P. destruct P as [t Ht|w Hw|k xs H1 H2 H3 H4]; cbn [sx_kind]; split; intros H; try congruence.
  - apply written_head. exact Ht.
  - reflexivity.
  - destruct k; try contradiction; reflexivity.
Qed.
Lemma args_read xs : Forall printable xs -> Forall reads xs -> forall r acc,
  exists n, parse_args n (skip_ws (args_text xs ++ 41 :: r)) acc = Ok (41 :: r, Some (rev acc ++ xs)).
Proof.
  induction xs as [|x xs IH]; intros HP HR r acc.
  - exists 1%nat. cbn. rewrite app_nil_r. reflexivity.
  - inversion HP as [|? ? Px Pxs]; subst. inversion HR as [|? ? Rx Rxs]; subst.
    set (R := args_text xs ++ 41 :: r).
    assert (ET : args_text (x :: xs) ++ 41 :: r = 32 :: to_string x ++ R).
    { unfold R. cbn. rewrite <- app_assoc. reflexivity. }
    rewrite ET. destruct (printable_head x R Px) as [HT HN].
    assert (Hs : skip_ws (32 :: to_string x ++ R) = to_string x ++ R).
    { change (skip_ws (32 :: to_string x ++ R)) with (skip_ws (32 :: (to_string x ++ R))).
      assert (E : skip_ws (32 :: (to_string x ++ R)) = skip_ws (to_string x ++ R)).
      { unfold skip_ws. cbn. destruct (span is_ws (to_string x ++ R)); reflexivity. }
      rewrite E. apply skip_ws_id. destruct (op_eq_dec (sx_kind x) TERM) as [K|K].
      - apply term_not_ws. auto.
      - rewrite (HN K). reflexivity. }
    rewrite Hs. destruct (Rx R (args_text_stops xs r)) as (n1 & H1).
    destruct (IH Pxs Rxs r (x :: acc)) as (n2 & H2). fold R in H2.
    exists (S (n1 + n2))%nat. cbn [parse_args].
    rewrite (proj1 (parse_mono n1) _ _ (n1 + n2)%nat H1) by lia. cbn [bind].
    cbn [rev] in H2. rewrite <- app_assoc in H2. cbn [app] in H2.
    apply (proj2 (parse_mono n2)) with (m := (n1 + n2)%nat) in H2; [|lia].
    unfold rest_after. destruct (op_eq_dec (sx_kind x) TERM) as [K|K].
    + rewrite K. specialize (HT K). rewrite HT.
      assert (Hc : (peek (to_string x ++ R) =? 41) || (peek (to_string x ++ R) =? 0) = false /\ (peek (to_string x ++ R) =? 40) = false).
      { unfold is_term_char in HT. lia. }
      destruct Hc as [-> ->]. rewrite skip_ws_idem. exact H2.
    + rewrite (HN K). change ((40 =? 41) || (40 =? 0)) with false. change (40 =? 40) with true. cbn iota.
      destruct (sx_kind x); try contradiction; cbn [peek tl]; change (41 =? 41) with true; cbn iota; exact H2.
Qed.

Lemma printable_reads e : printable e -> reads e.
Proof.
  induction e as [k t w xs IH] using sexpr_ind'. intros P r Hr.
  inversion P as [t' Ht|w' Hw|k' xs' H1 H2 H3 H4]; subst.
  - exists 1%nat. cbn [parse_expr to_string rest_after sx_kind].
    pose proof (written_head t Ht r) as Hh. rewrite skip_ws_id by (apply term_not_ws; exact Hh).
    assert (E : (peek (t ++ r) =? 40) = false) by (unfold is_term_char in Hh; lia). rewrite E. cbn [negb].
    rewrite parse_term_reads by assumption. reflexivity.
  - exists 1%nat. cbn [to_string rest_after sx_kind].
    unfold dec. destruct (Z.ltb_spec w 0); [lia|].
    destruct (dec_nat_ok w ltac:(lia)) as (D1 & D2 & D3 & _).
    remember (dec_nat w) as ds. clear Heqds.
    change (lit "(# ") with [40; 35; 32]. change (lit ")") with [41].
    rewrite <- !app_assoc. cbn [app].
    assert (Es : span is_digit (ds ++ 41 :: r) = (ds, 41 :: r)) by (apply span_stop; auto).
    assert (Ew : skip_ws (32 :: ds ++ 41 :: r) = ds ++ 41 :: r).
    { assert (E : skip_ws (32 :: (ds ++ 41 :: r)) = skip_ws (ds ++ 41 :: r)).
      { unfold skip_ws. cbn. destruct (span is_ws (ds ++ 41 :: r)); reflexivity. }
      rewrite E. apply skip_ws_id. destruct ds as [|c ds]; [contradiction|]. cbn in *. apply term_not_ws, digit_term_char.
      apply andb_prop in D1. apply D1. }
    cbn [parse_expr].
    change (skip_ws (40 :: 35 :: 32 :: ds ++ 41 :: r)) with (40 :: 35 :: 32 :: ds ++ 41 :: r).
    cbn [peek tl]. change (negb (40 =? 40)) with false. cbn iota.
    change (skip_ws (35 :: 32 :: ds ++ 41 :: r)) with (35 :: 32 :: ds ++ 41 :: r).
    change (negb (is_term_char (peek (35 :: 32 :: ds ++ 41 :: r)))) with false. cbn iota.
    change (span is_term_char (35 :: 32 :: ds ++ 41 :: r)) with ([35], 32 :: ds ++ 41 :: r). cbn iota beta.
    change (find_op operator_forward [35]) with (Some FIXED). cbn iota.
    rewrite Ew, Es. destruct ds as [|c ds]; [contradiction|]. 
    cbn in D1. apply andb_prop in D1. destruct D1 as [Dc Dd]. unfold is_digit in Dc.
    assert (EV : dec_val (c - 48) ds = w).
    { rewrite <- D2. unfold dec_val. cbn [fold_left]. reflexivity. }
    rewrite (digits_width ds (c - 48) Dd) by lia. cbn [bind]. rewrite EV.
    change (skip_ws (41 :: r)) with (41 :: r). reflexivity.
  - destruct (operator_reads k H1) as (O1 & O2 & O3).
    assert (HR : Forall reads xs) by (rewrite Forall_forall in *; auto).
    destruct (args_read xs H4 HR r []) as (n & Hn). cbn [rev app] in Hn.
    exists (S n).
    assert (ET : to_string (SX k [] 0 xs) ++ r = 40 :: operator_reverse k ++ args_text xs ++ 41 :: r).
    { destruct k; try contradiction; cbn [to_string]; change (lit "(") with [40]; change (lit ")") with [41];
        unfold args_text; rewrite <- ?app_assoc; reflexivity. }
    rewrite ET.
    replace (rest_after (SX k [] 0 xs) r) with (41 :: r) by (destruct k; try contradiction; reflexivity).
    cbn [parse_expr].
    set (A := args_text xs ++ 41 :: r) in *.
    assert (HA : stops A) by apply args_text_stops.
    change (skip_ws (40 :: operator_reverse k ++ A)) with (40 :: operator_reverse k ++ A).
    cbn [peek tl]. change (negb (40 =? 40)) with false. cbn iota.
    assert (Hh : is_term_char (peek (operator_reverse k ++ A)) = true).
    { destruct (operator_reverse k) as [|c l]; [contradiction|]. cbn in *. apply andb_prop in O2. apply O2. }
    rewrite (skip_ws_id (operator_reverse k ++ A)) by (apply term_not_ws; exact Hh). rewrite Hh. cbn [negb].
    rewrite span_stop by auto. rewrite O1. rewrite Hn.
    assert (HS : (min_operands k <=? Z.of_nat (length xs)) && (Z.of_nat (length xs) <=? max_operands k) = true)
      by (destruct k; unfold operand_count in *; cbn [min_operands max_operands] in *; lia).
    destruct k; try contradiction; cbn [bind peek]; change (41 =? 41) with true; cbn [andb]; rewrite HS; reflexivity.
Qed.
Lemma print_parse e : printable e -> from_string (to_string e) = Ok (Some e).
Proof.
  intros P. destruct (printable_reads e P []) as (n & H); [reflexivity|]. rewrite app_nil_r in H.
  eapply from_string_reads. exact H.
Qed.

(** ** The parser builds printable trees *)
Lemma width_bounds ds : forall v z, forallb is_digit ds = true -> 0 <= v <= maxf -> parse_width v ds = Ok z -> 0 <= z <= maxf.
Proof.
  induction ds as [|c ds IH]; intros v z H Hv; cbn [parse_width]; [intros E; inversion E; subst; auto|].
  cbn in H. apply andb_prop in H. destruct H as [Hc Hd]. assert (Hc' : 48 <= c <= 57) by (unfold is_digit in Hc; lia). clear Hc.
  unfold chk. destruct (_ && _); cbn [bind]; [|discriminate]. destruct (_ && _) eqn:E; cbn [bind]; [|discriminate].
  apply IH; auto. lia.
Qed.
Lemma parse_term_gives w w' e : parse_term w = (w', Some e) -> printable e.
Proof.
  unfold parse_term. destruct (is_term_char (peek w)) eqn:Ht; cbn [negb]; [|discriminate].
  destruct (is_quote_char (peek w)) eqn:Hq.
  - destruct (scan_quote (peek w) false (tl w)) as [t r] eqn:Es.
    destruct (Z.eqb_spec (peek r) (peek w)) as [Ep|Ep]; cbn [negb]; [|discriminate].
    intros H; inversion H; subst. destruct (quote_facts _ Hq) as (Q0 & Q1 & _).
    apply pr_term. right. exists (peek w), t. split; [exact Hq|]. split; [|reflexivity].
    apply qbody_quoted; [exact Q1|]. eapply scan_gives; eauto.
  - destruct (span is_term_char w) as [t r] eqn:Es. intros H; inversion H; subst.
    apply pr_term. left. pose proof (span_all is_term_char w) as A. pose proof (span_app is_term_char w) as B.
    rewrite Es in A, B. cbn in A, B.
    assert (N : t <> []). { intros ->. destruct w as [|c w]; [discriminate|]. cbn in Ht, Es. rewrite Ht in Es. destruct (span is_term_char w). discriminate. }
    split; [exact N|]. split; [exact A|]. rewrite B in Hq. destruct t; [contradiction|exact Hq].
Qed.
Lemma parse_term_fails w w' : parse_term w = (w', None) -> is_term_char (peek w) = true -> peek w' = 0.
Proof.
  unfold parse_term. intros H Ht. rewrite Ht in H. cbn [negb] in H.
  destruct (is_quote_char (peek w)) eqn:Hq.
  - destruct (scan_quote (peek w) false (tl w)) as [t r] eqn:Es.
    destruct (Z.eqb_spec (peek r) (peek w)) as [Ep|Ep]; cbn [negb] in H; [discriminate|].
    inversion H; subst. destruct (scan_stops _ _ _ _ _ Es); [contradiction|assumption].
  - destruct (span is_term_char w). discriminate.
Qed.
Lemma parse_gives n :
  (forall w w' e, parse_expr n w = Ok (w', Some e) -> printable e) /\
  (forall w acc w' xs, parse_args n w acc = Ok (w', Some xs) -> peek w' = 41 -> Forall printable acc -> Forall printable xs).
Proof.
  induction n as [|n [IHe IHa]]; [split; intros; discriminate|]. split.
  - intros w w' e. cbn [parse_expr].
    destruct (negb (peek (skip_ws w) =? 40)). { intros H. inversion H as [H']. eapply parse_term_gives. exact H'. }
    set (w1 := skip_ws (tl (skip_ws w))).
    destruct (negb (is_term_char (peek w1))); [discriminate|].
    destruct (span is_term_char w1) as [name w2]. destruct (find_op operator_forward name) as [k|] eqn:Ek; [|discriminate].
    assert (Hk : forall k', k' <> TERM -> k' <> FIXED ->
      (let* (w3, subx) := parse_args n (skip_ws w2) [] in
          match subx with None => Ok (w3, None) | Some xs =>
            Ok (w3, if (peek w3 =? 41) && (min_operands k' <=? Z.of_nat (length xs)) && (Z.of_nat (length xs) <=? max_operands k')
                      then Some (SX k' [] 0 xs) else None) end) = Ok (w', Some e) -> printable e).
    { intros k' N1 N2. destruct (parse_args n (skip_ws w2) []) as [[w3 [xs|]]| |] eqn:Ea; cbn [bind]; try discriminate.
      intros H. inversion H as [[H1 H2]]; subst. destruct (_ && _ && _) eqn:Eb; [|discriminate]. inversion H2; subst.
      apply andb_prop in Eb. destruct Eb as [Eb E3]. apply andb_prop in Eb. destruct Eb as [E1 E2].
      apply pr_node; auto; [destruct k'; cbn [operand_count min_operands max_operands] in *; lia|]. apply (IHa _ _ _ _ Ea); [lia|constructor]. }
    destruct k; try (apply Hk; discriminate).
    + clear -Ek. exfalso. unfold operator_forward in Ek. cbn [find_op] in Ek.
      repeat match type of Ek with (if ?b then _ else _) = _ => destruct b; [discriminate|] end. discriminate.
    + pose proof (span_all is_digit (skip_ws w2)) as Hd.
      destruct (span is_digit (skip_ws w2)) as [ds w3]. cbn [fst] in Hd. destruct ds as [|c ds]; [discriminate|].
      cbn in Hd. apply andb_prop in Hd. destruct Hd as [Hc Hd].
      destruct (parse_width (c - 48) ds) as [v| |] eqn:Ev; cbn [bind]; try discriminate.
      intros H. inversion H as [[H1 H2]]. destruct (peek _ =? 41); [|discriminate]. inversion H2; subst.
      apply pr_fixed. apply (width_bounds ds (c - 48)); auto. unfold is_digit in Hc. unfold maxf. lia.
  - intros w acc w' xs. cbn [parse_args].
    destruct ((peek w =? 41) || (peek w =? 0)). { intros H _ Ha. inversion H; subst. apply Forall_rev. exact Ha. }
    destruct (Z.eqb_spec (peek w) 40) as [E|E].
    + destruct (parse_expr n w) as [[w1 y]| |] eqn:Ee; cbn [bind]; try discriminate.
      destruct y as [e|]; [|discriminate]. destruct (peek w1 =? 41); [|discriminate].
      intros H Hp Ha. apply (IHa _ _ _ _ H Hp). constructor; eauto.
    + destruct (is_term_char (peek w)) eqn:Ht; [|discriminate].
      destruct (parse_expr n w) as [[w1 y]| |] eqn:Ee; cbn [bind]; try discriminate.
      intros H Hp Ha. destruct y as [e|]; [apply (IHa _ _ _ _ H Hp); constructor; eauto|].
      exfalso. destruct n as [|n]; [discriminate|]. cbn [parse_expr] in Ee.
      rewrite (skip_ws_id w) in Ee by (apply term_not_ws; exact Ht).
      assert (Ec : negb (peek w =? 40) = true) by lia. rewrite Ec in Ee. inversion Ee as [Ee'].
      apply parse_term_fails in Ee'; [|exact Ht].
      rewrite skip_ws_id in H by (rewrite Ee'; reflexivity). cbn [parse_args] in H. rewrite Ee' in H. cbn in H.
      inversion H; subst. congruence.
Qed.
Lemma parse_printable s e : from_string s = Ok (Some e) -> printable e.
Proof.
  unfold from_string. destruct (parse_expr (2 * length s + 2) s) as [[w x]| |] eqn:E; cbn [bind]; try discriminate.
  intros H. inversion H; subst. eapply (proj1 (parse_gives _)). exact E.
Qed.

(** ** No overflow for widths of at most 18 digits *)
Definition suffix (r w : bytes) : Prop := exists a, w = a ++ r.
Lemma suffix_refl w : suffix w w. Proof. exists []. reflexivity. Qed.
Lemma suffix_trans a b c : suffix a b -> suffix b c -> suffix a c.
Proof. intros (x & ->) (y & ->). exists (y ++ x). rewrite app_assoc. reflexivity. Qed.
Lemma suffix_tl w : suffix (tl w) w.
Proof. destruct w as [|c w]; [exists []; reflexivity|exists [c]; reflexivity]. Qed.
Lemma suffix_span f w : suffix (snd (span f w)) w.
Proof. exists (fst (span f w)). apply span_app. Qed.
Lemma suffix_ws w : suffix (skip_ws w) w. Proof. apply suffix_span. Qed.
Lemma suffix_scan q w : forall e, suffix (snd (scan_quote q e w)) w.
Proof.
  induction w as [|c w IH]; intros e; cbn; [apply suffix_refl|]. destruct (_ && _); [|apply suffix_refl].
  specialize (IH (c =? 92)). destruct (scan_quote q (c =? 92) w); cbn in *.
  eapply suffix_trans; [exact IH|]. exists [c]. reflexivity.
Qed.
#[local] Hint Resolve suffix_refl suffix_tl suffix_ws : core.
Lemma suffix_term w w' x : parse_term w = (w', x) -> suffix w' w.
Proof.
  unfold parse_term. destruct (negb _); [intros H; inversion H; subst; auto|].
  destruct (is_quote_char (peek w)).
  - pose proof (suffix_scan (peek w) (tl w) false) as Hs. destruct (scan_quote (peek w) false (tl w)) as [t r]. cbn [snd] in Hs.
    destruct (negb _); intros H; inversion H; subst; (eapply suffix_trans; [|apply suffix_tl]); auto.
    eapply suffix_trans; [|exact Hs]. eapply suffix_trans; [|apply suffix_tl]. auto.
  - pose proof (suffix_span is_term_char w) as Hs. destruct (span is_term_char w) as [t r]. cbn [snd] in Hs.
    intros H; inversion H; subst. eapply suffix_trans; [|exact Hs]. auto.
Qed.
Definition short (s : bytes) : Prop :=
  forall u d v, s = u ++ d ++ v -> forallb is_digit d = true -> (length d <= 18)%nat.
Lemma short_suffix r w : suffix r w -> short w -> short r.
Proof. intros (a & ->) H u d v ->. apply (H (a ++ u) d v). rewrite <- app_assoc. reflexivity. Qed.
Lemma dec_val_lt ds : forall v, forallb is_digit ds = true -> 0 <= v -> dec_val v ds < (v + 1) * 10 ^ Z.of_nat (length ds).
Proof.
  induction ds as [|c ds IH]; intros v H Hv; [cbn; lia|].
  cbn in H. apply andb_prop in H. destruct H as [Hc Hd]. assert (Hc' : 48 <= c <= 57) by (unfold is_digit in Hc; lia).
  change (dec_val v (c :: ds)) with (dec_val (10 * v + (c - 48)) ds).
  specialize (IH (10 * v + (c - 48)) Hd ltac:(lia)). cbn [length]. rewrite Nat2Z.inj_succ, Z.pow_succ_r by lia. nia.
Qed.
Lemma parse_safe n :
  (forall w, short w -> parse_expr n w <> UB /\ forall w' x, parse_expr n w = Ok (w', x) -> suffix w' w) /\
  (forall w acc, short w -> parse_args n w acc <> UB /\ forall w' x, parse_args n w acc = Ok (w', x) -> suffix w' w).
Proof.
  induction n as [|n [IHe IHa]]; [split; intros; split; intros; discriminate|]. split.
  - intros w Hw. cbn [parse_expr].
    assert (S0 : suffix (skip_ws w) w) by auto.
    destruct (negb (peek (skip_ws w) =? 40)).
    { split; [discriminate|]. intros w' x H. inversion H as [H']. eapply suffix_trans; [eapply suffix_term; exact H'|auto]. }
    assert (S1 : suffix (skip_ws (tl (skip_ws w))) w).
    { eapply suffix_trans; [apply suffix_ws|]. eapply suffix_trans; [apply suffix_tl|auto]. }
    set (w1 := skip_ws (tl (skip_ws w))) in *.
    destruct (negb (is_term_char (peek w1))). { split; [discriminate|]. intros w' x H. inversion H; subst. exact S1. }
    pose proof (suffix_span is_term_char w1) as Hs. destruct (span is_term_char w1) as [name w2]. cbn [snd] in Hs.
    destruct (find_op operator_forward name) as [k|]. 2:{ split; [discriminate|]. intros w' x H. inversion H; subst. exact S1. }
    assert (S2 : suffix (skip_ws w2) w).
    { eapply suffix_trans; [apply suffix_ws|]. eapply suffix_trans; [exact Hs|exact S1]. }
    destruct (IHa (skip_ws w2) [] (short_suffix _ _ S2 Hw)) as [A1 A2].
    assert (Hk : forall k', let r := (let* (w3, subx) := parse_args n (skip_ws w2) [] in
          match subx with None => Ok (w3, None) | Some xs =>
            Ok (w3, if (peek w3 =? 41) && (min_operands k' <=? Z.of_nat (length xs)) && (Z.of_nat (length xs) <=? max_operands k')
                      then Some (SX k' [] 0 xs) else None) end) in r <> UB /\ forall w' x, r = Ok (w', x) -> suffix w' w).
    { intros k'. cbn zeta. destruct (parse_args n (skip_ws w2) []) as [[w3 subx]| |]; cbn [bind]; [|contradiction|split; discriminate].
      specialize (A2 _ _ eq_refl). split; [destruct subx; discriminate|].
      intros w' x H. assert (w' = w3) by (destruct subx; inversion H; reflexivity). subst. eapply suffix_trans; eauto. }
    destruct k; try apply Hk. clear Hk A1 A2.
    pose proof (suffix_span is_digit (skip_ws w2)) as Hd. pose proof (span_all is_digit (skip_ws w2)) as Ha.
    pose proof (span_app is_digit (skip_ws w2)) as Hp.
    destruct (span is_digit (skip_ws w2)) as [ds w3]. cbn [fst snd] in *.
    destruct ds as [|c ds]. { split; [discriminate|]. intros w' x H. inversion H; subst. exact S2. }
    pose proof (short_suffix _ _ S2 Hw [] (c :: ds) w3 Hp Ha) as HL.
    cbn in Ha. apply andb_prop in Ha. destruct Ha as [Hc Ha]. assert (Hc' : 48 <= c <= 57) by (unfold is_digit in Hc; lia).
    pose proof (dec_val_lt ds (c - 48) Ha ltac:(lia)) as HV. cbn [length] in HL.
    assert (HP : 10 ^ Z.of_nat (length ds) <= 10 ^ 17) by (apply Z.pow_le_mono_r; lia).
    change (10 ^ 17) with 100000000000000000 in HP.
    rewrite (digits_width ds (c - 48) Ha) by (unfold maxf; nia). cbn [bind]. split; [discriminate|].
    intros w' x H. inversion H; subst. eapply suffix_trans; [apply suffix_ws|]. eapply suffix_trans; [exact Hd|exact S2].
  - intros w acc Hw. cbn [parse_args].
    destruct (_ || _). { split; [discriminate|]. intros w' x H. inversion H; subst. auto. }
    destruct (IHe w Hw) as [E1 E2].
    destruct (peek w =? 40); [|destruct (is_term_char (peek w))].
    + destruct (parse_expr n w) as [[w1 y]| |]; cbn [bind]; [|contradiction|split; discriminate].
      specialize (E2 _ _ eq_refl). destruct y as [e|]; [destruct (peek w1 =? 41)|].
      * assert (S1 : suffix (skip_ws (tl w1)) w).
        { eapply suffix_trans; [apply suffix_ws|]. eapply suffix_trans; [apply suffix_tl|exact E2]. }
        destruct (IHa (skip_ws (tl w1)) (e :: acc) (short_suffix _ _ S1 Hw)) as [A1 A2]. split; [exact A1|].
        intros w' x H. eapply suffix_trans; [eapply A2; exact H|exact S1].
      * split; [discriminate|]. intros w' x H. inversion H; subst. exact E2.
      * split; [discriminate|]. intros w' x H. inversion H; subst. exact E2.
    + destruct (parse_expr n w) as [[w1 y]| |]; cbn [bind]; [|contradiction|split; discriminate].
      specialize (E2 _ _ eq_refl). 
      assert (S1 : suffix (skip_ws w1) w) by (eapply suffix_trans; [apply suffix_ws|exact E2]).
      destruct (IHa (skip_ws w1) (match y with Some e => e | None => sx_default end :: acc) (short_suffix _ _ S1 Hw)) as [A1 A2].
      split; [exact A1|]. intros w' x H. eapply suffix_trans; [eapply A2; exact H|exact S1].
    + split; [discriminate|]. intros w' x H. inversion H; subst. auto.
Qed.
Lemma from_string_total s : short s -> exists x, from_string s = Ok x.
Proof.
  intros H. unfold from_string.
  destruct (proj1 (parse_safe (2 * length s + 2)%nat) s H) as [U _].
  pose proof (proj1 (parse_total (2 * length s + 2)%nat) s ltac:(lia)) as F.
  destruct (parse_expr (2 * length s + 2) s) as [[w x]| |]; [exists x; reflexivity|contradiction|contradiction].
Qed.
