(** Text through merging. *)
From Coq Require Import Sorting.Permutation Sorting.Sorted.
From Verif Require Import Base Bytes HopperModel ArrayDefs GclSpec HopperProofs ArrayProofs UnaryProofs AnswerProofs VectorModel CodecModel
  PostingModel PostingSpec PostingProofs AnnProofs ShardModel ShardSpec ShardProofs TokenModel
  TextModel TextSpec TextProofs DraftProofs TextStore TextBack.

(** * Walking through the chunks *)
Lemma tau_next cs a b pre rest k r : contig cs a b -> cs = pre ++ rest -> minf < k < maxf -> b <= maxf ->
  (forall y, In y pre -> ip y < k) -> match rest with [] => True | y :: _ => k <= ip y end ->
  answer (set_of cs) (Mtau, k) r -> r = match rest with [] => Iv maxf maxf 0 | y :: _ => y end.
Proof.
  intros Ct Ec Hk Hb Hp Hr [[A _]|[_ A]]; [lia|]. destruct A as [(S0 & K0 & M0)|[-> N0]].
  - assert (Ir : In r rest). { unfold set_of in S0. rewrite Ec in S0. apply in_app_or in S0. destruct S0 as [S0|S0]; [specialize (Hp _ S0); lia|exact S0]. }
    destruct rest as [|y rest]; [contradiction|].
    assert (Iy : In y cs) by (rewrite Ec; apply in_or_app; right; left; reflexivity).
    specialize (M0 y Iy Hr). destruct Ir as [->|Ir]; [reflexivity|].
    assert (Hyr : ip y < ip r).
    { clear - Ct Ec Ir. subst cs. revert a Ct. induction pre as [|z pre IH]; intros a Ct; cbn in Ct.
      - destruct Ct as (A & B & C). pose proof (contig_in _ _ _ _ C Ir). lia.
      - destruct Ct as (_ & _ & C). exact (IH _ C). }
    lia.
  - destruct rest as [|y rest]; [reflexivity|]. assert (Iy : In y cs) by (rewrite Ec; apply in_or_app; right; left; reflexivity).
    specialize (N0 y Iy). lia.
Qed.
Lemma contig_pre pre : forall rest a b, contig (pre ++ rest) a b ->
  match rest with [] => True | y :: _ => forall x, In x pre -> ip x < ip y end.
Proof.
  induction pre as [|z pre IH]; intros rest a b H; [destruct rest; [exact Logic.I|intros x []]|]. cbn in H. destruct H as (A & B & C).
  specialize (IH _ _ _ C). destruct rest as [|y rest]; [exact Logic.I|]. intros x [->|Hx]; [|exact (IH x Hx)].
  assert (Iy : In y (pre ++ y :: rest)) by (apply in_or_app; right; left; reflexivity). pose proof (contig_in _ _ _ _ C Iy). lia.
Qed.
Lemma contig_step pre x rest a b : contig (pre ++ x :: rest) a b ->
  (forall y, In y (pre ++ [x]) -> ip y < ip x + 1) /\ match rest with [] => True | y :: _ => ip x + 1 <= ip y end.
Proof.
  intros H. split.
  - intros y Hy. pose proof (contig_pre pre (x :: rest) a b H) as K. cbv iota in K. apply in_app_or in Hy. destruct Hy as [Hy|[<-|[]]]; [specialize (K y Hy)|]; lia.
  - replace (pre ++ x :: rest) with ((pre ++ [x]) ++ rest) in H by (rewrite <- app_assoc; reflexivity).
    pose proof (contig_pre (pre ++ [x]) rest a b H) as K. destruct rest as [|y r]; [exact Logic.I|]. specialize (K x ltac:(apply in_or_app; right; left; reflexivity)). lia.
Qed.

Lemma enum_chunks_ok C s cs a b : answers C s (set_of cs) -> contig cs a b -> 0 <= a -> b <= maxf -> enum_chunks C s = Ok cs.
Proof.
  intros [G I] Ct Ha Hb. unfold enum_chunks.
  pose proof (implements_step C (set_of cs) s Mtau 0 I ltac:(unfold minf, maxf; lia)) as H1. apply wp_exists in H1.
  destruct H1 as ([s1 x0] & H1 & I1 & A1). cbn [call] in H1. rewrite H1. cbn [bind].
  assert (E0 : x0 = match cs with [] => Iv maxf maxf 0 | y :: _ => y end).
  { apply (tau_next cs a b [] cs 0 x0 Ct eq_refl); [unfold minf, maxf; lia|exact Hb|intros y []| |exact A1].
    destruct cs as [|y r]; [exact Logic.I|]. cbn in Ct. lia. }
  set (body := fun '(s, x, acc) => _).
  assert (W : wp (loop body (s1, x0, [])) (fun l => l = rev cs)).
  { apply (loop_rule (fun '(s, x, acc) => implements C s (set_of cs) /\ exists pre rest, cs = pre ++ rest /\ acc = rev pre /\
             x = match rest with [] => Iv maxf maxf 0 | y :: _ => y end)
           (fun '(s, x, acc) => maxf - ip x)).
    - intros [[s' x] acc] (_ & pre & rest & Ec & _ & ->). destruct rest as [|y r]; [cbn; lia|].
      assert (Iy : In y cs) by (rewrite Ec; apply in_or_app; right; left; reflexivity). pose proof (contig_in _ _ _ _ Ct Iy). lia.
    - intros [[s' x] acc] (I' & pre & rest & Ec & -> & ->). unfold body. destruct rest as [|y r].
      + cbn [ip]. replace (maxf <? maxf) with false by lia. cbn. rewrite app_nil_r in Ec. rewrite Ec. reflexivity.
      + assert (Iy : In y cs) by (rewrite Ec; apply in_or_app; right; left; reflexivity). pose proof (contig_in _ _ _ _ Ct Iy) as Cy.
        replace (ip y <? maxf) with true by lia. rewrite chk_ok by (unfold minf; lia). cbn [bind].
        pose proof (implements_step C (set_of cs) s' Mtau (ip y + 1) I' ltac:(unfold minf; lia)) as H2. apply wp_exists in H2.
        destruct H2 as ([s2 x2] & H2 & I2 & A2). cbn [call] in H2. rewrite H2. cbn [bind wp].
        pose proof Ct as Ct'. rewrite Ec in Ct'. destruct (contig_step _ _ _ _ _ Ct') as [P1 P2].
        destruct (Z.eq_dec (ip y + 1) maxf) as [Em|Em].
        * (* the last address: nothing after *)
          assert (r = []) as ->. { destruct r as [|z r]; [reflexivity|]. assert (Iz : In z cs) by (rewrite Ec; apply in_or_app; right; right; left; reflexivity). pose proof (contig_in _ _ _ _ Ct Iz). lia. }
          assert (x2 = Iv maxf maxf 0) as ->.
          { rewrite Em in A2. destruct A2 as [[A2 _]|[_ [(S0 & K0 & _)|[K _]]]]; [unfold minf, maxf in A2; lia| |exact K].
            pose proof (contig_in _ _ _ _ Ct S0). lia. }
          split; [split; [exact I2|]|cbn; lia]. exists (pre ++ [y]), []. rewrite app_nil_r, rev_unit. auto.
        * assert (E2 : x2 = match r with [] => Iv maxf maxf 0 | z :: _ => z end).
          { apply (tau_next cs a b (pre ++ [y]) r (ip y + 1) x2 Ct); [rewrite <- app_assoc; exact Ec|unfold minf; lia|exact Hb|exact P1|exact P2|exact A2]. }
          split; [split; [exact I2|]|].
          -- exists (pre ++ [y]), r. rewrite rev_unit, <- app_assoc. auto.
          -- rewrite E2. destruct r as [|z r]; cbn [ip]; lia.
    - split; [exact I1|]. exists [], cs. auto.
    - rewrite E0. destruct cs as [|y r]; [cbn; unfold BIG, maxf; lia|]. cbn in Ct. unfold BIG, maxf. lia. }
  apply wp_exists in W. destruct W as (l & -> & ->). cbn [bind]. rewrite rev_involutive. reflexivity.
Qed.

Lemma nth_map_add d n : forall (l : list Z) k, nth k (map (fun o => o + d) l) (d + n) = d + nth k l n.
Proof. intros l k. rewrite (Z.add_comm d n), (map_nth (fun o => o + d) l n k). lia. Qed.

(** * Pieces *)
Section Pieces.
Context (tokenize : bytes -> list token) (skip : bytes -> Z -> Z) (stop : bytes -> Prop) (starts : bytes -> list Z).
Context (Laws : tokenizer_laws tokenize skip stop starts).
Notation pieces_at := (pieces_at starts).

Fixpoint first_of (ps : list piece) (a : Z) : option Z :=
  match ps with [] => None | (t, b) :: r => if a =? b then Some 0 else option_map (Z.add (len t)) (first_of r a) end.

Lemma pieces_afresh ps : forall a b, pieces_at ps a b -> afresh starts (text_of ps).
Proof.
  induction ps as [|[t c] r IH]; intros a b H; [apply (afresh_nil tokenize skip stop starts Laws)|]. cbn in H. destruct H as (_ & _ & (u & _ & At) & H).
  unfold text_of. cbn [map concat fst]. apply afresh_app; [exact At|exact (IH _ _ H)].
Qed.
Lemma pieces_end ps : forall a b, pieces_at ps a b -> b = a + Z.of_nat (length (starts (text_of ps))).
Proof.
  induction ps as [|[t c] r IH]; intros a b H; cbn in H.
  - unfold text_of. cbn. rewrite (starts_nil tokenize skip stop starts Laws). cbn. lia.
  - destruct H as (_ & _ & (u & _ & At) & H). unfold text_of. cbn [map concat fst].
    rewrite At, app_length, map_length. apply IH in H. unfold text_of in H. lia.
Qed.
Lemma pieces_le ps a b : pieces_at ps a b -> a <= b.
Proof. intros H. rewrite (pieces_end _ _ _ H). lia. Qed.
Lemma pieces_app ps : forall qs a b c, pieces_at ps a b -> pieces_at qs b c -> pieces_at (ps ++ qs) a c.
Proof.
  induction ps as [|[t d] r IH]; intros qs a b c H K; cbn in *; [subst; exact K|]. destruct H as (A & B & C & D).
  split; [exact A|]. split; [exact B|]. split; [exact C|]. exact (IH _ _ _ _ D K).
Qed.
Lemma pieces_split ps : forall qs a c, pieces_at (ps ++ qs) a c -> exists b, pieces_at ps a b /\ pieces_at qs b c.
Proof.
  induction ps as [|[t d] r IH]; intros qs a c H; cbn in *; [eauto|]. destruct H as (A & B & C & D).
  destruct (IH _ _ _ D) as (b & D1 & D2). eauto 7.
Qed.
Lemma text_of_app ps qs : text_of (ps ++ qs) = text_of ps ++ text_of qs.
Proof. unfold text_of. rewrite map_app, concat_app. reflexivity. Qed.
Lemma pieces_nonempty t : hd (-1) (starts t) = 0 -> exists r, starts t = 0 :: r.
Proof. destruct (starts t) as [|x r]; cbn; [lia|]. intros ->. eauto. Qed.
Lemma first_in ps : forall a b x o, pieces_at ps a b -> first_of ps x = Some o -> a <= x < b.
Proof.
  induction ps as [|[t c] r IH]; intros a b x o H F; [discriminate|]. cbn in H, F. destruct H as (-> & B & _ & D).
  destruct (pieces_nonempty t B) as (l & El). pose proof (pieces_le _ _ _ D) as L. rewrite El in *. cbn [length] in *.
  destruct (Z.eqb_spec x a) as [->|N]; [lia|]. destruct (first_of r x) as [o'|] eqn:E; [|discriminate].
  pose proof (IH _ _ _ _ D E). lia.
Qed.
Lemma first_app ps : forall qs x, first_of (ps ++ qs) x =
  match first_of ps x with Some o => Some o | None => option_map (Z.add (len (text_of ps))) (first_of qs x) end.
Proof.
  induction ps as [|[t c] r IH]; intros qs x; cbn [app first_of].
  - destruct (first_of qs x); [cbn; f_equal; unfold len; cbn; lia|reflexivity].
  - destruct (x =? c); [reflexivity|]. rewrite IH. destruct (first_of r x); [reflexivity|]. destruct (first_of qs x); [|reflexivity].
    cbn. f_equal. unfold text_of, len. cbn [map concat fst]. rewrite app_length. lia.
Qed.
Lemma pieces_hd ps a b : pieces_at ps a b -> ps = [] \/ (hd (-1) (starts (text_of ps)) = 0 /\ first_of ps a = Some 0).
Proof.
  destruct ps as [|[t c] r]; intros H; [left; reflexivity|right]. cbn in H. destruct H as (-> & B & (u & _ & At) & _).
  unfold text_of. cbn [map concat fst first_of]. rewrite Z.eqb_refl. split; [|reflexivity].
  rewrite At.
  destruct (pieces_nonempty t B) as (l & ->). reflexivity.
Qed.

(** * Translating joined pieces *)
Lemma firstn_both {A} (u v : list A) z : (length u <= z)%nat -> firstn z (u ++ v) = u ++ firstn (z - length u) v.
Proof. intros H. rewrite firstn_app, firstn_all2 by exact H. reflexivity. Qed.
Lemma between_left (u v : bytes) s e : 0 <= s -> e <= len u -> between (u ++ v) s e = between u s e.
Proof.
  intros Hs He. unfold between, len in *. rewrite skipn_app, firstn_app, skipn_length.
  replace (Z.to_nat (e - s) - (length u - Z.to_nat s))%nat with 0%nat by lia. apply app_nil_r.
Qed.
Lemma between_right (u v : bytes) s e : 0 <= s -> between (u ++ v) (len u + s) (len u + e) = between v s e.
Proof.
  intros Hs. unfold between, len in *. rewrite skipn_app, skipn_all2 by lia. cbn [app]. f_equal; [lia|]. f_equal. lia.
Qed.
Lemma between_across (u v : bytes) s e : 0 <= s <= len u -> 0 <= e -> between (u ++ v) s (len u + e) = between u s (len u) ++ between v 0 e.
Proof.
  intros Hs He. unfold between, len in *. rewrite skipn_app. replace (Z.to_nat s - length u)%nat with 0%nat by lia. cbn [skipn Z.to_nat].
  rewrite firstn_both by (rewrite skipn_length; lia). rewrite (firstn_all2 (skipn _ u)) by (rewrite skipn_length; lia).
  f_equal. f_equal. rewrite skipn_length. lia.
Qed.

Lemma expected_pieces ps : forall a b p q, 0 <= a -> pieces_at ps a b ->
  expected (text_of ps) (starts (text_of ps)) a (first_of ps) p q = expected_all starts ps p q.
Proof.
  induction ps as [|[t c] r IH]; intros a b p q Ha H.
  { unfold expected, expected_all, text_of. cbn [map concat]. rewrite (starts_nil tokenize skip stop starts Laws). cbn [length].
    replace (Z.min q (a + Z.of_nat 0 - 1) <? Z.max p a) with true by lia. reflexivity. }
  cbn in H. destruct H as (-> & B & (u & _ & Ct) & D). unfold expected_all. cbn [map concat fst snd].
  specialize (IH (a + Z.of_nat (length (starts t))) b p q ltac:(lia) D). unfold expected_all in IH. rewrite <- IH. clear IH.
  unfold text_of. cbn [map concat fst]. fold (text_of r). rewrite (starts_app starts _ _ Ct).
  set (n1 := Z.of_nat (length (starts t))) in *. set (T := text_of r) in *. set (os := starts T) in *.
  pose proof (pieces_hd r _ _ D) as Hh. fold T os in Hh.
  assert (It : ascending 0 (starts t) (len t)) by apply (law_inside _ _ _ _ Laws).
  assert (IT : ascending 0 os (len T)) by apply (law_inside _ _ _ _ Laws).
  destruct (pieces_nonempty t B) as (l0 & El0).
  assert (N1 : 0 < n1) by (unfold n1; rewrite El0; cbn [length]; lia).
  unfold expected. rewrite app_length, map_length, Nat2Z.inj_add. fold n1. set (n2 := Z.of_nat (length os)).
  set (E1 := a + n1). set (p' := Z.max p a). set (q' := Z.min q (a + (n1 + n2) - 1)).
  assert (Lt : len (t ++ T) = len t + len T) by (unfold len; rewrite app_length; lia).
  (* the two views of a token's start *)
  assert (S1 : forall z, a <= z < E1 -> token_start (t ++ T) (starts t ++ map (fun o => o + len t) os) a z = token_start t (starts t) a z).
  { intros z Hz. unfold token_start. rewrite app_nth1 by lia. apply nth_indep. lia. }
  assert (S2 : forall z, E1 <= z -> token_start (t ++ T) (starts t ++ map (fun o => o + len t) os) a z = len t + token_start T os E1 z).
  { intros z Hz. unfold token_start. rewrite app_nth2 by lia. rewrite Lt.
    rewrite nth_map_add.
    replace (Z.to_nat (z - a) - length (starts t))%nat with (Z.to_nat (z - E1)) by lia. lia. }
  assert (Se : token_start t (starts t) a E1 = len t).
  { unfold token_start. apply nth_overflow. lia. }
  assert (SE : token_start T os E1 E1 = 0).
  { unfold token_start. rewrite Z.sub_diag. destruct Hh as [->|[Hh _]]; [unfold os, T, text_of; cbn [map concat]; rewrite (starts_nil tokenize skip stop starts Laws); reflexivity|].
    destruct os; [cbn in Hh; lia|exact Hh]. }
  assert (R1 : forall z, 0 <= token_start t (starts t) a z <= len t) by (intros z; apply nth_range; exact It).
  assert (R2 : forall z, 0 <= token_start T os E1 z <= len T) by (intros z; apply nth_range; exact IT).
  assert (F1 : forall z, a <= z < E1 -> text_start (t ++ T) (starts t ++ map (fun o => o + len t) os) a (first_of (@cons piece (t, a) r)) z = text_start t (starts t) a (one_start a) z /\
                 0 <= text_start t (starts t) a (one_start a) z <= len t).
  { intros z Hz. unfold text_start, one_start. cbn [first_of]. destruct (z =? a); [split; [reflexivity|unfold len; lia]|].
    destruct (first_of r z) as [o|] eqn:F; [pose proof (first_in _ _ _ _ _ D F); lia|]. cbn [option_map]. split; [apply S1; exact Hz|apply R1]. }
  assert (F2 : forall z, E1 <= z < E1 + n2 -> text_start (t ++ T) (starts t ++ map (fun o => o + len t) os) a (first_of (@cons piece (t, a) r)) z = len t + text_start T os E1 (first_of r) z).
  { intros z Hz. unfold text_start. cbn [first_of]. replace (z =? a) with false by lia.
    destruct (first_of r z) as [o|] eqn:F; [reflexivity|]. cbn [option_map]. apply S2. lia. }
  destruct (Z.ltb_spec q' p') as [L|L].
  { replace (Z.min q (E1 - 1) <? p') with true by lia. replace (Z.min q (E1 + n2 - 1) <? Z.max p E1) with true by lia. reflexivity. }
  destruct (Z_lt_ge_dec q' E1) as [Lq|Lq].
  - (* all in the first piece *)
    replace (Z.min q (E1 + n2 - 1) <? Z.max p E1) with true by lia. rewrite app_nil_r.
    replace (Z.min q (E1 - 1)) with q' by lia. replace (q' <? p') with false by lia.
    destruct (F1 p' ltac:(lia)) as [-> Rp].
    assert (Te : token_start (t ++ T) (starts t ++ map (fun o => o + len t) os) a (q' + 1) = token_start t (starts t) a (q' + 1)).
    { destruct (Z.eq_dec (q' + 1) E1) as [Q|Q]; [|apply S1; lia]. rewrite Q, S2, SE, Se by lia. lia. }
    rewrite Te. apply between_left; [lia|apply R1].
  - replace (Z.min q (E1 + n2 - 1)) with q' by lia.
    destruct (Z_lt_ge_dec p' E1) as [Lp|Lp].
    + replace (Z.min q (E1 - 1)) with (E1 - 1) by lia. replace (E1 - 1 <? p') with false by lia.
      replace (Z.max p E1) with E1 by lia. replace (q' <? E1) with false by lia.
      destruct (F1 p' ltac:(lia)) as [-> Rp]. rewrite S2 by lia. replace (E1 - 1 + 1) with E1 by lia. rewrite Se.
      destruct Hh as [Er|[_ Hf]].
      { exfalso. assert (Z0 : n2 = 0) by (unfold n2, os, T; rewrite Er; unfold text_of; cbn [map concat]; rewrite (starts_nil tokenize skip stop starts Laws); reflexivity). lia. }
      fold E1 in Hf. assert (X0 : text_start T os E1 (first_of r) E1 = 0) by (unfold text_start; rewrite Hf; reflexivity). rewrite X0. apply between_across; [exact Rp|]. specialize (R2 (q' + 1)). lia.
    + replace (Z.min q (E1 - 1) <? p') with true by lia. cbn [app]. replace (Z.max p E1) with p' by lia. replace (q' <? p') with false by lia.
      rewrite F2 by lia. rewrite S2 by lia. apply between_right.
      unfold text_start. destruct (first_of r p') as [o|] eqn:F; [|specialize (R2 p'); lia].
      clear - F. revert o F. induction r as [|[t' c'] r IH]; intros o F; [discriminate|]. cbn in F. destruct (p' =? c'); [injection F as <-; lia|].
      destruct (first_of r p') as [o'|]; [|discriminate]. injection F as <-. specialize (IH o' eq_refl). unfold len. lia.
Qed.

(** * Joining chunked texts *)
Definition shifted (d : Z) (x : iv) : iv := Iv (ip x) (iq x) (ivl x + d).
Lemma contig_shifted d cs : forall a b, contig cs a b -> contig (map (shifted d) cs) a b.
Proof. induction cs as [|x r IH]; intros a b H; cbn in *; [exact H|]. destruct H as (A & B & C). auto. Qed.
Lemma first_afresh ps : forall a b x o, pieces_at ps a b -> first_of ps x = Some o -> 0 <= o /\ afresh starts (skipn (Z.to_nat o) (text_of ps)).
Proof.
  induction ps as [|[t c] r IH]; intros a b x o H F; [discriminate|]. cbn in F. destruct (x =? c).
  - injection F as <-. split; [lia|]. exact (pieces_afresh _ _ _ H).
  - cbn in H. destruct H as (_ & _ & _ & H). destruct (first_of r x) as [o'|] eqn:E; [|discriminate]. cbn in F. injection F as <-.
    destruct (IH _ _ _ _ H E) as [L A]. split; [unfold len; lia|]. unfold text_of in *. cbn [map concat fst].
    rewrite skipn_app, skipn_all2 by (unfold len; lia). cbn [app].
    replace (Z.to_nat (len t + o') - length t)%nat with (Z.to_nat o') by (unfold len; lia). exact A.
Qed.
Lemma first_piece_at ps : forall a b x o, pieces_at ps a b -> first_of ps x = Some o -> 0 <= o <= len (text_of ps) /\ x - a <= Z.of_nat (length (starts (text_of ps))).
Proof.
  intros a b x o H F. pose proof (first_in _ _ _ _ _ H F). pose proof (pieces_end _ _ _ H). split; [|lia].
  clear - F. revert o F. induction ps as [|[t' c'] r IH]; intros o F; [discriminate|]. cbn in F. destruct (x =? c'); [injection F as <-; unfold len; lia|].
  destruct (first_of r x) as [o'|]; [|discriminate]. injection F as <-. specialize (IH o' eq_refl). unfold text_of, len in *. cbn [map concat fst]. rewrite app_length. lia.
Qed.
Lemma chunked_join ps qs a b c cs ds : pieces_at ps a b -> pieces_at qs b c -> c < maxf ->
  chunked starts (text_of ps) (starts (text_of ps)) a (first_of ps) cs ->
  chunked starts (text_of qs) (starts (text_of qs)) b (first_of qs) ds ->
  chunked starts (text_of (ps ++ qs)) (starts (text_of (ps ++ qs))) a (first_of (ps ++ qs)) (cs ++ map (shifted (len (text_of ps))) ds).
Proof.
  intros P Q Hc [C1 C2 C3 C4 C5 C6] [D1 D2 D3 D4 D5 D6].
  pose proof (pieces_end _ _ _ P) as Eb. pose proof (pieces_end _ _ _ Q) as Ec. pose proof (pieces_afresh _ _ _ P) as Cl.
  rewrite text_of_app. set (t := text_of ps) in *. set (u := text_of qs) in *.
  rewrite (starts_app starts _ _ Cl). set (os := starts t) in *. set (os2 := starts u) in *.
  assert (Lt : len (t ++ u) = len t + len u) by (unfold len; rewrite app_length; lia).
  assert (S1 : forall z, a <= z < b -> token_start (t ++ u) (os ++ map (fun o => o + len t) os2) a z = token_start t os a z).
  { intros z Hz. unfold token_start. rewrite app_nth1 by lia. apply nth_indep. lia. }
  assert (S2 : forall z, b <= z -> token_start (t ++ u) (os ++ map (fun o => o + len t) os2) a z = len t + token_start u os2 b z).
  { intros z Hz. unfold token_start. rewrite app_nth2 by lia. rewrite Lt.
    rewrite nth_map_add.
    replace (Z.to_nat (z - a) - length os)%nat with (Z.to_nat (z - b)) by lia. lia. }
  assert (N1 : forall z, b <= z -> first_of ps z = None).
  { intros z Hz. destruct (first_of ps z) as [o|] eqn:F; [|reflexivity]. pose proof (first_in _ _ _ _ _ P F). lia. }
  assert (N2 : forall z, z < b -> first_of qs z = None).
  { intros z Hz. destruct (first_of qs z) as [o|] eqn:F; [|reflexivity]. pose proof (first_in _ _ _ _ _ Q F). lia. }
  split.
  - apply (starts_app starts _ _ Cl).
  - exact C2.
  - rewrite app_length, map_length. lia.
  - rewrite app_length, map_length. apply (contig_app _ _ _ b).
    + rewrite Eb. exact C4.
    + apply contig_shifted. replace (a + Z.of_nat (length os + length os2)) with (b + Z.of_nat (length os2)) by lia. exact D4.
  - intros x Hx. apply in_app_or in Hx. destruct Hx as [Hx|Hx].
    + pose proof (contig_in _ _ _ _ C4 Hx). rewrite (C5 x Hx). unfold text_start. rewrite first_app.
      destruct (first_of ps (ip x)); [reflexivity|]. rewrite N2 by lia. cbn [option_map]. symmetry. apply S1. lia.
    + apply in_map_iff in Hx. destruct Hx as (y & <- & Hy). pose proof (contig_in _ _ _ _ D4 Hy). cbn [shifted ip ivl]. rewrite (D5 y Hy).
      unfold text_start. rewrite first_app, N1 by lia. destruct (first_of qs (ip y)); cbn [option_map]; [fold t; lia|]. rewrite S2 by lia. lia.
  - intros x o Hx F. rewrite app_length, map_length in Hx. rewrite first_app in F. destruct (first_of ps x) as [o1|] eqn:F1.
    + injection F as <-. pose proof (first_in _ _ _ _ _ P F1) as Lx. destruct (C6 x o1 ltac:(lia) F1) as [(y & Hy & Ey) [R1 R2]].
      split; [exists y; split; [apply in_or_app; left; exact Hy|exact Ey]|]. unfold resumes. split; [unfold len in *; rewrite ?app_length; lia|].
      rewrite skipn_app. replace (Z.to_nat o1 - length t)%nat with 0%nat by (unfold len in R1; lia). cbn [skipn].
      rewrite (starts_app starts _ _ (proj2 (first_afresh _ _ _ _ _ P F1))); fold t; rewrite R2, skipn_app, map_app. f_equal.
      replace (Z.to_nat (x - a) - length os)%nat with 0%nat by lia. cbn [skipn]. rewrite map_map. apply map_ext. intros z.
      unfold len in *. rewrite skipn_length. lia.
    + destruct (first_of qs x) as [o2|] eqn:F2; [|discriminate]. cbn in F. injection F as <-. fold t.
      pose proof (first_in _ _ _ _ _ Q F2) as Lx. destruct (D6 x o2 ltac:(lia) F2) as [(y & Hy & Ey) [R1 R2]].
      split; [exists (shifted (len t) y); split; [apply in_or_app; right; apply in_map; exact Hy|exact Ey]|]. unfold resumes. split; [unfold len in *; rewrite ?app_length; lia|].
      rewrite skipn_app, (skipn_all2 t) by (unfold len in *; lia). cbn [app].
      replace (Z.to_nat (len t + o2) - length t)%nat with (Z.to_nat o2) by (unfold len in *; lia). rewrite R2.
      rewrite skipn_app, (skipn_all2 os) by lia. cbn [app]. replace (Z.to_nat (x - a) - length os)%nat with (Z.to_nat (x - b)) by lia.
      rewrite skipn_map, map_map. apply map_ext. intros z. lia.
Qed.
Lemma chunked_none a : 0 <= a < maxf -> chunked starts (text_of []) (starts (text_of [])) a (first_of []) [].
Proof.
  intros H. unfold text_of. cbn [map concat]. rewrite (starts_nil tokenize skip stop starts Laws). split.
  - apply (starts_nil tokenize skip stop starts Laws).
  - lia.
  - cbn. lia.
  - cbn. lia.
  - intros x [].
  - intros x o L F. discriminate.
Qed.
End Pieces.
