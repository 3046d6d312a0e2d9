(** Translating text. *)
From Verif Require Import Base Bytes HopperModel GclSpec VectorModel UnaryProofs CodecModel PostingModel ShardModel TokenModel
  TextModel TextSpec.

(** * Lists *)
Lemma len_nonneg {A} (l : list A) : 0 <= Z.of_nat (length l). Proof. lia. Qed.
Lemma ascending_le os : forall o n, ascending o os n -> o <= n.
Proof. induction os as [|x r IH]; intros o n H; cbn in H; [exact H|]. destruct H as [H K]. apply IH in K. lia. Qed.
Lemma ascending_in os : forall o n x, ascending o os n -> In x os -> o <= x < n.
Proof.
  induction os as [|y r IH]; intros o n x H Hx; [contradiction|]. cbn in H. destruct H as [H K].
  pose proof (ascending_le _ _ _ K). destruct Hx as [->|Hx]; [lia|]. specialize (IH _ _ _ K Hx). lia.
Qed.
Lemma nth_range os n k : ascending 0 os n -> 0 <= nth k os n <= n.
Proof.
  intros H. destruct (Nat.lt_ge_cases k (length os)) as [L|L].
  - pose proof (ascending_in os 0 n _ H (nth_In os n L)). lia.
  - rewrite nth_overflow by exact L. pose proof (ascending_le _ _ _ H). lia.
Qed.
Lemma nth_map_sub o n : forall (l : list Z) k, nth k (map (fun x => x - o) l) (n - o) = nth k l n - o.
Proof. intros l k. exact (map_nth (fun x => x - o) l n k). Qed.
Lemma nth_skipn {A} (d : A) : forall i (l : list A) k, nth k (skipn i l) d = nth (i + k) l d.
Proof.
  induction i as [|i IH]; intros l k; [reflexivity|]. destruct l as [|x l]; [destruct k; reflexivity|]. cbn [skipn plus nth]. apply IH.
Qed.

(** * Chunks *)
Fixpoint contig (cs : list iv) (a b : Z) : Prop :=
  match cs with [] => a = b | x :: r => ip x = a /\ a <= iq x /\ contig r (iq x + 1) b end.
Lemma contig_le cs : forall a b, contig cs a b -> a <= b.
Proof. induction cs as [|x r IH]; intros a b H; cbn in H; [lia|]. destruct H as (A & B & C). apply IH in C. lia. Qed.
Lemma contig_in cs : forall a b x, contig cs a b -> In x cs -> a <= ip x /\ ip x <= iq x /\ iq x < b.
Proof.
  induction cs as [|y r IH]; intros a b x H Hx; [contradiction|]. cbn in H. destruct H as (A & B & C).
  pose proof (contig_le _ _ _ C). destruct Hx as [->|Hx]; [lia|]. specialize (IH _ _ _ C Hx). lia.
Qed.
Lemma contig_find cs : forall a b k, contig cs a b -> a <= k < b -> exists x, In x cs /\ ip x <= k <= iq x.
Proof.
  induction cs as [|y r IH]; intros a b k H Hk; cbn in H; [lia|]. destruct H as (A & B & C).
  destruct (Z_le_gt_dec k (iq y)) as [L|L]; [exists y; split; [left; reflexivity|lia]|].
  destruct (IH _ _ k C ltac:(lia)) as (x & Hx & K). exists x. split; [right; exact Hx|exact K].
Qed.
Lemma contig_order cs : forall a b x y, contig cs a b -> In x cs -> In y cs -> x = y \/ iq x < ip y \/ iq y < ip x.
Proof.
  induction cs as [|z r IH]; intros a b x y H Hx Hy; [contradiction|]. cbn in H. destruct H as (A & B & C).
  destruct Hx as [->|Hx], Hy as [->|Hy]; [auto| | |eauto].
  - right; left. pose proof (contig_in _ _ _ _ C Hy). lia.
  - right; right. pose proof (contig_in _ _ _ _ C Hx). lia.
Qed.
Lemma contig_app cs ds : forall a b c, contig cs a b -> contig ds b c -> contig (cs ++ ds) a c.
Proof.
  induction cs as [|x r IH]; intros a b c H K; cbn in *; [subst; exact K|]. destruct H as (A & B & C). split; [exact A|]. split; [exact B|]. eauto.
Qed.
Lemma contig_gclist cs : forall a b, contig cs a b -> minf < a -> b <= maxf -> gclist cs.
Proof.
  induction cs as [|x r IH]; intros a b H Ha Hb; [exact Logic.I|]. cbn in H. destruct H as (A & B & C).
  pose proof (contig_le _ _ _ C). cbn [gclist]. split; [unfold finite; lia|]. split; [|apply (IH _ _ C); lia].
  destruct r as [|y r]; [exact Logic.I|]. cbn in C. lia.
Qed.

(** * Translating through chunks *)
Section Translate.
Context (tokenize : bytes -> list token) (skip : bytes -> Z -> Z) (stop : bytes -> Prop) (starts : bytes -> list Z).
Context (Laws : tokenizer_laws tokenize skip stop starts).

(** Tokens from offset [o] on are those from address [a] on. *)
Definition resumes (t : bytes) (os : list Z) (base a o : Z) : Prop :=
  0 <= o <= len t /\ starts (skipn (Z.to_nat o) t) = map (fun x => x - o) (skipn (Z.to_nat (a - base)) os).
Record chunked (t : bytes) (os : list Z) (base : Z) (first : Z -> option Z) (cs : list iv) : Prop := {
  ch_starts : starts t = os;
  ch_base : 0 <= base;
  ch_room : base + Z.of_nat (length os) < maxf;
  ch_contig : contig cs base (base + Z.of_nat (length os));
  ch_offset : forall x, In x cs -> ivl x = text_start t os base first (ip x);
  ch_first : forall a o, base <= a < base + Z.of_nat (length os) -> first a = Some o -> (exists x, In x cs /\ ip x = a) /\ resumes t os base a o }.

Context (t : bytes) (os : list Z) (base : Z) (first : Z -> option Z) (cs : list iv).
Hypothesis Hc : chunked t os base first cs.
Let E := base + Z.of_nat (length os).

Lemma start_resumes a : base <= a < E -> resumes t os base a (text_start t os base first a).
Proof.
  intros Ha. unfold text_start. destruct (first a) as [o|] eqn:F; [exact (proj2 (ch_first _ _ _ _ _ Hc a o Ha F))|].
  unfold token_start, resumes. pose proof (law_inside _ _ _ _ Laws t) as Ain. rewrite (ch_starts _ _ _ _ _ Hc) in Ain.
  assert (L : (Z.to_nat (a - base) < length os)%nat) by lia.
  pose proof (nth_error_nth' os (len t) L) as En. pose proof (nth_range os (len t) (Z.to_nat (a - base)) Ain). split; [lia|].
  pose proof (law_from _ _ _ _ Laws t (Z.to_nat (a - base)) (nth (Z.to_nat (a - base)) os (len t))) as K. rewrite (ch_starts _ _ _ _ _ Hc) in K. exact (K En).
Qed.
Lemma skip_resumes a o k : resumes t os base a o -> base <= a -> 0 <= k ->
  skip_at skip t o k = Ok (token_start t os base (a + k)) /\ o <= token_start t os base (a + k) <= len t.
Proof.
  intros [Ho R] Ha Hk. pose proof (law_inside _ _ _ _ Laws (skipn (Z.to_nat o) t)) as Ain.
  unfold skip_at. replace (o <? 0) with false by lia. replace (len t <? o) with false by lia. cbn [orb].
  rewrite (law_skip _ _ _ _ Laws _ k Hk). pose proof (nth_range _ _ (Z.to_nat k) Ain) as N. rewrite R in N |- *.
  assert (Le : len (skipn (Z.to_nat o) t) = len t - o) by (unfold len in *; rewrite skipn_length; lia).
  rewrite Le in N |- *. rewrite nth_map_sub, nth_skipn in N |- *. unfold token_start.
  replace (Z.to_nat (a + k - base)) with (Z.to_nat (a - base) + Z.to_nat k)%nat by lia.
  set (z := nth (Z.to_nat (a - base) + Z.to_nat k) os (len t)) in *. split; [f_equal; lia|lia].
Qed.

Theorem translate_chunked (o : hobj) p q : answers (projT1 o) (projT2 o) (set_of cs) -> minf <= p <= maxf -> minf <= q < maxf ->
  exists o', translate skip (o, t) p q = Ok ((o', t), expected t os base first p q) /\ answers (projT1 o') (projT2 o') (set_of cs).
Proof.
  intros [G I] Hp Hq. destruct o as [C s0]. cbn [projT1 projT2] in *. unfold translate. cbn [projT1 projT2].
  pose proof (ch_base _ _ _ _ _ Hc) as B0. pose proof (ch_room _ _ _ _ _ Hc) as Rm. pose proof (ch_contig _ _ _ _ _ Hc) as Ct.
  fold E in Rm, Ct. set (p' := if p <? 0 then 0 else p). assert (P' : p' = Z.max p 0) by (unfold p'; destruct (Z.ltb_spec p 0); lia). clearbody p'.
  assert (Ex : forall b, expected t os base first p q = b <->
     (if Z.min q (E - 1) <? Z.max p' base then [] else between t (text_start t os base first (Z.max p' base)) (token_start t os base (Z.min q (E - 1) + 1))) = b).
  { intros b. unfold expected. fold E. replace (Z.max p base) with (Z.max p' base) by lia. reflexivity. }
  destruct ((p' =? maxf) || (q <? p')) eqn:E1.
  { exists (existT _ C s0). split; [|exact (conj G I)]. assert (K : expected t os base first p q = []); [|rewrite K; reflexivity].
    apply Ex. replace (Z.min q (E - 1) <? Z.max p' base) with true by lia. reflexivity. }
  pose proof (implements_step C (set_of cs) s0 Mrho p' I ltac:(unfold minf; lia)) as H1. apply wp_exists in H1.
  destruct H1 as ([s1 x0] & H1 & I1 & A1). cbn [call] in H1. rewrite H1. cbn [bind]. cbn [answer] in A1.
  destruct A1 as [[A1 _]|[_ A1]]; [unfold minf in A1; lia|].
  destruct (Z_lt_ge_dec p' E) as [Lp|Lp].
  2:{ (* past the end *)
    destruct A1 as [(S0 & Q0 & _)|[-> _]].
    - pose proof (contig_in _ _ _ _ Ct S0). lia.
    - cbn [ip]. rewrite Z.eqb_refl. cbn [orb]. exists (existT _ C s1). split; [|exact (conj G I1)].
      assert (K : expected t os base first p q = []); [|rewrite K; reflexivity].
      apply Ex. replace (Z.min q (E - 1) <? Z.max p' base) with true by lia. reflexivity. }
  destruct (Z_lt_ge_dec base E) as [Ne|Em].
  2:{ destruct A1 as [(S0 & Q0 & _)|[-> _]].
    - pose proof (contig_in _ _ _ _ Ct S0). lia.
    - cbn [ip]. rewrite Z.eqb_refl. cbn [orb]. exists (existT _ C s1). split; [|exact (conj G I1)].
      assert (K : expected t os base first p q = []); [|rewrite K; reflexivity].
      apply Ex. replace (Z.min q (E - 1) <? Z.max p' base) with true by lia. reflexivity. }
  set (k := Z.max p' base). destruct (contig_find _ _ _ k Ct ltac:(lia)) as (x & Hx & Kx).
  assert (x0 = x) as ->.
  { destruct A1 as [(S0 & Q0 & M0)|[_ N0]]; [|specialize (N0 x Hx); lia].
    pose proof (contig_in _ _ _ _ Ct S0) as C0. pose proof (contig_in _ _ _ _ Ct Hx) as C1. specialize (M0 x Hx ltac:(lia)).
    destruct (contig_order _ _ _ x0 x Ct S0 Hx) as [K|[K|K]]; [exact K|lia|lia]. }
  pose proof (contig_in _ _ _ _ Ct Hx) as Cx.
  replace (ip x =? maxf) with false by lia. cbn [orb].
  destruct (Z.ltb_spec q (ip x)) as [Lq|Lq].
  { exists (existT _ C s1). split; [|exact (conj G I1)]. assert (K : expected t os base first p q = []); [|rewrite K; reflexivity].
    apply Ex. fold k. replace (Z.min q (E - 1) <? k) with true by lia. reflexivity. }
  pose proof (implements_step C (set_of cs) s1 Mohr q I1 ltac:(lia)) as H2. apply wp_exists in H2.
  destruct H2 as ([s2 x1] & H2 & I2 & A2). cbn [call] in H2. rewrite H2. cbn [bind]. cbn [answer] in A2.
  destruct A2 as [[A2 _]|[_ A2]]; [lia|].
  set (m := Z.min q (E - 1)). destruct (contig_find _ _ _ m Ct ltac:(lia)) as (y & Hy & Ky).
  pose proof (contig_in _ _ _ _ Ct Hy) as Cy.
  assert (x1 = y) as ->.
  { destruct A2 as [(S0 & Q0 & M0)|[_ N0]]; [|specialize (N0 y Hy); lia].
    pose proof (contig_in _ _ _ _ Ct S0) as C0. specialize (M0 y Hy ltac:(lia)).
    destruct (contig_order _ _ _ x1 y Ct S0 Hy) as [K|[K|K]]; [exact K|lia|].
    exfalso. assert (iq y = E - 1) by lia. lia. }
  exists (existT _ C s2). split; [|exact (conj G I2)].
  assert (Kb : base <= k < E) by lia.
  (* the start *)
  assert (Es : (if ip x <? p' then skip_at skip t (ivl x) (p' - ip x) else Ok (ivl x)) = Ok (text_start t os base first k)).
  { rewrite (ch_offset _ _ _ _ _ Hc x Hx). destruct (Z.ltb_spec (ip x) p') as [L|L].
    - destruct (skip_resumes (ip x) _ (p' - ip x) (start_resumes (ip x) ltac:(lia)) ltac:(lia) ltac:(lia)) as [-> _].
      f_equal. replace (ip x + (p' - ip x)) with k by lia. unfold text_start. destruct (first k) as [o|] eqn:F; [|reflexivity].
      destruct (ch_first _ _ _ _ _ Hc k o Kb F) as [(z & Hz & Kz) _]. pose proof (contig_in _ _ _ _ Ct Hz).
      destruct (contig_order _ _ _ z x Ct Hz Hx) as [->|[K|K]]; lia.
    - replace (ip x) with k by lia. reflexivity. }
  rewrite Es. cbn [bind].
  replace (if ip x <? p' then p' else ip x) with k by (destruct (Z.ltb_spec (ip x) p'); lia).
  pose proof (start_resumes k Kb) as Rk. destruct Rk as [Rk1 Rk2]. pose proof (conj Rk1 Rk2 : resumes t os base k _) as Rk.
  assert (Ee : (if iq y <? q then Ok (len t)
                else if iq x =? iq y then let* j := chk (q - k + 1) in skip_at skip t (text_start t os base first k) j
                else let* j := chk (q - ip y + 1) in skip_at skip t (ivl y) j) = Ok (token_start t os base (m + 1))).
  { assert (Ck : forall z, minf <= z <= maxf -> chk z = Ok z).
    { intros z Hz. unfold chk. replace (minf <=? z) with true by lia. replace (z <=? maxf) with true by lia. reflexivity. }
    destruct (Z.ltb_spec (iq y) q) as [L|L].
    - f_equal. unfold token_start. rewrite nth_overflow; [reflexivity|]. lia.
    - destruct (Z.eqb_spec (iq x) (iq y)) as [Q|Q].
      + rewrite Ck by (unfold minf; lia). cbn [bind].
        destruct (skip_resumes k _ (q - k + 1) Rk ltac:(lia) ltac:(lia)) as [-> _]. f_equal. f_equal. lia.
      + rewrite Ck by (unfold minf; lia). cbn [bind]. rewrite (ch_offset _ _ _ _ _ Hc y Hy).
        destruct (skip_resumes (ip y) _ (q - ip y + 1) (start_resumes (ip y) ltac:(lia)) ltac:(lia) ltac:(lia)) as [-> _].
        f_equal. f_equal. lia. }
  rewrite Ee. cbn [bind].
  assert (Lo : text_start t os base first k <= token_start t os base (m + 1)).
  { pose proof (skip_resumes k _ (m + 1 - k) Rk ltac:(lia) ltac:(lia)) as [_ K]. replace (k + (m + 1 - k)) with (m + 1) in K by lia. lia. }
  unfold substr. replace (text_start t os base first k <? 0) with false by lia.
  replace (len t <? text_start t os base first k) with false by lia. cbn [orb bind].
  replace (token_start t os base (m + 1) <? text_start t os base first k) with false by lia.
  f_equal. f_equal. symmetry. apply Ex. fold k m. replace (m <? k) with false by lia. reflexivity.
Qed.
End Translate.
