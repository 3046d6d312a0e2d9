(** The array-backed hopper implements its list. *)
From Verif Require Import Base HopperModel ArrayDefs GclSpec HopperProofs.

Definition at_ (a : list Z) (i : Z) : Z := nth (Z.to_nat i) a 0.
Definition incr (a : list Z) : Prop :=
  forall i j, 0 <= i < j -> j < Z.of_nat (length a) -> at_ a i <= at_ a j.
(** An array of 8-byte elements in a 64-bit address space. *)
Definition fits (a : list Z) : Prop := 0 < Z.of_nat (length a) <= 2305843009213693951.

Lemma incr_le a i j : incr a -> 0 <= i <= j -> j < Z.of_nat (length a) -> at_ a i <= at_ a j.
Proof. intros H Hi Hj. destruct (Z.eq_dec i j); [subst; lia|]. specialize (H i j ltac:(lia) Hj). lia. Qed.

Lemma wp_at a i (Q : Z -> Prop) : 0 <= i < Z.of_nat (length a) -> Q (at_ a i) -> wp (idx a i) Q.
Proof. intros Hi HQ. apply (wp_idx a 0); [exact Hi|exact HQ]. Qed.

Section Search.
Variable a : list Z.
Let n := Z.of_nat (length a).
Hypothesis Hn : fits a.

Lemma bisect_ok up lo hi : 0 <= lo < hi -> hi < n -> up (at_ a lo) = true -> up (at_ a hi) = false ->
  wp (bisect a up lo hi) (fun '(l, h) => 0 <= l /\ h = l + 1 /\ h < n /\ up (at_ a l) = true /\ up (at_ a h) = false).
Proof.
  intros Hlo Hhi Ul Uh. unfold bisect. unfold fits in Hn.
  apply loop_rule with
    (Inv := fun '(l, h) => 0 <= l < h /\ h < n /\ up (at_ a l) = true /\ up (at_ a h) = false)
    (mu := fun '(l, h) => h - l).
  - intros [l h] H. lia.
  - intros [l h] (H1 & H2 & H3 & H4).
    destruct (Z.ltb_spec 1 (h - l)).
    + assert (l < l + (h - l) / 2 < h).
      { assert (0 < (h - l) / 2) by (apply Z.div_str_pos; lia).
        assert ((h - l) / 2 < h - l) by (apply Z.div_lt; lia). lia. }
      apply wp_bind. apply wp_at; [lia|].
      destruct (up (at_ a (l + (h - l) / 2))) eqn:E; cbn; repeat split; auto; lia.
    + cbn. repeat split; auto; lia.
  - repeat split; auto; lia.
  - unfold BIG. lia.
Qed.

Lemma gallop_up_ok low go : 0 <= low < n ->
  wp (gallop_up a n low go)
     (fun hop => 1 <= hop <= 2 * n /\ (n <= low + hop \/ (low + hop < n /\ go (at_ a (low + hop)) = false))).
Proof.
  intros Hl. unfold gallop_up. unfold fits in Hn. fold n in Hn.
  apply loop_rule with (Inv := fun hop => 1 <= hop <= 2 * n) (mu := fun hop => 2 * n - hop).
  - intros; lia.
  - intros hop H. apply wp_bind, wp_chk; [unfold minf, maxf; lia|].
    destruct (Z.ltb_spec (low + hop) n).
    + apply wp_bind, wp_at; [lia|]. destruct (go _) eqn:E.
      * apply wp_bind, wp_chk; [unfold minf, maxf; lia|]. cbn. lia.
      * cbn. split; [lia|]. right. auto.
    + cbn. lia.
  - lia.
  - unfold BIG. lia.
Qed.

Lemma gallop_down_ok high go : 0 <= high < n ->
  wp (gallop_down a high go)
     (fun hop => 1 <= hop <= 2 * n /\ (high < hop \/ (hop <= high /\ go (at_ a (high - hop)) = false))).
Proof.
  intros Hl. unfold gallop_down. unfold fits in Hn. fold n in Hn.
  apply loop_rule with (Inv := fun hop => 1 <= hop <= 2 * n) (mu := fun hop => 2 * n - hop).
  - intros; lia.
  - intros hop H.
    destruct (Z.leb_spec 0 (high - hop)).
    + apply wp_bind, wp_at; [lia|]. destruct (go _) eqn:E.
      * apply wp_bind, wp_chk; [unfold minf, maxf; lia|]. cbn. lia.
      * cbn. split; [lia|]. right. split; [lia|auto].
    + cbn. lia.
  - lia.
  - unfold BIG. lia.
Qed.

Hypothesis Hi : incr a.
Hypothesis Hb : forall i, 0 <= i < n -> minf < at_ a i < maxf.

Lemma hopping_ok c k : 0 <= c < n -> minf <= k <= maxf ->
  wp (hopping a n c k)
     (fun '(c', r) => 0 <= c' < n /\
        ((k = minf /\ r = minf) \/
         (k <> minf /\
          ((r = at_ a c' /\ k <= at_ a c' /\ forall i, 0 <= i < c' -> at_ a i < k \/ at_ a i = at_ a c') \/
           (r = maxf /\ forall i, 0 <= i < n -> at_ a i < k))))).
Proof.
  intros Hc Hk. unfold hopping. unfold fits in Hn. fold n in Hn.
  assert (LE : forall i j, 0 <= i <= j -> j < n -> at_ a i <= at_ a j) by (intros; apply incr_le; auto).
  pose proof (Hb c Hc). inf.
  apply wp_bind, wp_at; [exact Hc|].
  destruct (Z.ltb_spec (at_ a c) k).
  - apply wp_bind, wp_at; [lia|].
    destruct (Z.ltb_spec (at_ a (n - 1)) k).
    + cbn. split; [exact Hc|]. right. split; [lia|]. right. split; [reflexivity|].
      intros i Hi'. pose proof (LE i (n - 1) ltac:(lia) ltac:(lia)). lia.
    + apply wp_bind. eapply wp_mono; [apply gallop_up_ok; exact Hc|]. intros hop [Hh Hh2]. cbn beta.
      apply wp_bind, wp_chk; [unfold minf, maxf; lia|]. cbn zeta.
      apply wp_bind. eapply wp_mono.
      * apply bisect_ok with (up := fun x => x <? k); [destruct (Z.leb_spec n (c + hop)); [|lia] | | lia | ].
        -- assert (c <> n - 1) by (intros ->; lia). lia.
        -- destruct (Z.leb_spec n (c + hop)); lia.
        -- destruct (Z.leb_spec n (c + hop)); [lia|].
           destruct Hh2 as [?|[_ ?]]; [lia|assumption].
      * intros [l h] (Hx1 & -> & Hx3 & Hx4 & Hx5). cbn beta iota. apply wp_bind, wp_at; [lia|]. cbn.
        split; [lia|]. right. split; [lia|]. left. split; [reflexivity|]. split; [lia|].
        intros i Hi'. pose proof (LE i l ltac:(lia) ltac:(lia)). lia.
  - destruct (Z.ltb_spec k (at_ a c)).
    + apply wp_bind, wp_at; [lia|].
      destruct (Z.leb_spec k (at_ a 0)).
      * destruct (Z.eqb_spec k minf); cbn.
        -- split; [exact Hc|]. left; auto.
        -- split; [lia|]. right. split; [assumption|]. left. repeat split; auto. intros; lia.
      * apply wp_bind. eapply wp_mono; [apply gallop_down_ok; exact Hc|]. intros hop [Hh Hh2]. cbn beta zeta.
        assert (k <> minf). { intros ->. pose proof (Hb 0). lia. }
        apply wp_bind. eapply wp_mono.
        -- apply bisect_ok with (up := fun x => x <? k); [ | lia | | lia ].
           ++ destruct (Z.ltb_spec c hop); [|lia]. assert (c <> 0) by (intros ->; lia). lia.
           ++ destruct (Z.ltb_spec c hop); [lia|]. destruct Hh2 as [?|[_ ?]]; [lia|]. lia.
        -- intros [l h] (Hx1 & -> & Hx3 & Hx4 & Hx5). cbn beta iota. apply wp_bind, wp_at; [lia|]. cbn.
           split; [lia|]. right. split; [lia|]. left. split; [reflexivity|]. split; [lia|].
           intros i Hi'. pose proof (LE i l ltac:(lia) ltac:(lia)). lia.
    + cbn. split; [exact Hc|]. right. split; [lia|]. left. split; [reflexivity|]. split; [lia|].
      intros i Hi'. pose proof (Hi i c ltac:(lia) ltac:(lia)). lia.
Qed.

Lemma gnippoh_ok c k : 0 <= c < n -> minf <= k <= maxf ->
  wp (gnippoh a n c k)
     (fun '(c', r) => 0 <= c' < n /\
        ((k = maxf /\ r = maxf) \/
         (k <> maxf /\
          ((r = at_ a c' /\ at_ a c' <= k /\ forall i, c' < i < n -> k < at_ a i \/ at_ a i = at_ a c') \/
           (r = minf /\ forall i, 0 <= i < n -> k < at_ a i))))).
Proof.
  intros Hc Hk. unfold gnippoh. unfold fits in Hn. fold n in Hn.
  assert (LE : forall i j, 0 <= i <= j -> j < n -> at_ a i <= at_ a j) by (intros; apply incr_le; auto).
  pose proof (Hb c Hc). inf.
  apply wp_bind, wp_at; [exact Hc|].
  destruct (Z.ltb_spec k (at_ a c)).
  - apply wp_bind, wp_at; [lia|].
    destruct (Z.ltb_spec k (at_ a 0)).
    + cbn. split; [exact Hc|]. right. split; [lia|]. right. split; [reflexivity|].
      intros i Hi'. pose proof (LE 0 i ltac:(lia) ltac:(lia)). lia.
    + apply wp_bind. eapply wp_mono; [apply gallop_down_ok; exact Hc|]. intros hop [Hh Hh2]. cbn beta zeta.
      apply wp_bind. eapply wp_mono.
      * apply bisect_ok with (up := fun x => x <=? k); [ | lia | | lia ].
        -- destruct (Z.ltb_spec c hop); [|lia]. assert (c <> 0) by (intros ->; lia). lia.
        -- destruct (Z.ltb_spec c hop); [lia|]. destruct Hh2 as [?|[_ ?]]; [lia|]. lia.
      * intros [l h] (Hx1 & -> & Hx3 & Hx4 & Hx5). cbn beta iota. apply wp_bind, wp_at; [lia|]. cbn.
        split; [lia|]. right. split; [lia|]. left. split; [reflexivity|]. split; [lia|].
        intros i Hi'. pose proof (LE (l + 1) i ltac:(lia) ltac:(lia)). lia.
  - destruct (Z.ltb_spec (at_ a c) k).
    + apply wp_bind, wp_at; [lia|].
      destruct (Z.leb_spec (at_ a (n - 1)) k).
      * destruct (Z.eqb_spec k maxf); cbn.
        -- split; [exact Hc|]. left; auto.
        -- split; [lia|]. right. split; [assumption|]. left. repeat split; auto. intros; lia.
      * assert (k <> maxf). { intros ->. pose proof (Hb (n - 1)). lia. }
        apply wp_bind. eapply wp_mono; [apply gallop_up_ok; exact Hc|]. intros hop [Hh Hh2]. cbn beta.
        apply wp_bind, wp_chk; [unfold minf, maxf; lia|]. cbn zeta.
        apply wp_bind. eapply wp_mono.
        -- apply bisect_ok with (up := fun x => x <=? k); [destruct (Z.leb_spec n (c + hop)); [|lia] | | lia | ].
           ++ assert (c <> n - 1) by (intros ->; lia). lia.
           ++ destruct (Z.leb_spec n (c + hop)); lia.
           ++ destruct (Z.leb_spec n (c + hop)); [lia|].
              destruct Hh2 as [?|[_ ?]]; [lia|assumption].
        -- intros [l h] (Hx1 & -> & Hx3 & Hx4 & Hx5). cbn beta iota. apply wp_bind, wp_at; [lia|]. cbn.
           split; [lia|]. right. split; [lia|]. left. split; [reflexivity|]. split; [lia|].
           intros i Hi'. pose proof (LE (l + 1) i ltac:(lia) ltac:(lia)). lia.
    + cbn. split; [exact Hc|]. right. split; [lia|]. left. split; [reflexivity|]. split; [lia|].
      intros i Hi'. pose proof (Hi c i ltac:(lia) ltac:(lia)). lia.
Qed.
End Search.

Lemma gclist_head x l y : gclist (x :: l) -> In y l -> ip x < ip y /\ iq x < iq y.
Proof.
  revert x. induction l as [|z l IH]; intros x H Hy; [contradiction|].
  cbn in H. destruct H as (Fx & Hxz & Hz & H).
  destruct Hy as [->|Hy]; [exact Hxz|].
  assert (ip z < ip y /\ iq z < iq y) by (apply IH; [cbn; auto|assumption]). lia.
Qed.
Lemma gclist_tail x l : gclist (x :: l) -> gclist l.
Proof. cbn. tauto. Qed.
Lemma gclist_finite l x : gclist l -> In x l -> finite x.
Proof.
  revert x. induction l as [|z l IH]; intros x H Hx; [contradiction|].
  destruct Hx as [->|Hx]; [apply H|]. apply IH; [apply (gclist_tail z), H|exact Hx].
Qed.
Lemma gclist_nth l : gclist l -> forall i j d, (i < j)%nat -> (j < length l)%nat ->
  ip (nth i l d) < ip (nth j l d) /\ iq (nth i l d) < iq (nth j l d).
Proof.
  induction l as [|x l IH]; intros H i j d Hij Hj; [cbn in Hj; lia|].
  destruct j as [|j]; [lia|]. destruct i as [|i]; cbn [nth].
  - apply (gclist_head x l); [exact H|]. apply nth_In. cbn in Hj. lia.
  - apply IH; [exact (gclist_tail _ _ H)|lia|cbn in Hj; lia].
Qed.

Lemma gclist_GC l : gclist l -> GC (set_of l).
Proof.
  induction l as [|x l IH]; intros H.
  - split; intros; contradiction.
  - destruct (IH (gclist_tail _ _ H)) as [F N]. split.
    + intros y Hy. exact (gclist_finite _ _ H Hy).
    + intros u w [<-|Hu] [<-|Hw] Hn; [reflexivity| | |apply N; assumption].
      * pose proof (gclist_head x l w H Hw). unfold nests in Hn. lia.
      * pose proof (gclist_head x l u H Hu). unfold nests in Hn. lia.
Qed.

Lemma gcdup_tail x l : gcdup (x :: l) -> gcdup l.
Proof. cbn. tauto. Qed.
Lemma gcdup_head x l y : gcdup (x :: l) -> In y l -> (ip x < ip y /\ iq x < iq y) \/ x = y.
Proof.
  revert x. induction l as [|z l IH]; intros x H Hy; [contradiction|].
  cbn in H. destruct H as (Fx & Hxz & Hz & H).
  destruct Hy as [->|Hy]; [exact Hxz|].
  assert (Hzy : (ip z < ip y /\ iq z < iq y) \/ z = y) by (apply IH; [cbn; auto|assumption]).
  destruct Hxz as [Hxz| ->]; [|exact Hzy]. destruct Hzy as [Hzy| ->]; left; [lia|exact Hxz].
Qed.
Lemma gcdup_finite l x : gcdup l -> In x l -> finite x.
Proof.
  revert x. induction l as [|z l IH]; intros x H Hx; [contradiction|].
  destruct Hx as [->|Hx]; [apply H|]. apply IH; [apply (gcdup_tail z), H|exact Hx].
Qed.
Lemma gcdup_nth l : gcdup l -> forall i j d, (i < j)%nat -> (j < length l)%nat ->
  ip (nth i l d) <= ip (nth j l d) /\ iq (nth i l d) <= iq (nth j l d).
Proof.
  induction l as [|x l IH]; intros H i j d Hij Hj; [cbn in Hj; lia|].
  destruct j as [|j]; [lia|]. destruct i as [|i]; cbn [nth].
  - destruct (gcdup_head x l (nth j l d) H) as [E|E]; [apply nth_In; cbn in Hj; lia|lia|rewrite <- E; lia].
  - apply IH; [exact (gcdup_tail _ _ H)|lia|cbn in Hj; lia].
Qed.
Lemma gcdup_GC l : gcdup l -> GC (set_of l).
Proof.
  induction l as [|x l IH]; intros H.
  - split; intros; contradiction.
  - destruct (IH (gcdup_tail _ _ H)) as [F N]. split.
    + intros y Hy. exact (gcdup_finite _ _ H Hy).
    + intros u w [<-|Hu] [<-|Hw] Hn; [reflexivity| | |apply N; assumption].
      * destruct (gcdup_head x l w H Hw) as [E|E]; [unfold nests in Hn; lia|exact E].
      * destruct (gcdup_head x l u H Hu) as [E|E]; [unfold nests in Hn; lia|congruence].
Qed.
Lemma gclist_gcdup l : gclist l -> gcdup l.
Proof.
  induction l as [|x l IH]; [trivial|]. cbn. intros (F & H & G). split; [exact F|]. split; [|apply IH; exact G].
  destruct l; [trivial|left; exact H].
Qed.

Section Arr.
Variables (l : list iv) (withv : bool).
Hypothesis G : gcdup l.
Hypothesis Hlen : 0 < Z.of_nat (length l) <= 2305843009213693951.
Hypothesis Hv : withv = false -> Forall (fun x => ivl x = 0) l.
Let a := arr_of l withv.
Let n := Z.of_nat (length l).
Let el (i : Z) : iv := nth (Z.to_nat i) l (Iv 0 0 0).

Lemma alen_a : alen a = n. Proof. unfold alen, a, n; cbn. rewrite map_length. reflexivity. Qed.
Lemma at_p i : at_ (ap a) i = ip (el i).
Proof. unfold at_, a, el; cbn. change 0 with (ip (Iv 0 0 0)) at 1. apply map_nth. Qed.
Lemma at_q i : at_ (aq a) i = iq (el i).
Proof. unfold at_, a, el; cbn. change 0 with (iq (Iv 0 0 0)) at 1. apply map_nth. Qed.
Lemma el_in i : 0 <= i < n -> In (el i) l.
Proof. intros H. apply nth_In. unfold n in H. lia. Qed.
Lemma el_ex x : In x l -> exists i, 0 <= i < n /\ el i = x.
Proof.
  intros H. destruct (In_nth l x (Iv 0 0 0) H) as (k & Hk & E). exists (Z.of_nat k).
  unfold n, el. rewrite Nat2Z.id. split; [lia|exact E].
Qed.
Lemma el_le i j : 0 <= i <= j -> j < n -> ip (el i) <= ip (el j) /\ iq (el i) <= iq (el j).
Proof.
  intros H1 H2. destruct (Z.eq_dec i j); [subst; lia|]. unfold el. apply gcdup_nth; [exact G|lia|unfold n in H2; lia].
Qed.
Lemma el_fin i : 0 <= i < n -> finite (el i).
Proof. intros H. apply (gcdup_finite l); [exact G|apply el_in, H]. Qed.

Lemma fits_p : fits (ap a). Proof. unfold fits, a; cbn. rewrite map_length. exact Hlen. Qed.
Lemma fits_q : fits (aq a). Proof. unfold fits, a; cbn. rewrite map_length. exact Hlen. Qed.
Lemma len_p : Z.of_nat (length (ap a)) = n. Proof. unfold a, n; cbn. rewrite map_length. reflexivity. Qed.
Lemma len_q : Z.of_nat (length (aq a)) = n. Proof. unfold a, n; cbn. rewrite map_length. reflexivity. Qed.
Lemma incr_p : incr (ap a).
Proof. intros i j H1 H2. rewrite len_p in H2. rewrite !at_p. apply el_le; [lia|assumption]. Qed.
Lemma incr_q : incr (aq a).
Proof. intros i j H1 H2. rewrite len_q in H2. rewrite !at_q. apply el_le; [lia|assumption]. Qed.

Lemma val_ok c (Q : Z -> Prop) : 0 <= c < n -> Q (ivl (el c)) -> wp (arr_val a c) Q.
Proof.
  intros Hc HQ. unfold arr_val, a; cbn [af arr_of].
  pose proof (el_in c Hc) as Hin. destruct withv.
  - apply (wp_idx (map ivl l) 0); [rewrite map_length; exact Hc|].
    change 0 with (ivl (Iv 0 0 0)) at 1. rewrite map_nth. exact HQ.
  - cbn. pose proof (Hv eq_refl) as Hv'. rewrite Forall_forall in Hv'. rewrite (Hv' (el c)) in HQ; [exact HQ|exact Hin].
Qed.

Definition cur_ok (c : Z) : Prop := 0 <= c < n.
Notation I := (Iof cur_ok (set_of l)).

Lemma el_eta i p q v : p = ip (el i) -> q = iq (el i) -> v = ivl (el i) -> Iv p q v = el i.
Proof. intros -> -> ->. destruct (el i); reflexivity. Qed.

Lemma hop_p c k : 0 <= c < n -> minf <= k <= maxf ->
  wp (hopping (ap a) (alen a) c k) (fun '(c', r) => 0 <= c' < n /\
     ((k = minf /\ r = minf) \/ (k <> minf /\
      ((r = ip (el c') /\ k <= r /\ forall x, In x l -> k <= ip x -> r <= ip x) \/
       (r = maxf /\ forall x, In x l -> ip x < k))))).
Proof.
  intros Hc Hk. rewrite alen_a, <- len_p. eapply wp_mono.
  - apply hopping_ok; [exact fits_p|exact incr_p| |rewrite len_p; exact Hc|exact Hk].
    intros i Hi. rewrite at_p. rewrite len_p in Hi. pose proof (el_fin i Hi). fin.
  - intros [c' r]. rewrite len_p. intros (Hc' & [H|[H0 [(E & H1 & H2)|[E H]]]]); (split; [exact Hc'|]).
    + left; exact H.
    + right. split; [exact H0|]. left. rewrite at_p in *. split; [exact E|]. split; [lia|].
      intros x Hx Hkx. destruct (el_ex x Hx) as (i & Hi & <-).
      destruct (Z_lt_ge_dec i c') as [L|L].
      * specialize (H2 i ltac:(lia)). rewrite at_p in H2. lia.
      * pose proof (el_le c' i ltac:(lia) ltac:(lia)). lia.
    + right. split; [exact H0|]. right. split; [exact E|]. intros x Hx.
      destruct (el_ex x Hx) as (i & Hi & <-). specialize (H i Hi). rewrite at_p in H. exact H.
Qed.
Lemma hop_q c k : 0 <= c < n -> minf <= k <= maxf ->
  wp (hopping (aq a) (alen a) c k) (fun '(c', r) => 0 <= c' < n /\
     ((k = minf /\ r = minf) \/ (k <> minf /\
      ((r = iq (el c') /\ k <= r /\ forall x, In x l -> k <= iq x -> r <= iq x) \/
       (r = maxf /\ forall x, In x l -> iq x < k))))).
Proof.
  intros Hc Hk. rewrite alen_a, <- len_q. eapply wp_mono.
  - apply hopping_ok; [exact fits_q|exact incr_q| |rewrite len_q; exact Hc|exact Hk].
    intros i Hi. rewrite at_q. rewrite len_q in Hi. pose proof (el_fin i Hi). fin.
  - intros [c' r]. rewrite len_q. intros (Hc' & [H|[H0 [(E & H1 & H2)|[E H]]]]); (split; [exact Hc'|]).
    + left; exact H.
    + right. split; [exact H0|]. left. rewrite at_q in *. split; [exact E|]. split; [lia|].
      intros x Hx Hkx. destruct (el_ex x Hx) as (i & Hi & <-).
      destruct (Z_lt_ge_dec i c') as [L|L].
      * specialize (H2 i ltac:(lia)). rewrite at_q in H2. lia.
      * pose proof (el_le c' i ltac:(lia) ltac:(lia)). lia.
    + right. split; [exact H0|]. right. split; [exact E|]. intros x Hx.
      destruct (el_ex x Hx) as (i & Hi & <-). specialize (H i Hi). rewrite at_q in H. exact H.
Qed.
Lemma gnip_p c k : 0 <= c < n -> minf <= k <= maxf ->
  wp (gnippoh (ap a) (alen a) c k) (fun '(c', r) => 0 <= c' < n /\
     ((k = maxf /\ r = maxf) \/ (k <> maxf /\
      ((r = ip (el c') /\ r <= k /\ forall x, In x l -> ip x <= k -> ip x <= r) \/
       (r = minf /\ forall x, In x l -> k < ip x))))).
Proof.
  intros Hc Hk. rewrite alen_a, <- len_p. eapply wp_mono.
  - apply gnippoh_ok; [exact fits_p|exact incr_p| |rewrite len_p; exact Hc|exact Hk].
    intros i Hi. rewrite at_p. rewrite len_p in Hi. pose proof (el_fin i Hi). fin.
  - intros [c' r]. rewrite len_p. intros (Hc' & [H|[H0 [(E & H1 & H2)|[E H]]]]); (split; [exact Hc'|]).
    + left; exact H.
    + right. split; [exact H0|]. left. rewrite at_p in *. split; [exact E|]. split; [lia|].
      intros x Hx Hkx. destruct (el_ex x Hx) as (i & Hi & <-).
      destruct (Z_lt_ge_dec c' i) as [L|L].
      * specialize (H2 i ltac:(lia)). rewrite at_p in H2. lia.
      * pose proof (el_le i c' ltac:(lia) ltac:(lia)). lia.
    + right. split; [exact H0|]. right. split; [exact E|]. intros x Hx.
      destruct (el_ex x Hx) as (i & Hi & <-). specialize (H i Hi). rewrite at_p in H. exact H.
Qed.
Lemma gnip_q c k : 0 <= c < n -> minf <= k <= maxf ->
  wp (gnippoh (aq a) (alen a) c k) (fun '(c', r) => 0 <= c' < n /\
     ((k = maxf /\ r = maxf) \/ (k <> maxf /\
      ((r = iq (el c') /\ r <= k /\ forall x, In x l -> iq x <= k -> iq x <= r) \/
       (r = minf /\ forall x, In x l -> k < iq x))))).
Proof.
  intros Hc Hk. rewrite alen_a, <- len_q. eapply wp_mono.
  - apply gnippoh_ok; [exact fits_q|exact incr_q| |rewrite len_q; exact Hc|exact Hk].
    intros i Hi. rewrite at_q. rewrite len_q in Hi. pose proof (el_fin i Hi). fin.
  - intros [c' r]. rewrite len_q. intros (Hc' & [H|[H0 [(E & H1 & H2)|[E H]]]]); (split; [exact Hc'|]).
    + left; exact H.
    + right. split; [exact H0|]. left. rewrite at_q in *. split; [exact E|]. split; [lia|].
      intros x Hx Hkx. destruct (el_ex x Hx) as (i & Hi & <-).
      destruct (Z_lt_ge_dec c' i) as [L|L].
      * specialize (H2 i ltac:(lia)). rewrite at_q in H2. lia.
      * pose proof (el_le i c' ltac:(lia) ltac:(lia)). lia.
    + right. split; [exact H0|]. right. split; [exact E|]. intros x Hx.
      destruct (el_ex x Hx) as (i & Hi & <-). specialize (H i Hi). rewrite at_q in H. exact H.
Qed.

Ltac fetch := apply wp_bind; first
  [ apply wp_at; [rewrite ?len_p, ?len_q; assumption|]
  | apply val_ok; [assumption|] ].

Lemma arr_tau_ok : meth_ok cur_ok (set_of l) tau_spec (arr_tau_ a).
Proof.
  intros s k [Hc Hm] Hk. unfold arr_tau_. apply wp_bind. eapply wp_mono; [apply hop_p; assumption|].
  intros [c r] [Hc' H]. cbn beta iota. pose proof min_lt_max as Hmm. pose proof (el_fin c Hc') as Hfc.
  assert (HI : I (set_sub s c)) by (split; assumption).
  destruct H as [[-> ->]|[H0 [(E & H1 & H2)|[-> H1]]]].
  - rewrite Z.eqb_refl, orb_true_r. cbn. split; [exact HI|]. left; auto.
  - replace ((r =? maxf) || (r =? minf)) with false by fin.
    fetch. fetch. apply wp_ok. split; [exact HI|]. right. split; [exact H0|]. left.
    rewrite (el_eta c _ _ _ E (at_q c) eq_refl). rewrite <- E. split; [apply el_in, Hc'|]. split; assumption.
  - rewrite Z.eqb_refl. cbn. split; [exact HI|]. right. split; [exact H0|]. right. auto.
Qed.
Lemma arr_ohr_ok : meth_ok cur_ok (set_of l) ohr_spec (arr_ohr_ a).
Proof.
  intros s k [Hc Hm] Hk. unfold arr_ohr_. apply wp_bind. eapply wp_mono; [apply gnip_p; assumption|].
  intros [c r] [Hc' H]. cbn beta iota. pose proof min_lt_max as Hmm. pose proof (el_fin c Hc') as Hfc.
  assert (HI : I (set_sub s c)) by (split; assumption).
  destruct H as [[-> ->]|[H0 [(E & H1 & H2)|[-> H1]]]].
  - rewrite Z.eqb_refl. cbn. split; [exact HI|]. left; auto.
  - replace ((r =? maxf) || (r =? minf)) with false by fin.
    fetch. fetch. apply wp_ok. split; [exact HI|]. right. split; [exact H0|]. left.
    rewrite (el_eta c _ _ _ E (at_q c) eq_refl). rewrite <- E. split; [apply el_in, Hc'|]. split; assumption.
  - rewrite Z.eqb_refl, orb_true_r. cbn. split; [exact HI|]. right. split; [exact H0|]. right. auto.
Qed.
Lemma arr_rho_ok : meth_ok cur_ok (set_of l) rho_spec (arr_rho_ a).
Proof.
  intros s k [Hc Hm] Hk. unfold arr_rho_. apply wp_bind. eapply wp_mono; [apply hop_q; assumption|].
  intros [c r] [Hc' H]. cbn beta iota. pose proof min_lt_max as Hmm. pose proof (el_fin c Hc') as Hfc.
  assert (HI : I (set_sub s c)) by (split; assumption).
  destruct H as [[-> ->]|[H0 [(E & H1 & H2)|[-> H1]]]].
  - rewrite Z.eqb_refl, orb_true_r. cbn. split; [exact HI|]. left; auto.
  - replace ((r =? maxf) || (r =? minf)) with false by fin.
    fetch. fetch. apply wp_ok. split; [exact HI|]. right. split; [exact H0|]. left.
    rewrite (el_eta c _ _ _ (at_p c) E eq_refl). rewrite <- E. split; [apply el_in, Hc'|]. split; assumption.
  - rewrite Z.eqb_refl. cbn. split; [exact HI|]. right. split; [exact H0|]. right. auto.
Qed.
Lemma arr_uat_ok : meth_ok cur_ok (set_of l) uat_spec (arr_uat_ a).
Proof.
  intros s k [Hc Hm] Hk. unfold arr_uat_. apply wp_bind. eapply wp_mono; [apply gnip_q; assumption|].
  intros [c r] [Hc' H]. cbn beta iota. pose proof min_lt_max as Hmm. pose proof (el_fin c Hc') as Hfc.
  assert (HI : I (set_sub s c)) by (split; assumption).
  destruct H as [[-> ->]|[H0 [(E & H1 & H2)|[-> H1]]]].
  - rewrite Z.eqb_refl. cbn. split; [exact HI|]. left; auto.
  - replace ((r =? maxf) || (r =? minf)) with false by fin.
    fetch. fetch. apply wp_ok. split; [exact HI|]. right. split; [exact H0|]. left.
    rewrite (el_eta c _ _ _ (at_p c) E eq_refl). rewrite <- E. split; [apply el_in, Hc'|]. split; assumption.
  - rewrite Z.eqb_refl, orb_true_r. cbn. split; [exact HI|]. right. split; [exact H0|]. right. auto.
Qed.

Lemma arr_L_ok s k : I s -> minf <= k <= maxf ->
  wp (arr_L a s k) (fun '(s', r) => I s' /\ L_spec (set_of l) k r).
Proof.
  intros [Hc Hm] Hk. unfold arr_L. apply wp_bind. eapply wp_mono; [apply gnip_q; assumption|].
  intros [c r] [Hc' H]. cbn beta iota. pose proof min_lt_max as Hmm. pose proof (el_fin c Hc') as Hfc.
  assert (HI : I (set_sub s c)) by (split; assumption).
  destruct H as [[-> ->]|[H0 [(E & H1 & H2)|[-> H1]]]].
  - rewrite Z.eqb_refl. cbn. split; [exact HI|]. exists maxr. split; [left; auto|reflexivity].
  - replace (r =? maxf) with false by fin. replace (r =? minf) with false by fin.
    fetch. apply wp_ok. split; [exact HI|]. exists (el c). split; [|apply at_p]. right. split; [exact H0|]. left.
    rewrite <- E. split; [apply el_in, Hc'|]. split; assumption.
  - replace (minf =? maxf) with false by reflexivity. rewrite Z.eqb_refl. cbn. split; [exact HI|].
    exists minr. split; [|reflexivity]. right. split; [exact H0|]. right. auto.
Qed.
Lemma arr_R_ok s k : I s -> minf <= k <= maxf ->
  wp (arr_R a s k) (fun '(s', r) => I s' /\ R_spec (set_of l) k r).
Proof.
  intros [Hc Hm] Hk. unfold arr_R. apply wp_bind. eapply wp_mono; [apply hop_p; assumption|].
  intros [c r] [Hc' H]. cbn beta iota. pose proof min_lt_max as Hmm. pose proof (el_fin c Hc') as Hfc.
  assert (HI : I (set_sub s c)) by (split; assumption).
  destruct H as [[-> ->]|[H0 [(E & H1 & H2)|[-> H1]]]].
  - replace (minf =? maxf) with false by reflexivity. rewrite Z.eqb_refl.
    cbn. split; [exact HI|]. exists minr. split; [left; auto|reflexivity].
  - replace (r =? maxf) with false by fin. replace (r =? minf) with false by fin.
    fetch. apply wp_ok. split; [exact HI|]. exists (el c). split; [|apply at_q]. right. split; [exact H0|]. left.
    rewrite <- E. split; [apply el_in, Hc'|]. split; assumption.
  - rewrite Z.eqb_refl. cbn. split; [exact HI|].
    exists maxr. split; [|reflexivity]. right. split; [exact H0|]. right. auto.
Qed.

Lemma array_ok : hop_ok (array_hopper a) (set_of l) I.
Proof.
  constructor; cbn [h_tau h_rho h_uat h_ohr h_L h_R array_hopper].
  - apply gcdup_GC, G.
  - apply memo_tau_ok, arr_tau_ok.
  - apply memo_rho_ok, arr_rho_ok.
  - apply memo_uat_ok, arr_uat_ok.
  - apply memo_ohr_ok, arr_ohr_ok.
  - exact arr_L_ok.
  - exact arr_R_ok.
Qed.
Lemma array_init_ok : I (array_init a).
Proof. apply fresh_inv. unfold cur_ok, n. lia. Qed.
End Arr.
