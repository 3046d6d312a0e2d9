(** TfHopper answers the items that a count is attached to. *)
From Verif Require Import Base HopperModel GclSpec HopperProofs UnaryProofs StatsModel.

(** The items of [SC] that a count of [ST] is attached to, with the count. *)
Definition counted (tofval : Z -> Z) (ST SC : iv -> Prop) (z : iv) : Prop :=
  exists x y, ST x /\ SC y /\ ip x = ip y /\ z = Iv (ip y) (iq y) (tofval (ivl x)).

Section TfOk.
Context (T C : hcls) (tofval : Z -> Z) (ST SC : iv -> Prop).
Context (IT : St T -> Prop) (IC : St C -> Prop).
Context (Z0 : tofval 0 = 0).
Context (HT : hop_ok T ST IT) (HC : hop_ok C SC IC).
Context (HP : forall x, ST x -> ip x = iq x /\ exists y, SC y /\ ip y = ip x).
Notation S := (counted tofval ST SC).

Lemma counted_GC : GC S.
Proof.
  split.
  - intros z (x & y & Hx & Hy & E & ->). apply (hop_GC HC) in Hy. exact Hy.
  - intros z z' (x & y & Hx & Hy & E & ->) (x' & y' & Hx' & Hy' & E' & ->) N.
    assert (y = y') as <- by (apply (hop_GC HC); [exact Hy|exact Hy'|exact N]).
    assert (x = x') as <- by (apply (GC_eq_ip ST); [exact (hop_GC HT)|exact Hx|exact Hx'|lia]).
    reflexivity.
Qed.
Notation I := (Iof (fun s : St T * St C => IT (fst s) /\ IC (snd s)) S).

Lemma left_ok (f : St T -> Z -> res (St T * iv)) spec :
  (forall s k, IT s -> minf <= k <= maxf -> wp (f s k) (fun '(s', r) => IT s' /\ spec k r)) ->
  forall s k, I s -> minf <= k <= maxf -> wp (on_left f s k) (fun '(s', r) => I s' /\ spec k r).
Proof.
  intros H s k [[P1 P2] M] Hk. unfold on_left. destruct (sub s) as [t c] eqn:E. cbn [fst snd] in P1, P2.
  step H as [t' r]; [exact P1|exact Hk|intros [Ht Hr]]. apply wp_ok. split; [|exact Hr]. split; [split; assumption|exact M].
Qed.
Lemma right_ok (f : St C -> Z -> res (St C * iv)) spec :
  (forall s k, IC s -> minf <= k <= maxf -> wp (f s k) (fun '(s', r) => IC s' /\ spec k r)) ->
  forall s k, I s -> minf <= k <= maxf -> wp (on_right f s k) (fun '(s', r) => I s' /\ spec k r).
Proof.
  intros H s k [[P1 P2] M] Hk. unfold on_right. destruct (sub s) as [t c] eqn:E. cbn [fst snd] in P1, P2.
  step H as [t' r]; [exact P2|exact Hk|intros [Ht Hr]]. apply wp_ok. split; [|exact Hr]. split; [split; assumption|exact M].
Qed.

Lemma fin_T x : ST x -> minf < ip x < maxf.
Proof. intros H. apply (hop_GC HT) in H. fin. Qed.
Lemma fin_C x : SC x -> minf < ip x < maxf /\ ip x <= iq x < maxf.
Proof. intros H. apply (hop_GC HC) in H. fin. Qed.
Ltac facts := repeat match goal with
  | H : ST ?x |- _ => lazymatch goal with _ : minf < ip x < maxf |- _ => fail | _ => pose proof (fin_T x H) end
  | H : SC ?x |- _ => lazymatch goal with _ : minf < ip x < maxf /\ _ |- _ => fail | _ => pose proof (fin_C x H) end end.

(** tau and ohr on the items at the place of a count give its item. *)
Lemma tau_at x y : SC y -> tau_spec SC (ip y) x -> x = y.
Proof.
  intros Hy H. facts. inf. destruct H as [[E _]|[_ [(Hx & Hk & Hm)|[_ Hn]]]]; [lia| |specialize (Hn y Hy); lia].
  specialize (Hm y Hy ltac:(lia)). apply (GC_eq_ip SC); [exact (hop_GC HC)|exact Hx|exact Hy|lia].
Qed.
Lemma ohr_at x y : SC y -> ohr_spec SC (ip y) x -> x = y.
Proof.
  intros Hy H. facts. inf. destruct H as [[E _]|[_ [(Hx & Hk & Hm)|[_ Hn]]]]; [lia| |specialize (Hn y Hy); lia].
  specialize (Hm y Hy ltac:(lia)). apply (GC_eq_ip SC); [exact (hop_GC HC)|exact Hx|exact Hy|lia].
Qed.
Lemma tau_end x : tau_spec SC maxf x -> x = maxr.
Proof.
  intros H. inf. destruct H as [[E _]|[_ [(Hx & Hk & Hm)|[E _]]]]; [lia| |exact E]. facts; lia.
Qed.
Lemma tau_begin x : tau_spec SC minf x -> x = minr.
Proof. intros H. inf. destruct H as [[_ E]|[N _]]; [exact E|lia]. Qed.
Lemma ohr_begin x : ohr_spec SC minf x -> x = minr.
Proof.
  intros H. inf. destruct H as [[E _]|[_ [(Hx & Hk & Hm)|[E _]]]]; [lia| |exact E]. facts; lia.
Qed.
Lemma ohr_end x : ohr_spec SC maxf x -> x = maxr.
Proof. intros H. inf. destruct H as [[_ E]|[N _]]; [exact E|lia]. Qed.

Lemma counted_of x : ST x -> exists y, SC y /\ ip y = ip x /\ S (Iv (ip y) (iq y) (tofval (ivl x))).
Proof.
  intros H. destruct (HP x H) as (_ & y & Hy & E). exists y. split; [exact Hy|]. split; [exact E|].
  exists x, y. auto.
Qed.
Lemma shape x : ip x = maxf -> ivl x = 0 -> x = maxr -> Iv maxf maxf (tofval 0) = maxr.
Proof. rewrite Z0. reflexivity. Qed.

Lemma tf_tau_ok : meth_ok (fun s => IT (fst s) /\ IC (snd s)) S tau_spec (tf_tau_ T C tofval).
Proof.
  intros s k Hs Hk. unfold tf_tau_. inf.
  step (left_ok (h_tau T) (tau_spec ST)) as [s1 x]; [exact (hop_tau HT)|exact Hs|exact Hk|intros [H1 Hx]].
  assert (minf <= ip x <= maxf) as Bx.
  { destruct Hx as [[_ ->]|[_ [(Hx & _)|[-> _]]]]; cbn [ip]; try (facts; lia). }
  step (right_ok (h_tau C) (tau_spec SC)) as [s2 y]; [exact (hop_tau HC)|exact H1|exact Bx|intros [H2 Hy]].
  apply wp_ok. split; [exact H2|]. destruct Hx as [[E ->]|[N [(Hx & Kx & Mx)|[-> Mx]]]].
  - cbn [ip] in Hy. apply tau_begin in Hy. subst y. cbn [ivl ip iq minr]. rewrite Z0. left. auto.
  - destruct (counted_of x Hx) as (c & Hc & Ec & Sc). rewrite <- Ec in Hy. apply (tau_at y c Hc) in Hy. subst y.
    right. split; [exact N|]. left. split; [exact Sc|]. cbn [ip]. split; [lia|].
    intros z (x' & y' & Hx' & Hy' & E' & ->) Kz. cbn [ip] in *. specialize (Mx x' Hx' ltac:(lia)). lia.
  - cbn [ip] in Hy. apply tau_end in Hy. subst y. cbn [ivl ip iq maxr]. rewrite Z0. right. split; [exact N|]. right.
    split; [reflexivity|]. intros z (x' & y' & Hx' & Hy' & E' & ->). cbn [ip]. specialize (Mx x' Hx'). lia.
Qed.

Lemma tf_ohr_ok : meth_ok (fun s => IT (fst s) /\ IC (snd s)) S ohr_spec (tf_ohr_ T C tofval).
Proof.
  intros s k Hs Hk. unfold tf_ohr_. inf.
  step (left_ok (h_ohr T) (ohr_spec ST)) as [s1 x]; [exact (hop_ohr HT)|exact Hs|exact Hk|intros [H1 Hx]].
  assert (minf <= ip x <= maxf) as Bx.
  { destruct Hx as [[_ ->]|[_ [(Hx & _)|[-> _]]]]; cbn [ip]; try (facts; lia). }
  step (right_ok (h_ohr C) (ohr_spec SC)) as [s2 y]; [exact (hop_ohr HC)|exact H1|exact Bx|intros [H2 Hy]].
  apply wp_ok. split; [exact H2|]. destruct Hx as [[E ->]|[N [(Hx & Kx & Mx)|[-> Mx]]]].
  - cbn [ip] in Hy. apply ohr_end in Hy. subst y. cbn [ivl ip iq maxr]. rewrite Z0. left. auto.
  - destruct (counted_of x Hx) as (c & Hc & Ec & Sc). rewrite <- Ec in Hy. apply (ohr_at y c Hc) in Hy. subst y.
    right. split; [exact N|]. left. split; [exact Sc|]. cbn [ip]. split; [lia|].
    intros z (x' & y' & Hx' & Hy' & E' & ->) Kz. cbn [ip] in *. specialize (Mx x' Hx' ltac:(lia)). lia.
  - cbn [ip] in Hy. apply ohr_begin in Hy. subst y. cbn [ivl ip iq minr]. rewrite Z0. right. split; [exact N|]. right.
    split; [reflexivity|]. intros z (x' & y' & Hx' & Hy' & E' & ->). cbn [ip]. specialize (Mx x' Hx'). lia.
Qed.

Lemma mono_pq a b : SC a -> SC b -> ip a <= ip b -> iq a <= iq b.
Proof.
  intros Ha Hb E. destruct (Z.eq_dec (ip a) (ip b)) as [Q|Q].
  - rewrite (GC_eq_ip SC a b (hop_GC HC) Ha Hb Q). lia.
  - pose proof (GC_mono_pq SC a b (hop_GC HC) Ha Hb). lia.
Qed.
Lemma mono_qp a b : SC a -> SC b -> iq a <= iq b -> ip a <= ip b.
Proof.
  intros Ha Hb E. destruct (Z.eq_dec (iq a) (iq b)) as [Q|Q].
  - rewrite (GC_eq_iq SC a b (hop_GC HC) Ha Hb Q). lia.
  - pose proof (GC_mono_qp SC a b (hop_GC HC) Ha Hb). lia.
Qed.

Lemma tf_rho_ok : meth_ok (fun s => IT (fst s) /\ IC (snd s)) S rho_spec (tf_rho_ T C tofval).
Proof.
  intros s k Hs Hk. unfold tf_rho_. inf.
  step (right_ok (h_rho C) (rho_spec SC)) as [s1 c]; [exact (hop_rho HC)|exact Hs|exact Hk|intros [H1 Hc]].
  assert (minf <= ip c <= maxf) as Bc.
  { destruct Hc as [[_ ->]|[_ [(Hc & _)|[-> _]]]]; cbn [ip]; try (facts; lia). }
  step (left_ok (h_tau T) (tau_spec ST)) as [s2 x]; [exact (hop_tau HT)|exact H1|exact Bc|intros [H2 Hx]].
  assert (minf <= ip x <= maxf) as Bx.
  { destruct Hx as [[_ ->]|[_ [(Hx & _)|[-> _]]]]; cbn [ip]; try (facts; lia). }
  step (right_ok (h_tau C) (tau_spec SC)) as [s3 y]; [exact (hop_tau HC)|exact H2|exact Bx|intros [H3 Hy]].
  apply wp_ok. split; [exact H3|]. destruct Hc as [[E ->]|[N Hc]].
  - cbn [ip] in Hx. destruct Hx as [[_ ->]|[Q _]]; [|lia]. cbn [ip] in Hy. apply tau_begin in Hy. subst y.
    cbn [ivl ip iq minr]. rewrite Z0. left. auto.
  - right. split; [exact N|].
    assert (forall z, S z -> k <= iq z <-> ip c <= ip z) as K.
    { intros z (x' & y' & Hx' & Hy' & E' & ->). cbn [ip iq]. destruct Hc as [(Hc & Kc & Mc)|[-> Mc]].
      - split; intros L.
        + apply mono_qp; [exact Hc|exact Hy'|]. apply Mc; assumption.
        + apply Z.le_trans with (iq c); [exact Kc|]. apply mono_pq; assumption.
      - specialize (Mc y' Hy'). cbn [ip]. facts. lia. }
    destruct Hx as [[E ->]|[M [(Hx & Kx & Mx)|[-> Mx]]]].
    + exfalso. destruct Hc as [(Hc & _)|[-> _]]; [facts; lia|cbn [ip] in E; lia].
    + destruct (counted_of x Hx) as (d & Hd & Ed & Sd). rewrite <- Ed in Hy. apply (tau_at y d Hd) in Hy. subst y.
      left. split; [exact Sd|]. split; [apply K; [exact Sd|]; cbn [ip]; lia|].
      intros z Sz Kz. apply K in Kz; [|exact Sz]. destruct Sz as (x' & y' & Hx' & Hy' & E' & ->). cbn [ip iq] in *.
      specialize (Mx x' Hx' ltac:(lia)). apply mono_pq; [exact Hd|exact Hy'|lia].
    + cbn [ip] in Hy. apply tau_end in Hy. subst y. cbn [ivl ip iq maxr]. rewrite Z0. right. split; [reflexivity|].
      intros z Sz. destruct (Z_lt_le_dec (iq z) k) as [L|L]; [exact L|]. exfalso. apply K in L; [|exact Sz].
      destruct Sz as (x' & y' & Hx' & Hy' & E' & ->). cbn [ip] in L. specialize (Mx x' Hx'). lia.
Qed.

Lemma tf_uat_ok : meth_ok (fun s => IT (fst s) /\ IC (snd s)) S uat_spec (tf_uat_ T C tofval).
Proof.
  intros s k Hs Hk. unfold tf_uat_. inf.
  step (right_ok (h_uat C) (uat_spec SC)) as [s1 c]; [exact (hop_uat HC)|exact Hs|exact Hk|intros [H1 Hc]].
  assert (minf <= ip c <= maxf) as Bc.
  { destruct Hc as [[_ ->]|[_ [(Hc & _)|[-> _]]]]; cbn [ip]; try (facts; lia). }
  step (left_ok (h_ohr T) (ohr_spec ST)) as [s2 x]; [exact (hop_ohr HT)|exact H1|exact Bc|intros [H2 Hx]].
  assert (minf <= ip x <= maxf) as Bx.
  { destruct Hx as [[_ ->]|[_ [(Hx & _)|[-> _]]]]; cbn [ip]; try (facts; lia). }
  step (right_ok (h_ohr C) (ohr_spec SC)) as [s3 y]; [exact (hop_ohr HC)|exact H2|exact Bx|intros [H3 Hy]].
  apply wp_ok. split; [exact H3|]. destruct Hc as [[E ->]|[N Hc]].
  - cbn [ip] in Hx. destruct Hx as [[_ ->]|[Q _]]; [|lia]. cbn [ip] in Hy. apply ohr_end in Hy. subst y.
    cbn [ivl ip iq maxr]. rewrite Z0. left. auto.
  - right. split; [exact N|].
    assert (forall z, S z -> iq z <= k <-> ip z <= ip c) as K.
    { intros z (x' & y' & Hx' & Hy' & E' & ->). cbn [ip iq]. destruct Hc as [(Hc & Kc & Mc)|[-> Mc]].
      - split; intros L.
        + apply mono_qp; [exact Hy'|exact Hc|]. apply Mc; assumption.
        + apply Z.le_trans with (iq c); [|exact Kc]. apply mono_pq; assumption.
      - specialize (Mc y' Hy'). cbn [ip]. facts. lia. }
    destruct Hx as [[E ->]|[M [(Hx & Kx & Mx)|[-> Mx]]]].
    + exfalso. destruct Hc as [(Hc & _)|[-> _]]; [facts; lia|cbn [ip] in E; lia].
    + destruct (counted_of x Hx) as (d & Hd & Ed & Sd). rewrite <- Ed in Hy. apply (ohr_at y d Hd) in Hy. subst y.
      left. split; [exact Sd|]. split; [apply K; [exact Sd|]; cbn [ip]; lia|].
      intros z Sz Kz. apply K in Kz; [|exact Sz]. destruct Sz as (x' & y' & Hx' & Hy' & E' & ->). cbn [ip iq] in *.
      specialize (Mx x' Hx' ltac:(lia)). apply mono_pq; [exact Hy'|exact Hd|lia].
    + cbn [ip] in Hy. apply ohr_begin in Hy. subst y. cbn [ivl ip iq minr]. rewrite Z0. right. split; [reflexivity|].
      intros z Sz. destruct (Z_lt_le_dec k (iq z)) as [L|L]; [exact L|]. exfalso. apply K in L; [|exact Sz].
      destruct Sz as (x' & y' & Hx' & Hy' & E' & ->). cbn [ip] in L. specialize (Mx x' Hx'). lia.
Qed.

Lemma tf_hop_ok : hop_ok (tf_hopper T C tofval) S I.
Proof.
  constructor; cbn [h_tau h_rho h_uat h_ohr h_L h_R tf_hopper].
  - exact counted_GC.
  - apply memo_tau_ok, tf_tau_ok.
  - apply memo_rho_ok, tf_rho_ok.
  - apply memo_uat_ok, tf_uat_ok.
  - apply memo_ohr_ok, tf_ohr_ok.
  - apply base_L_ok, memo_uat_ok, tf_uat_ok.
  - apply base_R_ok, memo_tau_ok, tf_tau_ok.
Qed.
End TfOk.

Lemma tf_answers T C tofval ST SC t c : tofval 0 = 0 -> answers T t ST -> answers C c SC ->
  (forall x, ST x -> ip x = iq x /\ exists y, SC y /\ ip y = ip x) ->
  answers (tf_hopper T C tofval) (tf_init T C tofval t c) (counted tofval ST SC).
Proof.
  intros Z0 HT HC HP. apply answers_iff in HT, HC. destruct HT as (IT & HT & Ht). destruct HC as (IC & HC & Hc).
  apply answers_iff. eexists. split; [exact (tf_hop_ok T C tofval ST SC IT IC Z0 HT HC HP)|].
  apply fresh_inv. split; assumption.
Qed.
