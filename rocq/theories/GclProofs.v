(** Correctness of the operator classes of gcl/gcl.cc. *)
From Verif Require Import Base HopperModel GclSpec HopperProofs.

(* ------------------------------------------------------------------ *)
(** * Consequences of the navigation specifications *)
Lemma L_cases S k l : GC S -> L_spec S k l ->
  (k = maxf /\ l = maxf) \/
  (k <> maxf /\ ((l = minf /\ forall x, S x -> k < iq x) \/
                 (exists r, S r /\ ip r = l /\ iq r <= k /\
                            forall x, S x -> iq x <= k -> ip x <= l))).
Proof.
  intros G (r & [[Hk Hr]|[Hk [(Hr & Hkr & Hm)|[Hr Hm]]]] & ->).
  - left. subst r. auto.
  - right. split; [exact Hk|]. right. exists r. repeat split; auto.
    intros x Hx Hxk. apply (GC_le_pq S); auto.
  - right. split; [exact Hk|]. left. subst r. auto.
Qed.
Lemma R_cases S k l : GC S -> R_spec S k l ->
  (k = minf /\ l = minf) \/
  (k <> minf /\ ((l = maxf /\ forall x, S x -> ip x < k) \/
                 (exists r, S r /\ iq r = l /\ k <= ip r /\
                            forall x, S x -> k <= ip x -> l <= iq x))).
Proof.
  intros G (r & [[Hk Hr]|[Hk [(Hr & Hkr & Hm)|[Hr Hm]]]] & ->).
  - left. subst r. auto.
  - right. split; [exact Hk|]. right. exists r. repeat split; auto.
    intros x Hx Hxk. apply (GC_le_pq S); auto.
  - right. split; [exact Hk|]. left. subst r. auto.
Qed.

Lemma tau_range S k r : GC S -> tau_spec S k r -> minf <= ip r <= maxf /\ minf <= iq r <= maxf.
Proof.
  intros G [[Hk Hr]|[Hk [(Hr & Hkr & Hm)|[Hr Hm]]]].
  - subst r. fin.
  - pose proof (GC_fin S r G Hr). fin.
  - subst r. fin.
Qed.
Lemma rho_range S k r : GC S -> rho_spec S k r -> minf <= ip r <= maxf /\ minf <= iq r <= maxf.
Proof.
  intros G [[Hk Hr]|[Hk [(Hr & Hkr & Hm)|[Hr Hm]]]].
  - subst r. fin.
  - pose proof (GC_fin S r G Hr). fin.
  - subst r. fin.
Qed.
Lemma uat_range S k r : GC S -> uat_spec S k r -> minf <= ip r <= maxf /\ minf <= iq r <= maxf.
Proof.
  intros G [[Hk Hr]|[Hk [(Hr & Hkr & Hm)|[Hr Hm]]]].
  - subst r. fin.
  - pose proof (GC_fin S r G Hr). fin.
  - subst r. fin.
Qed.
Lemma ohr_range S k r : GC S -> ohr_spec S k r -> minf <= ip r <= maxf /\ minf <= iq r <= maxf.
Proof.
  intros G [[Hk Hr]|[Hk [(Hr & Hkr & Hm)|[Hr Hm]]]].
  - subst r. fin.
  - pose proof (GC_fin S r G Hr). fin.
  - subst r. fin.
Qed.
Lemma L_range S k l : GC S -> L_spec S k l -> minf <= l <= maxf.
Proof. intros G (r & H & ->). apply (uat_range S k r); auto. Qed.
Lemma R_range S k l : GC S -> R_spec S k l -> minf <= l <= maxf.
Proof. intros G (r & H & ->). apply (tau_range S k r); auto. Qed.

(** rho from L and tau; ohr from R and uat. *)
Lemma rho_from_L T k l r : GC T -> k <> minf -> minf <= k <= maxf ->
  L_spec T (k - 1) l -> tau_spec T (l + 1) r -> rho_spec T k r.
Proof.
  intros G Hk0 Hkr HL HT. right. split; [exact Hk0|].
  apply L_cases in HL; [|exact G]. inf.
  destruct HL as [[E _]|[Hk1 [[El Hn]|(r0 & Hr0 & El & Hq & Hm)]]]; [lia| |].
  - destruct HT as [[E _]|[_ [(Hr & Hlr & Hmr)|[Hr Hmr]]]]; [lia| |].
    + left. split; [exact Hr|]. split; [specialize (Hn _ Hr); lia|].
      intros x Hx Hxk. apply (GC_le_pq T); auto. apply Hmr; auto.
      pose proof (GC_fin T x G Hx). fin.
    + right. split; [exact Hr|]. intros x Hx. specialize (Hmr x Hx).
      pose proof (GC_fin T x G Hx). fin.
  - destruct HT as [[E _]|[_ [(Hr & Hlr & Hmr)|[Hr Hmr]]]].
    + pose proof (GC_fin T r0 G Hr0). fin.
    + left. split; [exact Hr|]. split.
      * destruct (Z_le_gt_dec k (iq r)); [assumption|]. specialize (Hm _ Hr). lia.
      * intros x Hx Hxk. apply (GC_le_pq T); auto. apply Hmr; auto.
        assert (iq r0 < iq x) by lia. pose proof (GC_mono_qp T r0 x G Hr0 Hx). lia.
    + right. split; [exact Hr|]. intros x Hx. specialize (Hmr x Hx).
      destruct (Z_lt_ge_dec (iq x) k); [assumption|].
      assert (iq r0 < iq x) by lia. pose proof (GC_mono_qp T r0 x G Hr0 Hx). lia.
Qed.
Lemma ohr_from_R T k l r : GC T -> k <> maxf -> minf <= k <= maxf ->
  R_spec T (k + 1) l -> uat_spec T (l - 1) r -> ohr_spec T k r.
Proof.
  intros G Hk0 Hkr HL HT. right. split; [exact Hk0|].
  apply R_cases in HL; [|exact G]. inf.
  destruct HL as [[E _]|[Hk1 [[El Hn]|(r0 & Hr0 & El & Hq & Hm)]]]; [lia| |].
  - destruct HT as [[E _]|[_ [(Hr & Hlr & Hmr)|[Hr Hmr]]]]; [lia| |].
    + left. split; [exact Hr|]. split; [specialize (Hn _ Hr); lia|].
      intros x Hx Hxk. apply (GC_le_pq T); auto. apply Hmr; auto.
      pose proof (GC_fin T x G Hx). fin.
    + right. split; [exact Hr|]. intros x Hx. specialize (Hmr x Hx).
      pose proof (GC_fin T x G Hx). fin.
  - destruct HT as [[E _]|[_ [(Hr & Hlr & Hmr)|[Hr Hmr]]]].
    + pose proof (GC_fin T r0 G Hr0). fin.
    + left. split; [exact Hr|]. split.
      * destruct (Z_le_gt_dec (ip r) k); [assumption|]. specialize (Hm _ Hr). lia.
      * intros x Hx Hxk. apply (GC_le_pq T); auto. apply Hmr; auto.
        assert (ip x < ip r0) by lia. pose proof (GC_mono_pq T x r0 G Hx Hr0). lia.
    + right. split; [exact Hr|]. intros x Hx. specialize (Hmr x Hx).
      destruct (Z_lt_ge_dec k (ip x)); [assumption|].
      assert (ip x < ip r0) by lia. pose proof (GC_mono_pq T x r0 G Hx Hr0). lia.
Qed.

(** rho of a sub-list T of S through tau of T, and the three similar detours. *)
Section Detours.
Variables (S T : iv -> Prop).
Hypothesis GS : GC S.
Hypothesis TS : forall x, T x -> S x.

Lemma rho_via_tau k x r : rho_spec S k x -> tau_spec T (ip x) r -> rho_spec T k r.
Proof.
  intros Hx Hr. inf.
  destruct Hx as [[Hk ->]|[Hk [(Hx & Hkx & Hm)|[-> Hm]]]]; cbn [ip iq] in Hr.
  - left. split; [exact Hk|]. destruct Hr as [[_ ->]|[Hn _]]; congruence.
  - right. split; [exact Hk|]. pose proof (GC_fin S x GS Hx) as Fx.
    destruct Hr as [[E _]|[_ [(Hr & Hlr & Hmr)|[Er Hmr]]]]; [fin| |].
    + left. split; [exact Hr|]. pose proof (TS _ Hr) as HSr. split.
      * assert (iq x <= iq r) by (apply (GC_le_pq S); auto). lia.
      * intros z Hz Hkz. pose proof (TS _ Hz) as HSz. apply (GC_le_pq S); auto.
        apply Hmr; auto. apply (GC_le_pq S); auto.
    + right. split; [exact Er|]. intros z Hz. pose proof (TS _ Hz) as HSz.
      destruct (Z_lt_ge_dec (iq z) k); [assumption|].
      assert (ip x <= ip z) by (apply (GC_le_pq S); auto; apply Hm; auto; lia).
      specialize (Hmr z Hz). lia.
  - right. split; [exact Hk|]. destruct Hr as [[E _]|[_ [(Hr & Hlr & Hmr)|[Er Hmr]]]]; [lia| |].
    + pose proof (GC_fin S r GS (TS _ Hr)). fin.
    + right. split; [exact Er|]. intros z Hz. apply Hm. auto.
Qed.
Lemma tau_via_rho k x r : tau_spec S k x -> rho_spec T (iq x) r -> tau_spec T k r.
Proof.
  intros Hx Hr. inf.
  destruct Hx as [[Hk ->]|[Hk [(Hx & Hkx & Hm)|[-> Hm]]]]; cbn [ip iq] in Hr.
  - left. split; [exact Hk|]. destruct Hr as [[_ ->]|[Hn _]]; congruence.
  - right. split; [exact Hk|]. pose proof (GC_fin S x GS Hx) as Fx.
    destruct Hr as [[E _]|[_ [(Hr & Hlr & Hmr)|[Er Hmr]]]]; [fin| |].
    + left. split; [exact Hr|]. pose proof (TS _ Hr) as HSr. split.
      * assert (ip x <= ip r) by (apply (GC_le_pq S); auto). lia.
      * intros z Hz Hkz. pose proof (TS _ Hz) as HSz. apply (GC_le_pq S); auto.
        apply Hmr; auto. apply (GC_le_pq S); auto.
    + right. split; [exact Er|]. intros z Hz. pose proof (TS _ Hz) as HSz.
      destruct (Z_lt_ge_dec (ip z) k); [assumption|].
      assert (iq x <= iq z) by (apply (GC_le_pq S); auto; apply Hm; auto; lia).
      specialize (Hmr z Hz). lia.
  - right. split; [exact Hk|]. destruct Hr as [[E _]|[_ [(Hr & Hlr & Hmr)|[Er Hmr]]]]; [lia| |].
    + pose proof (GC_fin S r GS (TS _ Hr)). fin.
    + right. split; [exact Er|]. intros z Hz. apply Hm. auto.
Qed.
Lemma ohr_via_uat k x r : ohr_spec S k x -> uat_spec T (iq x) r -> ohr_spec T k r.
Proof.
  intros Hx Hr. inf.
  destruct Hx as [[Hk ->]|[Hk [(Hx & Hkx & Hm)|[-> Hm]]]]; cbn [ip iq] in Hr.
  - left. split; [exact Hk|]. destruct Hr as [[_ ->]|[Hn _]]; congruence.
  - right. split; [exact Hk|]. pose proof (GC_fin S x GS Hx) as Fx.
    destruct Hr as [[E _]|[_ [(Hr & Hlr & Hmr)|[Er Hmr]]]]; [fin| |].
    + left. split; [exact Hr|]. pose proof (TS _ Hr) as HSr. split.
      * assert (ip r <= ip x) by (apply (GC_le_pq S); auto). lia.
      * intros z Hz Hkz. pose proof (TS _ Hz) as HSz. apply (GC_le_pq S); auto.
        apply Hmr; auto. apply (GC_le_pq S); auto.
    + right. split; [exact Er|]. intros z Hz. pose proof (TS _ Hz) as HSz.
      destruct (Z_lt_ge_dec k (ip z)); [assumption|].
      assert (iq z <= iq x) by (apply (GC_le_pq S); auto; apply Hm; auto; lia).
      specialize (Hmr z Hz). lia.
  - right. split; [exact Hk|]. destruct Hr as [[E _]|[_ [(Hr & Hlr & Hmr)|[Er Hmr]]]]; [lia| |].
    + pose proof (GC_fin S r GS (TS _ Hr)). fin.
    + right. split; [exact Er|]. intros z Hz. apply Hm. auto.
Qed.
Lemma uat_via_ohr k x r : uat_spec S k x -> ohr_spec T (ip x) r -> uat_spec T k r.
Proof.
  intros Hx Hr. inf.
  destruct Hx as [[Hk ->]|[Hk [(Hx & Hkx & Hm)|[-> Hm]]]]; cbn [ip iq] in Hr.
  - left. split; [exact Hk|]. destruct Hr as [[_ ->]|[Hn _]]; congruence.
  - right. split; [exact Hk|]. pose proof (GC_fin S x GS Hx) as Fx.
    destruct Hr as [[E _]|[_ [(Hr & Hlr & Hmr)|[Er Hmr]]]]; [fin| |].
    + left. split; [exact Hr|]. pose proof (TS _ Hr) as HSr. split.
      * assert (iq r <= iq x) by (apply (GC_le_pq S); auto). lia.
      * intros z Hz Hkz. pose proof (TS _ Hz) as HSz. apply (GC_le_pq S); auto.
        apply Hmr; auto. apply (GC_le_pq S); auto.
    + right. split; [exact Er|]. intros z Hz. pose proof (TS _ Hz) as HSz.
      destruct (Z_lt_ge_dec k (iq z)); [assumption|].
      assert (ip z <= ip x) by (apply (GC_le_pq S); auto; apply Hm; auto; lia).
      specialize (Hmr z Hz). lia.
  - right. split; [exact Hk|]. destruct Hr as [[E _]|[_ [(Hr & Hlr & Hmr)|[Er Hmr]]]]; [lia| |].
    + pose proof (GC_fin S r GS (TS _ Hr)). fin.
    + right. split; [exact Er|]. intros z Hz. apply Hm. auto.
Qed.
End Detours.

Lemma GC_sub (S T : iv -> Prop) : GC S -> (forall x, T x -> S x) -> GC T.
Proof. intros [F G] H. split; intros; auto. Qed.

(* ------------------------------------------------------------------ *)
(** * Combinational operators *)
Lemma GC_innermost P : GC (innermost P).
Proof.
  split; [intros x H; apply H|].
  intros x y (Fx & Vx & Px & Mx) (Fy & Vy & Py & My) N.
  pose proof (Mx y Fy Py N) as N'.
  destruct x as [p q v], y as [p' q' v']; unfold nests in *; cbn in *. f_equal; lia.
Qed.

Definition lspec (P : iv -> Prop) (k l : Z) : Prop :=
  (k = maxf /\ l = maxf) \/
  (k <> maxf /\ ((l = minf /\ forall x, finite x -> P x -> k < iq x) \/
                 (minf < l <= k /\ P (Iv l k 0) /\
                  forall x, finite x -> P x -> iq x <= k -> ip x <= l))).
Definition rspec (P : iv -> Prop) (k r : Z) : Prop :=
  (k = minf /\ r = minf) \/
  (k <> minf /\ ((r = maxf /\ forall x, finite x -> P x -> ip x < k) \/
                 (k <= r < maxf /\ P (Iv k r 0) /\
                  forall x, finite x -> P x -> k <= ip x -> r <= iq x))).

Lemma comb_tau_spec P k q p : minf <= k <= maxf ->
  rspec P k q -> lspec P q p -> tau_spec (innermost P) k (Iv p q 0).
Proof.
  intros Hk HR HL. inf.
  destruct HR as [[-> ->]|[Hk0 [[-> Hn]|(Hq & HP & Hm)]]].
  - destruct HL as [[E _]|[_ [[-> _]|[? _]]]]; [lia| |lia]. left; auto.
  - destruct HL as [[_ ->]|[E _]]; [|lia]. right. split; [exact Hk0|]. right.
    split; [reflexivity|]. intros x (F & _ & Px & _). auto.
  - destruct HL as [[E _]|[_ [[-> Hn]|(Hp & HPp & Hmp)]]]; [lia| |].
    + specialize (Hn (Iv k q 0)). cbn in Hn. unfold finite in Hn; cbn in Hn.
      specialize (Hn ltac:(lia) HP). lia.
    + right. split; [exact Hk0|]. left. cbn [ip iq].
      assert (Hkp : k <= p).
      { apply (Hmp (Iv k q 0)); cbn; auto; try lia. repeat split; cbn; lia. }
      repeat split; cbn [ip iq ivl]; try lia; auto.
      * apply Hmp; auto. destruct H2. cbn in *. lia.
      * apply Hm; auto. destruct H2. cbn in *. lia.
      * intros x (F & _ & Px & Mx) Hkx. pose proof (Hm x F Px Hkx) as Hqx.
        destruct (Z_le_gt_dec p (ip x)); [assumption|].
        specialize (Mx (Iv p q 0)). unfold finite, nests in Mx; cbn in Mx.
        specialize (Mx ltac:(lia) HPp ltac:(lia)). lia.
Qed.

Lemma comb_uat_spec P k q p : minf <= k <= maxf ->
  lspec P k p -> rspec P p q -> uat_spec (innermost P) k (Iv p q 0).
Proof.
  intros Hk HL HR. inf.
  destruct HL as [[-> ->]|[Hk0 [[-> Hn]|(Hp & HP & Hm)]]].
  - destruct HR as [[E _]|[_ [[-> _]|[? _]]]]; [lia| |lia]. left; auto.
  - destruct HR as [[_ ->]|[E _]]; [|lia]. right. split; [exact Hk0|]. right.
    split; [reflexivity|]. intros x (F & _ & Px & _). auto.
  - destruct HR as [[E _]|[_ [[-> Hn]|(Hq & HPp & Hmp)]]]; [lia| |].
    + specialize (Hn (Iv p k 0)). cbn in Hn. unfold finite in Hn; cbn in Hn.
      specialize (Hn ltac:(lia) HP). lia.
    + right. split; [exact Hk0|]. left. cbn [ip iq].
      assert (Hkp : q <= k).
      { apply (Hmp (Iv p k 0)); cbn; auto; try lia. repeat split; cbn; lia. }
      repeat split; cbn [ip iq ivl]; try lia; auto.
      * apply Hm; auto. destruct H2. cbn in *. lia.
      * apply Hmp; auto. destruct H2. cbn in *. lia.
      * intros x (F & _ & Px & Mx) Hkx. pose proof (Hm x F Px Hkx) as Hqx.
        destruct (Z_le_gt_dec (iq x) q); [assumption|].
        specialize (Mx (Iv p q 0)). unfold finite, nests in Mx; cbn in Mx.
        specialize (Mx ltac:(lia) HPp ltac:(lia)). lia.
Qed.

Lemma lspec_range P k l : lspec P k l -> minf <= k <= maxf -> minf <= l <= maxf.
Proof. intros [[? ?]|[? [[? ?]|[? ?]]]] Hk; inf; lia. Qed.
Lemma rspec_range P k l : rspec P k l -> minf <= k <= maxf -> minf <= l <= maxf.
Proof. intros [[? ?]|[? [[? ?]|[? ?]]]] Hk; inf; lia. Qed.

Section Comb.
Context {X : Type} (Psub : X -> Prop) (P : iv -> Prop).
Variables L R : mst X -> Z -> res (mst X * Z).
Notation T := (innermost P).
Notation I := (Iof Psub T).
Hypothesis HL : forall s k, I s -> minf <= k <= maxf ->
  wp (L s k) (fun '(s', l) => I s' /\ lspec P k l).
Hypothesis HR : forall s k, I s -> minf <= k <= maxf ->
  wp (R s k) (fun '(s', l) => I s' /\ rspec P k l).

Lemma comb_L_ok s k : I s -> minf <= k <= maxf ->
  wp (L s k) (fun '(s', l) => I s' /\ L_spec T k l).
Proof.
  intros Hs Hk. eapply wp_mono; [apply HL; auto|]. intros [s' l] [Hs' Hl].
  split; [exact Hs'|]. pose proof (lspec_range _ _ _ Hl Hk) as Hlr.
  destruct (wp_exists _ _ (HR s' l Hs' Hlr)) as ([s2 q] & _ & _ & Hq).
  exists (Iv l q 0). split; [|reflexivity]. apply comb_uat_spec; auto.
Qed.
Lemma comb_R_ok s k : I s -> minf <= k <= maxf ->
  wp (R s k) (fun '(s', l) => I s' /\ R_spec T k l).
Proof.
  intros Hs Hk. eapply wp_mono; [apply HR; auto|]. intros [s' l] [Hs' Hl].
  split; [exact Hs'|]. pose proof (rspec_range _ _ _ Hl Hk) as Hlr.
  destruct (wp_exists _ _ (HL s' l Hs' Hlr)) as ([s2 q] & _ & _ & Hq).
  exists (Iv q l 0). split; [|reflexivity]. apply comb_tau_spec; auto.
Qed.
Lemma comb_tau_ok : meth_ok Psub T tau_spec (comb_tau L R).
Proof.
  apply memo_tau_ok. intros s k Hs Hk. unfold comb_tau_.
  apply wp_bind. eapply wp_mono; [apply HR; auto|]. intros [s1 q] [Hs1 Hq].
  apply wp_bind. eapply wp_mono; [apply HL; eauto using rspec_range|]. intros [s2 p] [Hs2 Hp].
  cbn. split; [exact Hs2|]. apply comb_tau_spec; auto.
Qed.
Lemma comb_uat_ok : meth_ok Psub T uat_spec (comb_uat L R).
Proof.
  apply memo_uat_ok. intros s k Hs Hk. unfold comb_uat_.
  apply wp_bind. eapply wp_mono; [apply HL; auto|]. intros [s1 p] [Hs1 Hp].
  apply wp_bind. eapply wp_mono; [apply HR; eauto using lspec_range|]. intros [s2 q] [Hs2 Hq].
  cbn. split; [exact Hs2|]. apply comb_uat_spec; auto.
Qed.

Lemma comb_ok : hop_ok (comb_hcls L R) T I.
Proof.
  pose proof (GC_innermost P) as G.
  constructor; cbn [h_tau h_rho h_uat h_ohr h_L h_R comb_hcls].
  - exact G.
  - exact comb_tau_ok.
  - apply memo_rho_ok. intros s k Hs Hk. unfold comb_rho_.
    destruct (Z.eqb_spec k minf); [cbn; split; [exact Hs|left; auto]|].
    chkstep. apply wp_bind. eapply wp_mono; [apply comb_L_ok; auto; inf; lia|].
    intros [s1 ll] [Hs1 Hll].
    destruct (Z.eqb_spec ll maxf).
    + exfalso. apply L_cases in Hll; [|exact G]. inf.
      destruct Hll as [[? ?]|[? [[? ?]|(r & Hr & ? & ? & ?)]]]; try lia.
      pose proof (GC_fin _ r G Hr). fin.
    + pose proof (L_range _ _ _ G Hll). chkstep.
      eapply wp_mono; [apply comb_tau_ok; auto; lia|].
      intros [s2 r] [Hs2 Hr]. split; [exact Hs2|]. eapply rho_from_L; eauto.
  - exact comb_uat_ok.
  - apply memo_ohr_ok. intros s k Hs Hk. unfold comb_ohr_.
    destruct (Z.eqb_spec k maxf); [cbn; split; [exact Hs|left; auto]|].
    chkstep. apply wp_bind. eapply wp_mono; [apply comb_R_ok; auto; inf; lia|].
    intros [s1 ll] [Hs1 Hll].
    destruct (Z.eqb_spec ll minf).
    + exfalso. apply R_cases in Hll; [|exact G]. inf.
      destruct Hll as [[? ?]|[? [[? ?]|(r & Hr & ? & ? & ?)]]]; try lia.
      pose proof (GC_fin _ r G Hr). fin.
    + pose proof (R_range _ _ _ G Hll). chkstep.
      eapply wp_mono; [apply comb_uat_ok; auto; lia|].
      intros [s2 r] [Hs2 Hr]. split; [exact Hs2|]. eapply ohr_from_R; eauto.
  - exact comb_L_ok.
  - exact comb_R_ok.
Qed.
End Comb.

Lemma L_not_max S k l : GC S -> k <> maxf -> L_spec S k l -> l <> maxf.
Proof.
  intros G Hk Hl. apply L_cases in Hl; [|exact G]. inf.
  destruct Hl as [[? ?]|[? [[? ?]|(r & Hr & ? & ? & ?)]]]; try lia.
  pose proof (GC_fin _ r G Hr). fin.
Qed.
Lemma R_not_min S k l : GC S -> k <> minf -> R_spec S k l -> l <> minf.
Proof.
  intros G Hk Hl. apply R_cases in Hl; [|exact G]. inf.
  destruct Hl as [[? ?]|[? [[? ?]|(r & Hr & ? & ? & ?)]]]; try lia.
  pose proof (GC_fin _ r G Hr). fin.
Qed.

(** The shape of rho_ in Combinational, Merge and InnerHopper. *)
Lemma rho_shape {Y} (J : Y -> Prop) T (L : Y -> Z -> res (Y * Z)) (tau : Y -> Z -> res (Y * iv)) :
  GC T ->
  (forall s k, J s -> minf <= k <= maxf -> wp (L s k) (fun '(s', r) => J s' /\ L_spec T k r)) ->
  (forall s k, J s -> minf <= k <= maxf -> wp (tau s k) (fun '(s', r) => J s' /\ tau_spec T k r)) ->
  forall s k, J s -> minf <= k <= maxf ->
  wp (if k =? minf then Ok (s, minr) else
      let* k1 := chk (k - 1) in
      let* (s1, l) := L s k1 in
      if l =? maxf then Ok (s1, maxr) else
      let* l1 := chk (l + 1) in tau s1 l1) (fun '(s', r) => J s' /\ rho_spec T k r).
Proof.
  intros G HL HT s k Hs Hk. inf.
  destruct (Z.eqb_spec k minf); [cbn; split; [exact Hs|left; auto]|].
  apply wp_bind, wp_chk; [lia|].
  apply wp_bind. eapply wp_mono; [apply HL; auto; lia|].
  intros [s1 l] [Hs1 Hl]. pose proof (L_not_max T (k - 1) l G ltac:(lia) Hl).
  pose proof (L_range _ _ _ G Hl).
  destruct (Z.eqb_spec l maxf); [lia|]. apply wp_bind, wp_chk; [lia|].
  eapply wp_mono; [apply HT; auto; lia|].
  intros [s2 r] [Hs2 Hr]. split; [exact Hs2|]. eapply rho_from_L; eauto.
Qed.
Lemma ohr_shape {Y} (J : Y -> Prop) T (R : Y -> Z -> res (Y * Z)) (uat : Y -> Z -> res (Y * iv)) :
  GC T ->
  (forall s k, J s -> minf <= k <= maxf -> wp (R s k) (fun '(s', r) => J s' /\ R_spec T k r)) ->
  (forall s k, J s -> minf <= k <= maxf -> wp (uat s k) (fun '(s', r) => J s' /\ uat_spec T k r)) ->
  forall s k, J s -> minf <= k <= maxf ->
  wp (if k =? maxf then Ok (s, maxr) else
      let* k1 := chk (k + 1) in
      let* (s1, l) := R s k1 in
      if l =? minf then Ok (s1, minr) else
      let* l1 := chk (l - 1) in uat s1 l1) (fun '(s', r) => J s' /\ ohr_spec T k r).
Proof.
  intros G HL HT s k Hs Hk. inf.
  destruct (Z.eqb_spec k maxf); [cbn; split; [exact Hs|left; auto]|].
  apply wp_bind, wp_chk; [lia|].
  apply wp_bind. eapply wp_mono; [apply HL; auto; lia|].
  intros [s1 l] [Hs1 Hl]. pose proof (R_not_min T (k + 1) l G ltac:(lia) Hl).
  pose proof (R_range _ _ _ G Hl).
  destruct (Z.eqb_spec l minf); [lia|]. apply wp_bind, wp_chk; [lia|].
  eapply wp_mono; [apply HT; auto; lia|].
  intros [s2 r] [Hs2 Hr]. split; [exact Hs2|]. eapply ohr_from_R; eauto.
Qed.

Section Operators.
Variables (A B : hcls) (SA SB : iv -> Prop) (IA : St A -> Prop) (IB : St B -> Prop).
Hypothesis HA : hop_ok A SA IA.
Hypothesis HB : hop_ok B SB IB.
Let GA : GC SA := hop_GC HA.
Let GB : GC SB := hop_GC HB.
Definition P2 (x : St A * St B) : Prop := IA (fst x) /\ IB (snd x).
Notation I T := (Iof P2 T).

Lemma left_ok {O} (f : St A -> Z -> res (St A * O)) (spec : Z -> O -> Prop) T :
  (forall a k, IA a -> minf <= k <= maxf -> wp (f a k) (fun '(a', r) => IA a' /\ spec k r)) ->
  forall s k, I T s -> minf <= k <= maxf ->
  wp (on_left f s k) (fun '(s', r) => I T s' /\ spec k r).
Proof.
  intros H s k [[Ha Hb] Hm] Hk. unfold on_left. apply wp_bind.
  eapply wp_mono; [apply H; auto|]. intros [a' r] [Ha' Hr]. cbn.
  split; [|exact Hr]. repeat split; auto; apply Hm.
Qed.
Lemma right_ok {O} (f : St B -> Z -> res (St B * O)) (spec : Z -> O -> Prop) T :
  (forall a k, IB a -> minf <= k <= maxf -> wp (f a k) (fun '(a', r) => IB a' /\ spec k r)) ->
  forall s k, I T s -> minf <= k <= maxf ->
  wp (on_right f s k) (fun '(s', r) => I T s' /\ spec k r).
Proof.
  intros H s k [[Ha Hb] Hm] Hk. unfold on_right. apply wp_bind.
  eapply wp_mono; [apply H; auto|]. intros [b' r] [Hb' Hr]. cbn.
  split; [|exact Hr]. repeat split; auto; apply Hm.
Qed.

Ltac go lem := apply wp_bind; eapply wp_mono; [apply lem; [assumption|inf; lia] |].

Definition lA T := left_ok (h_L A) (L_spec SA) T (hop_L HA).
Definition rA T := left_ok (h_R A) (R_spec SA) T (hop_R HA).
Definition tauA T := left_ok (h_tau A) (tau_spec SA) T (hop_tau HA).
Definition rhoA T := left_ok (h_rho A) (rho_spec SA) T (hop_rho HA).
Definition uatA T := left_ok (h_uat A) (uat_spec SA) T (hop_uat HA).
Definition ohrA T := left_ok (h_ohr A) (ohr_spec SA) T (hop_ohr HA).
Definition lB T := right_ok (h_L B) (L_spec SB) T (hop_L HB).
Definition rB T := right_ok (h_R B) (R_spec SB) T (hop_R HB).
Definition tauB T := right_ok (h_tau B) (tau_spec SB) T (hop_tau HB).
Definition rhoB T := right_ok (h_rho B) (rho_spec SB) T (hop_rho HB).
Definition uatB T := right_ok (h_uat B) (uat_spec SB) T (hop_uat HB).
Definition ohrB T := right_ok (h_ohr B) (ohr_spec SB) T (hop_ohr HB).

(** ** And *)
Lemma and_ok : hop_ok (and_hopper A B) (sem_and SA SB) (I (sem_and SA SB)).
Proof.
  apply comb_ok.
  - intros s k Hs Hk. unfold and_L.
    go (lA (sem_and SA SB)). intros [s1 a] [Hs1 Ha].
    go (lB (sem_and SA SB)). intros [s2 b] [Hs2 Hb]. cbn. split; [exact Hs2|].
    apply L_cases in Ha; [|exact GA]. apply L_cases in Hb; [|exact GB]. inf.
    destruct Ha as [[-> ->]|[Hk0 Ha]].
    { left. destruct Hb as [[_ ->]|[? _]]; [|lia]. split; lia. }
    right. split; [exact Hk0|].
    destruct Hb as [[? _]|[_ Hb]]; [lia|].
    destruct Ha as [[-> Ha]|(ra & Hra & Ea & Hka & Ma)].
    { left. split.
      - destruct Hb as [[-> _]|(rb & Hrb & <- & _)]; [lia|]. pose proof (GC_fin _ _ GB Hrb). fin.
      - intros x F [(a & Sa & N) _]. specialize (Ha a Sa). fin. }
    destruct Hb as [[-> Hb]|(rb & Hrb & Eb & Hkb & Mb)].
    { left. split.
      - pose proof (GC_fin _ _ GA Hra). fin.
      - intros x F [_ (b & Sb & N)]. specialize (Hb b Sb). fin. }
    right. pose proof (GC_fin _ _ GA Hra). pose proof (GC_fin _ _ GB Hrb).
    split; [fin|]. split.
    + split; [exists ra|exists rb]; (split; [assumption|]); fin.
    + intros x F [(a' & Sa & Na) (b' & Sb & Nb)] Hx.
      specialize (Ma a' Sa). specialize (Mb b' Sb). fin.
  - intros s k Hs Hk. unfold and_R.
    go (rA (sem_and SA SB)). intros [s1 a] [Hs1 Ha].
    go (rB (sem_and SA SB)). intros [s2 b] [Hs2 Hb]. cbn. split; [exact Hs2|].
    apply R_cases in Ha; [|exact GA]. apply R_cases in Hb; [|exact GB]. inf.
    destruct Ha as [[-> ->]|[Hk0 Ha]].
    { left. destruct Hb as [[_ ->]|[? _]]; [|lia]. split; lia. }
    right. split; [exact Hk0|].
    destruct Hb as [[? _]|[_ Hb]]; [lia|].
    destruct Ha as [[-> Ha]|(ra & Hra & Ea & Hka & Ma)].
    { left. split.
      - destruct Hb as [[-> _]|(rb & Hrb & <- & _)]; [lia|]. pose proof (GC_fin _ _ GB Hrb). fin.
      - intros x F [(a & Sa & N) _]. specialize (Ha a Sa). fin. }
    destruct Hb as [[-> Hb]|(rb & Hrb & Eb & Hkb & Mb)].
    { left. split.
      - pose proof (GC_fin _ _ GA Hra). fin.
      - intros x F [_ (b & Sb & N)]. specialize (Hb b Sb). fin. }
    right. pose proof (GC_fin _ _ GA Hra). pose proof (GC_fin _ _ GB Hrb).
    split; [fin|]. split.
    + split; [exists ra|exists rb]; (split; [assumption|]); fin.
    + intros x F [(a' & Sa & Na) (b' & Sb & Nb)] Hx.
      specialize (Ma a' Sa). specialize (Mb b' Sb). fin.
Qed.

(** ** Or *)
Lemma or_ok : hop_ok (or_hopper A B) (sem_or SA SB) (I (sem_or SA SB)).
Proof.
  apply comb_ok.
  - intros s k Hs Hk. unfold or_L.
    go (lA (sem_or SA SB)). intros [s1 a] [Hs1 Ha].
    go (lB (sem_or SA SB)). intros [s2 b] [Hs2 Hb]. cbn. split; [exact Hs2|].
    apply L_cases in Ha; [|exact GA]. apply L_cases in Hb; [|exact GB]. inf.
    destruct Ha as [[-> ->]|[Hk0 Ha]].
    { left. destruct Hb as [[_ ->]|[? _]]; [|lia]. split; lia. }
    right. split; [exact Hk0|].
    destruct Hb as [[? _]|[_ Hb]]; [lia|].
    destruct Ha as [[-> Ha]|(ra & Hra & Ea & Hka & Ma)];
      destruct Hb as [[-> Hb]|(rb & Hrb & Eb & Hkb & Mb)].
    + left. split; [lia|]. intros x F [(a & Sa & N)|(b & Sb & N)];
        [specialize (Ha a Sa)|specialize (Hb b Sb)]; fin.
    + right. pose proof (GC_fin _ _ GB Hrb). split; [fin|]. split.
      * right. exists rb. split; [assumption|]. fin.
      * intros x F [(a & Sa & N)|(b' & Sb & N)] Hx;
          [specialize (Ha a Sa)|specialize (Mb b' Sb)]; fin.
    + right. pose proof (GC_fin _ _ GA Hra). split; [fin|]. split.
      * left. exists ra. split; [assumption|]. fin.
      * intros x F [(a' & Sa & N)|(b & Sb & N)] Hx;
          [specialize (Ma a' Sa)|specialize (Hb b Sb)]; fin.
    + right. pose proof (GC_fin _ _ GA Hra). pose proof (GC_fin _ _ GB Hrb). split; [fin|]. split.
      * destruct (Z_le_gt_dec a b); [right; exists rb|left; exists ra]; (split; [assumption|]); fin.
      * intros x F [(a' & Sa & N)|(b' & Sb & N)] Hx;
          [specialize (Ma a' Sa)|specialize (Mb b' Sb)]; fin.
  - intros s k Hs Hk. unfold or_R.
    go (rA (sem_or SA SB)). intros [s1 a] [Hs1 Ha].
    go (rB (sem_or SA SB)). intros [s2 b] [Hs2 Hb]. cbn. split; [exact Hs2|].
    apply R_cases in Ha; [|exact GA]. apply R_cases in Hb; [|exact GB]. inf.
    destruct Ha as [[-> ->]|[Hk0 Ha]].
    { left. destruct Hb as [[_ ->]|[? _]]; [|lia]. split; lia. }
    right. split; [exact Hk0|].
    destruct Hb as [[? _]|[_ Hb]]; [lia|].
    destruct Ha as [[-> Ha]|(ra & Hra & Ea & Hka & Ma)];
      destruct Hb as [[-> Hb]|(rb & Hrb & Eb & Hkb & Mb)].
    + left. split; [lia|]. intros x F [(a & Sa & N)|(b & Sb & N)];
        [specialize (Ha a Sa)|specialize (Hb b Sb)]; fin.
    + right. pose proof (GC_fin _ _ GB Hrb). split; [fin|]. split.
      * right. exists rb. split; [assumption|]. fin.
      * intros x F [(a & Sa & N)|(b' & Sb & N)] Hx;
          [specialize (Ha a Sa)|specialize (Mb b' Sb)]; fin.
    + right. pose proof (GC_fin _ _ GA Hra). split; [fin|]. split.
      * left. exists ra. split; [assumption|]. fin.
      * intros x F [(a' & Sa & N)|(b & Sb & N)] Hx;
          [specialize (Ma a' Sa)|specialize (Hb b Sb)]; fin.
    + right. pose proof (GC_fin _ _ GA Hra). pose proof (GC_fin _ _ GB Hrb). split; [fin|]. split.
      * destruct (Z_le_gt_dec a b); [left; exists ra|right; exists rb]; (split; [assumption|]); fin.
      * intros x F [(a' & Sa & N)|(b' & Sb & N)] Hx;
          [specialize (Ma a' Sa)|specialize (Mb b' Sb)]; fin.
Qed.

(** ** FollowedBy *)
Lemma fby_ok : hop_ok (fby_hopper A B) (sem_fby SA SB) (I (sem_fby SA SB)).
Proof.
  apply comb_ok.
  - intros s k Hs Hk. unfold fby_L.
    go (lB (sem_fby SA SB)). intros [s1 ll] [Hs1 Hb].
    apply L_cases in Hb; [|exact GB]. inf.
    destruct Hb as [[-> ->]|[Hk0 [[-> Hb]|(rb & Hrb & Eb & Hkb & Mb)]]].
    + destruct (Z.eqb_spec maxf minf); [lia|]. rewrite Z.eqb_refl. cbn. split; [exact Hs1|]. left; auto.
    + rewrite Z.eqb_refl. cbn. split; [exact Hs1|]. right. split; [exact Hk0|]. left. split; [reflexivity|].
      intros x F (a & b & Sa & Sb & Na & Nb & Hab). specialize (Hb b Sb). fin.
    + pose proof (GC_fin _ _ GB Hrb) as Fb.
      destruct (Z.eqb_spec ll minf); [fin|]. destruct (Z.eqb_spec ll maxf); [fin|].
      apply wp_bind, wp_chk; [fin|].
      eapply wp_mono; [apply (lA (sem_fby SA SB)); [assumption|fin]|].
      intros [s2 l] [Hs2 Ha]. split; [exact Hs2|]. right. split; [exact Hk0|].
      apply L_cases in Ha; [|exact GA].
      destruct Ha as [[? _]|[_ [[-> Ha]|(ra & Hra & Ea & Hka & Ma)]]]; [fin| |].
      * left. split; [reflexivity|]. intros x F (a & b & Sa & Sb & Na & Nb & Hab).
        specialize (Ha a Sa). specialize (Mb b Sb). fin.
      * right. pose proof (GC_fin _ _ GA Hra) as Fa. split; [fin|]. split.
        -- exists ra, rb. repeat split; try assumption; fin.
        -- intros x F (a & b & Sa & Sb & Na & Nb & Hab) Hx.
           specialize (Ma a Sa). specialize (Mb b Sb). fin.
  - intros s k Hs Hk. unfold fby_R.
    go (rA (sem_fby SA SB)). intros [s1 ll] [Hs1 Hb].
    apply R_cases in Hb; [|exact GA]. inf.
    destruct Hb as [[-> ->]|[Hk0 [[-> Hb]|(rb & Hrb & Eb & Hkb & Mb)]]].
    + rewrite Z.eqb_refl. cbn. split; [exact Hs1|]. left; auto.
    + destruct (Z.eqb_spec maxf minf); [lia|]. rewrite Z.eqb_refl. cbn.
      split; [exact Hs1|]. right. split; [exact Hk0|]. left. split; [reflexivity|].
      intros x F (a & b & Sa & Sb & Na & Nb & Hab). specialize (Hb a Sa). fin.
    + pose proof (GC_fin _ _ GA Hrb) as Fb.
      destruct (Z.eqb_spec ll minf); [fin|]. destruct (Z.eqb_spec ll maxf); [fin|].
      apply wp_bind, wp_chk; [fin|].
      eapply wp_mono; [apply (rB (sem_fby SA SB)); [assumption|fin]|].
      intros [s2 l] [Hs2 Ha]. split; [exact Hs2|]. right. split; [exact Hk0|].
      apply R_cases in Ha; [|exact GB].
      destruct Ha as [[? _]|[_ [[-> Ha]|(ra & Hra & Ea & Hka & Ma)]]]; [fin| |].
      * left. split; [reflexivity|]. intros x F (a & b & Sa & Sb & Na & Nb & Hab).
        specialize (Ha b Sb). specialize (Mb a Sa). fin.
      * right. pose proof (GC_fin _ _ GB Hra) as Fa. split; [fin|]. split.
        -- exists rb, ra. repeat split; try assumption; fin.
        -- intros x F (a & b & Sa & Sb & Na & Nb & Hab) Hx.
           specialize (Ma b Sb). specialize (Mb a Sa). fin.
Qed.

(** ** ContainedIn *)
Lemma GC_cin : GC (sem_cin SA SB).
Proof. apply (GC_sub SA); [exact GA|]. intros x [H _]; exact H. Qed.

Lemma cin_tau_ok : meth_ok P2 (sem_cin SA SB) tau_spec (cin_tau_ A B).
Proof.
  intros s0 k0 Hs0 Hk0. unfold cin_tau_.
  apply loop_rule with
    (Inv := fun '(s, k) => I (sem_cin SA SB) s /\ k0 <= k <= maxf /\ (k0 = minf -> k = minf) /\
                           forall x, sem_cin SA SB x -> k0 <= ip x -> k <= ip x)
    (mu := fun '(s, k) => maxf - k).
  - intros [s k] (_ & H & _). lia.
  - intros [s k] (Hs & Hk & Hmin & Hinv).
    go (tauA (sem_cin SA SB)). intros [s1 x] [Hs1 Hx].
    destruct (Z.eqb_spec (ip x) maxf) as [Ex|Ex].
    + cbn. split; [exact Hs1|].
      destruct Hx as [[Hkm ->]|[Hkm [(Hx & _ & _)|[-> Hn]]]].
      * cbn in Ex. inf. lia.
      * pose proof (GC_fin _ _ GA Hx). fin.
      * right. assert (k0 <> minf) by tauto || (intro; lia).
        split; [lia|]. right. split; [reflexivity|]. intros x Hx.
        destruct (Z_lt_ge_dec (ip x) k0); [assumption|].
        pose proof (Hinv x Hx ltac:(lia)). specialize (Hn x (proj1 Hx)). lia.
    + pose proof (tau_range _ _ _ GA Hx) as Rx.
      go (rhoB (sem_cin SA SB)). intros [s2 y] [Hs2 Hy].
      destruct (Z.leb_spec (ip y) (ip x)) as [Hyx|Hyx].
      * cbn. split; [exact Hs2|].
        destruct Hx as [[Hkm ->]|[Hkm [(Hx & Hkx & Hm)|[-> Hn]]]].
        -- left. split; [lia|reflexivity].
        -- right. assert (k0 <> minf) by lia. split; [assumption|]. left.
           pose proof (GC_fin _ _ GA Hx) as Fx.
           destruct Hy as [[E _]|[_ [(Hy & Hqy & _)|[-> _]]]]; [fin| |fin].
           split; [split; [exact Hx|]; exists y; split; [exact Hy|]; fin|].
           split; [lia|]. intros z Hz Hkz. apply Hm; [apply Hz|]. apply Hinv; assumption.
        -- cbn in Ex. lia.
      * cbn. pose proof (rho_range _ _ _ GB Hy) as Ry.
        destruct Hx as [[Hkm ->]|[Hkm [(Hx & Hkx & Hm)|[-> Hn]]]].
        -- cbn in Hy, Hyx. destruct Hy as [[_ ->]|[E _]]; [cbn in Hyx; lia|lia].
        -- pose proof (GC_fin _ _ GA Hx) as Fx.
           repeat split; try (exact Hs2 || apply Hs2 || lia).
           intros z [Hz (b & Hb & Nb)] Hkz.
           assert (ip x <= ip z). { apply Hm; [exact Hz|]. apply Hinv; [|lia]. split; [exact Hz|]. eauto. }
           assert (iq x <= iq z) by (apply (GC_le_pq SA); auto).
           destruct Hy as [[E _]|[_ [(Hy & Hqy & Hmy)|[-> Hn]]]]; [fin| |].
           ++ assert (iq y <= iq b). { apply Hmy; [exact Hb|]. fin. }
              assert (ip y <= ip b) by (apply (GC_le_pq SB); auto). fin.
           ++ specialize (Hn b Hb). fin.
        -- cbn in Ex. lia.
  - repeat split; try lia; try apply Hs0; auto.
  - unfold minf, maxf, BIG in *; lia.
Qed.

Lemma cin_uat_ok : meth_ok P2 (sem_cin SA SB) uat_spec (cin_uat_ A B).
Proof.
  intros s0 k0 Hs0 Hk0. unfold cin_uat_.
  apply loop_rule with
    (Inv := fun '(s, k) => I (sem_cin SA SB) s /\ minf <= k <= k0 /\ (k0 = maxf -> k = maxf) /\
                           forall x, sem_cin SA SB x -> iq x <= k0 -> iq x <= k)
    (mu := fun '(s, k) => k - minf).
  - intros [s k] (_ & H & _). lia.
  - intros [s k] (Hs & Hk & Hmin & Hinv).
    go (uatA (sem_cin SA SB)). intros [s1 x] [Hs1 Hx].
    destruct (Z.eqb_spec (iq x) minf) as [Ex|Ex].
    + cbn. split; [exact Hs1|].
      destruct Hx as [[Hkm ->]|[Hkm [(Hx & _ & _)|[-> Hn]]]].
      * cbn in Ex. inf. lia.
      * pose proof (GC_fin _ _ GA Hx). fin.
      * right. assert (k0 <> maxf) by tauto || (intro; lia).
        split; [lia|]. right. split; [reflexivity|]. intros x Hx.
        destruct (Z_lt_ge_dec k0 (iq x)); [assumption|].
        pose proof (Hinv x Hx ltac:(lia)). specialize (Hn x (proj1 Hx)). lia.
    + pose proof (uat_range _ _ _ GA Hx) as Rx.
      go (ohrB (sem_cin SA SB)). intros [s2 y] [Hs2 Hy].
      destruct (Z.leb_spec (iq x) (iq y)) as [Hyx|Hyx].
      * cbn. split; [exact Hs2|].
        destruct Hx as [[Hkm ->]|[Hkm [(Hx & Hkx & Hm)|[-> Hn]]]].
        -- left. split; [lia|reflexivity].
        -- right. assert (k0 <> maxf) by lia. split; [assumption|]. left.
           pose proof (GC_fin _ _ GA Hx) as Fx.
           destruct Hy as [[E _]|[_ [(Hy & Hqy & _)|[-> _]]]]; [fin| |fin].
           split; [split; [exact Hx|]; exists y; split; [exact Hy|]; fin|].
           split; [lia|]. intros z Hz Hkz. apply Hm; [apply Hz|]. apply Hinv; assumption.
        -- cbn in Ex. lia.
      * cbn. pose proof (ohr_range _ _ _ GB Hy) as Ry.
        destruct Hx as [[Hkm ->]|[Hkm [(Hx & Hkx & Hm)|[-> Hn]]]].
        -- cbn in Hy, Hyx. destruct Hy as [[_ ->]|[E _]]; [cbn in Hyx; lia|lia].
        -- pose proof (GC_fin _ _ GA Hx) as Fx.
           repeat split; try (exact Hs2 || apply Hs2 || lia).
           intros z [Hz (b & Hb & Nb)] Hkz.
           assert (iq z <= iq x). { apply Hm; [exact Hz|]. apply Hinv; [|lia]. split; [exact Hz|]. eauto. }
           assert (ip z <= ip x) by (apply (GC_le_pq SA); auto).
           destruct Hy as [[E _]|[_ [(Hy & Hqy & Hmy)|[-> Hn]]]]; [fin| |].
           ++ assert (ip b <= ip y). { apply Hmy; [exact Hb|]. fin. }
              assert (iq b <= iq y) by (apply (GC_le_pq SB); auto). fin.
           ++ specialize (Hn b Hb). fin.
        -- cbn in Ex. lia.
  - repeat split; try lia; try apply Hs0; auto.
  - unfold minf, maxf, BIG in *; lia.
Qed.

Lemma cin_ok : hop_ok (cin_hopper A B) (sem_cin SA SB) (I (sem_cin SA SB)).
Proof.
  assert (SUB : forall x, sem_cin SA SB x -> SA x) by (intros x [H _]; exact H).
  constructor; cbn [h_tau h_rho h_uat h_ohr h_L h_R cin_hopper].
  - exact GC_cin.
  - apply memo_tau_ok, cin_tau_ok.
  - apply memo_rho_ok. intros s k Hs Hk. unfold cin_rho_.
    go (rhoA (sem_cin SA SB)). intros [s1 x] [Hs1 Hx].
    pose proof (rho_range _ _ _ GA Hx).
    eapply wp_mono; [apply (memo_tau_ok _ _ _ cin_tau_ok); [assumption|lia]|].
    intros [s2 r] [Hs2 Hr]. split; [exact Hs2|]. eapply (rho_via_tau SA); eauto.
  - apply memo_uat_ok, cin_uat_ok.
  - apply memo_ohr_ok. intros s k Hs Hk. unfold cin_ohr_.
    go (ohrA (sem_cin SA SB)). intros [s1 x] [Hs1 Hx].
    pose proof (ohr_range _ _ _ GA Hx).
    eapply wp_mono; [apply (memo_uat_ok _ _ _ cin_uat_ok); [assumption|lia]|].
    intros [s2 r] [Hs2 Hr]. split; [exact Hs2|]. eapply (ohr_via_uat SA); eauto.
  - apply base_L_ok, memo_uat_ok, cin_uat_ok.
  - apply base_R_ok, memo_tau_ok, cin_tau_ok.
Qed.

(** ** Containing *)
Lemma GC_cing : GC (sem_cing SA SB).
Proof. apply (GC_sub SA); [exact GA|]. intros x [H _]; exact H. Qed.

Lemma cing_rho_ok : meth_ok P2 (sem_cing SA SB) rho_spec (cing_rho_ A B).
Proof.
  intros s0 k0 Hs0 Hk0. unfold cing_rho_.
  apply loop_rule with
    (Inv := fun '(s, k) => I (sem_cing SA SB) s /\ k0 <= k <= maxf /\ (k0 = minf -> k = minf) /\
                           forall x, sem_cing SA SB x -> k0 <= iq x -> k <= iq x)
    (mu := fun '(s, k) => maxf - k).
  - intros [s k] (_ & H & _). lia.
  - intros [s k] (Hs & Hk & Hmin & Hinv).
    go (rhoA (sem_cing SA SB)). intros [s1 x] [Hs1 Hx].
    destruct (Z.eqb_spec (iq x) maxf) as [Ex|Ex].
    + cbn. split; [exact Hs1|].
      destruct Hx as [[Hkm ->]|[Hkm [(Hx & _ & _)|[-> Hn]]]].
      * cbn in Ex. inf. lia.
      * pose proof (GC_fin _ _ GA Hx). fin.
      * right. assert (k0 <> minf) by tauto || (intro; lia).
        split; [lia|]. right. split; [reflexivity|]. intros x Hx.
        destruct (Z_lt_ge_dec (iq x) k0); [assumption|].
        pose proof (Hinv x Hx ltac:(lia)). specialize (Hn x (proj1 Hx)). lia.
    + pose proof (rho_range _ _ _ GA Hx) as Rx.
      go (tauB (sem_cing SA SB)). intros [s2 y] [Hs2 Hy].
      destruct (Z.leb_spec (iq y) (iq x)) as [Hyx|Hyx].
      * cbn. split; [exact Hs2|].
        destruct Hx as [[Hkm ->]|[Hkm [(Hx & Hkx & Hm)|[-> Hn]]]].
        -- left. split; [lia|reflexivity].
        -- right. assert (k0 <> minf) by lia. split; [assumption|]. left.
           pose proof (GC_fin _ _ GA Hx) as Fx.
           destruct Hy as [[E _]|[_ [(Hy & Hqy & _)|[-> _]]]]; [fin| |fin].
           split; [split; [exact Hx|]; exists y; split; [exact Hy|]; fin|].
           split; [lia|]. intros z Hz Hkz. apply Hm; [apply Hz|]. apply Hinv; assumption.
        -- cbn in Ex. lia.
      * cbn. pose proof (tau_range _ _ _ GB Hy) as Ry.
        destruct Hx as [[Hkm ->]|[Hkm [(Hx & Hkx & Hm)|[-> Hn]]]].
        -- cbn in Hy, Hyx. destruct Hy as [[_ ->]|[E _]]; [cbn in Hyx; lia|lia].
        -- pose proof (GC_fin _ _ GA Hx) as Fx.
           repeat split; try (exact Hs2 || apply Hs2 || lia).
           intros z [Hz (b & Hb & Nb)] Hkz.
           assert (iq x <= iq z). { apply Hm; [exact Hz|]. apply Hinv; [|lia]. split; [exact Hz|]. eauto. }
           assert (ip x <= ip z) by (apply (GC_le_pq SA); auto).
           destruct Hy as [[E _]|[_ [(Hy & Hqy & Hmy)|[-> Hn]]]]; [fin| |].
           ++ assert (ip y <= ip b). { apply Hmy; [exact Hb|]. fin. }
              assert (iq y <= iq b) by (apply (GC_le_pq SB); auto). fin.
           ++ specialize (Hn b Hb). fin.
        -- cbn in Ex. lia.
  - repeat split; try lia; try apply Hs0; auto.
  - unfold minf, maxf, BIG in *; lia.
Qed.

Lemma cing_ohr_ok : meth_ok P2 (sem_cing SA SB) ohr_spec (cing_ohr_ A B).
Proof.
  intros s0 k0 Hs0 Hk0. unfold cing_ohr_.
  apply loop_rule with
    (Inv := fun '(s, k) => I (sem_cing SA SB) s /\ minf <= k <= k0 /\ (k0 = maxf -> k = maxf) /\
                           forall x, sem_cing SA SB x -> ip x <= k0 -> ip x <= k)
    (mu := fun '(s, k) => k - minf).
  - intros [s k] (_ & H & _). lia.
  - intros [s k] (Hs & Hk & Hmin & Hinv).
    go (ohrA (sem_cing SA SB)). intros [s1 x] [Hs1 Hx].
    destruct (Z.eqb_spec (ip x) minf) as [Ex|Ex].
    + cbn. split; [exact Hs1|].
      destruct Hx as [[Hkm ->]|[Hkm [(Hx & _ & _)|[-> Hn]]]].
      * cbn in Ex. inf. lia.
      * pose proof (GC_fin _ _ GA Hx). fin.
      * right. assert (k0 <> maxf) by tauto || (intro; lia).
        split; [lia|]. right. split; [reflexivity|]. intros x Hx.
        destruct (Z_lt_ge_dec k0 (ip x)); [assumption|].
        pose proof (Hinv x Hx ltac:(lia)). specialize (Hn x (proj1 Hx)). lia.
    + pose proof (ohr_range _ _ _ GA Hx) as Rx.
      go (uatB (sem_cing SA SB)). intros [s2 y] [Hs2 Hy].
      destruct (Z.leb_spec (ip x) (ip y)) as [Hyx|Hyx].
      * cbn. split; [exact Hs2|].
        destruct Hx as [[Hkm ->]|[Hkm [(Hx & Hkx & Hm)|[-> Hn]]]].
        -- left. split; [lia|reflexivity].
        -- right. assert (k0 <> maxf) by lia. split; [assumption|]. left.
           pose proof (GC_fin _ _ GA Hx) as Fx.
           destruct Hy as [[E _]|[_ [(Hy & Hqy & _)|[-> _]]]]; [fin| |fin].
           split; [split; [exact Hx|]; exists y; split; [exact Hy|]; fin|].
           split; [lia|]. intros z Hz Hkz. apply Hm; [apply Hz|]. apply Hinv; assumption.
        -- cbn in Ex. lia.
      * cbn. pose proof (uat_range _ _ _ GB Hy) as Ry.
        destruct Hx as [[Hkm ->]|[Hkm [(Hx & Hkx & Hm)|[-> Hn]]]].
        -- cbn in Hy, Hyx. destruct Hy as [[_ ->]|[E _]]; [cbn in Hyx; lia|lia].
        -- pose proof (GC_fin _ _ GA Hx) as Fx.
           repeat split; try (exact Hs2 || apply Hs2 || lia).
           intros z [Hz (b & Hb & Nb)] Hkz.
           assert (ip z <= ip x). { apply Hm; [exact Hz|]. apply Hinv; [|lia]. split; [exact Hz|]. eauto. }
           assert (iq z <= iq x) by (apply (GC_le_pq SA); auto).
           destruct Hy as [[E _]|[_ [(Hy & Hqy & Hmy)|[-> Hn]]]]; [fin| |].
           ++ assert (iq b <= iq y). { apply Hmy; [exact Hb|]. fin. }
              assert (ip b <= ip y) by (apply (GC_le_pq SB); auto). fin.
           ++ specialize (Hn b Hb). fin.
        -- cbn in Ex. lia.
  - repeat split; try lia; try apply Hs0; auto.
  - unfold minf, maxf, BIG in *; lia.
Qed.

Lemma cing_ok : hop_ok (cing_hopper A B) (sem_cing SA SB) (I (sem_cing SA SB)).
Proof.
  assert (SUB : forall x, sem_cing SA SB x -> SA x) by (intros x [H _]; exact H).
  assert (T : meth_ok P2 (sem_cing SA SB) tau_spec (cing_tau_ A B)).
  { intros s k Hs Hk. unfold cing_tau_.
    go (tauA (sem_cing SA SB)). intros [s1 x] [Hs1 Hx].
    pose proof (tau_range _ _ _ GA Hx).
    eapply wp_mono; [apply (memo_rho_ok _ _ _ cing_rho_ok); [assumption|lia]|].
    intros [s2 r] [Hs2 Hr]. split; [exact Hs2|]. eapply (tau_via_rho SA); eauto. }
  assert (U : meth_ok P2 (sem_cing SA SB) uat_spec (cing_uat_ A B)).
  { intros s k Hs Hk. unfold cing_uat_.
    go (uatA (sem_cing SA SB)). intros [s1 x] [Hs1 Hx].
    pose proof (uat_range _ _ _ GA Hx).
    eapply wp_mono; [apply (memo_ohr_ok _ _ _ cing_ohr_ok); [assumption|lia]|].
    intros [s2 r] [Hs2 Hr]. split; [exact Hs2|]. eapply (uat_via_ohr SA); eauto. }
  constructor; cbn [h_tau h_rho h_uat h_ohr h_L h_R cing_hopper].
  - exact GC_cing.
  - apply memo_tau_ok, T.
  - apply memo_rho_ok, cing_rho_ok.
  - apply memo_uat_ok, U.
  - apply memo_ohr_ok, cing_ohr_ok.
  - apply base_L_ok, memo_uat_ok, U.
  - apply base_R_ok, memo_tau_ok, T.
Qed.

(** ** NotContainedIn *)
Lemma GC_nin : GC (sem_nin SA SB).
Proof. apply (GC_sub SA); [exact GA|]. intros x [H _]; exact H. Qed.

Lemma nin_tau_ok : meth_ok P2 (sem_nin SA SB) tau_spec (nin_tau_ A B).
Proof.
  intros s0 k0 Hs0 Hk0. unfold nin_tau_.
  go (tauA (sem_nin SA SB)). intros [s1 x0] [Hs1 Hx0].
  destruct ((ip x0 =? maxf) || (iq x0 =? minf)) eqn:E0.
  { cbn. split; [exact Hs1|]. inf.
    destruct Hx0 as [[Hkm ->]|[Hkm [(Hx & _ & _)|[-> Hn]]]].
    - left; auto.
    - pose proof (GC_fin _ _ GA Hx). fin.
    - right. split; [exact Hkm|]. right. split; [reflexivity|]. intros x [Hx _]. auto. }
  inf.
  destruct Hx0 as [[Hkm ->]|[Hkm [(Hx0 & Hkx0 & Hm0)|[-> Hn]]]]; cbn in E0; try lia.
  apply loop_rule with
    (Inv := fun '(s, x) => I (sem_nin SA SB) s /\ SA x /\ k0 <= ip x /\
                           forall z, sem_nin SA SB z -> k0 <= ip z -> ip x <= ip z)
    (mu := fun '(s, x) => maxf - iq x).
  - intros [s x] (_ & Hx & _). pose proof (GC_fin _ _ GA Hx). fin.
  - intros [s x] (Hs & Hx & Hkx & Hinv). pose proof (GC_fin _ _ GA Hx) as Fx.
    apply wp_bind. eapply wp_mono; [apply (rhoB (sem_nin SA SB)); [assumption|fin]|].
    intros [s2 y] [Hs2 Hy].
    destruct (Z.ltb_spec (ip x) (ip y)) as [Hxy|Hxy].
    + cbn. split; [exact Hs2|]. right. split; [exact Hkm|]. left.
      split; [split; [exact Hx|]|split; [exact Hkx|exact Hinv]].
      intros (b & Hb & Nb).
      destruct Hy as [[E _]|[_ [(Hy & Hqy & Hmy)|[-> Hn]]]]; [fin| |].
      * assert (iq y <= iq b). { apply Hmy; [exact Hb|]. fin. }
        assert (ip y <= ip b) by (apply (GC_le_pq SB); auto). fin.
      * specialize (Hn b Hb). fin.
    + destruct Hy as [[E _]|[_ [(Hy & Hqy & Hmy)|[-> Hn]]]]; [fin| |fin].
      pose proof (GC_fin _ _ GB Hy) as Fy.
      apply wp_bind, wp_chk; [fin|].
      apply wp_bind. eapply wp_mono; [apply (rhoA (sem_nin SA SB)); [assumption|fin]|].
      intros [s3 x'] [Hs3 Hx'].
      assert (Hstep : forall z, sem_nin SA SB z -> k0 <= ip z -> iq y + 1 <= iq z).
      { intros z [Hz Nz] Hkz. destruct (Z_lt_ge_dec (iq y) (iq z)); [lia|].
        exfalso. apply Nz. exists y. split; [exact Hy|].
        assert (ip x <= ip z) by (apply Hinv; [split|]; assumption). fin. }
      destruct (Z.eqb_spec (ip x') maxf) as [Ex|Ex].
      * cbn. split; [exact Hs3|].
        destruct Hx' as [[? _]|[_ [(Hx' & _ & _)|[-> Hn]]]]; [fin| |].
        -- pose proof (GC_fin _ _ GA Hx'). fin.
        -- right. split; [exact Hkm|]. right. split; [reflexivity|].
           intros z Hz. destruct (Z_lt_ge_dec (ip z) k0); [assumption|].
           specialize (Hstep z Hz ltac:(lia)). specialize (Hn z (proj1 Hz)). lia.
      * cbn. destruct Hx' as [[? _]|[_ [(Hx' & Hqx' & Hmx')|[-> Hn]]]]; [fin| |cbn in Ex; lia].
        assert (ip x <= ip x') by (apply (GC_le_pq SA); auto; lia).
        split; [|pose proof (GC_fin _ _ GA Hx'); fin].
        split; [exact Hs3|]. split; [exact Hx'|]. split; [lia|].
        intros z Hz Hkz. apply (GC_le_pq SA); auto; [apply Hz|].
        apply Hmx'; [apply Hz|]. apply Hstep; assumption.
  - split; [exact Hs1|]. split; [exact Hx0|]. split; [exact Hkx0|].
    intros z Hz Hkz. apply Hm0; [apply Hz|exact Hkz].
  - pose proof (GC_fin _ _ GA Hx0). unfold finite, minf, maxf, BIG in *; lia.
Qed.

Lemma nin_uat_ok : meth_ok P2 (sem_nin SA SB) uat_spec (nin_uat_ A B).
Proof.
  intros s0 k0 Hs0 Hk0. unfold nin_uat_.
  go (uatA (sem_nin SA SB)). intros [s1 x0] [Hs1 Hx0].
  destruct ((iq x0 =? minf) || (ip x0 =? maxf)) eqn:E0.
  { cbn. split; [exact Hs1|]. inf.
    destruct Hx0 as [[Hkm ->]|[Hkm [(Hx & _ & _)|[-> Hn]]]].
    - left; auto.
    - pose proof (GC_fin _ _ GA Hx). fin.
    - right. split; [exact Hkm|]. right. split; [reflexivity|]. intros x [Hx _]. auto. }
  inf.
  destruct Hx0 as [[Hkm ->]|[Hkm [(Hx0 & Hkx0 & Hm0)|[-> Hn]]]]; cbn in E0; try lia.
  apply loop_rule with
    (Inv := fun '(s, x) => I (sem_nin SA SB) s /\ SA x /\ iq x <= k0 /\
                           forall z, sem_nin SA SB z -> iq z <= k0 -> iq z <= iq x)
    (mu := fun '(s, x) => ip x - minf).
  - intros [s x] (_ & Hx & _). pose proof (GC_fin _ _ GA Hx). fin.
  - intros [s x] (Hs & Hx & Hkx & Hinv). pose proof (GC_fin _ _ GA Hx) as Fx.
    apply wp_bind. eapply wp_mono; [apply (ohrB (sem_nin SA SB)); [assumption|fin]|].
    intros [s2 y] [Hs2 Hy].
    destruct (Z.ltb_spec (iq y) (iq x)) as [Hxy|Hxy].
    + cbn. split; [exact Hs2|]. right. split; [exact Hkm|]. left.
      split; [split; [exact Hx|]|split; [exact Hkx|exact Hinv]].
      intros (b & Hb & Nb).
      destruct Hy as [[E _]|[_ [(Hy & Hqy & Hmy)|[-> Hn]]]]; [fin| |].
      * assert (ip b <= ip y). { apply Hmy; [exact Hb|]. fin. }
        assert (iq b <= iq y) by (apply (GC_le_pq SB); auto). fin.
      * specialize (Hn b Hb). fin.
    + destruct Hy as [[E _]|[_ [(Hy & Hqy & Hmy)|[-> Hn]]]]; [fin| |fin].
      pose proof (GC_fin _ _ GB Hy) as Fy.
      apply wp_bind, wp_chk; [fin|].
      apply wp_bind. eapply wp_mono; [apply (ohrA (sem_nin SA SB)); [assumption|fin]|].
      intros [s3 x'] [Hs3 Hx'].
      assert (Hstep : forall z, sem_nin SA SB z -> iq z <= k0 -> ip z <= ip y - 1).
      { intros z [Hz Nz] Hkz. destruct (Z_lt_ge_dec (ip z) (ip y)); [lia|].
        exfalso. apply Nz. exists y. split; [exact Hy|].
        assert (iq z <= iq x) by (apply Hinv; [split|]; assumption). fin. }
      destruct (Z.eqb_spec (iq x') minf) as [Ex|Ex].
      * cbn. split; [exact Hs3|].
        destruct Hx' as [[? _]|[_ [(Hx' & _ & _)|[-> Hn]]]]; [fin| |].
        -- pose proof (GC_fin _ _ GA Hx'). fin.
        -- right. split; [exact Hkm|]. right. split; [reflexivity|].
           intros z Hz. destruct (Z_lt_ge_dec k0 (iq z)); [assumption|].
           specialize (Hstep z Hz ltac:(lia)). specialize (Hn z (proj1 Hz)). lia.
      * cbn. destruct Hx' as [[? _]|[_ [(Hx' & Hqx' & Hmx')|[-> Hn]]]]; [fin| |cbn in Ex; lia].
        assert (iq x' <= iq x) by (apply (GC_le_pq SA); auto; lia).
        split; [|pose proof (GC_fin _ _ GA Hx'); fin].
        split; [exact Hs3|]. split; [exact Hx'|]. split; [lia|].
        intros z Hz Hkz. apply (GC_le_pq SA); auto; [apply Hz|].
        apply Hmx'; [apply Hz|]. apply Hstep; assumption.
  - split; [exact Hs1|]. split; [exact Hx0|]. split; [exact Hkx0|].
    intros z Hz Hkz. apply Hm0; [apply Hz|exact Hkz].
  - pose proof (GC_fin _ _ GA Hx0). unfold finite, minf, maxf, BIG in *; lia.
Qed.

Lemma nin_ok : hop_ok (nin_hopper A B) (sem_nin SA SB) (I (sem_nin SA SB)).
Proof.
  assert (SUB : forall x, sem_nin SA SB x -> SA x) by (intros x [H _]; exact H).
  constructor; cbn [h_tau h_rho h_uat h_ohr h_L h_R nin_hopper].
  - exact GC_nin.
  - apply memo_tau_ok, nin_tau_ok.
  - apply memo_rho_ok. intros s k Hs Hk. unfold nin_rho_.
    go (rhoA (sem_nin SA SB)). intros [s1 x] [Hs1 Hx].
    pose proof (rho_range _ _ _ GA Hx).
    eapply wp_mono; [apply (memo_tau_ok _ _ _ nin_tau_ok); [assumption|lia]|].
    intros [s2 r] [Hs2 Hr]. split; [exact Hs2|]. eapply (rho_via_tau SA); eauto.
  - apply memo_uat_ok, nin_uat_ok.
  - apply memo_ohr_ok. intros s k Hs Hk. unfold nin_ohr_.
    go (ohrA (sem_nin SA SB)). intros [s1 x] [Hs1 Hx].
    pose proof (ohr_range _ _ _ GA Hx).
    eapply wp_mono; [apply (memo_uat_ok _ _ _ nin_uat_ok); [assumption|lia]|].
    intros [s2 r] [Hs2 Hr]. split; [exact Hs2|]. eapply (ohr_via_uat SA); eauto.
  - apply base_L_ok, memo_uat_ok, nin_uat_ok.
  - apply base_R_ok, memo_tau_ok, nin_tau_ok.
Qed.

(** ** NotContaining *)
Lemma GC_nct : GC (sem_nct SA SB).
Proof. apply (GC_sub SA); [exact GA|]. intros x [H _]; exact H. Qed.

Lemma nct_rho_ok : meth_ok P2 (sem_nct SA SB) rho_spec (nct_rho_ A B).
Proof.
  intros s0 k0 Hs0 Hk0. unfold nct_rho_.
  go (rhoA (sem_nct SA SB)). intros [s1 x0] [Hs1 Hx0].
  destruct ((iq x0 =? maxf) || (ip x0 =? minf)) eqn:E0.
  { cbn. split; [exact Hs1|]. inf.
    destruct Hx0 as [[Hkm ->]|[Hkm [(Hx & _ & _)|[-> Hn]]]].
    - left; auto.
    - pose proof (GC_fin _ _ GA Hx). fin.
    - right. split; [exact Hkm|]. right. split; [reflexivity|]. intros x [Hx _]. auto. }
  inf.
  destruct Hx0 as [[Hkm ->]|[Hkm [(Hx0 & Hkx0 & Hm0)|[-> Hn]]]]; cbn in E0; try lia.
  apply loop_rule with
    (Inv := fun '(s, x) => I (sem_nct SA SB) s /\ SA x /\ k0 <= iq x /\
                           forall z, sem_nct SA SB z -> k0 <= iq z -> iq x <= iq z)
    (mu := fun '(s, x) => maxf - ip x).
  - intros [s x] (_ & Hx & _). pose proof (GC_fin _ _ GA Hx). fin.
  - intros [s x] (Hs & Hx & Hkx & Hinv). pose proof (GC_fin _ _ GA Hx) as Fx.
    apply wp_bind. eapply wp_mono; [apply (tauB (sem_nct SA SB)); [assumption|fin]|].
    intros [s2 y] [Hs2 Hy].
    destruct (Z.ltb_spec (iq x) (iq y)) as [Hxy|Hxy].
    + cbn. split; [exact Hs2|]. right. split; [exact Hkm|]. left.
      split; [split; [exact Hx|]|split; [exact Hkx|exact Hinv]].
      intros (b & Hb & Nb).
      destruct Hy as [[E _]|[_ [(Hy & Hqy & Hmy)|[-> Hn]]]]; [fin| |].
      * assert (ip y <= ip b). { apply Hmy; [exact Hb|]. fin. }
        assert (iq y <= iq b) by (apply (GC_le_pq SB); auto). fin.
      * specialize (Hn b Hb). fin.
    + destruct Hy as [[E _]|[_ [(Hy & Hqy & Hmy)|[-> Hn]]]]; [fin| |fin].
      pose proof (GC_fin _ _ GB Hy) as Fy.
      apply wp_bind, wp_chk; [fin|].
      apply wp_bind. eapply wp_mono; [apply (tauA (sem_nct SA SB)); [assumption|fin]|].
      intros [s3 x'] [Hs3 Hx'].
      assert (Hstep : forall z, sem_nct SA SB z -> k0 <= iq z -> ip y + 1 <= ip z).
      { intros z [Hz Nz] Hkz. destruct (Z_lt_ge_dec (ip y) (ip z)); [lia|].
        exfalso. apply Nz. exists y. split; [exact Hy|].
        assert (iq x <= iq z) by (apply Hinv; [split|]; assumption). fin. }
      destruct (Z.eqb_spec (iq x') maxf) as [Ex|Ex].
      * cbn. split; [exact Hs3|].
        destruct Hx' as [[? _]|[_ [(Hx' & _ & _)|[-> Hn]]]]; [fin| |].
        -- pose proof (GC_fin _ _ GA Hx'). fin.
        -- right. split; [exact Hkm|]. right. split; [reflexivity|].
           intros z Hz. destruct (Z_lt_ge_dec (iq z) k0); [assumption|].
           specialize (Hstep z Hz ltac:(lia)). specialize (Hn z (proj1 Hz)). lia.
      * cbn. destruct Hx' as [[? _]|[_ [(Hx' & Hqx' & Hmx')|[-> Hn]]]]; [fin| |cbn in Ex; lia].
        assert (iq x <= iq x') by (apply (GC_le_pq SA); auto; lia).
        split; [|pose proof (GC_fin _ _ GA Hx'); fin].
        split; [exact Hs3|]. split; [exact Hx'|]. split; [lia|].
        intros z Hz Hkz. apply (GC_le_pq SA); auto; [apply Hz|].
        apply Hmx'; [apply Hz|]. apply Hstep; assumption.
  - split; [exact Hs1|]. split; [exact Hx0|]. split; [exact Hkx0|].
    intros z Hz Hkz. apply Hm0; [apply Hz|exact Hkz].
  - pose proof (GC_fin _ _ GA Hx0). unfold finite, minf, maxf, BIG in *; lia.
Qed.

Lemma nct_ohr_ok : meth_ok P2 (sem_nct SA SB) ohr_spec (nct_ohr_ A B).
Proof.
  intros s0 k0 Hs0 Hk0. unfold nct_ohr_.
  go (ohrA (sem_nct SA SB)). intros [s1 x0] [Hs1 Hx0].
  destruct ((ip x0 =? minf) || (iq x0 =? maxf)) eqn:E0.
  { cbn. split; [exact Hs1|]. inf.
    destruct Hx0 as [[Hkm ->]|[Hkm [(Hx & _ & _)|[-> Hn]]]].
    - left; auto.
    - pose proof (GC_fin _ _ GA Hx). fin.
    - right. split; [exact Hkm|]. right. split; [reflexivity|]. intros x [Hx _]. auto. }
  inf.
  destruct Hx0 as [[Hkm ->]|[Hkm [(Hx0 & Hkx0 & Hm0)|[-> Hn]]]]; cbn in E0; try lia.
  apply loop_rule with
    (Inv := fun '(s, x) => I (sem_nct SA SB) s /\ SA x /\ ip x <= k0 /\
                           forall z, sem_nct SA SB z -> ip z <= k0 -> ip z <= ip x)
    (mu := fun '(s, x) => iq x - minf).
  - intros [s x] (_ & Hx & _). pose proof (GC_fin _ _ GA Hx). fin.
  - intros [s x] (Hs & Hx & Hkx & Hinv). pose proof (GC_fin _ _ GA Hx) as Fx.
    apply wp_bind. eapply wp_mono; [apply (uatB (sem_nct SA SB)); [assumption|fin]|].
    intros [s2 y] [Hs2 Hy].
    destruct (Z.ltb_spec (ip y) (ip x)) as [Hxy|Hxy].
    + cbn. split; [exact Hs2|]. right. split; [exact Hkm|]. left.
      split; [split; [exact Hx|]|split; [exact Hkx|exact Hinv]].
      intros (b & Hb & Nb).
      destruct Hy as [[E _]|[_ [(Hy & Hqy & Hmy)|[-> Hn]]]]; [fin| |].
      * assert (iq b <= iq y). { apply Hmy; [exact Hb|]. fin. }
        assert (ip b <= ip y) by (apply (GC_le_pq SB); auto). fin.
      * specialize (Hn b Hb). fin.
    + destruct Hy as [[E _]|[_ [(Hy & Hqy & Hmy)|[-> Hn]]]]; [fin| |fin].
      pose proof (GC_fin _ _ GB Hy) as Fy.
      apply wp_bind, wp_chk; [fin|].
      apply wp_bind. eapply wp_mono; [apply (uatA (sem_nct SA SB)); [assumption|fin]|].
      intros [s3 x'] [Hs3 Hx'].
      assert (Hstep : forall z, sem_nct SA SB z -> ip z <= k0 -> iq z <= iq y - 1).
      { intros z [Hz Nz] Hkz. destruct (Z_lt_ge_dec (iq z) (iq y)); [lia|].
        exfalso. apply Nz. exists y. split; [exact Hy|].
        assert (ip z <= ip x) by (apply Hinv; [split|]; assumption). fin. }
      destruct (Z.eqb_spec (ip x') minf) as [Ex|Ex].
      * cbn. split; [exact Hs3|].
        destruct Hx' as [[? _]|[_ [(Hx' & _ & _)|[-> Hn]]]]; [fin| |].
        -- pose proof (GC_fin _ _ GA Hx'). fin.
        -- right. split; [exact Hkm|]. right. split; [reflexivity|].
           intros z Hz. destruct (Z_lt_ge_dec k0 (ip z)); [assumption|].
           specialize (Hstep z Hz ltac:(lia)). specialize (Hn z (proj1 Hz)). lia.
      * cbn. destruct Hx' as [[? _]|[_ [(Hx' & Hqx' & Hmx')|[-> Hn]]]]; [fin| |cbn in Ex; lia].
        assert (ip x' <= ip x) by (apply (GC_le_pq SA); auto; lia).
        split; [|pose proof (GC_fin _ _ GA Hx'); fin].
        split; [exact Hs3|]. split; [exact Hx'|]. split; [lia|].
        intros z Hz Hkz. apply (GC_le_pq SA); auto; [apply Hz|].
        apply Hmx'; [apply Hz|]. apply Hstep; assumption.
  - split; [exact Hs1|]. split; [exact Hx0|]. split; [exact Hkx0|].
    intros z Hz Hkz. apply Hm0; [apply Hz|exact Hkz].
  - pose proof (GC_fin _ _ GA Hx0). unfold finite, minf, maxf, BIG in *; lia.
Qed.

Lemma nct_ok : hop_ok (nct_hopper A B) (sem_nct SA SB) (I (sem_nct SA SB)).
Proof.
  assert (SUB : forall x, sem_nct SA SB x -> SA x) by (intros x [H _]; exact H).
  assert (T : meth_ok P2 (sem_nct SA SB) tau_spec (nct_tau_ A B)).
  { intros s k Hs Hk. unfold nct_tau_.
    go (tauA (sem_nct SA SB)). intros [s1 x] [Hs1 Hx].
    pose proof (tau_range _ _ _ GA Hx).
    eapply wp_mono; [apply (memo_rho_ok _ _ _ nct_rho_ok); [assumption|lia]|].
    intros [s2 r] [Hs2 Hr]. split; [exact Hs2|]. eapply (tau_via_rho SA); eauto. }
  assert (U : meth_ok P2 (sem_nct SA SB) uat_spec (nct_uat_ A B)).
  { intros s k Hs Hk. unfold nct_uat_.
    go (uatA (sem_nct SA SB)). intros [s1 x] [Hs1 Hx].
    pose proof (uat_range _ _ _ GA Hx).
    eapply wp_mono; [apply (memo_ohr_ok _ _ _ nct_ohr_ok); [assumption|lia]|].
    intros [s2 r] [Hs2 Hr]. split; [exact Hs2|]. eapply (uat_via_ohr SA); eauto. }
  constructor; cbn [h_tau h_rho h_uat h_ohr h_L h_R nct_hopper].
  - exact GC_nct.
  - apply memo_tau_ok, T.
  - apply memo_rho_ok, nct_rho_ok.
  - apply memo_uat_ok, U.
  - apply memo_ohr_ok, nct_ohr_ok.
  - apply base_L_ok, memo_uat_ok, U.
  - apply base_R_ok, memo_tau_ok, T.
Qed.

(** ** Merge *)
Lemma GC_merge : GC (sem_merge SA SB).
Proof.
  split.
  - intros x [[H|[H _]] _]; [apply GA|apply GB]; exact H.
  - intros x y [Hx Mx] [Hy My] N.
    assert (Uy : SA y \/ SB y) by tauto. assert (Ux : SA x \/ SB x) by tauto.
    pose proof (Mx y Uy N) as N'.
    destruct Hx as [Hx|[Hx Nx]], Hy as [Hy|[Hy Ny]].
    + apply GA; assumption.
    + exfalso. apply Ny. exists x. split; [assumption|]. fin.
    + exfalso. apply Nx. exists y. split; [assumption|]. fin.
    + apply GB; assumption.
Qed.

Lemma mrg_tau_ok : meth_ok P2 (sem_merge SA SB) tau_spec (mrg_tau_ A B).
Proof.
  intros s k Hs Hk. unfold mrg_tau_.
  go (tauA (sem_merge SA SB)). intros [s1 x] [Hs1 Hx].
  go (tauB (sem_merge SA SB)). intros [s2 y] [Hs2 Hy]. inf.
  destruct Hx as [[-> ->]|[Hk0 Hx]].
  { destruct Hy as [[_ ->]|[? _]]; [|congruence]. cbn.
    rewrite !Z.ltb_irrefl. cbn. split; [exact Hs2|left; auto]. }
  destruct Hy as [[? _]|[_ Hy]]; [congruence|].
  (* taking the left answer *)
  assert (LEFT : SA x -> iq x < iq y \/ (iq x = iq y /\ ip y <= ip x) -> tau_spec (sem_merge SA SB) k x).
  { intros HSx Hc. right. split; [exact Hk0|]. left.
    destruct Hx as [(_ & Hkx & Mx)|[-> _]]; [|pose proof (GC_fin _ _ GA HSx); fin].
    split; [split; [left; exact HSx|]|split; [exact Hkx|]].
    - intros z [Hz|Hz] N.
      + assert (x = z) by (apply GA; assumption). subst z. fin.
      + destruct Hy as [(HSy & Hky & My)|[-> My]].
        * assert (ip y <= ip z) by (apply My; [exact Hz|fin]).
          assert (iq y <= iq z) by (apply (GC_le_pq SB); auto).
          assert (y = z) by (apply (GC_eq_iq SB); auto; fin). subst z. fin.
        * specialize (My z Hz). fin.
    - intros z [[Hz|[Hz _]] Mz] Hkz; [apply Mx; assumption|].
      destruct (Z_le_gt_dec (ip x) (ip z)); [assumption|].
      destruct Hy as [(HSy & Hky & My)|[-> My]]; [|specialize (My z Hz); lia].
      assert (ip y <= ip z) by (apply My; assumption).
      assert (iq y <= iq z) by (apply (GC_le_pq SB); auto).
      assert (nests x z) by (apply Mz; [left; exact HSx|fin]). fin. }
  (* taking the right answer *)
  assert (RIGHT : SB y -> iq y < iq x \/ (iq x = iq y /\ ip x < ip y) -> tau_spec (sem_merge SA SB) k y).
  { intros HSy Hc. right. split; [exact Hk0|]. left.
    destruct Hy as [(_ & Hky & My)|[-> _]]; [|pose proof (GC_fin _ _ GB HSy); fin].
    split; [split; [right; split; [exact HSy|]|]|split; [exact Hky|]].
    - intros (a & Ha & Ep & Eq). destruct Hx as [(HSx & Hkx & Mx)|[-> Mx]].
      + assert (ip x <= ip a) by (apply Mx; [exact Ha|lia]).
        assert (iq x <= iq a) by (apply (GC_le_pq SA); auto).
        assert (x = a) by (apply (GC_eq_iq SA); auto; lia). subst a. lia.
      + specialize (Mx a Ha). lia.
    - intros z [Hz|Hz] N.
      + destruct Hx as [(HSx & Hkx & Mx)|[-> Mx]].
        * assert (ip x <= ip z) by (apply Mx; [exact Hz|fin]).
          assert (iq x <= iq z) by (apply (GC_le_pq SA); auto).
          assert (x = z) by (apply (GC_eq_iq SA); auto; fin). subst z. fin.
        * specialize (Mx z Hz). fin.
      + assert (y = z) by (apply GB; assumption). subst z. fin.
    - intros z [[Hz|[Hz _]] Mz] Hkz; [|apply My; assumption].
      destruct (Z_le_gt_dec (ip y) (ip z)); [assumption|].
      destruct Hx as [(HSx & Hkx & Mx)|[-> Mx]]; [|specialize (Mx z Hz); lia].
      assert (ip x <= ip z) by (apply Mx; assumption).
      assert (iq x <= iq z) by (apply (GC_le_pq SA); auto).
      assert (nests y z) by (apply Mz; [right; exact HSy|fin]). fin. }
  assert (Fx : SA x \/ x = maxr) by (unfold maxr; tauto).
  assert (Fy : SB y \/ y = maxr) by (unfold maxr; tauto).
  assert (BOTH : x = maxr -> y = maxr -> tau_spec (sem_merge SA SB) k x).
  { intros -> ->. right. split; [exact Hk0|]. right. split; [reflexivity|].
    intros z [[Hz|[Hz _]] _].
    - destruct Hx as [(Hx & _)|[_ Mx]]; [pose proof (GC_fin _ _ GA Hx); unfold maxr in *; fin|auto].
    - destruct Hy as [(Hy & _)|[_ My]]; [pose proof (GC_fin _ _ GB Hy); unfold maxr in *; fin|auto]. }
  assert (Bx : iq x <= maxf). { destruct Fx as [F| ->]; [pose proof (GC_fin _ _ GA F)|]; unfold maxr in *; fin. }
  assert (By : iq y <= maxf). { destruct Fy as [F| ->]; [pose proof (GC_fin _ _ GB F)|]; unfold maxr in *; fin. }
  destruct (Z.ltb_spec (iq x) (iq y)); [|destruct (Z.ltb_spec (iq y) (iq x)); [|destruct (Z.ltb_spec (ip x) (ip y))]];
    cbn; (split; [exact Hs2|]).
  - apply LEFT; [|lia]. destruct Fx as [F| ->]; [exact F|]. unfold maxr in *; fin.
  - apply RIGHT; [|lia]. destruct Fy as [F| ->]; [exact F|]. unfold maxr in *; fin.
  - apply RIGHT; [|lia]. destruct Fy as [F| ->]; [exact F|].
    destruct Fx as [F| ->]; [pose proof (GC_fin _ _ GA F); unfold maxr in *; fin|unfold maxr in *; fin].
  - destruct Fx as [F|F]; [apply LEFT; [exact F|lia]|].
    apply BOTH; [exact F|]. destruct Fy as [Fy| ->]; [|reflexivity].
    pose proof (GC_fin _ _ GB Fy). subst x; unfold maxr in *; fin.
Qed.

(** uat: the code resolves equal starts towards the later end (gcl.cc:325), so
    it answers the innermost interval only when equal starts mean equal ends.
    The start it answers is always right. *)
Lemma mrg_uat_gen s k : P2 (sub s) -> minf <= k <= maxf ->
  wp (mrg_uat_ A B s k)
     (fun '(s', r) => P2 (sub s') /\ ct s' = ct s /\ cr s' = cr s /\ cu s' = cu s /\ co s' = co s /\
        (exists x, uat_spec (sem_merge SA SB) k x /\ ip r = ip x) /\
        ((forall a b, SA a -> SB b -> ip a = ip b -> iq a = iq b) -> uat_spec (sem_merge SA SB) k r)).
Proof.
  intros Hs Hk. unfold mrg_uat_, on_left, on_right. destruct Hs as [Ha Hb].
  apply wp_bind. apply wp_bind. eapply wp_mono; [apply (hop_uat HA); assumption|].
  intros [sa x] [Hsa Hx]. apply wp_ok.
  apply wp_bind. apply wp_bind. eapply wp_mono; [apply (hop_uat HB); [exact Hb|assumption]|].
  intros [sb y] [Hsb Hy]. apply wp_ok. inf.
  set (s2 := set_sub _ _).
  assert (Hs2 : P2 (sub s2)) by (split; assumption).
  assert (E : forall r, (exists x0, uat_spec (sem_merge SA SB) k x0 /\ ip r = ip x0) /\
        ((forall a b, SA a -> SB b -> ip a = ip b -> iq a = iq b) -> uat_spec (sem_merge SA SB) k r) ->
        wp (Ok (s2, r)) (fun '(s', r) => P2 (sub s') /\ ct s' = ct s /\ cr s' = cr s /\ cu s' = cu s /\ co s' = co s /\
        (exists x, uat_spec (sem_merge SA SB) k x /\ ip r = ip x) /\
        ((forall a b, SA a -> SB b -> ip a = ip b -> iq a = iq b) -> uat_spec (sem_merge SA SB) k r))).
  { intros r Hr. cbn. repeat (split; [first [exact Hs2|reflexivity]|]). exact Hr. }
  destruct Hx as [[-> ->]|[Hk0 Hx]].
  { destruct Hy as [[_ ->]|[? _]]; [|congruence]. cbn [ip iq].
    rewrite !Z.ltb_irrefl. apply E. split; [exists maxr; split; [left; auto|reflexivity]|intros _; left; auto]. }
  destruct Hy as [[? _]|[_ Hy]]; [congruence|].
  (* the true answer is the left one *)
  assert (LEFT : SA x -> ip y < ip x \/ (ip x = ip y /\ iq x <= iq y) -> uat_spec (sem_merge SA SB) k x).
  { intros HSx Hc. right. split; [exact Hk0|]. left.
    destruct Hx as [(_ & Hkx & Mx)|[-> _]]; [|pose proof (GC_fin _ _ GA HSx); fin].
    split; [split; [left; exact HSx|]|split; [exact Hkx|]].
    - intros z [Hz|Hz] N.
      + assert (x = z) by (apply GA; assumption). subst z. fin.
      + destruct Hy as [(HSy & Hky & My)|[-> My]].
        * assert (iq z <= iq y) by (apply My; [exact Hz|fin]).
          assert (ip z <= ip y) by (apply (GC_le_pq SB); auto).
          assert (y = z) by (apply (GC_eq_ip SB); auto; fin). subst z. fin.
        * specialize (My z Hz). fin.
    - intros z [[Hz|[Hz _]] Mz] Hkz; [apply Mx; assumption|].
      destruct (Z_le_gt_dec (iq z) (iq x)); [assumption|].
      destruct Hy as [(HSy & Hky & My)|[-> My]]; [|specialize (My z Hz); lia].
      assert (iq z <= iq y) by (apply My; assumption).
      assert (ip z <= ip y) by (apply (GC_le_pq SB); auto).
      assert (nests x z) by (apply Mz; [left; exact HSx|fin]). fin. }
  assert (RIGHT : SB y -> ip x < ip y \/ (ip x = ip y /\ iq y < iq x) -> uat_spec (sem_merge SA SB) k y).
  { intros HSy Hc. right. split; [exact Hk0|]. left.
    destruct Hy as [(_ & Hky & My)|[-> _]]; [|pose proof (GC_fin _ _ GB HSy); fin].
    split; [split; [right; split; [exact HSy|]|]|split; [exact Hky|]].
    - intros (a & Haa & Ep & Eq). destruct Hx as [(HSx & Hkx & Mx)|[-> Mx]].
      + assert (iq a <= iq x) by (apply Mx; [exact Haa|lia]).
        assert (ip a <= ip x) by (apply (GC_le_pq SA); auto).
        assert (x = a) by (apply (GC_eq_ip SA); auto; lia). subst a. lia.
      + specialize (Mx a Haa). lia.
    - intros z [Hz|Hz] N.
      + destruct Hx as [(HSx & Hkx & Mx)|[-> Mx]].
        * assert (iq z <= iq x) by (apply Mx; [exact Hz|fin]).
          assert (ip z <= ip x) by (apply (GC_le_pq SA); auto).
          assert (x = z) by (apply (GC_eq_ip SA); auto; fin). subst z. fin.
        * specialize (Mx z Hz). fin.
      + assert (y = z) by (apply GB; assumption). subst z. fin.
    - intros z [[Hz|[Hz _]] Mz] Hkz; [|apply My; assumption].
      destruct (Z_le_gt_dec (iq z) (iq y)); [assumption|].
      destruct Hx as [(HSx & Hkx & Mx)|[-> Mx]]; [|specialize (Mx z Hz); lia].
      assert (iq z <= iq x) by (apply Mx; assumption).
      assert (ip z <= ip x) by (apply (GC_le_pq SA); auto).
      assert (nests y z) by (apply Mz; [right; exact HSy|fin]). fin. }
  assert (Fx : SA x \/ x = minr) by (unfold minr; tauto).
  assert (Fy : SB y \/ y = minr) by (unfold minr; tauto).
  assert (BOTH : x = minr -> y = minr -> uat_spec (sem_merge SA SB) k minr).
  { intros -> ->. right. split; [exact Hk0|]. right. split; [reflexivity|].
    intros z [[Hz|[Hz _]] _].
    - destruct Hx as [(Hx & _)|[_ Mx]]; [pose proof (GC_fin _ _ GA Hx); unfold minr in *; fin|auto].
    - destruct Hy as [(Hy & _)|[_ My]]; [pose proof (GC_fin _ _ GB Hy); unfold minr in *; fin|auto]. }
  assert (Bx : minf <= ip x). { destruct Fx as [F| ->]; [pose proof (GC_fin _ _ GA F)|]; unfold minr in *; fin. }
  assert (By : minf <= ip y). { destruct Fy as [F| ->]; [pose proof (GC_fin _ _ GB F)|]; unfold minr in *; fin. }
  destruct (Z.ltb_spec (ip y) (ip x)); [|destruct (Z.ltb_spec (ip x) (ip y))].
  - assert (U : uat_spec (sem_merge SA SB) k x).
    { apply LEFT; [|lia]. destruct Fx as [F| ->]; [exact F|]. unfold minr in *; fin. }
    apply E. split; [exists x; auto|auto].
  - assert (U : uat_spec (sem_merge SA SB) k y).
    { apply RIGHT; [|lia]. destruct Fy as [F| ->]; [exact F|]. unfold minr in *; fin. }
    apply E. split; [exists y; auto|auto].
  - assert (Exy : ip x = ip y) by lia.
    destruct Fx as [Fx|Fx]; destruct Fy as [Fy|Fy].
    2:{ pose proof (GC_fin _ _ GA Fx). subst y. unfold minr in *. fin. }
    2:{ pose proof (GC_fin _ _ GB Fy). subst x. unfold minr in *. fin. }
    + assert (U : exists z, uat_spec (sem_merge SA SB) k z /\ ip z = ip x).
      { destruct (Z_le_gt_dec (iq x) (iq y)).
        - exists x. split; [apply LEFT; [assumption|lia]|reflexivity].
        - exists y. split; [apply RIGHT; [assumption|lia]|lia]. }
      destruct U as (z & Uz & Ez).
      destruct (Z.ltb_spec (iq x) (iq y)); apply E; (split; [exists z; split; [exact Uz|lia]|]); intros Hc;
        specialize (Hc x y Fx Fy Exy); [lia|]. apply LEFT; [assumption|lia].
    + specialize (BOTH Fx Fy). subst x y. cbn [iq minr]. rewrite Z.ltb_irrefl. apply E.
      split; [exists minr; auto|auto].
Qed.


Lemma mrg_uat_ok : starts_agree SA SB -> meth_ok P2 (sem_merge SA SB) uat_spec (mrg_uat_ A B).
Proof.
  intros Hc s k [Hs Hm] Hk. eapply wp_mono; [apply mrg_uat_gen; assumption|].
  intros [s' r] (H1 & E1 & E2 & E3 & E4 & _ & H2). split; [|apply H2, Hc].
  split; [exact H1|]. unfold minv. rewrite E1, E2, E3, E4. exact Hm.
Qed.

Lemma mrg_ok : starts_agree SA SB -> hop_ok (mrg_hopper A B) (sem_merge SA SB) (I (sem_merge SA SB)).
Proof.
  intros Hc.
  assert (T := memo_tau_ok _ _ _ mrg_tau_ok). assert (U := memo_uat_ok _ _ _ (mrg_uat_ok Hc)).
  constructor; cbn [h_tau h_rho h_uat h_ohr h_L h_R mrg_hopper].
  - exact GC_merge.
  - exact T.
  - apply memo_rho_ok. exact (rho_shape _ _ _ _ GC_merge (base_L_ok _ _ _ U) T).
  - exact U.
  - apply memo_ohr_ok. exact (ohr_shape _ _ _ _ GC_merge (base_R_ok _ _ _ T) U).
  - exact (base_L_ok _ _ _ U).
  - exact (base_R_ok _ _ _ T).
Qed.

(** Without [starts_agree]: tau, rho, L and R still answer per specification,
    in any history (of all six methods). *)
Definition fwd_inv (s : mst (St A * St B)) : Prop :=
  P2 (sub s) /\ tau_spec (sem_merge SA SB) (mk (ct s)) (mr (ct s)) /\
  rho_spec (sem_merge SA SB) (mk (cr s)) (mr (cr s)) /\
  exists x, uat_spec (sem_merge SA SB) (mk (cu s)) x /\ ip (mr (cu s)) = ip x.

Lemma fwd_tau s k : fwd_inv s -> minf <= k <= maxf ->
  wp (mrg_tau A B s k) (fun '(s', r) => fwd_inv s' /\ tau_spec (sem_merge SA SB) k r).
Proof.
  intros (H1 & H2 & H3 & H4) Hk. unfold mrg_tau, memo_tau.
  destruct (Z.eqb_spec k (mk (ct s))) as [->|E]; [cbn; repeat split; auto; apply H1|].
  (* mrg_tau_ keeps the memos *)
  assert (G : wp (mrg_tau_ A B s k) (fun '(s', r) => (P2 (sub s') /\ ct s' = ct s /\ cr s' = cr s /\ cu s' = cu s) /\ tau_spec (sem_merge SA SB) k r)).
  { pose proof (mrg_tau_ok (fresh (sub s)) k ltac:(apply fresh_inv; exact H1) Hk) as H.
    revert H. unfold mrg_tau_, on_left, on_right, bind. cbn [sub fresh set_sub fst snd].
    destruct (h_tau A (fst (sub s)) k) as [[a x]| |]; cbn [wp]; try tauto. cbn [sub set_sub fst snd].
    destruct (h_tau B (snd (sub s)) k) as [[b y]| |]; cbn [wp]; try tauto.
    cbn [sub set_sub fst snd].
    destruct (iq x <? iq y); [|destruct (iq y <? iq x); [|destruct (ip x <? ip y)]]; cbn; intros [[HP _] HT]; auto. }
  apply wp_bind. eapply wp_mono; [exact G|]. intros [s' r] [(P' & E1 & E2 & E3) HT]. cbn.
  split; [|exact HT]. unfold fwd_inv; cbn. rewrite E2, E3. auto.
Qed.
Lemma fwd_uat s k : fwd_inv s -> minf <= k <= maxf ->
  wp (mrg_uat A B s k) (fun '(s', r) => fwd_inv s' /\ exists x, uat_spec (sem_merge SA SB) k x /\ ip r = ip x).
Proof.
  intros (H1 & H2 & H3 & H4) Hk. unfold mrg_uat, memo_uat.
  destruct (Z.eqb_spec k (mk (cu s))) as [->|E]; [cbn; repeat split; auto; apply H1|].
  apply wp_bind. eapply wp_mono; [apply mrg_uat_gen; assumption|].
  intros [s' r] (P' & E1 & E2 & E3 & E4 & HU & _). cbn. split; [|exact HU].
  unfold fwd_inv; cbn. rewrite E1, E2. auto.
Qed.
Lemma fwd_L s k : fwd_inv s -> minf <= k <= maxf ->
  wp (base_L (mrg_uat A B) s k) (fun '(s', r) => fwd_inv s' /\ L_spec (sem_merge SA SB) k r).
Proof.
  intros Hs Hk. unfold base_L. apply wp_bind. eapply wp_mono; [apply fwd_uat; assumption|].
  intros [s' r] [Hs' (x & Hx & Ex)]. cbn. split; [exact Hs'|]. exists x. auto.
Qed.
Lemma fwd_R s k : fwd_inv s -> minf <= k <= maxf ->
  wp (base_R (mrg_tau A B) s k) (fun '(s', r) => fwd_inv s' /\ R_spec (sem_merge SA SB) k r).
Proof.
  intros Hs Hk. unfold base_R. apply wp_bind. eapply wp_mono; [apply fwd_tau; assumption|].
  intros [s' r] [Hs' Hx]. cbn. split; [exact Hs'|]. exists r. auto.
Qed.
Lemma fwd_rho s k : fwd_inv s -> minf <= k <= maxf ->
  wp (memo_rho (mrg_rho_ A B) s k) (fun '(s', r) => fwd_inv s' /\ rho_spec (sem_merge SA SB) k r).
Proof.
  intros Hs Hk. unfold memo_rho.
  destruct (Z.eqb_spec k (mk (cr s))) as [->|E]; [cbn; split; [exact Hs|apply Hs]|].
  apply wp_bind. eapply wp_mono; [exact (rho_shape _ _ _ _ GC_merge fwd_L fwd_tau s k Hs Hk)|].
  intros [s' r] [(H1 & H2 & H3 & H4) Hr]. cbn. split; [|exact Hr]. unfold fwd_inv; cbn. auto.
Qed.
Lemma fwd_ohr s k : fwd_inv s -> minf <= k <= maxf ->
  wp (memo_ohr (mrg_ohr_ A B) s k) (fun '(s', r) => fwd_inv s').
Proof.
  intros Hs Hk. unfold memo_ohr.
  destruct (Z.eqb_spec k (mk (co s))) as [->|E]; [cbn; exact Hs|].
  apply wp_bind. apply wp_mono with (P := fun '(s', r) => fwd_inv s').
  2:{ intros [s' r] H. exact H. }
  unfold mrg_ohr_. inf.
  destruct (Z.eqb_spec k maxf); [exact Hs|].
  apply wp_bind, wp_chk; [lia|]. apply wp_bind.
  eapply wp_mono; [apply fwd_R; [exact Hs|lia]|]. intros [s1 l] [Hs1 Hl].
  pose proof (R_not_min _ (k + 1) l GC_merge ltac:(lia) Hl). pose proof (R_range _ _ _ GC_merge Hl).
  destruct (Z.eqb_spec l minf); [lia|]. apply wp_bind, wp_chk; [lia|].
  eapply wp_mono; [apply fwd_uat; [exact Hs1|lia]|]. intros [s2 r] [Hs2 _]. exact Hs2.
Qed.

Lemma mrg_fwd s h : fwd_inv s -> Forall (fun mk => minf <= snd mk <= maxf) h ->
  exists rs, run (mrg_hopper A B) s h = Ok rs /\
    Forall2 (fun mk r => match fst mk with Muat | Mohr => True | _ => answer (sem_merge SA SB) mk r end) h rs.
Proof.
  revert s. induction h as [|[m k] h IH]; intros s Hs Hf.
  - exists []. split; [reflexivity|constructor].
  - inversion Hf as [|? ? Hk Hf']; subst. cbn in Hk.
    assert (Hc : wp (call (mrg_hopper A B) s m k) (fun '(s', r) => fwd_inv s' /\
       match m with Muat | Mohr => True | _ => answer (sem_merge SA SB) (m, k) r end)).
    { destruct m; cbn.
      - apply fwd_tau; assumption.
      - apply fwd_rho; assumption.
      - eapply wp_mono; [apply fwd_uat; assumption|]. intros [? ?] [? _]; auto.
      - eapply wp_mono; [apply fwd_ohr; assumption|]. intros [? ?] ?; auto.
      - apply wp_bind. eapply wp_mono; [apply fwd_L; assumption|]. intros [? ?] [? ?]; cbn; eauto.
      - apply wp_bind. eapply wp_mono; [apply fwd_R; assumption|]. intros [? ?] [? ?]; cbn; eauto. }
    apply wp_exists in Hc. destruct Hc as ([s' r] & E & Hs' & Hr).
    destruct (IH s' Hs' Hf') as (rs & Er & Hrs).
    exists (r :: rs). cbn [run]. rewrite E. cbn [bind]. rewrite Er. cbn [bind].
    split; [reflexivity|]. constructor; auto.
Qed.

Lemma fwd_inv_init a b : IA a -> IB b -> fwd_inv (fresh (a, b)).
Proof.
  intros Ha Hb. repeat split; cbn; auto; try (left; auto; fail).
  exists maxr. split; [left; auto|reflexivity].
Qed.
End Operators.
