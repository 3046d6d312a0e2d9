(** Correctness of the hopper classes against GclSpec.v. *)
From Verif Require Import Base HopperModel GclSpec.

(** A hopper object implements [S]: from any state satisfying the invariant [I]
    every method succeeds, answers per specification and restores [I]. *)
Record hop_ok (C : hcls) (S : iv -> Prop) (I : St C -> Prop) : Prop := HopOk {
  hop_GC : GC S;
  hop_tau : forall s k, I s -> minf <= k <= maxf ->
      wp (h_tau C s k) (fun '(s', r) => I s' /\ tau_spec S k r);
  hop_rho : forall s k, I s -> minf <= k <= maxf ->
      wp (h_rho C s k) (fun '(s', r) => I s' /\ rho_spec S k r);
  hop_uat : forall s k, I s -> minf <= k <= maxf ->
      wp (h_uat C s k) (fun '(s', r) => I s' /\ uat_spec S k r);
  hop_ohr : forall s k, I s -> minf <= k <= maxf ->
      wp (h_ohr C s k) (fun '(s', r) => I s' /\ ohr_spec S k r);
  hop_L : forall s k, I s -> minf <= k <= maxf ->
      wp (h_L C s k) (fun '(s', r) => I s' /\ L_spec S k r);
  hop_R : forall s k, I s -> minf <= k <= maxf ->
      wp (h_R C s k) (fun '(s', r) => I s' /\ R_spec S k r)
}.
Arguments hop_GC {C S I}. Arguments hop_tau {C S I}. Arguments hop_rho {C S I}.
Arguments hop_uat {C S I}. Arguments hop_ohr {C S I}. Arguments hop_L {C S I}.
Arguments hop_R {C S I}.

Lemma min_lt_max : minf + 2 < maxf. Proof. unfold minf, maxf; lia. Qed.

Ltac inf := pose proof min_lt_max.
Ltac fin := unfold finite, nests in *; cbn [ip iq ivl] in *; inf; lia.

(** Sequencing a call whose specification is [H]. *)
Tactic Notation "step" constr(H) "as" simple_intropattern(p) :=
  apply wp_bind; eapply wp_mono; [eapply H | intros p].

(* ------------------------------------------------------------------ *)
(** * Memo *)
Definition minv {X} (S : iv -> Prop) (s : mst X) : Prop :=
  tau_spec S (mk (ct s)) (mr (ct s)) /\ rho_spec S (mk (cr s)) (mr (cr s)) /\
  uat_spec S (mk (cu s)) (mr (cu s)) /\ ohr_spec S (mk (co s)) (mr (co s)).

Definition Iof {X} (P : X -> Prop) (S : iv -> Prop) (s : mst X) : Prop :=
  P (sub s) /\ minv S s.

Lemma fresh_inv {X} (P : X -> Prop) S (x : X) : P x -> Iof P S (fresh x).
Proof.
  intros H. split; [exact H|]. unfold minv, fresh; cbn.
  repeat split; left; auto.
Qed.

Lemma set_sub_inv {X} (P : X -> Prop) S (s : mst X) x : Iof P S s -> P x -> Iof P S (set_sub s x).
Proof. intros [_ H] Hx. split; [exact Hx | exact H]. Qed.

Section Memo.
Context {X : Type} (P : X -> Prop) (S : iv -> Prop).
Notation I := (Iof P S).
Definition meth_ok (spec : (iv -> Prop) -> Z -> iv -> Prop)
           (f : mst X -> Z -> res (mst X * iv)) : Prop :=
  forall s k, I s -> minf <= k <= maxf ->
  wp (f s k) (fun '(s', r) => I s' /\ spec S k r).

Lemma memo_tau_ok raw : meth_ok tau_spec raw -> meth_ok tau_spec (memo_tau raw).
Proof.
  intros H s k Hs Hk. unfold memo_tau. destruct (k =? mk (ct s)) eqn:E.
  - apply Z.eqb_eq in E. subst k. cbn. split; [exact Hs | apply Hs].
  - apply wp_bind. eapply wp_mono; [apply H; assumption|].
    intros [s' r] [[HP (Ht & Hr & Hu & Ho)] Hspec]. cbn. split; [|exact Hspec].
    split; [exact HP|]. repeat split; assumption.
Qed.
Lemma memo_rho_ok raw : meth_ok rho_spec raw -> meth_ok rho_spec (memo_rho raw).
Proof.
  intros H s k Hs Hk. unfold memo_rho. destruct (k =? mk (cr s)) eqn:E.
  - apply Z.eqb_eq in E. subst k. cbn. split; [exact Hs | apply Hs].
  - apply wp_bind. eapply wp_mono; [apply H; assumption|].
    intros [s' r] [[HP (Ht & Hr & Hu & Ho)] Hspec]. cbn. split; [|exact Hspec].
    split; [exact HP|]. repeat split; assumption.
Qed.
Lemma memo_uat_ok raw : meth_ok uat_spec raw -> meth_ok uat_spec (memo_uat raw).
Proof.
  intros H s k Hs Hk. unfold memo_uat. destruct (k =? mk (cu s)) eqn:E.
  - apply Z.eqb_eq in E. subst k. cbn. split; [exact Hs | apply Hs].
  - apply wp_bind. eapply wp_mono; [apply H; assumption|].
    intros [s' r] [[HP (Ht & Hr & Hu & Ho)] Hspec]. cbn. split; [|exact Hspec].
    split; [exact HP|]. repeat split; assumption.
Qed.
Lemma memo_ohr_ok raw : meth_ok ohr_spec raw -> meth_ok ohr_spec (memo_ohr raw).
Proof.
  intros H s k Hs Hk. unfold memo_ohr. destruct (k =? mk (co s)) eqn:E.
  - apply Z.eqb_eq in E. subst k. cbn. split; [exact Hs | apply Hs].
  - apply wp_bind. eapply wp_mono; [apply H; assumption|].
    intros [s' r] [[HP (Ht & Hr & Hu & Ho)] Hspec]. cbn. split; [|exact Hspec].
    split; [exact HP|]. repeat split; assumption.
Qed.

Lemma base_L_ok uat : meth_ok uat_spec uat ->
  forall s k, I s -> minf <= k <= maxf ->
  wp (base_L uat s k) (fun '(s', r) => I s' /\ L_spec S k r).
Proof.
  intros H s k Hs Hk. unfold base_L. apply wp_bind.
  eapply wp_mono; [apply H; assumption|]. intros [s' r] [Hs' Hr]. cbn.
  split; [exact Hs'|]. exists r. auto.
Qed.
Lemma base_R_ok tau : meth_ok tau_spec tau ->
  forall s k, I s -> minf <= k <= maxf ->
  wp (base_R tau s k) (fun '(s', r) => I s' /\ R_spec S k r).
Proof.
  intros H s k Hs Hk. unfold base_R. apply wp_bind.
  eapply wp_mono; [apply H; assumption|]. intros [s' r] [Hs' Hr]. cbn.
  split; [exact Hs'|]. exists r. auto.
Qed.
End Memo.

(* ------------------------------------------------------------------ *)
(** * Answers are unique; [hop_ok] gives [implements] *)
Lemma GC_eq_ip S x y : GC S -> S x -> S y -> ip x = ip y -> x = y.
Proof.
  intros [_ G] Hx Hy E. destruct (Z_le_gt_dec (iq y) (iq x)).
  - apply G; auto. fin.
  - symmetry. apply G; auto. fin.
Qed.
Lemma GC_eq_iq S x y : GC S -> S x -> S y -> iq x = iq y -> x = y.
Proof.
  intros [_ G] Hx Hy E. destruct (Z_le_gt_dec (ip x) (ip y)).
  - apply G; auto. fin.
  - symmetry. apply G; auto. fin.
Qed.
Lemma GC_mono_pq S x y : GC S -> S x -> S y -> ip x < ip y -> iq x < iq y.
Proof.
  intros [F G] Hx Hy E. destruct (Z_le_gt_dec (iq y) (iq x)); [|lia].
  assert (x = y) by (apply G; auto; fin). subst; lia.
Qed.
Lemma GC_mono_qp S x y : GC S -> S x -> S y -> iq x < iq y -> ip x < ip y.
Proof.
  intros [F G] Hx Hy E. destruct (Z_le_gt_dec (ip y) (ip x)); [|lia].
  assert (y = x) by (apply G; auto; fin). subst; lia.
Qed.
Lemma GC_le_pq S x y : GC S -> S x -> S y -> ip x <= ip y <-> iq x <= iq y.
Proof.
  intros G Hx Hy. split; intros H.
  - destruct (Z_le_gt_dec (iq x) (iq y)); [lia|].
    pose proof (GC_mono_qp S y x G Hy Hx ltac:(lia)). lia.
  - destruct (Z_le_gt_dec (ip x) (ip y)); [lia|].
    pose proof (GC_mono_pq S y x G Hy Hx ltac:(lia)). lia.
Qed.

Lemma GC_fin S x : GC S -> S x -> finite x. Proof. intros [F _]; auto. Qed.

Lemma tau_spec_unique S k r1 r2 : GC S -> tau_spec S k r1 -> tau_spec S k r2 -> r1 = r2.
Proof.
  intros G [[? ?]|[Hk [(S1 & K1 & M1)|[E1 M1]]]] [[? ?]|[Hk2 [(S2 & K2 & M2)|[E2 M2]]]];
    subst; try congruence; try lia.
  - apply (GC_eq_ip S); auto. specialize (M1 _ S2 K2). specialize (M2 _ S1 K1). lia.
  all: try (specialize (M2 _ S1); lia); try (specialize (M1 _ S2); lia).
Qed.
Lemma rho_spec_unique S k r1 r2 : GC S -> rho_spec S k r1 -> rho_spec S k r2 -> r1 = r2.
Proof.
  intros G [[? ?]|[Hk [(S1 & K1 & M1)|[E1 M1]]]] [[? ?]|[Hk2 [(S2 & K2 & M2)|[E2 M2]]]];
    subst; try congruence; try lia.
  - apply (GC_eq_iq S); auto. specialize (M1 _ S2 K2). specialize (M2 _ S1 K1). lia.
  all: try (specialize (M2 _ S1); lia); try (specialize (M1 _ S2); lia).
Qed.
Lemma uat_spec_unique S k r1 r2 : GC S -> uat_spec S k r1 -> uat_spec S k r2 -> r1 = r2.
Proof.
  intros G [[? ?]|[Hk [(S1 & K1 & M1)|[E1 M1]]]] [[? ?]|[Hk2 [(S2 & K2 & M2)|[E2 M2]]]];
    subst; try congruence; try lia.
  - apply (GC_eq_iq S); auto. specialize (M1 _ S2 K2). specialize (M2 _ S1 K1). lia.
  all: try (specialize (M2 _ S1); lia); try (specialize (M1 _ S2); lia).
Qed.
Lemma ohr_spec_unique S k r1 r2 : GC S -> ohr_spec S k r1 -> ohr_spec S k r2 -> r1 = r2.
Proof.
  intros G [[? ?]|[Hk [(S1 & K1 & M1)|[E1 M1]]]] [[? ?]|[Hk2 [(S2 & K2 & M2)|[E2 M2]]]];
    subst; try congruence; try lia.
  - apply (GC_eq_ip S); auto. specialize (M1 _ S2 K2). specialize (M2 _ S1 K1). lia.
  all: try (specialize (M2 _ S1); lia); try (specialize (M1 _ S2); lia).
Qed.

Lemma answer_unique S mk r1 r2 : GC S -> answer S mk r1 -> answer S mk r2 -> r1 = r2.
Proof.
  intros G. destruct mk as [m k]. destruct m; cbn.
  - apply tau_spec_unique; auto.
  - apply rho_spec_unique; auto.
  - apply uat_spec_unique; auto.
  - apply ohr_spec_unique; auto.
  - intros (l1 & -> & a & Ha & ->) (l2 & -> & b & Hb & ->).
    rewrite (uat_spec_unique S k a b); auto.
  - intros (l1 & -> & a & Ha & ->) (l2 & -> & b & Hb & ->).
    rewrite (tau_spec_unique S k a b); auto.
Qed.

Lemma call_ok C S I s m k : hop_ok C S I -> I s -> minf <= k <= maxf ->
  wp (call C s m k) (fun '(s', r) => I s' /\ answer S (m, k) r).
Proof.
  intros H Hs Hk. destruct m; cbn.
  - apply (hop_tau H); auto.
  - apply (hop_rho H); auto.
  - apply (hop_uat H); auto.
  - apply (hop_ohr H); auto.
  - apply wp_bind. eapply wp_mono; [apply (hop_L H); auto|].
    intros [s' r] [? ?]. cbn. eauto.
  - apply wp_bind. eapply wp_mono; [apply (hop_R H); auto|].
    intros [s' r] [? ?]. cbn. eauto.
Qed.

Lemma hop_ok_implements C S I s : hop_ok C S I -> I s -> implements C s S.
Proof.
  intros H Hs h. revert s Hs. induction h as [|[m k] h IH]; intros s Hs Hf.
  - exists []. split; [reflexivity|constructor].
  - inversion Hf as [|? ? Hk Hf']; subst. cbn in Hk.
    pose proof (call_ok C S I s m k H Hs Hk) as Hc.
    apply wp_exists in Hc. destruct Hc as ([s' r] & E & Hs' & Hr).
    destruct (IH s' Hs' Hf') as (rs & Er & Hrs).
    exists (r :: rs). cbn [run]. rewrite E. cbn [bind]. rewrite Er. cbn [bind].
    split; [reflexivity|]. constructor; auto.
Qed.

(** A specification set may be replaced by an equivalent one. *)
Lemma tau_spec_ext S T k r : (forall x, S x <-> T x) -> tau_spec S k r -> tau_spec T k r.
Proof.
  intros E [H|[Hk [(Hr & Hkr & Hm)|[Hr Hm]]]]; [left; exact H|right; split; [exact Hk|left]|right; split; [exact Hk|right]].
  - split; [apply E; exact Hr|split; [exact Hkr|]]. intros x Hx. apply Hm, E, Hx.
  - split; [exact Hr|]. intros x Hx. apply Hm, E, Hx.
Qed.
Lemma rho_spec_ext S T k r : (forall x, S x <-> T x) -> rho_spec S k r -> rho_spec T k r.
Proof.
  intros E [H|[Hk [(Hr & Hkr & Hm)|[Hr Hm]]]]; [left; exact H|right; split; [exact Hk|left]|right; split; [exact Hk|right]].
  - split; [apply E; exact Hr|split; [exact Hkr|]]. intros x Hx. apply Hm, E, Hx.
  - split; [exact Hr|]. intros x Hx. apply Hm, E, Hx.
Qed.
Lemma uat_spec_ext S T k r : (forall x, S x <-> T x) -> uat_spec S k r -> uat_spec T k r.
Proof.
  intros E [H|[Hk [(Hr & Hkr & Hm)|[Hr Hm]]]]; [left; exact H|right; split; [exact Hk|left]|right; split; [exact Hk|right]].
  - split; [apply E; exact Hr|split; [exact Hkr|]]. intros x Hx. apply Hm, E, Hx.
  - split; [exact Hr|]. intros x Hx. apply Hm, E, Hx.
Qed.
Lemma ohr_spec_ext S T k r : (forall x, S x <-> T x) -> ohr_spec S k r -> ohr_spec T k r.
Proof.
  intros E [H|[Hk [(Hr & Hkr & Hm)|[Hr Hm]]]]; [left; exact H|right; split; [exact Hk|left]|right; split; [exact Hk|right]].
  - split; [apply E; exact Hr|split; [exact Hkr|]]. intros x Hx. apply Hm, E, Hx.
  - split; [exact Hr|]. intros x Hx. apply Hm, E, Hx.
Qed.
Lemma GC_ext S T : (forall x, S x <-> T x) -> GC S -> GC T.
Proof.
  intros E [F G]. split.
  - intros x Hx. apply F, E, Hx.
  - intros x y Hx Hy. apply G; apply E; assumption.
Qed.
Lemma hop_ok_ext C S T I : (forall x, S x <-> T x) -> hop_ok C S I -> hop_ok C T I.
Proof.
  intros E H. constructor.
  - exact (GC_ext S T E (hop_GC H)).
  - intros s k Hs Hk. eapply wp_mono; [apply (hop_tau H); auto|]. intros [s' r] [? ?]; split; eauto using tau_spec_ext.
  - intros s k Hs Hk. eapply wp_mono; [apply (hop_rho H); auto|]. intros [s' r] [? ?]; split; eauto using rho_spec_ext.
  - intros s k Hs Hk. eapply wp_mono; [apply (hop_uat H); auto|]. intros [s' r] [? ?]; split; eauto using uat_spec_ext.
  - intros s k Hs Hk. eapply wp_mono; [apply (hop_ohr H); auto|]. intros [s' r] [? ?]; split; eauto using ohr_spec_ext.
  - intros s k Hs Hk. eapply wp_mono; [apply (hop_L H); auto|]. intros [s' r] [? (a & Ha & ->)]; split; [assumption|exists a; eauto using uat_spec_ext].
  - intros s k Hs Hk. eapply wp_mono; [apply (hop_R H); auto|]. intros [s' r] [? (a & Ha & ->)]; split; [assumption|exists a; eauto using tau_spec_ext].
Qed.

(* ------------------------------------------------------------------ *)
(** * Leaves *)
Lemma pure_ok S ft fr fu fo : GC S ->
  (forall k, minf <= k <= maxf -> tau_spec S k (ft k)) ->
  (forall k, minf <= k <= maxf -> rho_spec S k (fr k)) ->
  (forall k, minf <= k <= maxf -> uat_spec S k (fu k)) ->
  (forall k, minf <= k <= maxf -> ohr_spec S k (fo k)) ->
  hop_ok (pure_hcls ft fr fu fo) S (Iof (fun _ => True) S).
Proof.
  intros G Ht Hr Hu Ho.
  assert (T : meth_ok (fun _ => True) S tau_spec (fun (s : mst unit) k => Ok (s, ft k))) by (intros s k Hs Hk; cbn; auto).
  assert (U : meth_ok (fun _ => True) S uat_spec (fun (s : mst unit) k => Ok (s, fu k))) by (intros s k Hs Hk; cbn; auto).
  constructor; cbn; auto.
  - apply memo_tau_ok. exact T.
  - apply memo_rho_ok. intros s k Hs Hk; cbn; auto.
  - apply memo_uat_ok. exact U.
  - apply memo_ohr_ok. intros s k Hs Hk; cbn; auto.
  - apply base_L_ok. apply memo_uat_ok. exact U.
  - apply base_R_ok. apply memo_tau_ok. exact T.
Qed.

Lemma GC_empty : GC (fun _ => False).
Proof. split; intros; contradiction. Qed.

Lemma empty_ok : hop_ok empty_hopper (fun _ => False) (Iof (fun _ => True) (fun _ => False)).
Proof.
  apply pure_ok; [exact GC_empty| | | |]; intros k Hk;
    unfold empty_fwd, empty_bwd;
    destruct (Z.eqb_spec k minf); destruct (Z.eqb_spec k maxf); subst;
    unfold tau_spec, rho_spec, uat_spec, ohr_spec; try (left; auto; fail); right;
      (split; [assumption|right; split; [reflexivity|intros; contradiction]]).
Qed.

Lemma GC_single x : finite x -> GC (eq x).
Proof. intros F. split; intros; subst; auto. Qed.

Lemma singleton_ok x : finite x ->
  hop_ok (singleton_hopper x) (eq x) (Iof (fun _ => True) (eq x)).
Proof.
  intros F. apply pure_ok; [apply GC_single; exact F| | | |]; intros k Hk;
    unfold sing_tau, sing_rho, sing_uat, sing_ohr, tau_spec, rho_spec, uat_spec, ohr_spec.
  - destruct (Z.eqb_spec k minf); [left; auto|right; split; [assumption|]].
    destruct (Z.leb_spec k (ip x)); [left|right]; (split; [reflexivity|]); intuition (subst; try lia).
  - destruct (Z.eqb_spec k minf); [left; auto|right; split; [assumption|]].
    destruct (Z.leb_spec k (iq x)); [left|right]; (split; [reflexivity|]); intuition (subst; try lia).
  - destruct (Z.eqb_spec k maxf); [left; auto|right; split; [assumption|]].
    destruct (Z.leb_spec (iq x) k); [left|right]; (split; [reflexivity|]); intuition (subst; try lia).
  - destruct (Z.eqb_spec k maxf); [left; auto|right; split; [assumption|]].
    destruct (Z.leb_spec (ip x) k); [left|right]; (split; [reflexivity|]); intuition (subst; try lia).
Qed.

Lemma GC_fixed w : GC (sem_fixed w).
Proof.
  split; [intros x [F _]; exact F|].
  intros [p q v] [p' q' v'] (F & E & V) (F' & E' & V') N. cbn in *. fold minf maxf in *.
  unfold nests in N; cbn in N. f_equal; lia.
Qed.

Ltac chkstep := apply wp_bind; apply wp_chk; [inf; lia|].

Lemma fixed_ok w : 1 <= w <= maxf ->
  hop_ok (fixed_hopper w) (sem_fixed w) (Iof (fun _ => True) (sem_fixed w)).
Proof.
  intros Hw.
  assert (B : minf + maxf = -1) by reflexivity.
  set (S := sem_fixed w).
  assert (T : meth_ok (fun _ => True) S tau_spec (fun (s : mst unit) k => let* r := fixed_tau w k in Ok (s, r))).
  { intros s k Hs Hk. apply wp_bind. unfold fixed_tau, tau_spec.
    destruct (Z.eqb_spec k minf); [cbn; split; auto|].
    chkstep. destruct (Z.leb_spec k (maxf - w)).
    - chkstep. chkstep. cbn. split; [exact Hs|]. right. split; [assumption|]. left.
      unfold S, sem_fixed; split; [|split; [cbn; lia|]].
      + repeat split; cbn; try lia.
      + cbn. intros; lia.
    - cbn. split; [exact Hs|]. right. split; [assumption|]. right. split; [reflexivity|].
      intros x (F & E & _). fin. }
  assert (U : meth_ok (fun _ => True) S uat_spec (fun (s : mst unit) k => let* r := fixed_uat w k in Ok (s, r))).
  { intros s k Hs Hk. apply wp_bind. unfold fixed_uat, uat_spec.
    destruct (Z.eqb_spec k maxf); [cbn; split; auto|].
    chkstep. destruct (Z.leb_spec (minf + w) k).
    - chkstep. chkstep. cbn. split; [exact Hs|]. right. split; [assumption|]. left.
      unfold S, sem_fixed; split; [|split; [cbn; lia|]].
      + repeat split; cbn; try lia.
      + cbn. intros; lia.
    - cbn. split; [exact Hs|]. right. split; [assumption|]. right. split; [reflexivity|].
      intros x (F & E & _). fin. }
  constructor; cbn [h_tau h_rho h_uat h_ohr h_L h_R fixed_hopper].
  - apply GC_fixed.
  - apply memo_tau_ok. exact T.
  - apply memo_rho_ok. intros s k Hs Hk. apply wp_bind. unfold fixed_rho, rho_spec.
    destruct (Z.eqb_spec k minf); [cbn; split; auto|].
    chkstep. destruct (Z.ltb_spec k (minf + w)); [|destruct (Z.ltb_spec k maxf)].
    + cbn. split; [exact Hs|]. right. split; [assumption|]. left.
      unfold S, sem_fixed; split; [|split; [cbn; lia|]].
      * repeat split; cbn; inf; try lia.
      * cbn [ip iq]. intros x (F & E & _). fin.
    + chkstep. chkstep. cbn. split; [exact Hs|]. right. split; [assumption|]. left.
      unfold S, sem_fixed; split; [|split; [cbn; lia|]].
      * repeat split; cbn; inf; try lia.
      * cbn [ip iq]. intros x (F & E & _). fin.
    + cbn. split; [exact Hs|]. right. split; [assumption|]. right. split; [reflexivity|].
      intros x (F & E & _). fin.
  - apply memo_uat_ok. exact U.
  - apply memo_ohr_ok. intros s k Hs Hk. apply wp_bind. unfold fixed_ohr, ohr_spec.
    destruct (Z.eqb_spec k maxf); [cbn; split; auto|].
    chkstep. destruct (Z.leb_spec (maxf - w) k); [|destruct (Z.ltb_spec minf k)].
    + cbn. split; [exact Hs|]. right. split; [assumption|]. left.
      unfold S, sem_fixed; split; [|split; [cbn; lia|]].
      * repeat split; cbn; inf; try lia.
      * cbn [ip iq]. intros x (F & E & _). fin.
    + chkstep. chkstep. cbn. split; [exact Hs|]. right. split; [assumption|]. left.
      unfold S, sem_fixed; split; [|split; [cbn; lia|]].
      * repeat split; cbn; inf; try lia.
      * cbn [ip iq]. intros x (F & E & _). fin.
    + cbn. split; [exact Hs|]. right. split; [assumption|]. right. split; [reflexivity|].
      intros x (F & E & _). fin.
  - apply base_L_ok. apply memo_uat_ok. exact U.
  - apply base_R_ok. apply memo_tau_ok. exact T.
Qed.
