(** Correctness of the vector hopper. *)
From Verif Require Import Base HopperModel GclSpec HopperProofs GclProofs VectorModel.

(** * Queues *)
Section Queue.
Variable better : elt -> elt -> bool.
Hypothesis total : forall a b, fst a <> fst b -> better a b = negb (better b a).
Hypothesis trans : forall a b c, better a b = true -> better b c = true -> better a c = true.

Lemma top_of_ok q e : NoDup (map fst (e :: q)) ->
  In (top_of better e q) (e :: q) /\
  forall x, In x (e :: q) -> fst x <> fst (top_of better e q) -> better (top_of better e q) x = true.
Proof.
  revert e. induction q as [|y q IH]; intros e H; cbn [top_of].
  - split; [left; reflexivity|]. intros x [->|[]] N. congruence.
  - cbn in H. inversion H as [|? ? H1 H2]; subst. inversion H2 as [|? ? H3 H4]; subst.
    cbn in H1. assert (Nye : fst y <> fst e) by tauto.
    destruct (better y e) eqn:B.
    + destruct (IH y) as [I1 I2]; [constructor; assumption|]. split; [right; exact I1|].
      intros x [<-|Hx] N; [|apply I2; assumption].
      destruct (Nat.eq_dec (fst y) (fst (top_of better y q))) as [E|E].
      * assert (top_of better y q = y) as ->; [|exact B].
        destruct I1 as [I1|I1]; [auto|]. exfalso. apply H3. rewrite E. apply in_map, I1.
      * apply trans with y; [|exact B]. apply I2; [left; reflexivity|exact E].
    + assert (B' : better e y = true) by (rewrite total; [rewrite B; reflexivity|congruence]).
      destruct (IH e) as [I1 I2]; [constructor; tauto|]. split.
      * destruct I1; [left; assumption|right; right; assumption].
      * intros x Hx N. destruct Hx as [<-|[<-|Hx]]; [apply I2; [left; reflexivity|exact N]| |apply I2; [right; exact Hx|exact N]].
        destruct (Nat.eq_dec (fst e) (fst (top_of better e q))) as [E|E].
        -- assert (top_of better e q = e) as ->; [|exact B'].
           destruct I1 as [I1|I1]; [auto|]. exfalso. apply H1. right. rewrite E. apply in_map, I1.
        -- apply trans with e; [|exact B']. apply I2; [left; reflexivity|exact E].
Qed.

Lemma top_ok q : q <> [] -> NoDup (map fst q) ->
  wp (top better q) (fun e => In e q /\ forall x, In x q -> fst x <> fst e -> better e x = true).
Proof. destruct q as [|e q]; [congruence|]. intros _ H. cbn. apply top_of_ok, H. Qed.
End Queue.

Lemma tau_better_total a b : fst a <> fst b -> tau_better a b = negb (tau_better b a).
Proof. intros H. unfold tau_better. destruct (Nat.ltb_spec (fst a) (fst b)), (Nat.ltb_spec (fst b) (fst a)); lia. Qed.
Lemma tau_better_trans a b c : tau_better a b = true -> tau_better b c = true -> tau_better a c = true.
Proof.
  unfold tau_better.
  destruct (Nat.ltb_spec (fst b) (fst a)), (Nat.ltb_spec (fst c) (fst b)), (Nat.ltb_spec (fst c) (fst a)); lia.
Qed.
Lemma uat_better_total a b : fst a <> fst b -> uat_better a b = negb (uat_better b a).
Proof. intros H. unfold uat_better. destruct (Nat.ltb_spec (fst a) (fst b)), (Nat.ltb_spec (fst b) (fst a)); lia. Qed.
Lemma uat_better_trans a b c : uat_better a b = true -> uat_better b c = true -> uat_better a c = true.
Proof.
  unfold uat_better.
  destruct (Nat.ltb_spec (fst b) (fst a)), (Nat.ltb_spec (fst c) (fst b)), (Nat.ltb_spec (fst c) (fst a)); lia.
Qed.
Lemma tau_better_iff i x j y : tau_better (i, x) (j, y) = true <->
  iq x < iq y \/ (iq x = iq y /\ (ip y < ip x \/ (ip x = ip y /\ (j < i)%nat))).
Proof. unfold tau_better; cbn [fst snd]. destruct (Nat.ltb_spec j i); lia. Qed.
Lemma uat_better_iff i x j y : uat_better (i, x) (j, y) = true <->
  ip y < ip x \/ (ip x = ip y /\ (iq x < iq y \/ (iq x = iq y /\ (j < i)%nat))).
Proof. unfold uat_better; cbn [fst snd]. destruct (Nat.ltb_spec j i); lia. Qed.

(** * The best of the operands' answers is the answer of the merge *)
Section Best.
Variable Ss : list (iv -> Prop).
Hypothesis GS : Forall GC Ss.
Definition nS (i : nat) : iv -> Prop := nth i Ss (fun _ => False).

Lemma nS_GC i : GC (nS i).
Proof.
  unfold nS. destruct (nth_in_or_default i Ss (fun _ => False)) as [H|H].
  - rewrite Forall_forall in GS. apply GS, H.
  - rewrite H. apply GC_empty.
Qed.
Lemma nS_some i S : nth_error Ss i = Some S -> nS i = S.
Proof. intros H. unfold nS. apply nth_error_nth with (d := fun _ => False) in H. exact H. Qed.
Lemma nS_lt i : (i < length Ss)%nat -> nth_error Ss i = Some (nS i).
Proof. intros H. unfold nS. apply nth_error_nth', H. Qed.
Lemma nS_in T : In T Ss -> exists i, (i < length Ss)%nat /\ nS i = T.
Proof. intros H. destruct (In_nth Ss T (fun _ => False) H) as (i & Hi & E). exists i; auto. Qed.

Lemma sem_inner_iff x : sem_inner Ss x <->
  (exists i, (i < length Ss)%nat /\ nS i x /\
     forall j y, (i < j < length Ss)%nat -> nS j y -> ~ (ip y = ip x /\ iq y = iq x)) /\
  (forall j y, (j < length Ss)%nat -> nS j y -> nests x y -> nests y x).
Proof.
  split.
  - intros [(i & S & E & Hx & Hj) Hm]. split.
    + exists i. assert (i < length Ss)%nat by (apply nth_error_Some; congruence).
      split; [assumption|]. rewrite (nS_some _ _ E). split; [exact Hx|].
      intros j y Hj' Hy. apply (Hj j (nS j) y); [lia|apply nS_lt; lia|exact Hy].
    + intros j y Hj' Hy. apply (Hm (nS j) y); [|exact Hy]. apply nth_In. exact Hj'.
  - intros [(i & Hi & Hx & Hj) Hm]. split.
    + exists i, (nS i). split; [apply nS_lt, Hi|]. split; [exact Hx|].
      intros j T y Hij E Hy. rewrite <- (nS_some _ _ E) in Hy. apply (Hj j y); [|exact Hy].
      assert (j < length Ss)%nat by (apply nth_error_Some; congruence). lia.
    + intros T y HT Hy. destruct (nS_in T HT) as (j & Hj' & <-). apply (Hm j y Hj' Hy).
Qed.

Lemma GC_inner : GC (sem_inner Ss).
Proof.
  split.
  - intros x H. apply sem_inner_iff in H. destruct H as [(i & Hi & Hx & _) _].
    exact (GC_fin _ _ (nS_GC i) Hx).
  - intros x y Hx Hy N. apply sem_inner_iff in Hx, Hy.
    destruct Hx as [(i & Hi & Hx & Jx) Mx], Hy as [(j & Hj & Hy & Jy) My].
    pose proof (Mx j y Hj Hy N) as N'.
    destruct (Nat.lt_trichotomy i j) as [L|[->|L]].
    + exfalso. apply (Jx j y); [lia|exact Hy|]. fin.
    + apply (nS_GC j); assumption.
    + exfalso. apply (Jy i x); [lia|exact Hx|]. fin.
Qed.

Lemma best_tau k t (ans : nat -> iv) : k <> minf -> (t < length Ss)%nat ->
  (forall i, (i < length Ss)%nat -> tau_spec (nS i) k (ans i)) ->
  (forall i, (i < length Ss)%nat -> i <> t -> tau_better (t, ans t) (i, ans i) = true) ->
  tau_spec (sem_inner Ss) k (ans t).
Proof.
  intros Hk Ht Ha Hb. right. split; [exact Hk|].
  assert (B : forall i, (i < length Ss)%nat -> i <> t ->
     iq (ans t) < iq (ans i) \/ (iq (ans t) = iq (ans i) /\ (ip (ans i) < ip (ans t) \/ (ip (ans t) = ip (ans i) /\ (i < t)%nat)))).
  { intros i Hi N. apply tau_better_iff, Hb; assumption. }
  destruct (Ha t Ht) as [[? _]|[_ [(St & Kt & Mt)|[Et Nt]]]]; [congruence| |].
  - left. pose proof (GC_fin _ _ (nS_GC t) St) as Ft. split; [|split; [exact Kt|]].
    + apply sem_inner_iff. split.
      * exists t. split; [exact Ht|]. split; [exact St|].
        intros j y Hj Hy [E1 E2].
        destruct (Ha j ltac:(lia)) as [[? _]|[_ [(Sj & Kj & Mj)|[Ej Nj]]]]; [congruence| |specialize (Nj y Hy); lia].
        assert (ip (ans j) <= ip y) by (apply Mj; [exact Hy|lia]).
        assert (iq (ans j) <= iq y) by (apply (GC_le_pq (nS j)); auto using nS_GC).
        specialize (B j ltac:(lia) ltac:(lia)).
        assert (ans j = y) by (apply (GC_eq_iq (nS j)); auto using nS_GC; lia). subst y. lia.
      * intros j y Hj Hy N. destruct (Nat.eq_dec j t) as [->|Njt].
        -- assert (ans t = y) by (apply (nS_GC t); assumption). subst y. fin.
        -- destruct (Ha j Hj) as [[? _]|[_ [(Sj & Kj & Mj)|[Ej Nj]]]]; [congruence| |specialize (Nj y Hy); fin].
           assert (ip (ans j) <= ip y) by (apply Mj; [exact Hy|fin]).
           assert (iq (ans j) <= iq y) by (apply (GC_le_pq (nS j)); auto using nS_GC).
           specialize (B j Hj Njt).
           assert (ans j = y) by (apply (GC_eq_iq (nS j)); auto using nS_GC; fin). subst y. fin.
    + intros x Hx Kx. apply sem_inner_iff in Hx. destruct Hx as [(i & Hi & Hx & _) Mx].
      destruct (Nat.eq_dec i t) as [->|Nit]; [apply Mt; assumption|].
      destruct (Ha i Hi) as [[? _]|[_ [(Si & Ki & Mi)|[Ei Ni]]]]; [congruence| |specialize (Ni x Hx); lia].
      assert (ip (ans i) <= ip x) by (apply Mi; assumption).
      assert (iq (ans i) <= iq x) by (apply (GC_le_pq (nS i)); auto using nS_GC).
      specialize (B i Hi Nit).
      destruct (Z_le_gt_dec (ip (ans t)) (ip x)); [assumption|].
      assert (nests (ans t) x) by (apply (Mx t); auto; fin). fin.
  - right. split; [exact Et|]. intros x Hx. apply sem_inner_iff in Hx.
    destruct Hx as [(i & Hi & Hx & _) _].
    destruct (Nat.eq_dec i t) as [->|Nit]; [apply Nt, Hx|].
    specialize (B i Hi Nit).
    destruct (Ha i Hi) as [[? _]|[_ [(Si & Ki & Mi)|[Ei Ni]]]]; [congruence| |apply Ni, Hx].
    pose proof (GC_fin _ _ (nS_GC i) Si). rewrite Et in B. fin.
Qed.

Lemma best_uat k t (ans : nat -> iv) : k <> maxf -> (t < length Ss)%nat ->
  (forall i, (i < length Ss)%nat -> uat_spec (nS i) k (ans i)) ->
  (forall i, (i < length Ss)%nat -> i <> t -> uat_better (t, ans t) (i, ans i) = true) ->
  uat_spec (sem_inner Ss) k (ans t).
Proof.
  intros Hk Ht Ha Hb. right. split; [exact Hk|].
  assert (B : forall i, (i < length Ss)%nat -> i <> t ->
     ip (ans i) < ip (ans t) \/ (ip (ans t) = ip (ans i) /\ (iq (ans t) < iq (ans i) \/ (iq (ans t) = iq (ans i) /\ (i < t)%nat)))).
  { intros i Hi N. apply uat_better_iff, Hb; assumption. }
  destruct (Ha t Ht) as [[? _]|[_ [(St & Kt & Mt)|[Et Nt]]]]; [congruence| |].
  - left. pose proof (GC_fin _ _ (nS_GC t) St) as Ft. split; [|split; [exact Kt|]].
    + apply sem_inner_iff. split.
      * exists t. split; [exact Ht|]. split; [exact St|].
        intros j y Hj Hy [E1 E2].
        destruct (Ha j ltac:(lia)) as [[? _]|[_ [(Sj & Kj & Mj)|[Ej Nj]]]]; [congruence| |specialize (Nj y Hy); lia].
        assert (iq y <= iq (ans j)) by (apply Mj; [exact Hy|lia]).
        assert (ip y <= ip (ans j)) by (apply (GC_le_pq (nS j)); auto using nS_GC).
        specialize (B j ltac:(lia) ltac:(lia)).
        assert (ans j = y) by (apply (GC_eq_ip (nS j)); auto using nS_GC; lia). subst y. lia.
      * intros j y Hj Hy N. destruct (Nat.eq_dec j t) as [->|Njt].
        -- assert (ans t = y) by (apply (nS_GC t); assumption). subst y. fin.
        -- destruct (Ha j Hj) as [[? _]|[_ [(Sj & Kj & Mj)|[Ej Nj]]]]; [congruence| |specialize (Nj y Hy); fin].
           assert (iq y <= iq (ans j)) by (apply Mj; [exact Hy|fin]).
           assert (ip y <= ip (ans j)) by (apply (GC_le_pq (nS j)); auto using nS_GC).
           specialize (B j Hj Njt).
           assert (ans j = y) by (apply (GC_eq_ip (nS j)); auto using nS_GC; fin). subst y. fin.
    + intros x Hx Kx. apply sem_inner_iff in Hx. destruct Hx as [(i & Hi & Hx & _) Mx].
      destruct (Nat.eq_dec i t) as [->|Nit]; [apply Mt; assumption|].
      destruct (Ha i Hi) as [[? _]|[_ [(Si & Ki & Mi)|[Ei Ni]]]]; [congruence| |specialize (Ni x Hx); lia].
      assert (iq x <= iq (ans i)) by (apply Mi; assumption).
      assert (ip x <= ip (ans i)) by (apply (GC_le_pq (nS i)); auto using nS_GC).
      specialize (B i Hi Nit).
      destruct (Z_le_gt_dec (iq x) (iq (ans t))); [assumption|].
      assert (nests (ans t) x) by (apply (Mx t); auto; fin). fin.
  - right. split; [exact Et|]. intros x Hx. apply sem_inner_iff in Hx.
    destruct Hx as [(i & Hi & Hx & _) _].
    destruct (Nat.eq_dec i t) as [->|Nit]; [apply Nt, Hx|].
    specialize (B i Hi Nit).
    destruct (Ha i Hi) as [[? _]|[_ [(Si & Ki & Mi)|[Ei Ni]]]]; [congruence| |apply Ni, Hx].
    pose proof (GC_fin _ _ (nS_GC i) Si). rewrite Et in B. fin.
Qed.


(** A remembered answer compared with the fresh one. *)
Lemma tau_advance S k k' x y : GC S -> k' <= k <= maxf -> k <> minf -> tau_spec S k' x -> tau_spec S k y ->
  (k <= ip x -> y = x) /\ (ip x < k -> iq x < iq y).
Proof.
  intros G Hle Hk [[E ->]|[Hk' [(Sx & Kx & Mx)|[-> Nx]]]] Hy; inf.
  - split; [cbn; fin|]. cbn. intros _.
    destruct Hy as [[? _]|[_ [(Sy & _)|[-> _]]]]; [congruence| |cbn; lia].
    pose proof (GC_fin _ _ G Sy). fin.
  - split; intros Hx.
    + apply (tau_spec_unique S k); auto. right. split; [exact Hk|]. left. split; [exact Sx|]. split; [exact Hx|].
      intros z Hz Kz. apply Mx; [exact Hz|lia].
    + pose proof (GC_fin _ _ G Sx).
      destruct Hy as [[? _]|[_ [(Sy & Ky & _)|[-> _]]]]; [congruence| |fin].
      apply (GC_mono_pq S); auto; lia.
  - split; intros Hx; [|cbn in Hx; lia].
    apply (tau_spec_unique S k); auto. right. split; [exact Hk|]. right. split; [reflexivity|].
    intros z Hz. specialize (Nx z Hz). lia.
Qed.
Lemma uat_advance S k k' x y : GC S -> minf <= k <= k' -> k <> maxf -> uat_spec S k' x -> uat_spec S k y ->
  (iq x <= k -> y = x) /\ (k < iq x -> ip y < ip x).
Proof.
  intros G Hle Hk [[E ->]|[Hk' [(Sx & Kx & Mx)|[-> Nx]]]] Hy; inf.
  - split; [cbn; fin|]. cbn. intros _.
    destruct Hy as [[? _]|[_ [(Sy & _)|[-> _]]]]; [congruence| |cbn; lia].
    pose proof (GC_fin _ _ G Sy). fin.
  - split; intros Hx.
    + apply (uat_spec_unique S k); auto. right. split; [exact Hk|]. left. split; [exact Sx|]. split; [exact Hx|].
      intros z Hz Kz. apply Mx; [exact Hz|lia].
    + pose proof (GC_fin _ _ G Sx).
      destruct Hy as [[? _]|[_ [(Sy & Ky & _)|[-> _]]]]; [congruence| |fin].
      apply (GC_mono_qp S); auto; lia.
  - split; intros Hx; [|cbn in Hx; lia].
    apply (uat_spec_unique S k); auto. right. split; [exact Hk|]. right. split; [reflexivity|].
    intros z Hz. specialize (Nx z Hz). lia.
Qed.
End Best.

(** * The operands *)
Inductive vec_ok : forall Cs : list hcls, list (iv -> Prop) -> (tup Cs -> Prop) -> Prop :=
| vec_nil : vec_ok [] [] (fun _ => True)
| vec_cons C Cs S Ss I J : hop_ok C S I -> vec_ok Cs Ss J ->
    vec_ok (C :: Cs) (S :: Ss) (fun s => I (fst s) /\ J (snd s)).

Lemma vcall_ok {O} (m : forall C, St C -> Z -> res (St C * O)) (spec : (iv -> Prop) -> Z -> O -> Prop) :
  (forall C S I, hop_ok C S I -> forall s k, I s -> minf <= k <= maxf ->
      wp (m C s k) (fun '(s', r) => I s' /\ spec S k r)) ->
  forall Cs Ss J, vec_ok Cs Ss J -> length Ss = length Cs /\ Forall GC Ss /\
  forall i s k, (i < length Cs)%nat -> J s -> minf <= k <= maxf ->
    wp (vcall m Cs i s k) (fun '(s', r) => J s' /\ spec (nS Ss i) k r).
Proof.
  intros Hm Cs Ss J H. induction H as [|C Cs S Ss I J HC HV IH].
  - split; [reflexivity|]. split; [constructor|]. intros i s k Hi. cbn in Hi. lia.
  - destruct IH as (L & F & IH). split; [cbn; lia|].
    split; [constructor; [exact (hop_GC HC)|exact F]|].
    intros i s k Hi [H1 H2] Hk. destruct i as [|i]; cbn [vcall].
    + apply wp_bind. eapply wp_mono; [apply (Hm C S I HC); assumption|].
      intros [s' r] [? ?]. cbn. auto.
    + apply wp_bind. eapply wp_mono; [apply (IH i); [cbn in Hi; lia|exact H2|exact Hk]|].
      intros [s' r] [? ?]. cbn. auto.
Qed.

Section Inner.
Variables (Cs : list hcls) (Ss : list (iv -> Prop)) (J : tup Cs -> Prop).
Hypothesis V : vec_ok Cs Ss J.
Hypothesis NE : Cs <> [].
Hypothesis Small : Z.of_nat (length Cs) <= maxf.

Lemma len_eq : length Ss = length Cs.
Proof. apply (vcall_ok h_tau tau_spec (fun C S I H => hop_tau H) Cs Ss J V). Qed.
Lemma all_GC : Forall GC Ss.
Proof. apply (vcall_ok h_tau tau_spec (fun C S I H => hop_tau H) Cs Ss J V). Qed.
Lemma v_tau i s k : (i < length Cs)%nat -> J s -> minf <= k <= maxf ->
  wp (vcall h_tau Cs i s k) (fun '(s', r) => J s' /\ tau_spec (nS Ss i) k r).
Proof. apply (vcall_ok h_tau tau_spec (fun C S I H => hop_tau H) Cs Ss J V). Qed.
Lemma v_uat i s k : (i < length Cs)%nat -> J s -> minf <= k <= maxf ->
  wp (vcall h_uat Cs i s k) (fun '(s', r) => J s' /\ uat_spec (nS Ss i) k r).
Proof. apply (vcall_ok h_uat uat_spec (fun C S I H => hop_uat H) Cs Ss J V). Qed.
Lemma v_L i s k : (i < length Cs)%nat -> J s -> minf <= k <= maxf ->
  wp (vcall h_L Cs i s k) (fun '(s', r) => J s' /\ L_spec (nS Ss i) k r).
Proof. apply (vcall_ok h_L L_spec (fun C S I H => hop_L H) Cs Ss J V). Qed.
Lemma v_R i s k : (i < length Cs)%nat -> J s -> minf <= k <= maxf ->
  wp (vcall h_R Cs i s k) (fun '(s', r) => J s' /\ R_spec (nS Ss i) k r).
Proof. apply (vcall_ok h_R R_spec (fun C S I H => hop_R H) Cs Ss J V). Qed.

(** Queue contents: one element per operand, each a remembered answer. *)
Definition q_ok (P : nat -> iv -> Prop) (q : list elt) : Prop :=
  NoDup (map fst q) /\ (forall i, In i (map fst q) <-> (i < length Cs)%nat) /\
  forall i x, In (i, x) q -> P i x.

Lemma q_ne P q : q_ok P q -> q <> [].
Proof.
  intros (_ & H & _) ->. destruct Cs; [congruence|]. apply (H 0%nat). cbn. lia.
Qed.

Lemma fill_ok (m : forall C, St C -> Z -> res (St C * iv)) (spec : (iv -> Prop) -> Z -> iv -> Prop) :
  (forall i s k, (i < length Cs)%nat -> J s -> minf <= k <= maxf ->
     wp (vcall m Cs i s k) (fun '(s', r) => J s' /\ spec (nS Ss i) k r)) ->
  forall s k, J s -> minf <= k <= maxf ->
  wp (fill Cs m (seq 0 (length Cs)) s k)
     (fun '(s', q) => J s' /\ q_ok (fun i x => spec (nS Ss i) k x) q).
Proof.
  intros Hm s k Hs Hk.
  assert (G : forall is s, J s -> Forall (fun i => (i < length Cs)%nat) is ->
    wp (fill Cs m is s k) (fun '(s', q) => J s' /\ map fst q = is /\ forall i x, In (i, x) q -> spec (nS Ss i) k x)).
  { clear s Hs. induction is as [|i is IH]; intros s Hs HF; cbn [fill].
    - cbn. split; [exact Hs|]. split; [reflexivity|]. intros; contradiction.
    - inversion HF; subst. apply wp_bind. eapply wp_mono; [apply Hm; assumption|].
      intros [s1 x] [Hs1 Hx]. apply wp_bind. eapply wp_mono; [apply IH; assumption|].
      intros [s2 q] (Hs2 & E & Hq). cbn. split; [exact Hs2|]. split; [cbn; rewrite E; reflexivity|].
      intros j y [E2|Hj]; [inversion E2; subst; exact Hx|apply Hq, Hj]. }
  eapply wp_mono; [apply G; [exact Hs|]|].
  - apply Forall_forall. intros i Hi. apply in_seq in Hi. lia.
  - intros [s' q] (Hs' & E & Hq). split; [exact Hs'|]. split; [rewrite E; apply seq_NoDup|].
    split; [|exact Hq]. intros i. rewrite E, in_seq. lia.
Qed.

Definition stales (st : iv -> bool) (q : list elt) : nat := length (filter (fun e => st (snd e)) q).

Lemma pop_facts e q : NoDup (map fst q) -> In e q ->
  NoDup (map fst (pop e q)) /\
  (forall i, In i (map fst (pop e q)) <-> In i (map fst q) /\ i <> fst e) /\
  (forall x, In x (pop e q) -> In x q /\ fst x <> fst e).
Proof.
  intros ND He.
  assert (Hin : forall x, In x (pop e q) <-> In x q /\ fst x <> fst e).
  { intros x. unfold pop. rewrite filter_In. destruct (Nat.eqb_spec (fst x) (fst e)); cbn; intuition congruence. }
  split; [|split].
  - unfold pop. clear He Hin. induction q as [|y q IH]; [constructor|]. cbn in ND. inversion ND as [|? ? H1 H2]; subst.
    cbn [filter]. destruct (Nat.eqb (fst y) (fst e)); cbn [negb]; [apply IH, H2|].
    cbn. constructor; [|apply IH, H2]. intros H. apply H1. apply in_map_iff in H.
    destruct H as (z & E & Hz). apply filter_In in Hz. rewrite <- E. apply in_map, Hz.
  - intros i. rewrite !in_map_iff. split.
    + intros (x & <- & Hx). apply Hin in Hx. split; [exists x; tauto|tauto].
    + intros [(x & <- & Hx) N]. exists x. split; [reflexivity|]. apply Hin. tauto.
  - intros x Hx. apply Hin, Hx.
Qed.

Lemma stales_pop st e q : NoDup (map fst q) -> In e q -> st (snd e) = true ->
  (stales st (pop e q) < stales st q)%nat.
Proof.
  unfold stales. intros ND He Hst. induction q as [|y q IH]; [contradiction|].
  cbn in ND. inversion ND as [|? ? H1 H2]; subst. unfold pop in *. cbn [filter].
  destruct He as [->|He].
  - rewrite Nat.eqb_refl. cbn [negb]. rewrite Hst. cbn [length].
    assert (E : filter (fun x => negb (Nat.eqb (fst x) (fst e))) q = q).
    { clear -H1. induction q as [|z q IH]; [reflexivity|]. cbn in *.
      destruct (Nat.eqb_spec (fst z) (fst e)); [exfalso; tauto|]. cbn. f_equal. apply IH. tauto. }
    rewrite E. lia.
  - specialize (IH H2 He). destruct (Nat.eqb_spec (fst y) (fst e)) as [E|E].
    + exfalso. apply H1. rewrite E. apply in_map, He.
    + cbn [negb filter]. destruct (st (snd y)); cbn [length]; lia.
Qed.

(** Refreshing: the loop ends with a fresh top. *)
Lemma refresh_ok (m : forall C, St C -> Z -> res (St C * iv)) (spec : (iv -> Prop) -> Z -> iv -> Prop)
  better stale (Old : nat -> iv -> Prop) k :
  (forall a b, fst a <> fst b -> better a b = negb (better b a)) ->
  (forall a b c, better a b = true -> better b c = true -> better a c = true) ->
  (forall i s, (i < length Cs)%nat -> J s ->
     wp (vcall m Cs i s k) (fun '(s', r) => J s' /\ spec (nS Ss i) k r)) ->
  (forall i x, (i < length Cs)%nat -> spec (nS Ss i) k x -> Old i x /\ stale x = false) ->
  forall s q, J s -> q_ok Old q ->
  wp (refresh Cs m better stale s q k)
     (fun '(s', q') => J s' /\ q_ok Old q' /\
        wp (top better q') (fun e => In e q' /\ stale (snd e) = false /\
              forall x, In x q' -> fst x <> fst e -> better e x = true)).
Proof.
  intros Tot Tr Hm Hold s q Hs Hq. unfold refresh.
  apply loop_rule with
    (Inv := fun '(s, q) => J s /\ q_ok Old q)
    (mu := fun '(s, q) => Z.of_nat (stales stale q)).
  - intros [s0 q0] _. lia.
  - intros [s0 q0] [Hs0 Hq0].
    pose proof (top_ok better Tot Tr q0 (q_ne _ _ Hq0) (proj1 Hq0)) as HT.
    destruct Hq0 as (ND & Hi & HO).
    apply wp_bind. apply wp_exists in HT. destruct HT as (e & Ee & He & Hb). rewrite Ee. cbn [wp].
    destruct (stale (snd e)) eqn:Est.
    + destruct (pop_facts e q0 ND He) as (P1 & P2 & P3).
      assert (Hei : (fst e < length Cs)%nat) by (apply Hi, in_map, He).
      apply wp_bind. eapply wp_mono; [apply Hm; [exact Hei|exact Hs0]|].
      intros [s1 x] [Hs1 Hx]. destruct (Hold _ _ Hei Hx) as [HxO Hxs]. cbn.
      split; [split; [exact Hs1|]|].
      * split; [|split].
        -- cbn. constructor; [|exact P1]. intros H. apply P2 in H. destruct H as [_ H]. apply H; reflexivity.
        -- intros i. cbn. rewrite P2, Hi. destruct (Nat.eq_dec (fst e) i); [subst; tauto|]. intuition congruence.
        -- intros i y [E|Hy]; [inversion E; subst; exact HxO|]. apply HO. apply P3 in Hy. apply Hy.
      * unfold stales. cbn [filter snd]. rewrite Hxs. apply inj_lt. apply (stales_pop stale e q0 ND He Est).
    + cbn. split; [exact Hs0|]. split; [split; [exact ND|split; [exact Hi|exact HO]]|].
      rewrite Ee. cbn. auto.
  - split; assumption.
  - unfold BIG. assert (stales stale q <= length Cs)%nat.
    { unfold stales. destruct Hq as (ND & Hi & _).
      assert (length (map fst q) <= length (seq 0 (length Cs)))%nat.
      { apply NoDup_incl_length; [exact ND|]. intros i Hin. apply in_seq. apply Hi in Hin. lia. }
      rewrite map_length, seq_length in H.
      assert (length (filter (fun e => stale (snd e)) q) <= length q)%nat.
      { clear. induction q as [|y q IH]; cbn; [lia|]. destruct (stale (snd y)); cbn; lia. }
      exact (Nat.le_trans _ _ _ H0 H). }
    unfold maxf in Small. lia.
Qed.

(** * The object's invariant *)
Definition tq_inv (kt : Z) (q : list elt) : Prop :=
  kt = maxf \/ q_ok (fun i x => exists k', minf <= k' <= kt /\ tau_spec (nS Ss i) k' x) q.
Definition uq_inv (ku : Z) (q : list elt) : Prop :=
  ku = minf \/ q_ok (fun i x => exists k', ku <= k' <= maxf /\ uat_spec (nS Ss i) k' x) q.
Definition vec_inv (v : vec Cs) : Prop :=
  J (vs _ v) /\ minf <= tau_k _ v <= maxf /\ minf <= uat_k _ v <= maxf /\
  tq_inv (tau_k _ v) (tq _ v) /\ uq_inv (uat_k _ v) (uq _ v).
Notation I := (Iof vec_inv (sem_inner Ss)).

(** The answers of the operands at k, as a function of the index (they exist). *)
Lemma in_q_fn P q : q_ok P q -> forall i, (i < length Cs)%nat -> exists x, In (i, x) q.
Proof.
  intros (_ & H & _) i Hi. apply H in Hi. apply in_map_iff in Hi. destruct Hi as ([j x] & <- & Hx). eauto.
Qed.
Lemma q_fun P q i x y : q_ok P q -> In (i, x) q -> In (i, y) q -> x = y.
Proof.
  intros (ND & _) Hx Hy. revert Hx Hy ND. induction q as [|[j z] q IH]; intros Hx Hy ND; [contradiction|].
  cbn in ND. inversion ND as [|? ? H1 H2]; subst.
  destruct Hx as [Ex|Hx], Hy as [Ey|Hy].
  - congruence.
  - inversion Ex; subst. exfalso. apply H1. change i with (fst (i, y)). apply in_map, Hy.
  - inversion Ey; subst. exfalso. apply H1. change i with (fst (i, x)). apply in_map, Hx.
  - apply IH; assumption.
Qed.
Fixpoint look (q : list elt) (i : nat) : iv :=
  match q with [] => maxr | (j, x) :: r => if Nat.eqb i j then x else look r i end.
Lemma look_in P q i : q_ok P q -> (i < length Cs)%nat -> In (i, look q i) q.
Proof.
  intros H Hi. destruct (in_q_fn P q H i Hi) as [x Hx]. clear H.
  induction q as [|[j y] q IH]; [contradiction|]. cbn [look].
  destruct (Nat.eqb_spec i j) as [->|N]; [left; reflexivity|]. right. apply IH.
  destruct Hx as [E|Hx]; [inversion E; congruence|exact Hx].
Qed.

Lemma inner_tau__ok : meth_ok vec_inv (sem_inner Ss) tau_spec (inner_tau_ Cs).
Proof.
  intros s k [(HJ & Htk & Huk & Hq & Hu) Hm] Hk. unfold inner_tau_. pose proof min_lt_max as Hmm.
  pose proof (GC_inner Ss all_GC) as GI.
  destruct (Z.eqb_spec k maxf) as [->|Nk].
  { cbn. split; [split; [repeat split; (assumption || lia)|exact Hm]|]. right. split; [lia|]. right.
    split; [reflexivity|]. intros x Hx. pose proof (GC_fin _ _ GI Hx). fin. }
  assert (FIN : forall st q e, J st -> q_ok (fun i x => exists k', minf <= k' <= k /\ tau_spec (nS Ss i) k' x) q ->
     In e q -> (ip (snd e) <? k) = false -> (forall x, In x q -> fst x <> fst e -> tau_better e x = true) ->
     (fun '(s', r) => I s' /\ tau_spec (sem_inner Ss) k r)
       (set_sub s (Vec Cs st q (uq Cs (sub s)) k (uat_k Cs (sub s))), snd e)).
  { intros st q e HJ' Hq' He Hst Hb. split.
    { split; [|exact Hm]. unfold vec_inv; cbn [sub set_sub vs tq uq tau_k uat_k]. split; [assumption|]. split; [lia|]. split; [lia|]. split; first [assumption|right; exact Hq']. }
    destruct (Z.eq_dec k minf) as [->|Nk0].
    { (* every remembered answer is at minfinity *)
      left. split; [reflexivity|]. destruct e as [i x]. cbn [snd].
      destruct (proj2 (proj2 Hq') i x He) as (k' & Hk' & Hs').
      destruct Hs' as [[_ ->]|[? _]]; [reflexivity|lia]. }
    destruct e as [t x]. cbn [fst snd] in *.
    assert (Ht : (t < length Cs)%nat).
    { apply (proj1 (proj2 Hq')). change t with (fst (t, x)). apply in_map, He. }
    (* true answers *)
    assert (EX : forall n, (n <= length Cs)%nat -> exists ans : nat -> iv, forall i, (i < n)%nat -> tau_spec (nS Ss i) k (ans i)).
    { induction n as [|n IHn]; intros Hn; [exists (fun _ => maxr); intros; lia|].
      destruct (IHn ltac:(lia)) as [ans Hans].
      pose proof (v_tau n st k ltac:(lia) HJ' Hk) as W. apply wp_exists in W.
      destruct W as ([? r] & _ & _ & Hr).
      exists (fun i => if Nat.eqb i n then r else ans i). intros i Hi.
      destruct (Nat.eqb_spec i n); [subst; exact Hr|apply Hans; lia]. }
    destruct (EX (length Cs) (le_n _)) as [ans Hans].
    assert (Ex : ans t = x).
    { destruct (proj2 (proj2 Hq') t x He) as (k' & Hk' & Hs').
      destruct (tau_advance (nS Ss t) k k' x (ans t) (nS_GC Ss all_GC t) ltac:(lia) Nk0 Hs' (Hans t Ht)) as [A _].
      apply A. lia. }
    rewrite <- Ex. apply best_tau; [exact all_GC|exact Nk0|rewrite len_eq; exact Ht|rewrite len_eq; exact Hans|].
    intros i Hi Nit. rewrite len_eq in Hi. rewrite Ex.
    pose proof (look_in _ q i Hq' Hi) as Hin.
    specialize (Hb _ Hin Nit). apply tau_better_iff in Hb. apply tau_better_iff.
    destruct (proj2 (proj2 Hq') i (look q i) Hin) as (k' & Hk' & Hs').
    destruct (tau_advance (nS Ss i) k k' (look q i) (ans i) (nS_GC Ss all_GC i) ltac:(lia) Nk0 Hs' (Hans i Hi)) as [A B].
    destruct (Z_le_gt_dec k (ip (look q i))) as [L|L].
    - rewrite (A L). exact Hb.
    - specialize (B ltac:(lia)). lia. }
  destruct (Z.ltb_spec k (tau_k Cs (sub s))) as [Hlt|Hge].
  - apply wp_bind. eapply wp_mono; [apply (fill_ok h_tau tau_spec v_tau); [exact HJ|exact Hk]|].
    intros [st q] [HJ' Hq']. cbn beta iota.
    apply wp_bind. eapply wp_mono; [apply (top_ok tau_better tau_better_total tau_better_trans q (q_ne _ _ Hq') (proj1 Hq'))|].
    intros e [He Hb]. apply FIN; auto.
    + destruct Hq' as (N1 & N2 & N3). split; [exact N1|]. split; [exact N2|]. intros i x Hx.
      exists k. split; [lia|]. apply N3, Hx.
    + destruct e as [i x]. pose proof (proj2 (proj2 Hq') i x He) as H. cbn [snd].
      apply Z.ltb_ge. destruct H as [[-> ->]|[_ [(_ & ? & _)|[-> _]]]]; cbn; lia.
  - destruct Hq as [E|Hq]; [lia|].
    apply wp_bind. eapply wp_mono.
    + apply (refresh_ok h_tau tau_spec tau_better (fun x => ip x <? k)
               (fun i x => exists k', minf <= k' <= k /\ tau_spec (nS Ss i) k' x) k
               tau_better_total tau_better_trans); [| |exact HJ|].
      * intros i st Hi HJ'. apply v_tau; assumption.
      * intros i x Hi Hx. split; [exists k; split; [lia|exact Hx]|]. apply Z.ltb_ge.
        destruct Hx as [[-> ->]|[_ [(_ & ? & _)|[-> _]]]]; cbn; lia.
      * destruct Hq as (N1 & N2 & N3). split; [exact N1|]. split; [exact N2|]. intros i x Hx.
        destruct (N3 i x Hx) as (k' & ? & ?). exists k'. split; [lia|assumption].
    + intros [st q] (HJ' & Hq' & HT). cbn beta iota. apply wp_bind. eapply wp_mono; [exact HT|].
      intros e (He & Hst & Hb). apply FIN; auto.
Qed.

Lemma inner_uat__ok : meth_ok vec_inv (sem_inner Ss) uat_spec (inner_uat_ Cs).
Proof.
  intros s k [(HJ & Htk & Huk & Hq & Hu) Hm] Hk. unfold inner_uat_. pose proof min_lt_max as Hmm.
  pose proof (GC_inner Ss all_GC) as GI.
  destruct (Z.eqb_spec k minf) as [->|Nk].
  { cbn. split; [split; [repeat split; (assumption || lia)|exact Hm]|]. right. split; [lia|]. right.
    split; [reflexivity|]. intros x Hx. pose proof (GC_fin _ _ GI Hx). fin. }
  assert (FIN : forall st q e, J st -> q_ok (fun i x => exists k', k <= k' <= maxf /\ uat_spec (nS Ss i) k' x) q ->
     In e q -> (k <? iq (snd e)) = false -> (forall x, In x q -> fst x <> fst e -> uat_better e x = true) ->
     (fun '(s', r) => I s' /\ uat_spec (sem_inner Ss) k r)
       (set_sub s (Vec Cs st (tq Cs (sub s)) q (tau_k Cs (sub s)) k), snd e)).
  { intros st q e HJ' Hq' He Hst Hb. split.
    { split; [|exact Hm]. unfold vec_inv; cbn [sub set_sub vs tq uq tau_k uat_k]. split; [assumption|]. split; [lia|]. split; [lia|]. split; first [assumption|right; exact Hq']. }
    destruct (Z.eq_dec k maxf) as [->|Nk0].
    { left. split; [reflexivity|]. destruct e as [i x]. cbn [snd].
      destruct (proj2 (proj2 Hq') i x He) as (k' & Hk' & Hs').
      destruct Hs' as [[_ ->]|[? _]]; [reflexivity|lia]. }
    destruct e as [t x]. cbn [fst snd] in *.
    assert (Ht : (t < length Cs)%nat).
    { apply (proj1 (proj2 Hq')). change t with (fst (t, x)). apply in_map, He. }
    assert (EX : forall n, (n <= length Cs)%nat -> exists ans : nat -> iv, forall i, (i < n)%nat -> uat_spec (nS Ss i) k (ans i)).
    { induction n as [|n IHn]; intros Hn; [exists (fun _ => maxr); intros; lia|].
      destruct (IHn ltac:(lia)) as [ans Hans].
      pose proof (v_uat n st k ltac:(lia) HJ' Hk) as W. apply wp_exists in W.
      destruct W as ([? r] & _ & _ & Hr).
      exists (fun i => if Nat.eqb i n then r else ans i). intros i Hi.
      destruct (Nat.eqb_spec i n); [subst; exact Hr|apply Hans; lia]. }
    destruct (EX (length Cs) (le_n _)) as [ans Hans].
    assert (Ex : ans t = x).
    { destruct (proj2 (proj2 Hq') t x He) as (k' & Hk' & Hs').
      destruct (uat_advance (nS Ss t) k k' x (ans t) (nS_GC Ss all_GC t) ltac:(lia) Nk0 Hs' (Hans t Ht)) as [A _].
      apply A. lia. }
    rewrite <- Ex. apply best_uat; [exact all_GC|exact Nk0|rewrite len_eq; exact Ht|rewrite len_eq; exact Hans|].
    intros i Hi Nit. rewrite len_eq in Hi. rewrite Ex.
    pose proof (look_in _ q i Hq' Hi) as Hin.
    specialize (Hb _ Hin Nit). apply uat_better_iff in Hb. apply uat_better_iff.
    destruct (proj2 (proj2 Hq') i (look q i) Hin) as (k' & Hk' & Hs').
    destruct (uat_advance (nS Ss i) k k' (look q i) (ans i) (nS_GC Ss all_GC i) ltac:(lia) Nk0 Hs' (Hans i Hi)) as [A B].
    destruct (Z_le_gt_dec (iq (look q i)) k) as [L|L].
    - rewrite (A L). exact Hb.
    - specialize (B ltac:(lia)). lia. }
  destruct (Z.ltb_spec (uat_k Cs (sub s)) k) as [Hlt|Hge].
  - apply wp_bind. eapply wp_mono; [apply (fill_ok h_uat uat_spec v_uat); [exact HJ|exact Hk]|].
    intros [st q] [HJ' Hq']. cbn beta iota.
    apply wp_bind. eapply wp_mono; [apply (top_ok uat_better uat_better_total uat_better_trans q (q_ne _ _ Hq') (proj1 Hq'))|].
    intros e [He Hb]. apply FIN; auto.
    + destruct Hq' as (N1 & N2 & N3). split; [exact N1|]. split; [exact N2|]. intros i x Hx.
      exists k. split; [lia|]. apply N3, Hx.
    + destruct e as [i x]. pose proof (proj2 (proj2 Hq') i x He) as H. cbn [snd].
      apply Z.ltb_ge. destruct H as [[-> ->]|[_ [(_ & ? & _)|[-> _]]]]; cbn; lia.
  - destruct Hu as [E|Hu]; [lia|].
    apply wp_bind. eapply wp_mono.
    + apply (refresh_ok h_uat uat_spec uat_better (fun x => k <? iq x)
               (fun i x => exists k', k <= k' <= maxf /\ uat_spec (nS Ss i) k' x) k
               uat_better_total uat_better_trans); [| |exact HJ|].
      * intros i st Hi HJ'. apply v_uat; assumption.
      * intros i x Hi Hx. split; [exists k; split; [lia|exact Hx]|]. apply Z.ltb_ge.
        destruct Hx as [[-> ->]|[_ [(_ & ? & _)|[-> _]]]]; cbn; lia.
      * destruct Hu as (N1 & N2 & N3). split; [exact N1|]. split; [exact N2|]. intros i x Hx.
        destruct (N3 i x Hx) as (k' & ? & ?). exists k'. split; [lia|assumption].
    + intros [st q] (HJ' & Hq' & HT). cbn beta iota. apply wp_bind. eapply wp_mono; [exact HT|].
      intros e (He & Hst & Hb). apply FIN; auto.
Qed.

(** * L and R: extrema over the operands *)
Lemma vfold_ok (m : forall C, St C -> Z -> res (St C * Z)) (spec : (iv -> Prop) -> Z -> Z -> Prop) op k :
  (forall i s, (i < length Cs)%nat -> J s ->
     wp (vcall m Cs i s k) (fun '(s', r) => J s' /\ spec (nS Ss i) k r)) ->
  forall is s acc, J s -> Forall (fun i => (i < length Cs)%nat) is ->
  wp (vfold Cs m op is s k acc)
     (fun '(s', r) => J s' /\ exists xs, Forall2 (fun i x => spec (nS Ss i) k x) is xs /\ r = fold_left op xs acc).
Proof.
  intros Hm. induction is as [|i is IH]; intros s acc Hs HF; cbn [vfold].
  - cbn. split; [exact Hs|]. exists []. split; [constructor|reflexivity].
  - inversion HF; subst. apply wp_bind. eapply wp_mono; [apply Hm; assumption|].
    intros [s1 x] [Hs1 Hx]. eapply wp_mono; [apply IH; assumption|].
    intros [s2 r] (Hs2 & xs & HX & ->). split; [exact Hs2|]. exists (x :: xs). split; [constructor; assumption|reflexivity].
Qed.

Lemma fold_max_le xs acc : forall y, (y = acc \/ In y xs) -> y <= fold_left Z.max xs acc.
Proof.
  revert acc. induction xs as [|x xs IH]; intros acc y H; cbn.
  - destruct H as [->|[]]; lia.
  - destruct H as [->|[->|H]].
    + transitivity (Z.max acc x); [lia|]. apply IH; auto.
    + transitivity (Z.max acc y); [lia|]. apply IH; auto.
    + apply IH; auto.
Qed.
Lemma fold_max_in xs acc : fold_left Z.max xs acc = acc \/ In (fold_left Z.max xs acc) xs.
Proof.
  revert acc. induction xs as [|x xs IH]; intros acc; cbn; [auto|].
  destruct (IH (Z.max acc x)) as [E|H]; [|auto]. rewrite E. destruct (Z.max_spec acc x) as [[_ ->]|[_ ->]]; auto.
Qed.
Lemma fold_min_le xs acc : forall y, (y = acc \/ In y xs) -> fold_left Z.min xs acc <= y.
Proof.
  revert acc. induction xs as [|x xs IH]; intros acc y H; cbn.
  - destruct H as [->|[]]; lia.
  - destruct H as [->|[->|H]].
    + transitivity (Z.min acc x); [|lia]. apply IH; auto.
    + transitivity (Z.min acc y); [|lia]. apply IH; auto.
    + apply IH; auto.
Qed.
Lemma fold_min_in xs acc : fold_left Z.min xs acc = acc \/ In (fold_left Z.min xs acc) xs.
Proof.
  revert acc. induction xs as [|x xs IH]; intros acc; cbn; [auto|].
  destruct (IH (Z.min acc x)) as [E|H]; [|auto]. rewrite E. destruct (Z.min_spec acc x) as [[_ ->]|[_ ->]]; auto.
Qed.

Lemma forall2_seq_in {Y} (P : nat -> Y -> Prop) is xs : Forall2 P is xs ->
  (forall i, In i is -> exists x, In x xs /\ P i x) /\ (forall x, In x xs -> exists i, In i is /\ P i x).
Proof.
  induction 1 as [|i x is xs H HF [IH1 IH2]]; [split; intros; contradiction|].
  split.
  - intros j [->|Hj]; [exists x; split; [left; auto|assumption]|]. destruct (IH1 j Hj) as (y & ? & ?). exists y; split; [right; auto|assumption].
  - intros y [->|Hy]; [exists i; split; [left; auto|assumption]|]. destruct (IH2 y Hy) as (j & ? & ?). exists j; split; [right; auto|assumption].
Qed.


Lemma ans_ex (spec : (iv -> Prop) -> Z -> iv -> Prop) (m : forall C, St C -> Z -> res (St C * iv)) st k :
  (forall i s, (i < length Cs)%nat -> J s ->
     wp (vcall m Cs i s k) (fun '(s', r) => J s' /\ spec (nS Ss i) k r)) ->
  J st -> exists ans : nat -> iv, forall i, (i < length Cs)%nat -> spec (nS Ss i) k (ans i).
Proof.
  intros Hm HJ.
  assert (EX : forall n, (n <= length Cs)%nat -> exists ans : nat -> iv, forall i, (i < n)%nat -> spec (nS Ss i) k (ans i)).
  { induction n as [|n IHn]; intros Hn; [exists (fun _ => maxr); intros; lia|].
    destruct (IHn ltac:(lia)) as [ans Hans].
    pose proof (Hm n st ltac:(lia) HJ) as W. apply wp_exists in W.
    destruct W as ([? r] & _ & _ & Hr).
    exists (fun i => if Nat.eqb i n then r else ans i). intros i Hi.
    destruct (Nat.eqb_spec i n); [subst; exact Hr|apply Hans; lia]. }
  apply (EX (length Cs) (le_n _)).
Qed.

Lemma best_ex better (ans : nat -> iv) :
  (forall a b, fst a <> fst b -> better a b = negb (better b a)) ->
  (forall a b c, better a b = true -> better b c = true -> better a c = true) ->
  exists t, (t < length Cs)%nat /\
    forall i, (i < length Cs)%nat -> i <> t -> better (t, ans t) (i, ans i) = true.
Proof.
  intros Tot Tr.
  set (q := map (fun i => (i, ans i)) (seq 0 (length Cs))).
  assert (ND : NoDup (map fst q)).
  { unfold q. rewrite map_map. cbn. rewrite map_id. apply seq_NoDup. }
  assert (q <> []). { unfold q. destruct Cs; [congruence|]. cbn. congruence. }
  pose proof (top_ok better Tot Tr q H ND) as W. apply wp_exists in W.
  destruct W as (e & _ & He & Hb). apply in_map_iff in He. destruct He as (t & <- & Ht). apply in_seq in Ht.
  exists t. split; [lia|]. intros i Hi N. apply (Hb (i, ans i)); [|exact N].
  apply in_map_iff. exists i. split; [reflexivity|]. apply in_seq. lia.
Qed.

Lemma inner_L_ok s k : I s -> minf <= k <= maxf ->
  wp (inner_L Cs s k) (fun '(s', r) => I s' /\ L_spec (sem_inner Ss) k r).
Proof.
  intros [(HJ & Htk & Huk & Hq & Hu) Hm] Hk. unfold inner_L. pose proof min_lt_max as Hmm.
  apply wp_bind. eapply wp_mono.
  { apply (vfold_ok h_L L_spec Z.max k); [intros; apply v_L; assumption|exact HJ|].
    apply Forall_forall. intros i Hi. apply in_seq in Hi. lia. }
  intros [st l] (HJ' & xs & HF & ->). apply wp_ok.
  split. { split; [|exact Hm]. exact (conj HJ' (conj Htk (conj Huk (conj Hq Hu)))). }
  destruct (ans_ex uat_spec h_uat st k) as [ans Hans]; [intros; apply v_uat; assumption|exact HJ'|].
  destruct (best_ex uat_better ans uat_better_total uat_better_trans) as (t & Ht & Hb).
  apply forall2_seq_in in HF. destruct HF as [F1 F2].
  assert (X1 : forall i, (i < length Cs)%nat -> In (ip (ans i)) xs).
  { intros i Hi. destruct (F1 i) as (x & Hx & y & Hy & ->); [apply in_seq; lia|].
    rewrite (uat_spec_unique _ _ _ _ (nS_GC Ss all_GC i) (Hans i Hi) Hy). exact Hx. }
  assert (X2 : forall x, In x xs -> exists i, (i < length Cs)%nat /\ x = ip (ans i)).
  { intros x Hx. destruct (F2 x Hx) as (i & Hi & y & Hy & ->). apply in_seq in Hi. exists i. split; [lia|].
    f_equal. apply (uat_spec_unique (nS Ss i) k); auto using nS_GC, all_GC. apply Hans. lia. }
  assert (E : fold_left Z.max xs minf = ip (ans t)).
  { apply Z.le_antisymm.
    - destruct (fold_max_in xs minf) as [E|E].
      + rewrite E. pose proof (uat_range _ _ _ (nS_GC Ss all_GC t) (Hans t Ht)). lia.
      + destruct (X2 _ E) as (i & Hi & ->). destruct (Nat.eq_dec i t) as [->|N]; [lia|].
        specialize (Hb i Hi N). apply uat_better_iff in Hb. lia.
    - apply fold_max_le. right. apply X1, Ht. }
  rewrite E. exists (ans t). split; [|reflexivity].
  destruct (Z.eq_dec k maxf) as [->|Nk].
  - left. split; [reflexivity|]. destruct (Hans t Ht) as [[_ ->]|[? _]]; [reflexivity|congruence].
  - apply best_uat; auto using all_GC; rewrite len_eq; auto.
Qed.
Lemma inner_R_ok s k : I s -> minf <= k <= maxf ->
  wp (inner_R Cs s k) (fun '(s', r) => I s' /\ R_spec (sem_inner Ss) k r).
Proof.
  intros [(HJ & Htk & Huk & Hq & Hu) Hm] Hk. unfold inner_R. pose proof min_lt_max as Hmm.
  apply wp_bind. eapply wp_mono.
  { apply (vfold_ok h_R R_spec Z.min k); [intros; apply v_R; assumption|exact HJ|].
    apply Forall_forall. intros i Hi. apply in_seq in Hi. lia. }
  intros [st l] (HJ' & xs & HF & ->). apply wp_ok.
  split. { split; [|exact Hm]. exact (conj HJ' (conj Htk (conj Huk (conj Hq Hu)))). }
  destruct (ans_ex tau_spec h_tau st k) as [ans Hans]; [intros; apply v_tau; assumption|exact HJ'|].
  destruct (best_ex tau_better ans tau_better_total tau_better_trans) as (t & Ht & Hb).
  apply forall2_seq_in in HF. destruct HF as [F1 F2].
  assert (X1 : forall i, (i < length Cs)%nat -> In (iq (ans i)) xs).
  { intros i Hi. destruct (F1 i) as (x & Hx & y & Hy & ->); [apply in_seq; lia|].
    rewrite (tau_spec_unique _ _ _ _ (nS_GC Ss all_GC i) (Hans i Hi) Hy). exact Hx. }
  assert (X2 : forall x, In x xs -> exists i, (i < length Cs)%nat /\ x = iq (ans i)).
  { intros x Hx. destruct (F2 x Hx) as (i & Hi & y & Hy & ->). apply in_seq in Hi. exists i. split; [lia|].
    f_equal. apply (tau_spec_unique (nS Ss i) k); auto using nS_GC, all_GC. apply Hans. lia. }
  assert (E : fold_left Z.min xs maxf = iq (ans t)).
  { apply Z.le_antisymm.
    - apply fold_min_le. right. apply X1, Ht.
    - destruct (fold_min_in xs maxf) as [E|E].
      + rewrite E. pose proof (tau_range _ _ _ (nS_GC Ss all_GC t) (Hans t Ht)). lia.
      + destruct (X2 _ E) as (i & Hi & ->). destruct (Nat.eq_dec i t) as [->|N]; [lia|].
        specialize (Hb i Hi N). apply tau_better_iff in Hb. lia. }
  rewrite E. exists (ans t). split; [|reflexivity].
  destruct (Z.eq_dec k minf) as [->|Nk].
  - left. split; [reflexivity|]. destruct (Hans t Ht) as [[_ ->]|[? _]]; [reflexivity|congruence].
  - apply best_tau; auto using all_GC; rewrite len_eq; auto.
Qed.

Lemma inner_ok : hop_ok (inner_hopper Cs) (sem_inner Ss) I.
Proof.
  assert (T := memo_tau_ok _ _ _ inner_tau__ok). assert (U := memo_uat_ok _ _ _ inner_uat__ok).
  pose proof (GC_inner Ss all_GC) as G.
  constructor; cbn [h_tau h_rho h_uat h_ohr h_L h_R inner_hopper].
  - exact G.
  - exact T.
  - apply memo_rho_ok. exact (rho_shape _ _ _ _ G inner_L_ok T).
  - exact U.
  - apply memo_ohr_ok. exact (ohr_shape _ _ _ _ G inner_R_ok U).
  - exact inner_L_ok.
  - exact inner_R_ok.
Qed.
Lemma inner_init_ok st : J st -> I (inner_init Cs st).
Proof.
  intros H. apply fresh_inv. pose proof min_lt_max. repeat split; cbn; auto; try lia; left; reflexivity.
Qed.
End Inner.

(** * VectorHopper::make *)
Definition obj_ok (o : hobj) (S : iv -> Prop) : Prop :=
  exists I, hop_ok (projT1 o) S I /\ I (projT2 o).

Lemma objs_vec os Ss : Forall2 obj_ok os Ss -> exists J, vec_ok (classes os) Ss J /\ J (states os).
Proof.
  induction 1 as [|o S os Ss (I & HI & HS) HF (J & HJ & HJS)].
  - exists (fun _ => True). split; [constructor|exact Logic.I].
  - exists (fun s : tup (projT1 o :: classes os) => I (fst s) /\ J (snd s)). split; [constructor; assumption|].
    cbn. auto.
Qed.
Lemma classes_len os : length (classes os) = length os.
Proof. induction os; cbn; auto. Qed.

Lemma sem_inner_nil x : sem_inner [] x <-> False.
Proof. split; [|contradiction]. intros [(i & S & E & _) _]. destruct i; discriminate. Qed.
Lemma sem_inner_one S x : GC S -> (sem_inner [S] x <-> S x).
Proof.
  intros G. split.
  - intros [(i & T & E & Hx & _) _]. destruct i as [|[|i]]; cbn in E; congruence.
  - intros Hx. split.
    + exists 0%nat, S. split; [reflexivity|]. split; [exact Hx|]. intros j T y Hj E. destruct j as [|[|j]]; [lia|discriminate|discriminate].
    + intros T y [<-|[]] Hy N. assert (x = y) by (apply G; assumption). subst y. unfold nests; lia.
Qed.

Lemma vector_make_ok os Ss : Z.of_nat (length os) <= maxf -> Forall2 obj_ok os Ss ->
  obj_ok (vector_make os) (sem_inner Ss).
Proof.
  intros Hlen HF. destruct os as [|o [|o2 os]].
  - inversion HF; subst. exists (Iof (fun _ => True) (fun _ => False)). split.
    + apply (hop_ok_ext _ (fun _ => False)); [intros x; symmetry; apply sem_inner_nil|exact empty_ok].
    + apply fresh_inv. exact Logic.I.
  - inversion HF as [|? S ? Ss' (I & HI & HS) HF']; subst. inversion HF'; subst.
    exists I. split; [|exact HS]. apply (hop_ok_ext _ S); [|exact HI].
    intros x. symmetry. apply sem_inner_one. exact (hop_GC HI).
  - destruct (objs_vec _ _ HF) as (J & HV & HJ).
    exists (Iof (vec_inv (classes (o :: o2 :: os)) Ss J) (sem_inner Ss)). split.
    + apply inner_ok; [exact HV|cbn; congruence|rewrite classes_len; exact Hlen].
    + apply inner_init_ok, HJ.
Qed.
