(** Facts about the set operations: coverage, phrases, the optimizer's rewrite. *)
From Verif Require Import Base Bytes HopperModel GclSpec HopperProofs VectorModel UnaryModel UnaryProofs AnswerProofs QueryModel QuerySpec QueryProofs.
From Coq Require Import Permutation.

Definition view (S : iv -> Prop) : Prop := exists C s, answers C s S.
Definition cover (S : iv -> Prop) (x : iv) : Prop := exists a, S a /\ nests x a.
Definition up (P : iv -> Prop) : Prop := forall x y, P y -> nests x y -> P x.

Lemma nests_refl x : nests x x. Proof. unfold nests; lia. Qed.
Lemma nests_trans x y z : nests x y -> nests y z -> nests x z. Proof. unfold nests; lia. Qed.
Lemma cover_up S : up (cover S).
Proof. intros x y (a & Ha & N) N'. exists a. split; [exact Ha|]. eapply nests_trans; eauto. Qed.

Lemma view_tau S k : view S -> minf <= k <= maxf -> exists r, tau_spec S k r.
Proof.
  intros (C & s & H) Hk. apply answers_iff in H. destruct H as (I & HI & Hs).
  pose proof (hop_tau HI s k Hs Hk) as W. apply wp_exists in W. destruct W as ([s' r] & _ & _ & T). eauto.
Qed.
Lemma view_GC S : view S -> GC S.
Proof. intros (C & s & G & _). exact G. Qed.

(** The first interval from [k] on has the least end among those from [k] on. *)
Lemma view_first S k : view S -> minf < k <= maxf ->
  (exists r, S r /\ k <= ip r /\ forall x, S x -> k <= ip x -> iq r <= iq x) \/ (forall x, S x -> ip x < k).
Proof.
  intros V Hk. destruct (view_tau S k V ltac:(lia)) as (r & [[E _]|[_ [(H1 & H2 & H3)|[_ H3]]]]); [lia| |right; exact H3].
  left. exists r. split; [exact H1|]. split; [exact H2|]. intros x Hx Hkx.
  apply (GC_le_pq S r x (view_GC S V) H1 Hx). apply H3; assumption.
Qed.
Lemma cover_dec S x : view S -> finite x -> cover S x \/ ~ cover S x.
Proof.
  intros V F. destruct (view_first S (ip x) V ltac:(fin)) as [(r & Hr & Hk & Hm)|Hn].
  - destruct (Z_le_gt_dec (iq r) (iq x)).
    + left. exists r. split; [exact Hr|]. unfold nests; lia.
    + right. intros (a & Ha & N). unfold nests in N. specialize (Hm a Ha ltac:(lia)). lia.
  - right. intros (a & Ha & N). unfold nests in N. specialize (Hn a Ha). lia.
Qed.

(** Innermost intervals exist. *)
Lemma innermost_exists P : up P -> (forall x, finite x -> P x \/ ~ P x) ->
  forall x, finite x -> P x -> exists y, innermost P y /\ nests x y.
Proof.
  intros U D x F HP.
  assert (Hw : forall n x, finite x -> P x -> iq x - ip x <= Z.of_nat n -> exists y, innermost P y /\ nests x y).
  { clear x F HP. induction n as [|n IH]; intros x F HP Hn.
    - exists (Iv (ip x) (iq x) 0). split; [|unfold nests; cbn; lia].
      split; [fin|]. split; [reflexivity|]. split; [apply (U _ x HP); unfold nests; cbn; lia|].
      intros y Fy _ N. fin.
    - destruct (Z.eq_dec (ip x) (iq x)) as [E|Hne].
      + apply IH; auto. lia.
      + assert (F1 : finite (Iv (ip x + 1) (iq x) 0)) by fin.
        assert (F2 : finite (Iv (ip x) (iq x - 1) 0)) by fin.
        destruct (D _ F1) as [P1|N1].
        { destruct (IH _ F1 P1) as (y & Hy & N); [cbn; lia|]. exists y. split; [exact Hy|]. fin. }
        destruct (D _ F2) as [P2|N2].
        { destruct (IH _ F2 P2) as (y & Hy & N); [cbn; lia|]. exists y. split; [exact Hy|]. fin. }
        exists (Iv (ip x) (iq x) 0). split; [|unfold nests; cbn; lia].
        split; [fin|]. split; [reflexivity|]. split; [apply (U _ x HP); unfold nests; cbn; lia|].
        intros y Fy Py N. unfold nests in *; cbn [ip iq] in *.
        destruct (Z.eq_dec (ip y) (ip x)) as [E1|E1].
        * destruct (Z.eq_dec (iq y) (iq x)) as [E2|E2]; [lia|]. exfalso. apply N2.
          apply (U _ y Py). unfold nests; cbn; lia.
        * exfalso. apply N1. apply (U _ y Py). unfold nests; cbn; lia. }
  apply (Hw (Z.to_nat (iq x - ip x)) x F HP). fin.
Qed.

Lemma cover_innermost P x : up P -> (forall x, finite x -> P x \/ ~ P x) -> finite x ->
  (cover (innermost P) x <-> P x).
Proof.
  intros U D F. split.
  - intros (a & (_ & _ & Pa & _) & N). exact (U _ _ Pa N).
  - intros HP. destruct (innermost_exists P U D x F HP) as (y & Hy & N). exists y. auto.
Qed.
Lemma innermost_ext P Q : (forall x, finite x -> P x <-> Q x) -> same (innermost P) (innermost Q).
Proof.
  intros H x. unfold innermost. split; intros (F & V & HP & Hm); (split; [exact F|]; split; [exact V|]; split;
    [apply H; assumption|]); intros y Fy HQ N; apply (Hm y Fy); auto; apply H; assumption.
Qed.

Lemma cover_and A B x : view A -> view B -> finite x -> (cover (sem_and A B) x <-> cover A x /\ cover B x).
Proof.
  intros VA VB F. apply (cover_innermost (fun x => cover A x /\ cover B x)); auto.
  - intros y z [H1 H2] N. split; eapply cover_up; eauto.
  - intros y Fy. destruct (cover_dec A y VA Fy); destruct (cover_dec B y VB Fy); intuition.
Qed.
Lemma cover_fby A B x : view A -> view B -> finite x ->
  (cover (sem_fby A B) x <-> exists a b, A a /\ B b /\ nests x a /\ nests x b /\ iq a < ip b).
Proof.
  intros VA VB F.
  apply (cover_innermost (fun x => exists a b, A a /\ B b /\ nests x a /\ nests x b /\ iq a < ip b)); auto.
  - intros y z (a & b & Ha & Hb & Na & Nb & Hlt) N. exists a, b. repeat split; auto; unfold nests in *; lia.
  - intros y Fy. destruct (view_first A (ip y) VA ltac:(fin)) as [(r & Hr & Hk & Hm)|Hn].
    + pose proof (GC_fin A r (view_GC A VA) Hr) as Fr.
      destruct (view_first B (iq r + 1) VB ltac:(fin)) as [(b & Hb & Hkb & Hmb)|Hn].
      * destruct (Z_le_gt_dec (iq b) (iq y)).
        -- left. exists r, b. pose proof (GC_fin B b (view_GC B VB) Hb).
           repeat split; auto; fin.
        -- right. intros (a & b' & Ha & Hb' & Na & Nb & Hlt). unfold nests in *.
           specialize (Hm a Ha ltac:(lia)). specialize (Hmb b' Hb' ltac:(lia)). lia.
      * right. intros (a & b' & Ha & Hb' & Na & Nb & Hlt). unfold nests in *.
        specialize (Hm a Ha ltac:(lia)). specialize (Hn b' Hb'). lia.
    + right. intros (a & b' & Ha & Hb' & Na & Nb & Hlt). unfold nests in *. specialize (Hn a Ha). lia.
Qed.

(* ------------------------------------------------------------------ *)
(** * Views are closed under the operators *)
Lemma view_op k A B : nary k -> view A -> view B -> view (sem_op k A B).
Proof.
  intros Hk (CA & sa & HA) (CB & sb & HB). unfold nary in Hk.
  destruct k; cbn in Hk; try (exfalso; intuition (discriminate || lia)); cbn [sem_op].
  - eexists _, _. eapply or_answers; eassumption.
  - eexists _, _. eapply and_answers; eassumption.
  - eexists _, _. eapply fby_answers; eassumption.
  - eexists _, _. eapply cin_answers; eassumption.
  - eexists _, _. eapply cing_answers; eassumption.
  - eexists _, _. eapply nin_answers; eassumption.
  - eexists _, _. eapply nct_answers; eassumption.
Qed.
Lemma view_ext S T : same S T -> view S -> view T.
Proof.
  intros E (C & s & G & H). exists C, s. split; [exact (GC_ext S T E G)|exact (implements_ext C s S T E G H)].
Qed.
Lemma answers_ext C s S T : same S T -> answers C s S -> answers C s T.
Proof. intros E (G & H). split; [exact (GC_ext S T E G)|exact (implements_ext C s S T E G H)]. Qed.
Lemma view_meaning idx E e : index_for idx E -> valid E e -> view (meaning E e).
Proof.
  intros HI V. destruct (to_hopper_good idx E HI e V) as (o & _ & H). exists (projT1 o), (projT2 o). exact H.
Qed.

(* ------------------------------------------------------------------ *)
(** * Phrases *)
(** Positions of the terms, in order. *)
Fixpoint increasing (lo : Z) (ps : list Z) : Prop :=
  match ps with [] => True | p :: r => lo < p /\ increasing p r end.
Definition at_pos (T : iv -> Prop) (p : Z) : Prop := exists v, T (Iv p p v).
Definition points (T : iv -> Prop) : Prop := forall x, T x -> iq x = ip x.

Lemma increasing_snoc ps : forall lo p, increasing lo ps -> lo < p -> (forall y, In y ps -> y < p) ->
  increasing lo (ps ++ [p]).
Proof.
  induction ps as [|a ps IH]; intros lo p H Hlo Hp; cbn in *; [auto|].
  destruct H. split; [auto|]. apply IH; auto.
Qed.
Lemma increasing_app ps : forall lo p, increasing lo (ps ++ [p]) ->
  increasing lo ps /\ lo < p /\ forall y, In y ps -> y < p.
Proof.
  induction ps as [|a ps IH]; intros lo p H; cbn in *.
  - destruct H. repeat split; auto. intros y [].
  - destruct H as [H1 H2]. destruct (IH a p H2) as (A & B & C). repeat split; auto; [lia|].
    intros y [<-|Hy]; auto.
Qed.
Lemma increasing_gt ps : forall lo y, increasing lo ps -> In y ps -> lo < y.
Proof.
  induction ps as [|a ps IH]; intros lo y H Hy; [contradiction|]. destruct H as [H1 H2].
  destruct Hy as [<-|Hy]; auto. specialize (IH a y H2 Hy). lia.
Qed.

Lemma point_of T x : points T -> T x -> at_pos T (ip x).
Proof. intros P H. exists (ivl x). pose proof (P x H). destruct x; cbn in *. subst. exact H. Qed.

Lemma view_fold k Ts : forall A, nary k -> view A -> Forall view Ts -> view (fold_left (sem_op k) Ts A).
Proof.
  induction Ts as [|T Ts IH]; intros A Hk VA H; cbn; [exact VA|]. inversion H; subst.
  apply IH; auto. apply view_op; auto.
Qed.

Lemma cover_chain A Ts : view A -> points A -> Forall view Ts -> Forall points Ts -> forall x, finite x ->
  (cover (fold_left sem_fby Ts A) x <->
   exists ps, Forall2 at_pos (A :: Ts) ps /\ increasing (ip x - 1) ps /\ forall p, In p ps -> p <= iq x).
Proof.
  intros VA PA. induction Ts as [|T Ts IH] using rev_ind; intros VT PT x F; cbn [fold_left].
  - split.
    + intros (a & Ha & N). exists [ip a]. pose proof (GC_fin A a (view_GC A VA) Ha).
      split; [constructor; [apply point_of; auto|constructor]|].
      split; [cbn; unfold nests in N; lia|]. intros p [<-|[]]. fin.
    + intros (ps & H2 & Hi & Hp). inversion H2 as [|? y ? ? (v & Hv) Hn]; subst. inversion Hn; subst.
      exists (Iv y y v). split; [exact Hv|]. cbn in Hi.
      specialize (Hp y (or_introl eq_refl)). unfold nests; cbn; lia.
  - rewrite fold_left_app. cbn [fold_left].
    apply Forall_app in VT. destruct VT as [VTs VT]. inversion VT as [|? ? VT1 _]; subst.
    apply Forall_app in PT. destruct PT as [PTs PT]. inversion PT as [|? ? PT1 _]; subst.
    pose proof (view_fold FOLLOWED_BY Ts A (or_intror (or_intror (or_intror eq_refl))) VA VTs) as VF. cbn [sem_op] in VF.
    rewrite cover_fby; auto. split.
    + intros (a & b & Ha & Hb & Na & Nb & Hlt).
      pose proof (GC_fin _ a (view_GC _ VF) Ha) as Fa.
      pose proof (GC_fin T b (view_GC T VT1) Hb) as Fb. pose proof (PT1 b Hb) as Pb.
      assert (Fx : finite (Iv (ip x) (ip b - 1) 0)) by fin.
      destruct (proj1 (IH VTs PTs (Iv (ip x) (ip b - 1) 0) Fx)) as (ps & H2 & Hi & Hp).
      { exists a. split; [exact Ha|]. fin. }
      cbn [ip iq] in *. exists (ps ++ [ip b]). split; [|split].
      * change (A :: Ts ++ [T]) with ((A :: Ts) ++ [T]). apply Forall2_app; [exact H2|].
        constructor; [apply point_of; auto|constructor].
      * apply increasing_snoc; auto; [fin|]. intros y Hy. specialize (Hp y Hy). lia.
      * intros p Hp'. apply in_app_iff in Hp'. destruct Hp' as [Hp'|[<-|[]]]; [specialize (Hp p Hp')|]; fin.
    + intros (ps & H2 & Hi & Hp). change (A :: Ts ++ [T]) with ((A :: Ts) ++ [T]) in H2.
      apply Forall2_app_inv_l in H2. destruct H2 as (ps1 & ps2 & H21 & H22 & ->).
      inversion H22 as [|? p ? ? (v & Hv) Hnil]; subst. inversion Hnil; subst.
      apply increasing_app in Hi. destruct Hi as (Hi & Hlo & Hlt).
      pose proof (Hp p ltac:(apply in_app_iff; right; left; reflexivity)) as Hpx.
      assert (Hne : ps1 <> []) by (intros ->; inversion H21).
      assert (Hfst : ip x < p).
      { destruct ps1 as [|p1 ps1]; [contradiction|]. specialize (Hlt p1 (or_introl eq_refl)). cbn in Hi. lia. }
      assert (Fx : finite (Iv (ip x) (p - 1) 0)) by fin.
      destruct (proj2 (IH VTs PTs (Iv (ip x) (p - 1) 0) Fx)) as (a & Ha & Na).
      { exists ps1. cbn [ip iq]. split; [exact H21|]. split; [exact Hi|]. intros y Hy. specialize (Hlt y Hy). lia. }
      pose proof (GC_fin _ a (view_GC _ VF) Ha) as Fa.
      exists a, (Iv p p v). repeat split; auto; fin.
Qed.

Lemma increasing_consecutive ps : forall lo n, increasing lo ps -> (forall p, In p ps -> p <= lo + n) ->
  Z.of_nat (length ps) = n -> forall i, (i < length ps)%nat -> nth i ps 0 = lo + 1 + Z.of_nat i.
Proof.
  assert (B : forall ps lo, increasing lo ps -> ps <> [] -> exists p, In p ps /\ lo + Z.of_nat (length ps) <= p).
  { induction ps0 as [|a qs IH]; intros lo H Hne; [contradiction|]. destruct H as [H1 H2].
    destruct qs as [|b qs]; [exists a; cbn; split; [auto|lia]|].
    destruct (IH a H2 ltac:(discriminate)) as (p & Hp & Hle). exists p. split; [right; exact Hp|].
    cbn [length] in *. lia. }
  induction ps as [|a ps IH]; intros lo n H Hp Hn i Hi; [cbn in Hi; lia|].
  destruct H as [H1 H2].
  assert (Ea : a = lo + 1).
  { destruct ps as [|b ps].
    - specialize (Hp a (or_introl eq_refl)). cbn in Hn. lia.
    - destruct (B (b :: ps) a H2 ltac:(discriminate)) as (p & Hin & Hle).
      specialize (Hp p (or_intror Hin)). cbn [length] in *. lia. }
  destruct i as [|i]; cbn [nth]; [lia|].
  rewrite (IH a (n - 1)); cbn [length] in *; try lia; auto.
  intros p Hin. specialize (Hp p (or_intror Hin)). lia.
Qed.
Fixpoint from_nat (lo : Z) (n : nat) : list Z := match n with O => [] | S m => lo :: from_nat (lo + 1) m end.
Lemma from_nat_length n : forall lo, length (from_nat lo n) = n.
Proof. induction n; intros; cbn; auto. Qed.
Lemma from_nat_incr n : forall lo, increasing (lo - 1) (from_nat lo n).
Proof. induction n; intros lo; cbn; auto. split; [lia|]. replace lo with (lo + 1 - 1) at 1 by lia. apply IHn. Qed.
Lemma from_nat_in n : forall lo p, In p (from_nat lo n) -> lo <= p < lo + Z.of_nat n.
Proof. induction n; intros lo p H; cbn in H; [contradiction|]. destruct H as [<-|H]; [lia|]. apply IHn in H. lia. Qed.
Lemma from_nat_nth n : forall lo i, (i < n)%nat -> nth i (from_nat lo n) 0 = lo + Z.of_nat i.
Proof.
  induction n; intros lo i H; [lia|]. destruct i; cbn [nth from_nat]; [lia|]. rewrite IHn by lia. lia.
Qed.

Lemma Forall2_nth {A B} (R : A -> B -> Prop) l1 l2 : Forall2 R l1 l2 <->
  length l1 = length l2 /\ forall i a, nth_error l1 i = Some a -> exists b, nth_error l2 i = Some b /\ R a b.
Proof.
  split.
  - induction 1 as [|a b l1 l2 Hab H IH]; [split; auto; intros [|i] a; discriminate|].
    destruct IH as [IH1 IH2]. split; [cbn; lia|]. intros [|i] a' Ha; cbn in *; [inversion Ha; subst; eauto|eauto].
  - revert l2. induction l1 as [|a l1 IH]; intros [|b l2] [Hl H]; cbn in Hl; try lia; constructor.
    + destruct (H O a eq_refl) as (b' & Eb & Hb). inversion Eb; subst; auto.
    + apply IH. split; [lia|]. intros i a' Ha. exact (H (S i) a' Ha).
Qed.

(** The phrase query: consecutive positions. *)
Lemma phrase_meaning Ts : Ts <> [] -> Forall view Ts -> Forall points Ts -> forall A r, Ts = A :: r -> forall x,
  sem_cing (sem_fixed (Z.of_nat (length Ts))) (fold_left sem_fby r A) x <->
  (finite x /\ iq x = ip x + Z.of_nat (length Ts) - 1 /\ ivl x = 0 /\
   forall i T, nth_error Ts i = Some T -> exists v, T (Iv (ip x + Z.of_nat i) (ip x + Z.of_nat i) v)).
Proof.
  intros _ HV HP A r -> x. inversion HV as [|? ? VA VT]; subst. inversion HP as [|? ? PA PT]; subst.
  unfold sem_cing, sem_fixed. fold (cover (fold_left sem_fby r A) x).
  split.
  - intros [(F & Eq & V) Hc]. apply cover_chain in Hc; auto. destruct Hc as (ps & H2 & Hi & Hp).
    repeat split; auto; try apply F. intros i T HT.
    assert (Hl : length ps = length (A :: r)) by (apply Forall2_nth in H2; destruct H2; congruence).
    apply Forall2_nth in H2. destruct H2 as [_ H2]. destruct (H2 i T HT) as (p & Ep & v & Hv).
    assert (Hin : (i < length ps)%nat) by (apply nth_error_Some; congruence).
    pose proof (increasing_consecutive ps (ip x - 1) (Z.of_nat (length (A :: r))) Hi) as Hc.
    rewrite <- Hl in *. specialize (Hc ltac:(intros q Hq; specialize (Hp q Hq); lia) eq_refl i Hin).
    rewrite (nth_error_nth ps i 0 Ep) in Hc. exists v. replace (ip x + Z.of_nat i) with p by lia. exact Hv.
  - intros (F & Eq & V & H). split; [split; [exact F|auto]|]. apply cover_chain; auto.
    exists (from_nat (ip x) (length (A :: r))). split; [|split].
    + apply Forall2_nth. split; [symmetry; apply from_nat_length|].
      intros i T HT. assert (Hi : (i < length (A :: r))%nat) by (apply nth_error_Some; congruence).
      exists (ip x + Z.of_nat i). split; [|apply H; exact HT].
      rewrite <- (from_nat_nth (length (A :: r)) (ip x) i Hi). apply nth_error_nth'. rewrite from_nat_length. exact Hi.
    + apply from_nat_incr.
    + intros p Hin. apply from_nat_in in Hin. lia.
Qed.
