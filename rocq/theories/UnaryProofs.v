(** Enumeration loops, Link and Materialize against GclSpec.v. *)
From Verif Require Import Base HopperModel ArrayDefs GclSpec HopperProofs GclProofs ArrayProofs UnaryModel.

(** [implements] is itself an invariant. *)
Lemma implements_step C S s m k : implements C s S -> minf <= k <= maxf ->
  wp (call C s m k) (fun '(s', r) => implements C s' S /\ answer S (m, k) r).
Proof.
  intros H Hk.
  destruct (H [(m, k)] ltac:(constructor; [exact Hk|constructor])) as (rs & E & F).
  cbn [run] in E. destruct (call C s m k) as [[s' r]| |] eqn:Ec; cbn in E; try discriminate.
  inversion E; subst; clear E. inversion F; subst. split; [|assumption].
  intros h Hh. destruct (H ((m, k) :: h) ltac:(constructor; assumption)) as (rs2 & E2 & F2).
  cbn [run] in E2. rewrite Ec in E2. cbn [bind] in E2.
  destruct (run C s' h) as [rs3| |]; cbn in E2; try discriminate. inversion E2; subst.
  exists rs3. inversion F2; subst. auto.
Qed.

Lemma implements_hop_ok C S : GC S -> hop_ok C S (fun s => implements C s S).
Proof.
  intros G. constructor; auto; intros s k Hs Hk.
  - exact (implements_step C S s Mtau k Hs Hk).
  - exact (implements_step C S s Mrho k Hs Hk).
  - exact (implements_step C S s Muat k Hs Hk).
  - exact (implements_step C S s Mohr k Hs Hk).
  - pose proof (implements_step C S s ML k Hs Hk) as H. cbn in H. apply wp_bind_inv in H.
    eapply wp_mono; [exact H|]. intros [s' r] (H1 & l & E & HL). inversion E; subst. auto.
  - pose proof (implements_step C S s MR k Hs Hk) as H. cbn in H. apply wp_bind_inv in H.
    eapply wp_mono; [exact H|]. intros [s' r] (H1 & l & E & HL). inversion E; subst. auto.
Qed.

Lemma answers_iff C s S : answers C s S <-> exists I, hop_ok C S I /\ I s.
Proof.
  split.
  - intros [G H]. exists (fun s => implements C s S). split; [exact (implements_hop_ok C S G)|exact H].
  - intros (I & H & Hs). split; [exact (hop_GC H)|exact (hop_ok_implements C S I s H Hs)].
Qed.

(* ------------------------------------------------------------------ *)
(** * Ordered lists *)
Lemma gclist_snoc l x : gclist l -> finite x ->
  (forall y, In y l -> ip y < ip x /\ iq y < iq x) -> gclist (l ++ [x]).
Proof.
  induction l as [|a l IH]; intros G F H.
  - cbn. auto.
  - destruct G as (Fa & Hd & G). cbn [app gclist]. split; [exact Fa|]. split.
    + destruct l; cbn [app]; [apply H; left; reflexivity|exact Hd].
    + apply IH; auto. intros y Hy. apply H. right; exact Hy.
Qed.
Lemma gclist_cons l x : gclist l -> finite x ->
  (forall y, In y l -> ip x < ip y /\ iq x < iq y) -> gclist (x :: l).
Proof.
  intros G F H. cbn. split; [exact F|]. split; [|exact G].
  destruct l; [exact Logic.I|]. apply H. left; reflexivity.
Qed.
Lemma gclist_lt l x y : gclist (x :: l) -> In y l -> ip x < ip y /\ iq x < iq y.
Proof.
  revert x. induction l as [|a l IH]; intros x G H; [contradiction|].
  destruct G as (F & Hd & G). destruct H as [->|H]; [exact Hd|].
  pose proof (IH a G H). lia.
Qed.
Lemma gclist_NoDup l : gclist l -> NoDup l.
Proof.
  induction l as [|a l IH]; intros G; constructor.
  - intros H. pose proof (gclist_lt l a a G H). lia.
  - apply IH. apply G.
Qed.
(** The ordered list of a set is unique. *)
Lemma gclist_unique l1 l2 : gclist l1 -> gclist l2 -> (forall x, In x l1 <-> In x l2) -> l1 = l2.
Proof.
  revert l2. induction l1 as [|a l1 IH]; intros [|b l2] G1 G2 H; auto.
  - exfalso. apply (H b). left; reflexivity.
  - exfalso. apply (H a). left; reflexivity.
  - assert (a = b) as ->.
    { destruct (proj1 (H a) (or_introl eq_refl)) as [E|H1]; [auto|].
      destruct (proj2 (H b) (or_introl eq_refl)) as [E|H2]; [auto|].
      pose proof (gclist_lt _ _ _ G1 H2). pose proof (gclist_lt _ _ _ G2 H1). lia. }
    f_equal. apply IH; [apply G1|apply G2|].
    intros x. split; intros Hx.
    + destruct (proj1 (H x) (or_intror Hx)) as [<-|]; auto.
      pose proof (gclist_lt _ _ _ G1 Hx). lia.
    + destruct (proj2 (H x) (or_intror Hx)) as [<-|]; auto.
      pose proof (gclist_lt _ _ _ G2 Hx). lia.
Qed.

(* ------------------------------------------------------------------ *)
(** * Enumeration *)
Definition fwd_spec (key : iv -> Z) (S : iv -> Prop) (k : Z) (r : iv) : Prop :=
  (k = minf /\ r = Iv minf minf 0) \/
  (k <> minf /\
   ((S r /\ k <= key r /\ forall x, S x -> k <= key x -> key r <= key x) \/
    (r = Iv maxf maxf 0 /\ forall x, S x -> key x < k))).
Definition bwd_spec (key : iv -> Z) (S : iv -> Prop) (k : Z) (r : iv) : Prop :=
  (k = maxf /\ r = Iv maxf maxf 0) \/
  (k <> maxf /\
   ((S r /\ key r <= k /\ forall x, S x -> key x <= k -> key x <= key r) \/
    (r = Iv minf minf 0 /\ forall x, S x -> k < key x))).

Record key_ok (key : iv -> Z) (S : iv -> Prop) : Prop := KeyOk {
  key_max : key maxr = maxf;
  key_min : key minr = minf;
  key_fin : forall x, S x -> minf < key x < maxf;
  key_lt : forall x y, S x -> S y -> key x < key y -> ip x < ip y /\ iq x < iq y;
  key_inj : forall x y, S x -> S y -> key x = key y -> x = y
}.
Lemma key_ok_ip S : GC S -> key_ok ip S.
Proof.
  intros G. constructor; try reflexivity.
  - intros x Hx. pose proof (GC_fin S x G Hx). fin.
  - intros x y Hx Hy H. split; [exact H|]. exact (GC_mono_pq S x y G Hx Hy H).
  - intros x y. apply GC_eq_ip; auto.
Qed.
Lemma key_ok_iq S : GC S -> key_ok iq S.
Proof.
  intros G. constructor; try reflexivity.
  - intros x Hx. pose proof (GC_fin S x G Hx). fin.
  - intros x y Hx Hy H. split; [|exact H]. exact (GC_mono_qp S x y G Hx Hy H).
  - intros x y. apply GC_eq_iq; auto.
Qed.

Section Enum.
Context {T Acc : Type} (m : T -> Z -> res (T * iv)) (key : iv -> Z) (f : Acc -> iv -> Acc).
Context (S : iv -> Prop) (I : T -> Prop) (G : GC S) (K : key_ok key S).

Lemma enum_fwd_ok :
  (forall s k, I s -> minf <= k <= maxf -> wp (m s k) (fun '(s', r) => I s' /\ fwd_spec key S k r)) ->
  forall s acc0, I s ->
  wp (enum_fwd m key f s acc0)
     (fun '(s', acc) => I s' /\ exists l, listed S l /\ acc = fold_left f l acc0).
Proof.
  intros Hm s acc0 Hs. unfold enum_fwd. destruct K as [K1 K2 KF KL KI].
  apply wp_bind, wp_chk; [inf; lia|].
  step Hm as [s0 x0]; [exact Hs|inf; lia|]. intros [Hs0 Hx0].
  assert (H0 : (S x0 \/ x0 = maxr) /\ forall x, S x -> key x0 <= key x).
  { destruct Hx0 as [[E _]|[_ [(H1 & H2 & H3)|[-> H3]]]]; [inf; lia| |].
    - split; [auto|]. intros x Hx. apply H3; auto. specialize (KF x Hx). lia.
    - split; [auto|]. intros x Hx. specialize (H3 x Hx). specialize (KF x Hx). lia. }
  apply loop_rule with
    (Inv := fun '(s, x, acc) => I s /\ (S x \/ x = maxr) /\
              exists l, gclist l /\ acc = fold_left f l acc0 /\
                forall y, In y l <-> S y /\ key y < key x)
    (mu := fun '(s, x, acc) => maxf - key x).
  - intros [[s1 x1] a1] (_ & [Hx| ->] & _); [specialize (KF x1 Hx); lia|]. fold maxr. rewrite K1. lia.
  - clear s Hs s0 x0 Hs0 Hx0 H0.
    intros [[s x] acc] (Hs & Hx & l & Gl & -> & Hl).
    destruct (Z.ltb_spec (key x) maxf) as [Hlt|Hge].
    + destruct Hx as [Hx|Hx]; [|subst x; fold maxr in Hlt; rewrite K1 in Hlt; lia].
      pose proof (KF x Hx) as Fx.
      apply wp_bind, wp_chk; [lia|].
      step Hm as [s' x']; [exact Hs|lia|]. intros [Hs' Hx']. apply wp_ok.
      destruct Hx' as [[E _]|[_ Hx']]; [lia|].
      assert (L1 : gclist (l ++ [x])).
      { apply gclist_snoc; auto; [exact (GC_fin S x G Hx)|].
        intros y Hy. apply Hl in Hy. destruct Hy. apply KL; auto. }
      assert (L2 : forall k', key x < k' -> (forall y, S y -> key x < key y -> k' <= key y) ->
                   forall y, In y (l ++ [x]) <-> S y /\ key y < k').
      { intros k' Hk' Hm' y. rewrite in_app_iff, Hl. cbn. split.
        - intros [[H1 H2]|[->|[]]]; split; auto; lia.
        - intros [H1 H2]. destruct (Z_lt_le_dec (key y) (key x)); [left; auto|].
          right; left. apply KI; auto. destruct (Z.eq_dec (key x) (key y)); [auto|].
          specialize (Hm' y H1 ltac:(lia)). lia. }
      destruct Hx' as [(H1 & H2 & H3)|[-> H3]].
      * split; [|specialize (KF x' H1); lia]. split; [exact Hs'|]. split; [auto|].
        exists (l ++ [x]). split; [exact L1|]. split; [rewrite fold_left_app; reflexivity|].
        apply L2; [lia|]. intros y Hy Hxy. apply H3; auto. lia.
      * fold maxr. rewrite K1. split; [|lia]. split; [exact Hs'|]. split; [auto|].
        exists (l ++ [x]). split; [exact L1|]. split; [rewrite fold_left_app; reflexivity|].
        apply L2; [lia|]. intros y Hy Hxy. specialize (H3 y Hy). lia.
    + apply wp_ok. split; [exact Hs|]. exists l. split; [|reflexivity]. split; [exact Gl|].
      intros y. rewrite Hl. split; [tauto|]. intros Hy. specialize (KF y Hy). split; [exact Hy|lia].
  - split; [exact Hs0|]. split; [apply H0|]. exists []. cbn. split; [auto|]. split; [reflexivity|].
    intros y. split; [tauto|]. intros [Hy Hlt]. apply H0 in Hy. lia.
  - destruct H0 as [[Hx| ->] _]; [specialize (KF x0 Hx)|fold maxr; rewrite K1]; unfold minf, maxf, BIG in *; lia.
Qed.

Lemma enum_bwd_ok :
  (forall s k, I s -> minf <= k <= maxf -> wp (m s k) (fun '(s', r) => I s' /\ bwd_spec key S k r)) ->
  forall s acc0, I s ->
  wp (enum_bwd m key f s acc0)
     (fun '(s', acc) => I s' /\ exists l, listed S l /\ acc = fold_left f (rev l) acc0).
Proof.
  intros Hm s acc0 Hs. unfold enum_bwd. destruct K as [K1 K2 KF KL KI].
  apply wp_bind, wp_chk; [inf; lia|].
  step Hm as [s0 x0]; [exact Hs|inf; lia|]. intros [Hs0 Hx0].
  assert (H0 : (S x0 \/ x0 = minr) /\ forall x, S x -> key x <= key x0).
  { destruct Hx0 as [[E _]|[_ [(H1 & H2 & H3)|[-> H3]]]]; [inf; lia| |].
    - split; [auto|]. intros x Hx. apply H3; auto. specialize (KF x Hx). lia.
    - split; [auto|]. intros x Hx. specialize (H3 x Hx). specialize (KF x Hx). lia. }
  apply loop_rule with
    (Inv := fun '(s, x, acc) => I s /\ (S x \/ x = minr) /\
              exists l, gclist l /\ acc = fold_left f (rev l) acc0 /\
                forall y, In y l <-> S y /\ key x < key y)
    (mu := fun '(s, x, acc) => key x - minf).
  - intros [[s1 x1] a1] (_ & [Hx| ->] & _); [specialize (KF x1 Hx); lia|]. fold minr. rewrite K2. lia.
  - clear s Hs s0 x0 Hs0 Hx0 H0.
    intros [[s x] acc] (Hs & Hx & l & Gl & -> & Hl).
    destruct (Z.ltb_spec minf (key x)) as [Hlt|Hge].
    + destruct Hx as [Hx|Hx]; [|subst x; fold minr in Hlt; rewrite K2 in Hlt; lia].
      pose proof (KF x Hx) as Fx.
      apply wp_bind, wp_chk; [lia|].
      step Hm as [s' x']; [exact Hs|lia|]. intros [Hs' Hx']. apply wp_ok.
      destruct Hx' as [[E _]|[_ Hx']]; [lia|].
      assert (L1 : gclist (x :: l)).
      { apply gclist_cons; auto; [exact (GC_fin S x G Hx)|].
        intros y Hy. apply Hl in Hy. destruct Hy. apply KL; auto. }
      assert (L2 : forall k', k' < key x -> (forall y, S y -> key y < key x -> key y <= k') ->
                   forall y, In y (x :: l) <-> S y /\ k' < key y).
      { intros k' Hk' Hm' y. cbn. rewrite Hl. split.
        - intros [->|[H1 H2]]; split; auto; lia.
        - intros [H1 H2]. destruct (Z_lt_le_dec (key x) (key y)); [right; auto|].
          left. apply KI; auto. destruct (Z.eq_dec (key x) (key y)); [auto|].
          specialize (Hm' y H1 ltac:(lia)). lia. }
      destruct Hx' as [(H1 & H2 & H3)|[-> H3]].
      * split; [|specialize (KF x' H1); lia]. split; [exact Hs'|]. split; [auto|].
        exists (x :: l). split; [exact L1|]. split; [cbn; rewrite fold_left_app; reflexivity|].
        apply L2; [lia|]. intros y Hy Hxy. apply H3; auto. lia.
      * fold minr. rewrite K2. split; [|lia]. split; [exact Hs'|]. split; [auto|].
        exists (x :: l). split; [exact L1|]. split; [cbn; rewrite fold_left_app; reflexivity|].
        apply L2; [lia|]. intros y Hy Hxy. specialize (H3 y Hy). lia.
    + apply wp_ok. split; [exact Hs|]. exists l. split; [|reflexivity]. split; [exact Gl|].
      intros y. rewrite Hl. split; [tauto|]. intros Hy. specialize (KF y Hy). split; [exact Hy|lia].
  - split; [exact Hs0|]. split; [apply H0|]. exists []. cbn. split; [auto|]. split; [reflexivity|].
    intros y. split; [tauto|]. intros [Hy Hlt]. apply H0 in Hy. lia.
  - destruct H0 as [[Hx| ->] _]; [specialize (KF x0 Hx)|fold minr; rewrite K2]; unfold minf, maxf, BIG in *; lia.
Qed.
End Enum.

Lemma fold_cons {A} (l acc : list A) : fold_left (fun a x => x :: a) l acc = rev l ++ acc.
Proof.
  revert acc. induction l as [|a l IH]; intros acc; [reflexivity|].
  cbn. rewrite IH, <- app_assoc. reflexivity.
Qed.

(* ------------------------------------------------------------------ *)
(** * The stored list *)
Definition max_len : Z := 2305843009213693951.
Lemma stored_ok_dup withv l : gcdup l -> Z.of_nat (length l) <= max_len ->
  (withv = false -> Forall (fun x => ivl x = 0) l) ->
  implements (stored_cls withv l) (stored_start withv l) (set_of l).
Proof.
  intros G Hn Hv. destruct l as [|x [|y l]]; cbn [stored_cls stored_start].
  - eapply hop_ok_implements; [exact (hop_ok_ext _ _ (set_of []) _ (fun x => iff_refl False) empty_ok)|].
    apply (fresh_inv (fun _ => True)). exact Logic.I.
  - eapply hop_ok_implements.
    + eapply hop_ok_ext; [|apply singleton_ok; apply G].
      intros z. cbn. unfold set_of; cbn. tauto.
    + apply (fresh_inv (fun _ => True)). exact Logic.I.
  - eapply hop_ok_implements; [apply array_ok; auto|apply array_init_ok; auto]; cbn [length] in *; unfold max_len in *; lia.
Qed.

Lemma stored_ok withv l : gclist l -> Z.of_nat (length l) <= max_len ->
  (withv = false -> Forall (fun x => ivl x = 0) l) ->
  implements (stored_cls withv l) (stored_start withv l) (set_of l).
Proof. intros G. apply stored_ok_dup. apply gclist_gcdup. exact G. Qed.

Lemma implements_ext C s S T : (forall x, S x <-> T x) -> GC S -> implements C s S -> implements C s T.
Proof.
  intros E G H. eapply hop_ok_implements; [exact (hop_ok_ext C S T _ E (implements_hop_ok C S G))|exact H].
Qed.

Definition stored_inv withv S (o : stored withv) := implements (stored_cls withv (projT1 o)) (projT2 o) S.

Lemma stored_tau withv S (o : stored withv) k : GC S -> stored_inv withv S o -> minf <= k <= maxf ->
  wp (stored_call h_tau o k) (fun '(o', r) => stored_inv withv S o' /\ tau_spec S k r).
Proof.
  intros G H Hk. unfold stored_call. step (hop_tau (implements_hop_ok (stored_cls withv (projT1 o)) S G)) as [t r]; [exact H|exact Hk|].
  intros [H1 H2]. apply wp_ok. auto.
Qed.
Lemma stored_rho withv S (o : stored withv) k : GC S -> stored_inv withv S o -> minf <= k <= maxf ->
  wp (stored_call h_rho o k) (fun '(o', r) => stored_inv withv S o' /\ rho_spec S k r).
Proof.
  intros G H Hk. unfold stored_call. step (hop_rho (implements_hop_ok (stored_cls withv (projT1 o)) S G)) as [t r]; [exact H|exact Hk|].
  intros [H1 H2]. apply wp_ok. auto.
Qed.
Lemma stored_uat withv S (o : stored withv) k : GC S -> stored_inv withv S o -> minf <= k <= maxf ->
  wp (stored_call h_uat o k) (fun '(o', r) => stored_inv withv S o' /\ uat_spec S k r).
Proof.
  intros G H Hk. unfold stored_call. step (hop_uat (implements_hop_ok (stored_cls withv (projT1 o)) S G)) as [t r]; [exact H|exact Hk|].
  intros [H1 H2]. apply wp_ok. auto.
Qed.
Lemma stored_ohr withv S (o : stored withv) k : GC S -> stored_inv withv S o -> minf <= k <= maxf ->
  wp (stored_call h_ohr o k) (fun '(o', r) => stored_inv withv S o' /\ ohr_spec S k r).
Proof.
  intros G H Hk. unfold stored_call. step (hop_ohr (implements_hop_ok (stored_cls withv (projT1 o)) S G)) as [t r]; [exact H|exact Hk|].
  intros [H1 H2]. apply wp_ok. auto.
Qed.

(* ------------------------------------------------------------------ *)
(** * std::set *)
Fixpoint asc (s : list Z) : Prop :=
  match s with [] => True | a :: r => (forall b, In b r -> a < b) /\ asc r end.
Lemma set_insert_ok s a : asc s ->
  asc (set_insert s a) /\ (forall z, In z (set_insert s a) <-> z = a \/ In z s) /\
  (length (set_insert s a) <= Datatypes.S (length s))%nat.
Proof.
  induction s as [|b s IH]; intros H.
  - cbn. split; [tauto|]. split; [|lia]. intros z. intuition.
  - destruct H as [Hb Hs]. cbn [set_insert]. destruct (Z.ltb_spec a b).
    + split; [|split; [|cbn [length]; lia]].
      * split; [|split; auto]. intros c [<-|Hc]; [exact H|]. specialize (Hb c Hc). lia.
      * intros z. split; [intros [<-|Hz]; auto|intros [->|Hz]; [left; reflexivity|right; exact Hz]].
    + destruct (Z.eqb_spec a b) as [->|Hne].
      * split; [split; auto|]. split; [|lia]. intros z. split; [auto|].
        intros [->|Hz]; auto. left; reflexivity.
      * destruct (IH Hs) as (A & E & Hl). split; [|split; [|cbn [length]; lia]].
        -- split; [|exact A]. intros c Hc. apply E in Hc. destruct Hc as [->|Hc]; [lia|auto].
        -- intros z. split.
           ++ intros [<-|Hz]; [right; left; reflexivity|]. apply E in Hz.
              destruct Hz; [auto|right; right; assumption].
           ++ intros [->|[<-|Hz]]; [right; apply E; auto|left; reflexivity|right; apply E; auto].
Qed.
Lemma link_fold_ok l : forall acc, asc acc ->
  let zs := fold_left link_add l acc in
  asc zs /\ (forall z, In z zs <-> In z acc \/ exists y, In y l /\ ivl y = z /\ minf < z < maxf) /\
  (length zs <= length acc + length l)%nat.
Proof.
  induction l as [|x l IH]; intros acc Ha; cbn [fold_left].
  - repeat split; auto; [|cbn; lia]. intros [?|(y & [] & _)]; auto.
  - assert (H : asc (link_add acc x) /\
              (forall z, In z (link_add acc x) <-> In z acc \/ (z = ivl x /\ minf < z < maxf)) /\
              (length (link_add acc x) <= Datatypes.S (length acc))%nat).
    { unfold link_add. destruct (Z.ltb_spec minf (ivl x)); cbn [andb].
      - destruct (Z.ltb_spec (ivl x) maxf).
        + destruct (set_insert_ok acc (ivl x) Ha) as (A & B & C). split; [exact A|]. split; [|exact C].
          intros z. rewrite B. split; [intros [->|]; auto|intros [|[-> _]]; auto].
        + split; [exact Ha|]. split; [|lia]. intros z; split; [auto|]. intros [|[-> ?]]; [assumption|lia].
      - split; [exact Ha|]. split; [|lia]. intros z; split; [auto|]. intros [|[-> ?]]; [assumption|lia]. }
    destruct H as (A & B & C). destruct (IH _ A) as (A2 & B2 & C2).
    split; [exact A2|]. split; [|cbn [length]; lia].
    intros z. rewrite B2, B. split.
    + intros [[?|[-> ?]]|(y & Hy & E & Hz)]; [auto|right|right].
      * exists x. cbn. auto.
      * exists y. cbn. auto.
    + intros [?|(y & [<-|Hy] & E & Hz)]; [auto| |right; eauto].
      left; right. split; [symmetry; exact E|exact Hz].
Qed.

Definition pos_list (zs : list Z) := map (fun z => Iv z z 0) zs.
Lemma pos_list_gc zs : asc zs -> (forall z, In z zs -> minf < z < maxf) -> gclist (pos_list zs).
Proof.
  induction zs as [|z zs IH]; intros A H; [exact Logic.I|]. destruct A as [A1 A2].
  change (pos_list (z :: zs)) with (Iv z z 0 :: pos_list zs). apply gclist_cons.
  - apply IH; auto. intros; apply H; right; assumption.
  - specialize (H z (or_introl eq_refl)). fin.
  - intros y Hy. unfold pos_list in Hy. apply in_map_iff in Hy. destruct Hy as (b & <- & Hb).
    specialize (A1 b Hb). cbn; lia.
Qed.

Lemma GC_link S : GC (sem_link S).
Proof.
  split.
  - intros x (E & _ & F & _). unfold finite. lia.
  - intros [p q v] [p' q' v'] (E & V & F & _) (E' & V' & F' & _) N.
    unfold nests in N; cbn in *. f_equal; lia.
Qed.

Lemma listed_length S l : fits_in_memory S -> listed S l -> Z.of_nat (length l) <= max_len.
Proof.
  intros (b & Hb & Hn) [G H]. unfold max_len.
  assert (length l <= length b)%nat; [|lia].
  apply NoDup_incl_length; [apply gclist_NoDup; exact G|]. intros x Hx. apply Hb, H, Hx.
Qed.

(** The list Link stores. *)
Lemma link_stored S l l' : fits_in_memory S -> listed S l -> (forall x, In x l' <-> In x l) -> length l' = length l ->
  stored_inv false (sem_link S) (stored_make false (pos_list (fold_left link_add l' []))).
Proof.
  intros Hfit HL Hin Hlen. destruct (link_fold_ok l' [] Logic.I) as (A & B & C).
  assert (G : gclist (pos_list (fold_left link_add l' []))).
  { apply pos_list_gc; auto. intros z Hz. apply B in Hz. destruct Hz as [[]|(y & _ & _ & ?)]; auto. }
  apply implements_ext with (S := set_of (pos_list (fold_left link_add l' []))).
  - intros x. unfold set_of, pos_list, sem_link. rewrite in_map_iff. split.
    + intros (z & <- & Hz). cbn. apply B in Hz. destruct Hz as [[]|(y & Hy & E & F)].
      repeat split; try lia. exists y. split; [|auto]. apply HL, Hin, Hy.
    + intros (E & V & F & y & Hy & Ey). exists (ip x). split; [destruct x; cbn in *; subst; reflexivity|].
      apply B. right. exists y. split; [|auto]. apply Hin, HL, Hy.
  - apply gclist_GC; exact G.
  - cbn [projT1 projT2 stored_make]. apply stored_ok.
    + exact G.
    + unfold pos_list. rewrite map_length. pose proof (listed_length S l Hfit HL). cbn [length] in C. lia.
    + intros _. apply Forall_forall. intros x Hx. unfold pos_list in Hx. apply in_map_iff in Hx.
      destruct Hx as (z & <- & _). reflexivity.
Qed.

Section UnaryOk.
Context (A : hcls) (S : iv -> Prop) (IA : St A -> Prop) (HA : hop_ok A S IA) (Hfit : fits_in_memory S).

Definition link_inv (x : lst A) :=
  match x with inl a => IA a | inr o => stored_inv false (sem_link S) o end.

Lemma link_go_ok (enum : St A -> list Z -> res (St A * list Z)) m spec :
  (forall a, IA a -> wp (enum a []) (fun '(_, zs) => exists l l', listed S l /\ (forall x, In x l' <-> In x l) /\
                                        length l' = length l /\ zs = fold_left link_add l' [])) ->
  (forall o k, stored_inv false (sem_link S) o -> minf <= k <= maxf ->
     wp (stored_call m o k) (fun '(o', r) => stored_inv false (sem_link S) o' /\ spec (sem_link S) k r)) ->
  meth_ok link_inv (sem_link S) spec (link_go A enum m).
Proof.
  intros He Hm s k [Hs Hms] Hk. unfold link_go.
  apply wp_bind, wp_mono with (P := stored_inv false (sem_link S)).
  - destruct (sub s) as [a|o].
    + step He as [a' zs]; [exact Hs|]. intros (l & l' & HL & Hin & Hlen & ->). apply wp_ok.
      eapply link_stored; eauto.
    + apply wp_ok. exact Hs.
  - intros o Ho. step Hm as [o' r]; [exact Ho|exact Hk|]. intros [Ho' Hr]. apply wp_ok.
    split; [|exact Hr]. split; [exact Ho'|exact Hms].
Qed.

Lemma link_ok : hop_ok (link_hopper A) (sem_link S) (Iof link_inv (sem_link S)).
Proof.
  pose proof (hop_GC HA) as G.
  assert (T : meth_ok link_inv (sem_link S) tau_spec (link_tau_ A)).
  { apply link_go_ok; [|intros; apply stored_tau; auto using GC_link]. intros a Ha.
    eapply wp_mono; [eapply (enum_fwd_ok (h_tau A) ip link_add S IA G (key_ok_ip S G)); [exact (hop_tau HA)|exact Ha]|].
    intros [a' zs] (_ & l & HL & ->). exists l, l. repeat split; auto; apply HL. }
  assert (R : meth_ok link_inv (sem_link S) rho_spec (link_rho_ A)).
  { apply link_go_ok; [|intros; apply stored_rho; auto using GC_link]. intros a Ha.
    eapply wp_mono; [eapply (enum_fwd_ok (h_rho A) iq link_add S IA G (key_ok_iq S G)); [exact (hop_rho HA)|exact Ha]|].
    intros [a' zs] (_ & l & HL & ->). exists l, l. repeat split; auto; apply HL. }
  assert (U : meth_ok link_inv (sem_link S) uat_spec (link_uat_ A)).
  { apply link_go_ok; [|intros; apply stored_uat; auto using GC_link]. intros a Ha.
    eapply wp_mono; [eapply (enum_bwd_ok (h_uat A) iq link_add S IA G (key_ok_iq S G)); [exact (hop_uat HA)|exact Ha]|].
    intros [a' zs] (_ & l & HL & ->). exists l, (rev l). split; [exact HL|].
    split; [intros x; symmetry; apply in_rev|]. split; [apply rev_length|reflexivity]. }
  assert (O : meth_ok link_inv (sem_link S) ohr_spec (link_ohr_ A)).
  { apply link_go_ok; [|intros; apply stored_ohr; auto using GC_link]. intros a Ha.
    eapply wp_mono; [eapply (enum_bwd_ok (h_ohr A) ip link_add S IA G (key_ok_ip S G)); [exact (hop_ohr HA)|exact Ha]|].
    intros [a' zs] (_ & l & HL & ->). exists l, (rev l). split; [exact HL|].
    split; [intros x; symmetry; apply in_rev|]. split; [apply rev_length|reflexivity]. }
  constructor; cbn [h_tau h_rho h_uat h_ohr h_L h_R link_hopper].
  - apply GC_link.
  - apply memo_tau_ok, T.
  - apply memo_rho_ok, R.
  - apply memo_uat_ok, U.
  - apply memo_ohr_ok, O.
  - apply base_L_ok, memo_uat_ok, U.
  - apply base_R_ok, memo_tau_ok, T.
Qed.
Lemma link_init_ok a : IA a -> Iof link_inv (sem_link S) (link_init A a).
Proof. intros H. apply fresh_inv. exact H. Qed.

Definition mat_inv (x : mat_st A) := match x with inl a => IA a | inr o => stored_inv true S o end.

Lemma mat_go_ok m spec :
  (forall o k, stored_inv true S o -> minf <= k <= maxf ->
     wp (stored_call m o k) (fun '(o', r) => stored_inv true S o' /\ spec S k r)) ->
  meth_ok mat_inv S spec (mat_go A m).
Proof.
  pose proof (hop_GC HA) as G.
  intros Hm s k [Hs Hms] Hk. unfold mat_go.
  apply wp_bind, wp_mono with (P := stored_inv true S).
  - destruct (sub s) as [a|o].
    + step (enum_fwd_ok (h_tau A) ip (fun acc x => x :: acc) S IA G (key_ok_ip S G)) as [a' zs];
        [exact (hop_tau HA)|exact Hs|]. intros (_ & l & HL & ->). apply wp_ok.
      rewrite fold_cons, app_nil_r, rev_involutive.
      apply implements_ext with (S := set_of l); [apply HL|apply gclist_GC, HL|].
      cbn [projT1 projT2 stored_make]. apply stored_ok; [apply HL|exact (listed_length S l Hfit HL)|discriminate].
    + apply wp_ok. exact Hs.
  - intros o Ho. step Hm as [o' r]; [exact Ho|exact Hk|]. intros [Ho' Hr]. apply wp_ok.
    split; [|exact Hr]. split; [exact Ho'|exact Hms].
Qed.
Lemma mat_ok : hop_ok (mat_hopper A) S (Iof mat_inv S).
Proof.
  pose proof (hop_GC HA) as G.
  assert (T : meth_ok mat_inv S tau_spec (mat_go A h_tau)) by (apply mat_go_ok; intros; apply stored_tau; auto).
  assert (U : meth_ok mat_inv S uat_spec (mat_go A h_uat)) by (apply mat_go_ok; intros; apply stored_uat; auto).
  constructor; cbn [h_tau h_rho h_uat h_ohr h_L h_R mat_hopper].
  - exact G.
  - apply memo_tau_ok, T.
  - apply memo_rho_ok, mat_go_ok; intros; apply stored_rho; auto.
  - apply memo_uat_ok, U.
  - apply memo_ohr_ok, mat_go_ok; intros; apply stored_ohr; auto.
  - apply base_L_ok, memo_uat_ok, U.
  - apply base_R_ok, memo_tau_ok, T.
Qed.
Lemma mat_init_ok a : IA a -> Iof mat_inv S (mat_init A a).
Proof. intros H. apply fresh_inv. exact H. Qed.
End UnaryOk.

(** The four enumeration loops list the set, in order. *)
Lemma enum_all_fwd_ok (C : hcls) S I (H : hop_ok C S I) s : I s ->
  exists l, listed S l /\ enum_all true (h_tau C) ip s = Ok l /\ enum_all true (h_rho C) iq s = Ok l /\
            enum_all false (h_uat C) iq s = Ok (rev l) /\ enum_all false (h_ohr C) ip s = Ok (rev l).
Proof.
  intros Hs. pose proof (hop_GC H) as G.
  pose proof (enum_fwd_ok (h_tau C) ip (fun acc x => x :: acc) S I G (key_ok_ip S G) (hop_tau H) s [] Hs) as H1.
  pose proof (enum_fwd_ok (h_rho C) iq (fun acc x => x :: acc) S I G (key_ok_iq S G) (hop_rho H) s [] Hs) as H2.
  pose proof (enum_bwd_ok (h_uat C) iq (fun acc x => x :: acc) S I G (key_ok_iq S G) (hop_uat H) s [] Hs) as H3.
  pose proof (enum_bwd_ok (h_ohr C) ip (fun acc x => x :: acc) S I G (key_ok_ip S G) (hop_ohr H) s [] Hs) as H4.
  apply wp_exists in H1, H2, H3, H4.
  destruct H1 as ([s1 a1] & E1 & _ & l1 & L1 & ->). destruct H2 as ([s2 a2] & E2 & _ & l2 & L2 & ->).
  destruct H3 as ([s3 a3] & E3 & _ & l3 & L3 & ->). destruct H4 as ([s4 a4] & E4 & _ & l4 & L4 & ->).
  assert (U : forall l, listed S l -> l = l1).
  { intros l [Hl1 Hl2]. destruct L1 as [K1 K2]. apply gclist_unique; auto.
    intros x. rewrite Hl2, K2. reflexivity. }
  rewrite (U l2 L2), (U l3 L3), (U l4 L4) in *.
  exists l1. split; [exact L1|]. unfold enum_all. rewrite E1, E2, E3, E4. cbn [bind].
  rewrite !fold_cons, !app_nil_r, !rev_involutive. auto.
Qed.
