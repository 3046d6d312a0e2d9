(** Proofs about IcoverModel.v: one round of the search and one pass. *)
From Verif Require Import Base HopperModel GclSpec GclProofs UnaryProofs VectorModel
  RankModel RankSpec RankProofs RankFuse IcoverModel IcoverSpec IcoverProofs.

Lemma perm_forall2 {A B} (R : A -> B -> Prop) l l' m : Permutation l l' -> Forall2 R m l ->
  exists m', Permutation m m' /\ Forall2 R m' l'.
Proof.
  intros P. revert m. induction P as [|x l l' P IH|x y l|l l' l'' P1 IH1 P2 IH2]; intros m H.
  - inversion H; subst. exists []. auto.
  - inversion H as [|a ? m0 ? Ha Hm]; subst. destruct (IH m0 Hm) as (m' & P' & H'). exists (a :: m'). auto.
  - inversion H as [|a ? m0 ? Ha Hm]; subst. inversion Hm as [|b ? m1 ? Hb Hm1]; subst.
    exists (b :: a :: m1). split; [apply perm_swap|]. auto.
  - destruct (IH1 m H) as (m1 & Q1 & H1). destruct (IH2 m1 H1) as (m2 & Q2 & H2). exists m2.
    split; [eapply perm_trans; eauto|exact H2].
Qed.

Section Round.
Context {F : Type} (zero : F) (add : F -> F -> F) (lt : F -> F -> bool).
Context (sort stable_sort : sorter).
Context (W : weak_order lt) (HS : sorts sort) (HT : sorts_stably stable_sort).
Context (penal : F -> nat -> Z -> F).
Notation result := (result (F := F)).
Notation word := (F * (iv -> Prop))%type.
Notation merge := (merge_results lt sort stable_sort).
Notation passage := (passage (F := F) zero add penal).
Notation ranking_of := (ranking_of (F := F) zero add lt penal).
Notation placed := (placed (F := F) lt).
Notation kept := (kept (F := F) lt).
Notation wh := (wh (F := F)).

Definition hop_of (o : hobj) (S : iv -> Prop) : Prop := answers (projT1 o) (projT2 o) S.
(** A hopper that stands for a word. *)
Definition stands (g : word) (w : wh) : Prop := w_weight w = fst g /\ hop_of (w_hop w) (snd g).

Lemma hop_tau o S k : hop_of o S -> minf <= k <= maxf ->
  wp (h_tau (projT1 o) (projT2 o) k) (fun '(h, x) => hop_of (existT St _ h) S /\ tau_spec S k x).
Proof.
  clear W HS HT. clear zero add lt sort stable_sort penal.
  intros [G I] Hk. eapply wp_mono; [exact (implements_step _ _ _ Mtau k I Hk)|]. intros [h x] [H1 H2].
  split; [split; [exact G|exact H1]|exact H2].
Qed.
Lemma hop_uat o S k : hop_of o S -> minf <= k <= maxf ->
  wp (h_uat (projT1 o) (projT2 o) k) (fun '(h, x) => hop_of (existT St _ h) S /\ uat_spec S k x).
Proof.
  clear W HS HT. clear zero add lt sort stable_sort penal.
  intros [G I] Hk. eapply wp_mono; [exact (implements_step _ _ _ Muat k I Hk)|]. intros [h x] [H1 H2].
  split; [split; [exact G|exact H1]|exact H2].
Qed.
Lemma hop_rho o S k : hop_of o S -> minf <= k <= maxf ->
  wp (h_rho (projT1 o) (projT2 o) k) (fun '(h, x) => hop_of (existT St _ h) S /\ rho_spec S k x).
Proof.
  clear W HS HT. clear zero add lt sort stable_sort penal.
  intros [G I] Hk. eapply wp_mono; [exact (implements_step _ _ _ Mrho k I Hk)|]. intros [h x] [H1 H2].
  split; [split; [exact G|exact H1]|exact H2].
Qed.

Definition at_end (k : Z) (g : word) (w : wh) : Prop :=
  stands g w /\ exists x, tau_spec (snd g) k x /\ w_pos w = iq x.
Lemma ends_ok k : minf <= k <= maxf -> forall gs whs, Forall2 stands gs whs ->
  wp (icover_ends k whs) (fun ends => Forall2 (at_end k) gs ends).
Proof.
  intros Hk. induction 1 as [|g w gs whs [Hw Hh] H IH]; cbn [icover_ends]; [apply wp_ok; constructor|].
  apply wp_bind. eapply wp_mono; [exact (hop_tau _ _ k Hh Hk)|]. intros [h x] [Hh' Hx].
  apply wp_bind. eapply wp_mono; [exact IH|]. intros ends He. apply wp_ok.
  constructor; [|exact He]. split; [split; [exact Hw|exact Hh']|]. exists x. auto.
Qed.

(** [q] is the end of a passage and there is an occurrence in it from [k] on. *)
Definition ready (k q : Z) (g : word) : Prop := exists x, snd g x /\ k <= ip x /\ iq x <= q.
Lemma uat_ready S k q r : GC S -> q < maxf -> (exists x, S x /\ k <= ip x /\ iq x <= q) -> uat_spec S q r ->
  S r /\ k <= ip r /\ iq r <= q /\ forall x, S x -> iq x <= q -> ip x <= ip r.
Proof.
  clear W HS HT. clear zero add lt sort stable_sort penal.
  intros [G1 G2] Hq (x & Sx & Hk & Hx) [[E _]|[_ [(Sr & Hr & L)|[_ N]]]]; [lia| |specialize (N x Sx); lia].
  assert (A : forall y, S y -> iq y <= q -> ip y <= ip r).
  { intros y Sy Hy. destruct (Z.le_gt_cases (ip y) (ip r)) as [H|H]; [exact H|].
    specialize (L y Sy Hy). assert (r = y) by (apply G2; auto; split; lia). subst. lia. }
  split; [exact Sr|]. split; [specialize (A x Sx Hx); lia|]. auto.
Qed.

Lemma starts_ok k q : minf <= q < maxf -> forall gs whs, Forall2 stands gs whs ->
  (forall g, In g gs -> ready k q g) -> forall p s,
  wp (icover_starts add q whs p s) (fun '(whs', p', s') =>
    Forall2 stands gs whs' /\ s' = fold_left add (map fst gs) s /\ p' <= p /\ (k <= p -> k <= p') /\
    (forall g, In g gs -> exists a, snd g a /\ p' <= ip a /\ iq a <= q) /\
    (p' = p \/ exists g, In g gs /\ forall a, snd g a -> iq a <= q -> ip a <= p')).
Proof.
  intros Hq. induction 1 as [|g w gs whs [Hw Hh] H IH]; intros Hr p s; cbn [icover_starts].
  - apply wp_ok. split; [constructor|]. split; [reflexivity|]. split; [lia|]. split; [lia|]. split; [intros g []|]. auto.
  - apply wp_bind. eapply wp_mono; [exact (hop_uat _ _ q Hh ltac:(lia))|]. intros [h x] [Hh' Hx].
    apply wp_bind.
    destruct (uat_ready _ k q x (proj1 Hh) ltac:(lia) (Hr g (or_introl eq_refl)) Hx) as (Sx & Kx & Qx & Mx).
    eapply wp_mono; [exact (IH (fun g' Hg => Hr g' (or_intror Hg)) (Z.min p (ip x)) (add s (w_weight w)))|].
    intros [[whs' p'] s'] (I1 & I2 & I3 & I4 & I5 & I6). apply wp_ok.
    split; [constructor; [split; [exact Hw|exact Hh']|exact I1]|].
    split; [cbn; rewrite I2, Hw; reflexivity|]. split; [lia|]. split; [lia|]. split.
    + intros g' [<-|Hg]; [|exact (I5 g' Hg)]. exists x. split; [exact Sx|]. split; lia.
    + destruct I6 as [->|(g' & Hg & M)].
      * destruct (Z.le_gt_cases p (ip x)); [left; lia|]. right. exists g. split; [left; reflexivity|].
        intros a Sa Ha. specialize (Mx a Sa Ha). lia.
      * right. exists g'. split; [right; exact Hg|exact M].
Qed.

(** Passages found are covers. *)
Lemma cover_found k p q (g : word) gs : k <= p -> minf < p -> p <= q -> q < maxf ->
  (forall a, snd g a -> k <= ip a -> q <= iq a) -> In g gs ->
  (forall h, In h gs -> exists a, snd h a /\ p <= ip a /\ iq a <= q) ->
  (exists h, In h gs /\ forall a, snd h a -> iq a <= q -> ip a <= p) ->
  cover gs (Iv p q 0).
Proof.
  intros Hk Hm Hpq Hq Hg Ig All (h & Ih & Hh). split; [repeat split; cbn; lia|]. split; [reflexivity|]. split.
  - intros w Iw. destruct (All w Iw) as (a & Sa & H). exists a. split; [exact Sa|]. exact H.
  - intros y Fy Hy [N1 N2]. cbn in N1, N2. split; cbn.
    + destruct (Hy h Ih) as (a & Sa & A1 & A2). specialize (Hh a Sa ltac:(lia)). lia.
    + destruct (Hy g Ig) as (a & Sa & A1 & A2). specialize (Hg a Sa ltac:(lia)). lia.
Qed.
Lemma cover_next k p q (g : word) gs x : cover gs (Iv p q 0) -> In g gs ->
  (forall a, snd g a -> k <= ip a -> q <= iq a) -> cover gs x -> k <= ip x -> ip x <= p -> x = Iv p q 0.
Proof.
  intros (Fc & _ & Hc & _) Ig Hg (Fx & V & Hx & M) Hk Hp.
  destruct (Hx g Ig) as (a & Sa & A1 & A2). specialize (Hg a Sa ltac:(lia)).
  specialize (M _ Fc Hc ltac:(split; cbn; lia)). destruct M as [M1 M2]. cbn in M1, M2.
  destruct x as [xp xq xv]. cbn in *. f_equal; lia.
Qed.
Lemma cover_perm (gs hs : list word) x : Permutation gs hs -> cover gs x -> cover hs x.
Proof.
  clear W HS HT. clear zero add lt sort stable_sort penal.
  intros P (H1 & H2 & H3 & H4). split; [exact H1|]. split; [exact H2|]. split.
  - intros w Hw. apply H3. exact (Permutation_in w (Permutation_sym P) Hw).
  - intros y Fy Hy. apply H4; [exact Fy|]. intros w Hw. apply Hy. exact (Permutation_in w P Hw).
Qed.

(** The container of a passage. *)
Lemma rho_container (C : iv -> Prop) p q c : GC C -> minf < p -> p <= q -> q < maxf -> rho_spec C q c ->
  (ip c <= p -> first_container C (Iv p q 0) c) /\
  (forall d, C d -> nests d (Iv p q 0) -> ip c <= p).
Proof.
  clear W HS HT. clear zero add lt sort stable_sort penal.
  intros [G1 G2] Hm Hp Hq [[E _]|[_ [(Cc & Hc & L)|[-> N]]]]; [lia| |].
  - assert (A : forall d, C d -> nests d (Iv p q 0) -> ip c <= ip d).
    { intros d Cd [N1 N2]. cbn in N1, N2. specialize (L d Cd N2).
      destruct (Z.le_gt_cases (ip c) (ip d)) as [H|H]; [exact H|].
      assert (d = c) by (apply G2; auto; split; lia). subst. lia. }
    split.
    + intros H. split; [exact Cc|]. split; [split; cbn; lia|]. exact A.
    + intros d Cd Hd. specialize (A d Cd Hd). destruct Hd as [N1 _]. cbn in N1. lia.
  - split; [cbn; lia|]. intros d Cd [N1 N2]. cbn in N2. specialize (N d Cd). lia.
Qed.
Lemma first_container_same C x c d : first_container C x c -> first_container C x d -> ip c = ip d.
Proof.
  clear W HS HT. clear zero add lt sort stable_sort penal. intros (C1 & N1 & F1) (C2 & N2 & F2). specialize (F1 d C2 N2). specialize (F2 c C1 N1). lia. Qed.

(** What holds while a pass with n of the words [gs0] runs. *)
Section Pass.
Context (words gs0 rest : list word) (C : iv -> Prop) (depth n : nat) (top0 : list result).
Context (Pw : Permutation words (gs0 ++ rest)) (Hd : (0 < depth)%nat) (Hn : (2 <= n <= length gs0)%nat).
Context (Nn : forall w a, In w words -> snd w a -> 0 <= ip a).

Definition good_target (top : list result) (t : F) : Prop :=
  (length top = depth /\ forall r, In r top -> lt (rscore r) t = false) \/ ((length top < depth)%nat /\ t = zero).
(** A passage with all the words that starts before [k] has been dealt with. *)
Definition dealt (k : Z) (top cur : list result) : Prop :=
  forall x c, cover gs0 x -> ip x < k -> first_container C x c ->
  exists order, Permutation gs0 order /\
    (lt zero (cover_score zero add penal order (iq x - ip x)) = true ->
     kept depth top cur (ip c) (cover_score zero add penal order (iq x - ip x))).
Definition pass_inv (s : icover (F := F)) : Prop :=
  (exists gs, Permutation gs0 gs /\ Forall2 stands gs (i_whs s)) /\
  hop_of (i_chop s) C /\ minf < i_k s <= maxf /\
  ranking_of words C depth (i_top s) /\ Forall (passage words C) (i_cur s) /\ (length (i_cur s) < depth)%nat /\
  good_target (i_top s) (i_target s) /\
  (forall c v, placed depth top0 c v -> kept depth (i_top s) (i_cur s) c v) /\
  (top0 <> [] -> i_top s <> []) /\
  (n = length gs0 -> dealt (i_k s) (i_top s) (i_cur s)).
Definition pass_post (s : icover (F := F)) : Prop :=
  pass_inv s /\ (n = length gs0 -> forall x, cover gs0 x -> ip x < i_k s).

Lemma keep_step p q score chop top cur target :
  hop_of chop C -> minf < p -> p <= q -> q < maxf ->
  (forall c, first_container C (Iv p q 0) c -> passage words C (Res p q (ip c) (iq c) score)) ->
  ranking_of words C depth top -> Forall (passage words C) cur -> (length cur < depth)%nat -> good_target top target ->
  wp (icover_keep zero lt sort stable_sort depth p q score chop top cur target) (fun '(chop', top', cur', target') =>
    hop_of chop' C /\ ranking_of words C depth top' /\ Forall (passage words C) cur' /\ (length cur' < depth)%nat /\
    good_target top' target' /\
    (forall c v, kept depth top cur c v -> kept depth top' cur' c v) /\ (top <> [] -> top' <> []) /\
    (forall c, first_container C (Iv p q 0) c -> lt zero score = true -> kept depth top' cur' (ip c) score)).
Proof.
  intros Hc Hm Hp Hq Pass Rt Fc Lc Gt. unfold icover_keep.
  destruct (lt target score) eqn:E.
  2: { apply wp_ok. split; [exact Hc|]. split; [exact Rt|]. split; [exact Fc|]. split; [exact Lc|]. split; [exact Gt|].
       split; [auto|]. split; [auto|]. intros c _ Z. destruct Gt as [[L A]|[_ ->]]; [|congruence].
       right. split; [exact L|]. intros r Hr. exact (lt_neg lt W _ _ _ (A r Hr) E). }
  apply wp_bind. eapply wp_mono; [exact (hop_rho _ _ q Hc ltac:(lia))|]. intros [h c] [Hh Rc].
  destruct (rho_container C p q c (proj1 Hc) Hm Hp Hq Rc) as [R1 R2]. cbv zeta.
  destruct (Z.leb_spec (ip c) p) as [Le|Gt'].
  2: { apply wp_ok. split; [exact Hh|]. split; [exact Rt|]. split; [exact Fc|]. split; [exact Lc|]. split; [exact Gt|].
       split; [auto|]. split; [auto|]. intros d (Cd & Nd & _) _. specialize (R2 d Cd Nd). lia. }
  specialize (R1 Le). set (r := Res p q (ip c) (iq c) score).
  assert (Fc' : Forall (passage words C) (cur ++ [r])) by (apply Forall_app; split; [exact Fc|constructor; [exact (Pass c R1)|constructor]]).
  assert (New : forall d, first_container C (Iv p q 0) d -> kept depth top (cur ++ [r]) (ip d) score).
  { intros d Hd'. left. exists r. split; [apply in_or_app; right; apply in_or_app; right; left; reflexivity|].
    split; [exact (first_container_same C _ _ _ R1 Hd')|apply W]. }
  destruct (Nat.eqb_spec (length (cur ++ [r])) depth) as [L|L].
  - pose proof (merge_ranking zero add lt sort stable_sort W HS HT penal words C depth top (cur ++ [r]) Rt Fc') as Rm.
    apply wp_bind. eapply wp_mono; [exact (target_ok zero add lt W penal _ depth Hd (proj1 (proj2 Rm)) (proj1 Rm))|].
    intros t Ht. apply wp_ok. split; [exact Hh|]. split; [exact Rm|]. split; [constructor|]. split; [cbn; lia|]. split; [exact Ht|].
    assert (M : forall c0 v, kept depth top (cur ++ [r]) c0 v -> kept depth (merge top (cur ++ [r]) depth) [] c0 v).
    { intros c0 v K. apply placed_kept. exact (kept_merge zero add lt sort stable_sort W HS HT penal depth top _ c0 v (proj1 (proj2 (proj2 Rt))) K). }
    split; [intros c0 v K; apply M, kept_more, K|]. split.
    + intros _. apply (merge_nonempty zero add lt sort stable_sort W HS HT penal depth); [exact Hd|].
      intros E'. apply app_eq_nil in E'. destruct E' as [_ E']. destruct cur; discriminate.
    + intros d Hd' _. apply M, New, Hd'.
  - apply wp_ok. split; [exact Hh|]. split; [exact Rt|]. split; [exact Fc'|]. split; [rewrite app_length in *; cbn in *; lia|]. split; [exact Gt|].
    split; [intros c0 v; apply kept_more|]. split; [auto|]. intros d Hd' _. apply New, Hd'.
Qed.

Lemma step_ok s : pass_inv s ->
  wp (icover_step zero add lt sort stable_sort penal depth n s) (fun r => match r with
    | inl s' => pass_inv s' /\ maxf - i_k s' < maxf - i_k s
    | inr s' => pass_post s' end).
Proof.
  intros ((gs & P0 & H) & Hc & Hk & Rt & Fc & Lc & Gt & Mono & Ne & Dealt). unfold icover_step.
  apply wp_bind. eapply wp_mono; [exact (ends_ok (i_k s) ltac:(lia) gs _ H)|]. intros ends He.
  assert (Ws : weak_order (@sooner F)).
  { unfold sooner. repeat split.
    - intros a. lia.
    - intros a b c. lia.
    - intros a b c. lia. }
  destruct (HS wh sooner ends Ws) as [Ps Os]. set (whs := sort wh sooner ends) in *.
  destruct (perm_forall2 _ _ _ gs Ps He) as (gs1 & P1 & H1).
  assert (L1 : length gs1 = length whs) by (clear - H1; induction H1; cbn; congruence).
  assert (Lg : length gs1 = length gs0) by (rewrite <- (Permutation_length P1), <- (Permutation_length P0); reflexivity).
  assert (Hx : exists w, nth_error whs (n - 1) = Some w).
  { destruct (nth_error whs (n - 1)) as [w|] eqn:E; [eauto|]. apply nth_error_None in E. lia. }
  destruct Hx as (w & Ew). unfold idx. destruct (Z.ltb_spec (Z.of_nat n - 1) 0) as [Hlt|_]; [lia|].
  replace (Z.to_nat (Z.of_nat n - 1)) with (n - 1)%nat by lia. rewrite Ew. cbn [bind].
  destruct (nth_error_split whs (n - 1) Ew) as (front & back & Es & Lf).
  assert (Hsp : exists gf g gb, gs1 = gf ++ g :: gb /\ Forall2 (at_end (i_k s)) gf front /\
             at_end (i_k s) g w /\ Forall2 (at_end (i_k s)) gb back).
  { rewrite Es in H1. apply Forall2_app_inv_r in H1. destruct H1 as (gf & g2 & F1 & F2 & ->).
    inversion F2; subst. eauto 10. }
  destruct Hsp as (gf & g & gb & Eg & Ff & (Sw & x & Tx & Wx) & Fb).
  assert (Wk : forall a b, Forall2 (at_end (i_k s)) a b -> Forall2 stands a b).
  { intros a b Hab. induction Hab as [|? ? ? ? [Ha _]]; constructor; auto. }
  assert (Pg : Permutation gs0 gs1) by (eapply perm_trans; eauto).
  destruct (Z.eqb_spec (w_pos w) maxf) as [Eq|Nq].
  - apply wp_ok. split.
    + split; [exists gs1; split; [exact Pg|apply Wk, H1]|]. split; [exact Hc|]. split; [exact Hk|].
      split; [exact Rt|]. split; [exact Fc|]. split; [exact Lc|]. split; [exact Gt|]. split; [exact Mono|]. split; [exact Ne|exact Dealt].
    + cbn [i_k]. intros En y (_ & _ & Hy & _).
      assert (Ig : In g gs0).
      { apply (Permutation_in g (Permutation_sym Pg)). rewrite Eg. apply in_or_app. right. left. reflexivity. }
      destruct (Hy g Ig) as (a & Sa & A1 & A2).
      destruct Tx as [[E _]|[_ [(Sx & _)|[_ N]]]]; [lia| |specialize (N a Sa); lia].
      destruct (proj2 Sw) as [[G _] _]. specialize (G x Sx). unfold finite in G. lia.
  - (* a passage *)
    assert (Real : forall g' w', at_end (i_k s) g' w' -> w_pos w' <= w_pos w -> w_pos w' < maxf ->
              ready (i_k s) (w_pos w) g').
    { intros g' w' (S' & x' & T' & E') Hle Hm. destruct T' as [[E _]|[_ [(Sx' & Kx & _)|[E _]]]]; [lia| |subst x'; cbn in E'; lia].
      exists x'. split; [exact Sx'|]. split; lia. }
    assert (Hq : w_pos w < maxf /\ snd g x /\ i_k s <= ip x /\ forall a, snd g a -> i_k s <= ip a -> w_pos w <= iq a).
    { destruct Tx as [[E _]|[_ [(Sx & Kx & Lx)|[E _]]]]; [lia| |subst x; cbn in Wx; lia].
      destruct (proj2 Sw) as [[G1 G2] _]. pose proof (G1 x Sx) as Fx. unfold finite in Fx.
      split; [lia|]. split; [exact Sx|]. split; [exact Kx|]. intros a Sa Ka. rewrite Wx.
      specialize (Lx a Sa Ka). destruct (Z.le_gt_cases (iq x) (iq a)) as [Hle|Hgt]; [exact Hle|].
      assert (x = a) by (apply G2; auto; split; lia). subst. lia. }
    destruct Hq as (Qm & Sx & Kx & First).
    destruct (proj2 Sw) as [Gw _]. pose proof (proj1 Gw x Sx) as Fx. unfold finite in Fx.
    apply wp_bind. eapply wp_mono; [exact (hop_uat _ _ (w_pos w) (proj2 Sw) ltac:(lia))|]. intros [h u] [Hu Uu].
    destruct (uat_ready _ (i_k s) (w_pos w) u Gw Qm) as (Su & Ku & Qu & Mu); [exists x; split; [exact Sx|split; lia]|exact Uu|].
    assert (Front : firstn (n - 1) whs = front).
    { rewrite Es, <- Lf. rewrite firstn_app, Nat.sub_diag, firstn_all. cbn. apply app_nil_r. }
    assert (Back : skipn n whs = back).
    { rewrite Es. replace n with (length front + 1)%nat by lia. rewrite skipn_app.
      rewrite (skipn_all2 front) by lia. replace (length front + 1 - length front)%nat with 1%nat by lia. reflexivity. }
    rewrite Front, Back.
    assert (Rdy : forall g', In g' gf -> ready (i_k s) (w_pos w) g').
    { intros g' Ig. assert (exists w', In w' front /\ at_end (i_k s) g' w') as (w' & Iw & Aw).
      { clear - Ff Ig. induction Ff as [|a b ? ? Hab F' IH]; [destruct Ig|]. destruct Ig as [<-|Ig]; [exists b; split; [left; reflexivity|exact Hab]|].
        destruct (IH Ig) as (w' & I1 & I2). exists w'. split; [right; exact I1|exact I2]. }
      assert (Hle : w_pos w' <= w_pos w).
      { unfold ordered in Os. rewrite Es in Os. clear - Os Iw. induction front as [|b f IH]; [destruct Iw|].
        cbn in Os. inversion Os as [|? ? Os' Fb]; subst. destruct Iw as [<-|Iw]; [|auto].
        rewrite Forall_forall in Fb. specialize (Fb w ltac:(apply in_or_app; right; left; reflexivity)). unfold sooner in Fb. lia. }
      apply (Real g' w' Aw Hle). lia. }
    apply wp_bind. eapply wp_mono; [exact (starts_ok (i_k s) (w_pos w) ltac:(lia) gf front (Wk _ _ Ff) Rdy (ip u) (w_weight w))|].
    intros [[front' p] sum] (S1 & S2 & S3 & S4 & S5 & S6). specialize (S4 Ku).
    pose proof (proj1 Gw u Su) as Fu. unfold finite in Fu.
    set (chosen := g :: gf).
    assert (Cov : cover chosen (Iv p (w_pos w) 0)).
    { apply (cover_found (i_k s) p (w_pos w) g chosen); [lia|lia|lia|lia|exact First|left; reflexivity| |].
      - intros g' [<-|Ig]; [exists u; split; [exact Su|split; lia]|exact (S5 g' Ig)].
      - destruct S6 as [->|(g' & Ig & M)]; [exists g; split; [left; reflexivity|exact Mu]|].
        exists g'. split; [right; exact Ig|exact M]. }
    assert (Pc : Permutation gs1 (chosen ++ gb)).
    { rewrite Eg. unfold chosen. cbn. symmetry. apply Permutation_middle. }
    assert (Pcw : Permutation words (chosen ++ (gb ++ rest))).
    { rewrite app_assoc. eapply perm_trans; [exact Pw|]. apply Permutation_app_tail. eapply perm_trans; eauto. }
    assert (P0' : 0 <= p).
    { destruct S6 as [->|(g' & Ig & M)].
      - apply (Nn g); [|exact Su]. apply (Permutation_in g (Permutation_sym Pcw)). left. reflexivity.
      - destruct (S5 g' Ig) as (a & Sa & A1 & A2). specialize (M a Sa A2).
        assert (0 <= ip a); [|lia]. apply (Nn g' a); [|exact Sa].
        apply (Permutation_in g' (Permutation_sym Pcw)). right. apply in_or_app. left. exact Ig. }
    assert (Lgf : length gf = (n - 1)%nat) by (rewrite <- Lf; clear - Ff; induction Ff; cbn; congruence).
    assert (Sc : penal sum n (w_pos w - p) = cover_score zero add penal chosen (w_pos w - p)).
    { unfold chosen, cover_score. destruct gf as [|g2 gf']; [cbn in Lgf; lia|]. rewrite S2, (proj1 Sw).
      f_equal. cbn [length] in *. lia. }
    apply wp_bind. apply wp_chk; [unfold minf, maxf in *; lia|].
    apply wp_bind. eapply wp_mono; [apply (keep_step p (w_pos w) (penal sum n (w_pos w - p)) (i_chop s) (i_top s) (i_cur s) (i_target s)); auto; try lia|].
    + intros c Hcc. exists chosen, (gb ++ rest). split; [exact Pcw|]. split; [discriminate|]. split; [exact Cov|].
      split; [exact Sc|]. exists c. auto.
    + intros [[[chop' top'] cur'] target'] (K1 & K2 & K3 & K4 & K5 & K6 & K7 & K8).
      apply wp_bind. apply wp_chk; [unfold minf, maxf in *; lia|]. apply wp_ok. split; [|cbn [i_k]; lia].
      split.
      { exists gs1. split; [exact Pg|]. cbn [i_whs]. rewrite Eg. apply Forall2_app; [exact S1|].
        constructor; [split; [exact (proj1 Sw)|exact Hu]|exact (Wk _ _ Fb)]. }
      split; [exact K1|]. cbn [i_k i_top i_cur i_target i_whs i_chop]. split; [lia|]. split; [exact K2|]. split; [exact K3|]. split; [exact K4|].
      split; [exact K5|]. split; [intros c v Hp; apply K6, Mono, Hp|]. split; [auto|].
      intros En y c Cy Hy Cc. destruct (Z.lt_ge_cases (ip y) (i_k s)) as [Hlt|Hge].
      * destruct (Dealt En y c Cy Hlt Cc) as (o & Po & Ho). exists o. split; [exact Po|]. auto.
      * assert (gb = []) as ->.
        { apply length_zero_iff_nil. apply (f_equal (@length _)) in Eg. rewrite app_length in Eg. cbn in Eg. lia. }
        rewrite app_nil_r in Pc. assert (Pd : Permutation gs0 chosen) by (eapply perm_trans; eauto).
        assert (Ey : y = Iv p (w_pos w) 0).
        { apply (cover_next (i_k s) p (w_pos w) g chosen); auto; [left; reflexivity|exact (cover_perm _ _ _ Pd Cy)|lia]. }
        subst y. exists chosen. split; [exact Pd|]. cbn [ip iq]. rewrite <- Sc. exact (K8 c Cc).
Qed.

Lemma pass_ok s : pass_inv s -> wp (loop (icover_step zero add lt sort stable_sort penal depth n) s) pass_post.
Proof.
  intros H. apply (loop_rule pass_inv (fun s => maxf - i_k s)); auto.
  - intros s' (_ & _ & Hk & _). lia.
  - exact step_ok.
  - destruct H as (_ & _ & Hk & _). unfold minf, maxf, BIG in *. lia.
Qed.

(** One pass and the merging after it. *)
Lemma wave_ok whs chop target :
  Forall2 stands gs0 whs -> hop_of chop C -> ranking_of words C depth top0 -> good_target top0 target ->
  wp (icover_wave zero add lt sort stable_sort penal depth n whs chop top0 target) (fun '(whs', chop', top', target') =>
    (exists gs, Permutation gs0 gs /\ Forall2 stands gs whs') /\ hop_of chop' C /\
    ranking_of words C depth top' /\ good_target top' target' /\
    (forall c v, placed depth top0 c v -> placed depth top' c v) /\ (top0 <> [] -> top' <> []) /\
    (n = length gs0 -> forall x c, cover gs0 x -> first_container C x c ->
       exists order, Permutation gs0 order /\
         (lt zero (cover_score zero add penal order (iq x - ip x)) = true ->
          placed depth top' (ip c) (cover_score zero add penal order (iq x - ip x))))).
Proof.
  intros H Hc Rt Gt. unfold icover_wave. apply wp_bind. eapply wp_mono; [apply pass_ok|].
  - split; [exists gs0; split; [reflexivity|exact H]|]. split; [exact Hc|]. split; [cbn; unfold minf, maxf; lia|].
    split; [exact Rt|]. split; [constructor|]. split; [cbn; lia|]. split; [exact Gt|].
    split; [intros c v; apply placed_kept|]. split; [auto|].
    intros En x c (Fx & _) Hx. cbn in Hx. unfold finite in Fx. lia.
  - intros s [((gs & P & Hs) & Hc' & Hk & Rs & Fs & Ls & Gs & Mono & Ne & Dealt) End].
    assert (D : n = length gs0 -> forall x c, cover gs0 x -> first_container C x c ->
       exists order, Permutation gs0 order /\
         (lt zero (cover_score zero add penal order (iq x - ip x)) = true ->
          kept depth (i_top s) (i_cur s) (ip c) (cover_score zero add penal order (iq x - ip x)))).
    { intros En x c Hx Hcc. exact (Dealt En x c Hx (End En x Hx) Hcc). }
    destruct (Nat.ltb_spec 0 (length (i_cur s))) as [Lt|Le].
    + pose proof (merge_ranking zero add lt sort stable_sort W HS HT penal words C depth _ _ Rs Fs) as Rm.
      pose proof (fun c v => kept_merge zero add lt sort stable_sort W HS HT penal depth (i_top s) (i_cur s) c v (proj1 (proj2 (proj2 Rs)))) as M.
      apply wp_bind. eapply wp_mono; [exact (target_ok zero add lt W penal _ depth Hd (proj1 (proj2 Rm)) (proj1 Rm))|].
      intros t Ht. apply wp_ok. split; [eauto|]. split; [exact Hc'|]. split; [exact Rm|]. split; [exact Ht|].
      split; [intros c v Hp; apply M, Mono, Hp|]. split.
      * intros _. apply (merge_nonempty zero add lt sort stable_sort W HS HT penal depth); [exact Hd|].
        intros E'. apply app_eq_nil in E'. destruct E' as [_ E']. rewrite E' in Lt. cbn in Lt. lia.
      * intros En x c Hx Hcc. destruct (D En x c Hx Hcc) as (o & Po & Ho). exists o. split; [exact Po|]. auto.
    + assert (Ec : i_cur s = []) by (apply length_zero_iff_nil; lia). rewrite Ec in *.
      apply wp_ok. split; [eauto|]. split; [exact Hc'|]. split; [exact Rs|]. split; [exact Gs|].
      split; [intros c v Hp; apply kept_placed, Mono, Hp|]. split; [exact Ne|].
      intros En x c Hx Hcc. destruct (D En x c Hx Hcc) as (o & Po & Ho). exists o. split; [exact Po|]. intros Hz. apply kept_placed. auto.
Qed.
End Pass.
End Round.
