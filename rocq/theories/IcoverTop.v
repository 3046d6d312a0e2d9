(** Proofs about IcoverModel.v: all passes, and the ranking. *)
From Verif Require Import Base HopperModel GclSpec GclProofs UnaryProofs VectorModel
  RankModel RankSpec RankProofs RankFuse IcoverModel IcoverSpec IcoverProofs IcoverRound.

Section Top.
Context {F : Type} (zero : F) (add : F -> F -> F) (lt : F -> F -> bool).
Context (sort stable_sort : sorter).
Context (W : weak_order lt) (HS : sorts sort) (HT : sorts_stably stable_sort).
Context (penal : F -> nat -> Z -> F).
Notation result := (result (F := F)).
Notation word := (F * (iv -> Prop))%type.
Notation merge := (merge_results lt sort stable_sort).
Notation passage := (passage (F := F) zero add penal).
Notation ranking_of := (ranking_of (F := F) zero add lt penal).
Notation placed := (placed (F := F) lt).
Notation good_target := (good_target (F := F) zero lt).
Notation wh := (wh (F := F)).
Notation stands := (stands (F := F)).
Notation score := (cover_score zero add penal).

Lemma lighter_order : weak_order (lighter lt).
Proof.
  destruct W as (W1 & W2 & W3). unfold lighter. split; [|split].
  - intros a. apply W1.
  - intros a b c H1 H2. eapply W2; eauto.
  - intros a b c H. exact (W3 _ (w_weight b) _ H).
Qed.
Lemma heavier_order : weak_order (heavier lt).
Proof.
  destruct W as (W1 & W2 & W3). unfold heavier. split; [|split].
  - intros a. apply W1.
  - intros a b c H1 H2. eapply W2; eauto.
  - intros a b c H. destruct (W3 _ (w_weight b) _ H); auto.
Qed.
Lemma prune_suffix n t whs : exists pre, whs = pre ++ icover_prune zero add lt n t whs.
Proof.
  induction whs as [|w r (pre & IH)]; [exists []; reflexivity|]. cbn [icover_prune].
  destruct (Nat.leb n (length (w :: r))); [|exists []; reflexivity].
  destruct (lt t _); [exists []; reflexivity|]. exists (w :: pre). cbn. f_equal. exact IH.
Qed.
Lemma drop_suffix t (whs : list wh) : exists pre, whs = pre ++ icover_drop lt t whs.
Proof.
  induction whs as [|w r (pre & IH)]; [exists []; reflexivity|]. cbn [icover_drop].
  destruct (lt t _); [exists []; reflexivity|]. exists (w :: pre). cbn. f_equal. exact IH.
Qed.
(** The words that are left after sorting and dropping some. *)
Lemma left_words (words gs rest : list word) (whs whs1 : list wh) pre :
  Permutation words (gs ++ rest) -> Forall2 stands gs whs -> Permutation whs (pre ++ whs1) ->
  exists gs1 rest1, Permutation words (gs1 ++ rest1) /\ Forall2 stands gs1 whs1.
Proof.
  intros Pw H P. destruct (perm_forall2 _ _ _ gs P H) as (gs' & P' & H').
  apply Forall2_app_inv_r in H'. destruct H' as (g1 & g2 & H1 & H2 & ->).
  exists g2, (g1 ++ rest). split; [|exact H2]. eapply perm_trans; [exact Pw|].
  rewrite app_assoc. apply Permutation_app_tail. eapply perm_trans; [exact P'|]. apply Permutation_app_comm.
Qed.

Section All.
Context (words : list word) (C : iv -> Prop) (depth : nat).
Context (Hd : (0 < depth)%nat) (Nn : forall w a, In w words -> snd w a -> 0 <= ip a).

(** The state between two passes. *)
Definition between (whs : list wh) (chop : hobj) (top : list result) (target : F) : Prop :=
  (exists gs rest, Permutation words (gs ++ rest) /\ Forall2 stands gs whs /\ (top = [] -> rest = [])) /\
  hop_of chop C /\ ranking_of words C depth top /\ good_target depth top target.
Definition all_placed (out : list result) : Prop :=
  forall x c, cover words x -> first_container C x c ->
    exists order, Permutation words order /\
      (lt zero (score order (iq x - ip x)) = true -> placed depth out (ip c) (score order (iq x - ip x))).

Lemma waves_ok : forall n whs chop top target,
  between whs chop top target -> (n <= length whs)%nat ->
  wp (icover_waves zero add lt sort stable_sort penal depth n whs chop top target) (fun r =>
    match r with
    | inl out => out <> [] /\ ranking_of words C depth out
    | inr (whs', chop', top', target') => between whs' chop' top' target'
    end /\
    let out := match r with inl out => out | inr (_, _, top', _) => top' end in
    (forall c v, placed depth top c v -> placed depth out c v) /\
    (n = length words -> (2 <= n)%nat -> top = [] -> all_placed out)).
Proof.
  induction n as [|n IH]; intros whs chop top target B L; [apply wp_ok; split; [exact B|split; [auto|lia]]|].
  destruct n as [|n]; [apply wp_ok; split; [exact B|split; [auto|lia]]|].
  destruct B as ((gs & rest & Pw & H & Nr) & Hc & Rt & Gt).
  cbn [icover_waves]. apply wp_bind. eapply wp_mono; [exact (target_ok zero add lt W penal top depth Hd (proj1 (proj2 Rt)) (proj1 Rt))|].
  intros t Ht. cbv zeta. set (full := Nat.leb depth (length top)).
  set (whs0 := if full then _ else whs).
  assert (X : exists gs1 rest1, Permutation words (gs1 ++ rest1) /\ Forall2 stands gs1 whs0 /\
     (top = [] -> rest1 = []) /\ (full = false -> (S (S n) <= length whs0)%nat)).
  { unfold whs0. destruct full eqn:E.
    - destruct (HS wh (lighter lt) whs lighter_order) as [P _]. destruct (prune_suffix (S (S n)) t (sort wh (lighter lt) whs)) as (pre & Ep).
      rewrite Ep in P. destruct (left_words words gs rest whs _ pre Pw H P) as (g1 & r1 & P1 & H1). exists g1, r1.
      split; [exact P1|]. split; [exact H1|]. split; [|discriminate]. intros ->. unfold full in E. apply Nat.leb_le in E. cbn in E. lia.
    - exists gs, rest. auto. }
  destruct X as (gs1 & rest1 & P1 & H1 & N1 & L1).
  assert (Lg : length gs1 = length whs0) by (clear - H1; induction H1; cbn; congruence).
  clearbody whs0. destruct (full && Nat.ltb (length whs0) (S (S n))) eqn:Er.
  - apply wp_ok. apply andb_true_iff in Er. destruct Er as [Ef _]. unfold full in Ef. apply Nat.leb_le in Ef.
    split; [split; [intros ->; cbn in Ef; lia|exact Rt]|]. split; [auto|]. intros _ _ ->. cbn in Ef. lia.
  - assert (L0 : (S (S n) <= length whs0)%nat).
    { destruct full; [|auto]. apply (proj1 (Nat.ltb_ge _ _)). exact Er. }
    apply wp_bind. eapply wp_mono; [exact (wave_ok zero add lt sort stable_sort W HS HT penal words gs1 rest1 C depth (S (S n)) top P1 Hd ltac:(lia) Nn whs0 chop t H1 Hc Rt Ht)|].
    intros [[[whs' chop'] top'] target'] ((gs2 & P2 & H2) & Hc' & Rt' & Gt' & Mono & Ne & All).
    assert (Lw : length whs' = length whs0).
    { rewrite <- Lg, (Permutation_length P2). clear - H2. induction H2; cbn; congruence. }
    eapply wp_mono; [apply (IH whs' chop' top' target')|].
    + split; [|auto]. exists gs2, rest1. split; [eapply perm_trans; [exact P1|apply Permutation_app_tail, P2]|]. split; [exact H2|].
      intros E. destruct top as [|r0 top0]; [auto|]. exfalso. apply Ne; [discriminate|exact E].
    + lia.
    + intros r (R1 & R2 & _). split; [exact R1|]. split; [auto|].
      intros En _ E x c Hx Hcc. assert (rest1 = []) as -> by auto. rewrite app_nil_r in P1.
      destruct (All ltac:(rewrite En; exact (Permutation_length P1)) x c (cover_perm _ _ x P1 Hx) Hcc) as (o & Po & Ho).
      exists o. split; [eapply perm_trans; [exact P1|exact Po]|]. auto.
Qed.

Lemma cover_one (g : word) x : GC (snd g) -> snd g x -> cover [g] (Iv (ip x) (iq x) 0).
Proof.
  clear - g x.
  intros [G1 G2] Sx. pose proof (G1 x Sx) as Fx. split; [exact Fx|]. split; [reflexivity|]. split.
  - intros w [<-|[]]. exists x. split; [exact Sx|]. split; cbn; lia.
  - intros y Fy Hy [N1 N2]. destruct (Hy g (or_introl eq_refl)) as (a & Sa & A1 & A2). cbn in N1, N2.
    assert (x = a) by (apply G2; auto; split; lia). subst a. split; cbn; lia.
Qed.

Definition in_container (S : iv -> Prop) : Prop := exists a d, S a /\ C d /\ nests d a.

Lemma word_ok (g : word) (o : hobj) chop k acc : In g words -> hop_of o (snd g) -> hop_of chop C ->
  minf < k <= 0 -> Forall (passage words C) acc ->
  wp (loop (icover_word depth (fst g) (projT1 o)) (projT2 o, chop, k, acc)) (fun '(chop', acc') =>
    hop_of chop' C /\ Forall (passage words C) acc' /\ (acc <> [] -> acc' <> []) /\
    (in_container (snd g) -> acc' <> [])).
Proof.
  intros Ig Ho Hc Hk Fa.
  apply (loop_rule (fun '(h, ch, k', a) => hop_of (existT St (projT1 o) h) (snd g) /\ hop_of ch C /\ minf < k' <= maxf /\
     Forall (passage words C) a /\ (acc <> [] -> a <> []) /\
     (forall x d, snd g x -> ip x < k' -> C d -> nests d x -> a <> [])) (fun '(h, ch, k', a) => maxf - k')).
  - intros [[[h ch] k'] a] (_ & _ & H & _). lia.
  - intros [[[h ch] k'] a] (Hh & Hch & Hk' & Fa' & Na & Done). unfold icover_word.
    destruct (Nat.ltb_spec (length a) depth) as [Lt|Ge].
    2: { apply wp_ok. split; [exact Hch|]. split; [exact Fa'|]. split; [exact Na|]. intros _ ->. cbn in Ge. lia. }
    apply wp_bind. eapply wp_mono; [exact (hop_tau (existT St (projT1 o) h) (snd g) k' Hh ltac:(lia))|]. cbn [projT1 projT2].
    intros [h' x] [Hh' Tx]. destruct (Z.ltb_spec (iq x) maxf) as [Hx|Hx].
    + destruct Tx as [[E _]|[_ [(Sx & Kx & Lx)|[-> _]]]]; [lia| |cbn in Hx; lia].
      pose proof (proj1 (proj1 Hh) x Sx) as Fx. unfold finite in Fx.
      apply wp_bind. eapply wp_mono; [exact (hop_rho ch C (iq x) Hch ltac:(lia))|]. intros [c' c] [Hc' Rc].
      destruct (rho_container C (ip x) (iq x) c (proj1 Hch) ltac:(lia) ltac:(lia) ltac:(lia) Rc) as [R1 R2]. cbv zeta.
      apply wp_bind. apply wp_chk; [unfold minf, maxf in *; lia|]. apply wp_ok. split; [|lia].
      split; [exact Hh'|]. split; [exact Hc'|]. split; [lia|]. split; [|split].
      * destruct (Z.leb_spec (ip c) (ip x)) as [Le|_]; [|exact Fa']. apply Forall_app. split; [exact Fa'|].
        constructor; [|constructor]. destruct (in_split g words Ig) as (l1 & l2 & El).
        exists [g], (l1 ++ l2). split; [rewrite El; symmetry; exact (Permutation_middle l1 l2 g)|]. split; [discriminate|].
        split; [exact (cover_one g x (proj1 Hh) Sx)|]. split; [reflexivity|]. exists c. auto.
      * intros H. destruct (Z.leb_spec (ip c) (ip x)); [|auto]. destruct a; discriminate.
      * intros y d Sy Hy Cd Nd. destruct (Z.lt_ge_cases (ip y) k') as [H|H].
        -- pose proof (Done y d Sy H Cd Nd). destruct (ip c <=? ip x); [destruct a; discriminate|assumption].
        -- specialize (Lx y Sy H). assert (y = x).
           { assert (ip y = ip x) by lia. destruct (Z.le_gt_cases (iq y) (iq x)).
             - symmetry. apply (proj2 (proj1 Hh)); auto. split; lia.
             - apply (proj2 (proj1 Hh)); auto. split; lia. }
           subst y. specialize (R2 d Cd Nd). destruct (Z.leb_spec (ip c) (ip x)); [|lia]. destruct a; discriminate.
    + apply wp_ok. split; [exact Hch|]. split; [exact Fa'|]. split; [exact Na|].
      intros (y & d & Sy & Cd & Nd). destruct Tx as [[E _]|[_ [(Sx & _)|[_ N]]]]; [lia| |exact (Done y d Sy (N y Sy) Cd Nd)].
      pose proof (proj1 (proj1 Hh) x Sx) as Fx. unfold finite in Fx. lia.
  - split; [destruct o; exact Ho|]. split; [exact Hc|]. split; [unfold maxf; lia|]. split; [exact Fa|]. split; [auto|].
    intros x d Sx Hx. specialize (Nn g x Ig Sx). lia.
  - unfold minf, maxf, BIG in *. lia.
Qed.

Lemma words_ok : forall whs gs, Forall2 stands gs whs -> incl gs words -> forall chop k acc, hop_of chop C ->
  minf < k <= 0 -> Forall (passage words C) acc ->
  wp (icover_words depth whs chop k acc) (fun acc' =>
    Forall (passage words C) acc' /\ (acc <> [] -> acc' <> []) /\
    ((exists g, In g gs /\ in_container (snd g)) -> acc' <> [])).
Proof.
  intros whs gs H. induction H as [|g w gs whs [Ew Hw] H IH]; intros Hi chop k acc Hc Hk Fa; cbn [icover_words].
  - apply wp_ok. split; [exact Fa|]. split; [auto|]. intros (g & [] & _).
  - apply wp_bind. rewrite Ew. eapply wp_mono; [exact (word_ok g (w_hop w) chop k acc (Hi g (or_introl eq_refl)) Hw Hc Hk Fa)|].
    intros [chop' acc'] (Hc' & Fa' & N1 & N2).
    eapply wp_mono; [apply (IH (fun x Hx => Hi x (or_intror Hx)) chop' (minf + 1) acc' Hc' ltac:(unfold minf; lia) Fa')|].
    intros out (O1 & O2 & O3). split; [exact O1|]. split; [auto|].
    intros (g' & [<-|Ig] & Hg); [auto|]. apply O3. eauto.
Qed.
End All.

Section Rank.
Context {T : Type} (terms : list T) (weight : T -> F) (hopper : T -> hobj) (E : T -> iv -> Prop).
Context (chop : hobj) (C : iv -> Prop) (depth : nat).
Context (Hd : (0 < depth)%nat).
Context (Ho : forall t, In t terms -> hop_of (hopper t) (E t)) (Hc : hop_of chop C).
Context (Nn : forall t a, In t terms -> E t a -> 0 <= ip a).
Notation words := (map (fun t => (weight t, E t)) terms).

Lemma ranking_ok : terms <> [] ->
  wp (icover_ranking zero add lt sort stable_sort penal terms weight hopper (Some chop) depth) (fun out =>
    ranking_of words C depth out /\
    ((2 <= length terms)%nat -> all_placed words C depth out) /\
    ((exists t a c, In t terms /\ E t a /\ C c /\ nests c a) -> out <> [])).
Proof.
  intros Hne. unfold icover_ranking. destruct terms as [|t0 ts] eqn:Et; [congruence|]. rewrite <- Et in *.
  assert (Hs : Forall2 stands words (map (fun t => Wh (weight t) minf (hopper t)) terms)).
  { clear - Ho. induction terms as [|t l IH]; cbn; [constructor|]. constructor; [split; [reflexivity|apply Ho; left; reflexivity]|].
    apply IH. intros t' Ht. apply Ho. right. exact Ht. }
  assert (Nw : forall w a, In w words -> snd w a -> 0 <= ip a).
  { intros w a Hw Sa. apply in_map_iff in Hw. destruct Hw as (t & <- & Ht). exact (Nn t a Ht Sa). }
  apply wp_bind. eapply wp_mono; [apply (waves_ok words C depth Hd Nw (length terms))|].
  - split; [exists words, []; split; [rewrite app_nil_r; reflexivity|]; split; [exact Hs|auto]|]. split; [exact Hc|].
    split; [|right; split; [cbn; lia|reflexivity]].
    split; [cbn; lia|]. split; [constructor|]. split; [constructor|constructor].
  - rewrite map_length. lia.
  - intros [out|[[[whs chop'] top] target]]; intros (B & Mono & All); cbv zeta in Mono, All; rewrite map_length in All.
    + apply wp_ok. destruct B as [B1 B2]. split; [exact B2|]. split; [intros H; apply All; auto|]. auto.
    + destruct B as ((gs & rest & Pw & H & Nr) & Hc' & Rt & Gt). cbv zeta. set (full := Nat.leb depth (length top)).
      set (whs2 := if full then _ else whs).
      assert (X : exists gs1 rest1, Permutation words (gs1 ++ rest1) /\ Forall2 stands gs1 whs2 /\ (top = [] -> rest1 = [])).
      { unfold whs2. destruct full eqn:Ef; [|eauto].
        destruct (HS wh (lighter lt) whs lighter_order) as [P _]. destruct (drop_suffix target (sort wh (lighter lt) whs)) as (pre & Ep).
        rewrite Ep in P. destruct (left_words words gs rest whs _ pre Pw H P) as (g1 & r1 & P1 & H1). exists g1, r1.
        split; [exact P1|]. split; [exact H1|]. intros ->. unfold full in Ef. apply Nat.leb_le in Ef. cbn in Ef. lia. }
      clearbody whs2. destruct X as (gs1 & rest1 & P1 & H1 & N1).
      destruct (full && Nat.eqb (length whs2) 0) eqn:Ef.
      * apply wp_ok. split; [exact Rt|]. split; [intros Hl; apply All; auto|]. intros _ ->.
        apply andb_true_iff in Ef. destruct Ef as [Ef _]. unfold full in Ef. apply Nat.leb_le in Ef. cbn in Ef. lia.
      * destruct (HS wh (heavier lt) whs2 heavier_order) as [P _].
        destruct (perm_forall2 _ _ _ gs1 P H1) as (gs3 & P3 & H3).
        apply wp_bind. eapply wp_mono; [apply (words_ok words C depth Hd Nw _ gs3 H3)|].
        -- intros g Hg. apply (Permutation_in g (Permutation_sym P1)). apply in_or_app. left.
           exact (Permutation_in g (Permutation_sym P3) Hg).
        -- exact Hc'.
        -- unfold minf. lia.
        -- constructor.
        -- intros ones (O1 & _ & O3). apply wp_ok.
           split; [exact (merge_ranking zero add lt sort stable_sort W HS HT penal words C depth top ones Rt O1)|]. split.
           ++ intros Hl x c Hx Hcc. destruct (All eq_refl Hl eq_refl x c Hx Hcc) as (o & Po & Hp). exists o. split; [exact Po|].
              intros Hz. apply (kept_merge zero add lt sort stable_sort W HS HT penal); [exact (proj1 (proj2 (proj2 Rt)))|].
              apply placed_kept. auto.
           ++ intros (t & a & c & Ht & Ea & Cc & Nc). apply (merge_nonempty zero add lt sort stable_sort W HS HT penal); [exact Hd|].
              destruct top as [|r top']; [|discriminate]. cbn [app]. apply O3.
              exists (weight t, E t). split; [|exists a, c; auto].
              rewrite (N1 eq_refl), app_nil_r in P1. apply (Permutation_in _ P3), (Permutation_in _ P1).
              apply in_map_iff. eauto.
Qed.
End Rank.

(** Asked for no results, a query of more than one word reads past the end. *)
Lemma depth_zero {T : Type} (terms : list T) (weight : T -> F) (hopper : T -> hobj) (chop : hobj) :
  (2 <= length terms)%nat -> icover_ranking zero add lt sort stable_sort penal terms weight hopper (Some chop) 0 = UB.
Proof.
  clear W HS HT. destruct terms as [|t [|t2 ts]]; cbn [length]; intros H; [exfalso; lia|exfalso; lia|reflexivity].
Qed.
End Top.
