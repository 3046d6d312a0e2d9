(** Keeping the best results: lemmas about sorting and [top_results]. *)
From Verif Require Import Base HopperModel GclSpec RankModel RankSpec.

Lemma perm_filter {A} (f : A -> bool) l l' :
  Permutation l l' -> Permutation (filter f l) (filter f l').
Proof.
  induction 1; cbn; auto.
  - destruct (f x); auto.
  - destruct (f x), (f y); auto. constructor.
  - eapply perm_trans; eauto.
Qed.
Lemma filter_short {A} (f : A -> bool) l : (length (filter f l) <= length l)%nat.
Proof. induction l as [|x l IH]; cbn; [lia|]. destruct (f x); cbn; lia. Qed.
Lemma ssorted_app {A} (R : A -> A -> Prop) l1 l2 :
  StronglySorted R (l1 ++ l2) ->
  StronglySorted R l1 /\ StronglySorted R l2 /\ forall x y, In x l1 -> In y l2 -> R x y.
Proof.
  induction l1 as [|a l1 IH]; cbn; intros H.
  - split; [constructor|split; [exact H|tauto]].
  - inversion H as [|? ? H1 H2]; subst. destruct (IH H1) as (I1 & I2 & I3).
    rewrite Forall_app in H2. destruct H2 as [H2 H3].
    split; [constructor; auto|split; [exact I2|]].
    intros x y [->|Hx] Hy; [exact (proj1 (Forall_forall _ _) H3 y Hy)|exact (I3 x y Hx Hy)].
Qed.
Lemma ssorted_impl {A} (R R' : A -> A -> Prop) l :
  (forall x y, In x l -> In y l -> R x y -> R' x y) -> StronglySorted R l -> StronglySorted R' l.
Proof.
  intros H S. revert H. induction S as [|a l S IH F]; intros H; constructor.
  - apply IH. intros x y Hx Hy. apply H; right; assumption.
  - apply Forall_forall. intros y Hy. apply H; [left; reflexivity|right; exact Hy|].
    exact (proj1 (Forall_forall _ _) F y Hy).
Qed.

Section Keep.
Context {F : Type} (zero : F) (lt : F -> F -> bool) (sort : sorter).
Context (W : weak_order lt) (HS : sorts sort).
Notation result := (result (F := F)).
Notation top_results := (top_results lt sort).
Notation best := (best lt).
Notation by_score := (by_score lt).

Lemma lt_neg a b c : lt a b = false -> lt b c = false -> lt a c = false.
Proof.
  destruct W as (_ & _ & N). intros H1 H2. destruct (lt a c) eqn:E; [|reflexivity].
  destruct (N a b c E); congruence.
Qed.
Lemma lt_le_lt a b c : lt a c = true -> lt b c = false -> lt a b = true.
Proof. destruct W as (_ & _ & N). intros H1 H2. destruct (N a b c H1); congruence. Qed.
Lemma le_lt_lt a b c : lt b a = false -> lt b c = true -> lt a c = true.
Proof. destruct W as (_ & _ & N). intros H1 H2. destruct (N b a c H2); congruence. Qed.

Lemma by_score_order : weak_order by_score.
Proof.
  destruct W as (W1 & W2 & W3). unfold RankModel.by_score. split; [|split].
  - intros a. apply W1.
  - intros a b c H1 H2. eapply W2; eauto.
  - intros a b c H. destruct (W3 (rscore c) (rscore b) (rscore a) H); auto.
Qed.

Lemma best_perm depth l l' top : Permutation l l' -> best depth l top -> best depth l' top.
Proof.
  intros P (rest & P1 & L & R). exists rest. split; [|split; [|exact R]].
  - eapply perm_trans; [apply Permutation_sym, P|exact P1].
  - rewrite L. f_equal. apply Permutation_length, P.
Qed.

Lemma best_nil depth : best depth [] [].
Proof.
  exists []. split; [constructor|]. split; [cbn; lia|]. split; [constructor|]. intros t r [].
Qed.

Lemma best_top depth E top cur :
  best depth E top -> best depth (E ++ cur) (top_results top cur depth).
Proof.
  intros (rest & P & L & S & D). unfold RankModel.top_results.
  destruct (HS result by_score (top ++ cur) by_score_order) as [P' O].
  set (srt := sort result by_score (top ++ cur)) in *.
  assert (P2 : Permutation (E ++ cur) (firstn depth srt ++ skipn depth srt ++ rest)).
  { rewrite app_assoc, firstn_skipn.
    eapply perm_trans; [apply Permutation_app_tail, P|]. rewrite <- app_assoc.
    eapply perm_trans; [apply Permutation_app_head, Permutation_app_comm|].
    rewrite app_assoc. apply Permutation_app_tail, P'. }
  pose proof (Permutation_length P') as PL. rewrite app_length in PL.
  assert (O' : StronglySorted (fun a b => lt (rscore a) (rscore b) = false)
                 (firstn depth srt ++ skipn depth srt)) by (rewrite firstn_skipn; exact O).
  destruct (ssorted_app _ _ _ O') as (O1 & _ & O2).
  exists (skipn depth srt ++ rest). split; [exact P2|]. split; [|split; [exact O1|]].
  - rewrite firstn_length, app_length, <- PL. pose proof (Permutation_length P) as PE.
    rewrite app_length in PE. lia.
  - intros t r Ht Hr. apply in_app_or in Hr. destruct Hr as [Hr|Hr]; [exact (O2 t r Ht Hr)|].
    destruct (lt (rscore t) (rscore r)) eqn:E1; [exfalso|reflexivity].
    assert (Hd : length top = depth).
    { pose proof (Permutation_length P) as PE. rewrite app_length in PE.
      destruct rest; [destruct Hr|]. cbn in PE. lia. }
    (* everything in [top] beats t, but fewer than [depth] results do *)
    assert (Hb : forall u, In u top -> lt (rscore t) (rscore u) = true).
    { intros u Hu. eapply lt_le_lt; [exact E1|]. exact (D u r Hu Hr). }
    destruct (in_split _ _ Ht) as (a & b & Eab).
    assert (La : (length a < depth)%nat).
    { pose proof (firstn_length depth srt) as Lf. rewrite Eab, app_length in Lf. cbn in Lf. lia. }
    assert (Esrt : srt = a ++ t :: (b ++ skipn depth srt)).
    { rewrite <- (firstn_skipn depth srt) at 1. rewrite Eab, <- app_assoc. reflexivity. }
    rewrite Esrt in O. destruct (ssorted_app _ _ _ O) as (_ & Ob & _).
    inversion Ob as [|? ? _ Fb]; subst.
    set (f := fun u : result => lt (rscore t) (rscore u)) in *.
    assert (C1 : (length (filter f srt) <= length a)%nat).
    { rewrite Esrt, filter_app, app_length. cbn [filter].
      replace (f t) with false by (symmetry; apply W).
      replace (filter f (b ++ skipn (length top) srt)) with (@nil result).
      - cbn. pose proof (filter_short f a). lia.
      - symmetry. clear -Fb. induction Fb as [|x l Hx Fb IH]; [reflexivity|]. cbn.
        unfold f at 1. unfold RankModel.by_score in Hx. rewrite Hx. exact IH. }
    pose proof (Permutation_length (perm_filter f _ _ P')) as C2.
    rewrite filter_app, app_length in C2.
    assert (C3 : length (filter f top) = length top).
    { clear -Hb f. induction top as [|x l IH]; [reflexivity|]. cbn.
      unfold f at 1. rewrite Hb by (left; reflexivity). cbn. f_equal. apply IH.
      intros u Hu. apply Hb. right. exact Hu. }
    lia.
Qed.

(** [depth] results that are no worse than [r] keep [r] below the best. *)
Lemma dominated depth L T u o r :
  best depth L T -> Permutation L (u ++ o) -> length u = depth ->
  (forall x, In x u -> lt (rscore x) (rscore r) = false) ->
  forall t, In t T -> lt (rscore t) (rscore r) = false.
Proof.
  intros (rest & P & Ll & S & D) PL Hu Hr t Ht.
  destruct (lt (rscore t) (rscore r)) eqn:E1; [exfalso|reflexivity].
  set (f := fun v : result => lt (rscore t) (rscore v)).
  assert (Hb : forall v, In v u -> f v = true).
  { intros v Hv. unfold f. eapply lt_le_lt; [exact E1|exact (Hr v Hv)]. }
  assert (C1 : length (filter f u) = length u).
  { clear -Hb. induction u as [|x l IH]; [reflexivity|]. cbn.
    rewrite Hb by (left; reflexivity). cbn. f_equal. apply IH. intros v Hv. apply Hb. right. exact Hv. }
  assert (P' : Permutation (u ++ o) (T ++ rest)).
  { eapply perm_trans; [apply Permutation_sym, PL|exact P]. }
  pose proof (Permutation_length (perm_filter f _ _ P')) as C2. rewrite !filter_app, !app_length in C2.
  assert (C3 : filter f rest = []).
  { specialize (fun v => D t v Ht). clear -D. induction rest as [|x l IH]; [reflexivity|]. cbn.
    unfold f at 1. rewrite D by (left; reflexivity). apply IH. intros v Hv. apply D. right. exact Hv. }
  destruct (in_split _ _ Ht) as (a & b & Eab). rewrite Eab in S.
  destruct (ssorted_app _ _ _ S) as (_ & Sb & _). inversion Sb as [|? ? _ Fb]; subst.
  assert (C4 : filter f b = []).
  { clear -Fb. induction Fb as [|x l Hx Fb IH]; [reflexivity|]. cbn. unfold f at 1. rewrite Hx. exact IH. }
  rewrite filter_app in C2. cbn [filter] in C2.
  replace (f t) with false in C2 by (symmetry; apply W). rewrite C3, C4, C1, app_length in C2. cbn in C2.
  pose proof (filter_short f a). rewrite app_length in Ll. cbn in Ll. lia.
Qed.
Lemma best_top2 depth E1 E2 t1 t2 :
  best depth E1 t1 -> best depth E2 t2 -> best depth (E1 ++ E2) (top_results t1 t2 depth).
Proof.
  intros B1 (r2 & P2 & L2 & S2 & D2).
  pose proof (best_top depth E1 t1 t2 B1) as B. pose proof B as (rest & P & L & S & D).
  pose proof (Permutation_length P2) as LP2. rewrite app_length in LP2.
  exists (rest ++ r2). split; [|split; [|split; [exact S|]]].
  - rewrite app_assoc. eapply perm_trans; [apply Permutation_app_head, P2|].
    rewrite app_assoc. apply Permutation_app_tail, P.
  - rewrite L, !app_length. lia.
  - intros t r Ht Hr. apply in_app_or in Hr. destruct Hr as [Hr|Hr]; [exact (D t r Ht Hr)|].
    assert (length t2 = depth) as L3 by (destruct r2; [destruct Hr|cbn in LP2; lia]).
    eapply dominated; [exact B|apply Permutation_app_comm|exact L3| |exact Ht].
    intros x Hx. exact (D2 x r Hx Hr).
Qed.

(** What the loops maintain: [all] so far, [top] the best of those merged. *)
Definition collected (depth : nat) (all top current : list result) : Prop :=
  Forall (fun r => lt zero (rscore r) = true) all /\
  exists E, best depth E top /\ (length current < depth)%nat /\ Permutation all (E ++ current).

Notation target_of := (target_of zero).
Notation keep := (keep lt sort).

Lemma collected_nil depth : (0 < depth)%nat -> collected depth [] [] [].
Proof.
  intros H. split; [constructor|]. exists []. split; [apply best_nil|]. cbn. auto.
Qed.

Lemma target_full top depth :
  (length top = depth) -> (0 < depth)%nat -> exists a r, top = a ++ [r] /\ target_of top depth = rscore r.
Proof.
  intros E H. unfold RankModel.target_of. rewrite (proj2 (Nat.eqb_eq _ _) E).
  destruct top as [|x l _] using rev_ind; [cbn in E; lia|]. exists l, x.
  rewrite rev_app_distr. cbn. auto.
Qed.

Lemma target_le depth all top current t :
  (0 < depth)%nat -> collected depth all top current -> length top = depth -> In t top ->
  lt (rscore t) (target_of top depth) = false.
Proof.
  intros H (_ & E & (rest & _ & _ & S & _) & _) L Ht.
  destruct (target_full top depth L H) as (a & r & -> & ->).
  destruct (ssorted_app _ _ _ S) as (_ & _ & D).
  apply in_app_or in Ht. destruct Ht as [Ht|[->|[]]].
  - apply D; [exact Ht|left; reflexivity].
  - apply W.
Qed.
Lemma target_nonneg depth all top current :
  (0 < depth)%nat -> collected depth all top current -> lt (target_of top depth) zero = false.
Proof.
  intros H (Fp & E & (rest & P & _) & _ & P2).
  destruct (Nat.eq_dec (length top) depth) as [L|L].
  - destruct (target_full top depth L H) as (a & r & -> & ->).
    assert (Hr : In r all).
    { eapply Permutation_in; [apply Permutation_sym, P2|]. apply in_or_app. left.
      eapply Permutation_in; [apply Permutation_sym, P|]. apply in_or_app. left.
      apply in_or_app. right. left. reflexivity. }
    pose proof (proj1 (Forall_forall _ _) Fp r Hr) as Hz. cbn in Hz.
    destruct (lt (rscore r) zero) eqn:E1; [|reflexivity].
    destruct W as (W1 & W2 & _). pose proof (W2 _ _ _ Hz E1) as Hc. rewrite W1 in Hc. discriminate.
  - unfold RankModel.target_of. rewrite (proj2 (Nat.eqb_neq _ _) L). apply W.
Qed.

(** A result not above the target can be dropped, one above it is kept. *)
Lemma keep_ok depth all top current r top' current' :
  (0 < depth)%nat -> collected depth all top current -> lt zero (rscore r) = true ->
  keep depth (target_of top depth) r (top, current) = (top', current') ->
  collected depth (all ++ [r]) top' current'.
Proof.
  intros H HC Hr. pose proof HC as (Fp & E & B & Lc & P).
  assert (Fp' : Forall (fun r => lt zero (rscore r) = true) (all ++ [r])).
  { apply Forall_app. split; [exact Fp|constructor; [exact Hr|constructor]]. }
  unfold RankModel.keep. destruct (lt (target_of top depth) (rscore r)) eqn:E1.
  - destruct (Nat.eqb (length (current ++ [r])) depth) eqn:E2; intros [= <- <-].
    + split; [exact Fp'|]. exists (E ++ (current ++ [r])). split; [apply best_top, B|].
      split; [cbn; lia|]. rewrite app_nil_r, app_assoc. apply Permutation_app_tail, P.
    + apply Nat.eqb_neq in E2. rewrite app_length in E2. cbn in E2.
      split; [exact Fp'|]. exists E. split; [exact B|]. split; [rewrite app_length; cbn; lia|].
      rewrite app_assoc. apply Permutation_app_tail, P.
  - intros [= <- <-]. split; [exact Fp'|].
    assert (L : length top = depth).
    { destruct (Nat.eq_dec (length top) depth) as [L|L]; [exact L|].
      unfold RankModel.target_of in E1. rewrite (proj2 (Nat.eqb_neq _ _) L) in E1. congruence. }
    exists (E ++ [r]). split; [|split; [exact Lc|]].
    + pose proof B as (rest & P1 & L1 & S & D). exists (rest ++ [r]). split; [|split; [|split; [exact S|]]].
      * rewrite app_assoc. apply Permutation_app_tail, P1.
      * rewrite app_length. cbn. lia.
      * intros t x Ht Hx. apply in_app_or in Hx. destruct Hx as [Hx|[<-|[]]]; [exact (D t x Ht Hx)|].
        eapply lt_neg; [exact (target_le depth all top current t H HC L Ht)|exact E1].
    + eapply perm_trans; [apply Permutation_app_tail, P|]. rewrite <- !app_assoc.
      apply Permutation_app_head, Permutation_app_comm.
Qed.
(** A result with no score above zero is dropped. *)
Lemma keep_zero depth all top current r :
  (0 < depth)%nat -> collected depth all top current -> lt zero (rscore r) = false ->
  keep depth (target_of top depth) r (top, current) = (top, current).
Proof.
  intros H HC Hr. unfold RankModel.keep.
  rewrite (lt_neg _ _ _ (target_nonneg depth all top current H HC) Hr). reflexivity.
Qed.

Lemma collected_best depth all top current :
  collected depth all top current -> best depth all (top_results top current depth).
Proof.
  intros (_ & E & B & _ & P). eapply best_perm; [apply Permutation_sym, P|]. apply best_top, B.
Qed.
(** The last result of a loop, kept without emptying the batch. *)
Lemma collected_last depth all top current r :
  (0 < depth)%nat -> collected depth all top current -> lt zero (rscore r) = true ->
  best depth (all ++ [r])
    (top_results top (if lt (target_of top depth) (rscore r) then current ++ [r] else current) depth).
Proof.
  intros H HC Hr. destruct (lt (target_of top depth) (rscore r)) eqn:E1.
  - destruct HC as (_ & E & B & _ & P).
    eapply best_perm; [|apply best_top, B]. rewrite app_assoc. apply Permutation_app_tail, Permutation_sym, P.
  - assert (K : keep depth (target_of top depth) r (top, current) = (top, current))
      by (unfold RankModel.keep; rewrite E1; reflexivity).
    apply collected_best. exact (keep_ok depth all top current r top current H HC Hr K).
Qed.
End Keep.
