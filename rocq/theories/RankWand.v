(** BM25 ranking, which skips documents that cannot make it, returns the best
    documents all the same. *)
From Verif Require Import Base HopperModel GclSpec HopperProofs GclProofs ArrayProofs UnaryProofs
  RankModel RankSpec RankProofs RankSsr RankDocs.

Section Wand.
Context {F : Type} (zero : F) (add : F -> F -> F) (lt : F -> F -> bool) (sort : sorter).
Context (W : weak_order lt) (HS : sorts sort) (HX : exact zero add lt).
Notation result := (result (F := F)).
Notation wand := (wand (F := F)).
Notation le a b := (lt b a = false).

Lemma add_le a b c d : le a b -> le c d -> le (add a c) (add b d).
Proof.
  destruct HX as (X1 & X2 & X3 & X4). intros H1 H2.
  eapply (lt_neg lt W) with (b := add b c); [|apply X4, H1].
  rewrite (X1 b d), (X1 b c). apply X4, H2.
Qed.
Lemma add_zero a : add a zero = a.
Proof. destruct HX as (X1 & X2 & X3 & X4). rewrite X1. apply X3. Qed.

(** A term of the query with its list. *)
Record entry := Entry { e_idf : F; e_gain : Z -> Z -> F; e_list : list iv }.
Definition contrib (d : iv) (e : entry) : F :=
  match find (fun x => ip x =? ip d) (e_list e) with
  | Some x => e_gain e (ivl x) (iq d - ip d + 1)
  | None => zero
  end.
Definition sum (l : list F) : F := fold_right add zero l.
Definition total (d : iv) (es : list entry) : F := sum (map (contrib d) es).

Lemma sum_perm l l' : Permutation l l' -> sum l = sum l'.
Proof.
  destruct HX as (X1 & X2 & X3 & X4).
  induction 1 as [|x l l' H IH|x y l|l l' l'' H IH H' IH']; cbn [sum fold_right]; [reflexivity| | |congruence].
  - fold (sum l) (sum l'). rewrite IH. reflexivity.
  - rewrite !X2. f_equal. apply X1.
Qed.
Lemma sum_app a b : sum (a ++ b) = add (sum a) (sum b).
Proof.
  destruct HX as (X1 & X2 & X3 & X4).
  induction a as [|x a IH]; cbn [app sum fold_right]; [symmetry; apply X3|].
  fold (sum (a ++ b)) (sum a). rewrite IH. apply X2.
Qed.
Lemma sum_zero l : (forall x, In x l -> x = zero) -> sum l = zero.
Proof.
  induction l as [|x l IH]; intros H; [reflexivity|]. cbn [sum fold_right]. fold (sum l).
  rewrite IH by (intros y Hy; apply H; right; exact Hy). rewrite (H x (or_introl eq_refl)).
  apply add_zero.
Qed.
Lemma total_app d a b : total d (a ++ b) = add (total d a) (total d b).
Proof. unfold total. rewrite map_app. apply sum_app. Qed.
Lemma total_perm d a b : Permutation a b -> total d a = total d b.
Proof. intros H. apply sum_perm, Permutation_map, H. Qed.
Lemma total_none d es : (forall e, In e es -> find (fun x => ip x =? ip d) (e_list e) = None) ->
  total d es = zero.
Proof.
  intros H. apply sum_zero. intros x Hx. apply in_map_iff in Hx. destruct Hx as (e & <- & He).
  unfold contrib. rewrite (H e He). reflexivity.
Qed.
Lemma fold_sum {A} (f : A -> F) (l : list A) : forall x,
  fold_left (fun s a => add s (f a)) l x = add x (sum (map f l)).
Proof.
  destruct HX as (X1 & X2 & X3 & X4).
  induction l as [|a l IH]; intros x; cbn [fold_left map sum fold_right]; [symmetry; apply add_zero|].
  rewrite IH. symmetry. apply X2.
Qed.

Lemma score_total gain d es : forall i s,
  (forall j e v p q, nth_error es j = Some e -> gain (i + j)%nat v p q = e_gain e v (q - p + 1)) ->
  doc_score add gain i d (map e_list es) s = add s (total d es).
Proof.
  destruct HX as (X1 & X2 & X3 & X4).
  induction es as [|e es IH]; intros i s H; cbn [map doc_score]; [symmetry; apply add_zero|].
  rewrite IH.
  - change (total d (e :: es)) with (add (contrib d e) (total d es)). rewrite X2. f_equal.
    unfold contrib. destruct (find (fun x => ip x =? ip d) (e_list e)) as [x|]; [|symmetry; apply add_zero].
    f_equal. specialize (H 0%nat e (ivl x) (ip d) (iq d) eq_refl). rewrite Nat.add_0_r in H. exact H.
  - intros j e' v p q Hj. rewrite <- (H (S j) e' v p q Hj). f_equal. lia.
Qed.

(** Results not above the target can all be dropped. *)
Lemma collected_skip depth rs : (0 < depth)%nat -> forall all top current,
  collected zero lt depth all top current ->
  (forall r, In r rs -> lt zero (rscore r) = true /\ lt (target_of zero top depth) (rscore r) = false) ->
  collected zero lt depth (all ++ rs) top current.
Proof.
  intros Hd. induction rs as [|r rs IH]; intros all top current HC H; [rewrite app_nil_r; exact HC|].
  change (r :: rs) with ([r] ++ rs). rewrite app_assoc. apply IH.
  - destruct (H r (or_introl eq_refl)) as [H1 H2].
    apply (keep_ok zero lt sort W HS depth all top current r top current Hd HC H1).
    unfold keep. rewrite H2. reflexivity.
  - intros x Hx. apply H. right. exact Hx.
Qed.

Definition wover (e : entry) (w : wand) : Prop :=
  w_idf w = e_idf e /\ w_gain w = e_gain e /\ over (e_list e) (w_term w).
Definition wstands (k : Z) (e : entry) (w : wand) : Prop :=
  w_idf w = e_idf e /\ w_gain w = e_gain e /\ stands k (e_list e) (w_term w).

Lemma w_advance_ok e w k : wover e w -> minf < k <= maxf -> wp (w_advance w k) (wstands k e).
Proof.
  intros (E1 & E2 & Ho) Hk. unfold w_advance. apply wp_bind.
  eapply wp_mono; [apply (advance_ok (e_list e)); assumption|]. intros t Ht. apply wp_ok.
  split; [exact E1|split; [exact E2|exact Ht]].
Qed.
Lemma wstands_over k e w : wstands k e w -> wover e w.
Proof. intros (E1 & E2 & Ho & _). split; [exact E1|split; [exact E2|exact Ho]]. Qed.
Lemma each_advance_ok es ws k : Forall2 wover es ws -> minf < k <= maxf ->
  wp (each_advance k ws) (Forall2 (wstands k) es).
Proof.
  intros H Hk. induction H as [|e w es ws Ho HF IH]; cbn [each_advance]; [apply wp_ok; constructor|].
  apply wp_bind. eapply wp_mono; [apply (w_advance_ok e); assumption|]. intros w' Hw'.
  apply wp_bind. eapply wp_mono; [exact IH|]. intros ws' Hws'. apply wp_ok. constructor; assumption.
Qed.
Lemma wstands_p k e w : wstands k e w -> w_p w = ip (next (e_list e) k).
Proof. intros (_ & _ & _ & E). unfold w_p. rewrite E. reflexivity. Qed.
Lemma wstands_gclist k e w : wstands k e w -> gclist (e_list e).
Proof. intros (_ & _ & Ho & _). exact (over_gclist _ _ Ho). Qed.
Lemma wstands_bound k e w : k <= maxf -> wstands k e w -> k <= w_p w <= maxf.
Proof.
  intros Hk H. rewrite (wstands_p k e w H). apply next_ge; [exact (wstands_gclist _ _ _ H)|exact Hk].
Qed.
Lemma wstands_skip k k' e w : k <= k' -> k' <= w_p w -> wstands k e w -> wstands k' e w.
Proof.
  intros H1 H2 H. rewrite (wstands_p k e w H) in H2. destruct H as (E1 & E2 & H).
  split; [exact E1|split; [exact E2|]]. apply (stands_skip k); assumption.
Qed.

Lemma score_pivot_ok d es ws : minf < ip d < maxf -> Forall2 (wstands (ip d)) es ws -> forall s,
  wp (score_pivot add (ip d) (iq d - ip d + 1) ws s)
     (fun '(ws', s') => Forall2 (wstands (ip d + 1)) es ws' /\ s' = add s (total d es)).
Proof.
  destruct HX as (X1 & X2 & X3 & X4). intros Hd.
  induction 1 as [|e w es ws Hw HF IH]; intros s; cbn [score_pivot].
  - apply wp_ok. split; [constructor|]. symmetry. apply add_zero.
  - pose proof (wstands_gclist _ _ _ Hw) as G. pose proof (wstands_p _ _ _ Hw) as E.
    change (total d (e :: es)) with (add (contrib d e) (total d es)). unfold contrib.
    rewrite (find_next (e_list e) (ip d) G) by lia. rewrite <- E.
    pose proof (wstands_bound (ip d) _ _ ltac:(lia) Hw) as HN.
    destruct (Z.eqb_spec (w_p w) (ip d)) as [E2|E2]; cbv zeta.
    + apply wp_bind, wp_chk; [inf; lia|]. apply wp_bind.
      eapply wp_mono; [apply (w_advance_ok e w); [exact (wstands_over _ _ _ Hw)|lia]|]. intros w' Hw'.
      apply wp_bind. eapply wp_mono; [apply IH|]. intros [ws' s'] [HF' Es]. apply wp_ok.
      split; [constructor; assumption|]. rewrite Es, X2. f_equal. f_equal.
      destruct Hw as (_ & Eg & _ & Et). unfold w_v. rewrite Et, Eg. reflexivity.
    + apply wp_bind. eapply wp_mono; [apply IH|]. intros [ws' s'] [HF' Es]. apply wp_ok.
      split; [constructor; [|exact HF']|].
      * apply (wstands_skip (ip d)); [lia|lia|exact Hw].
      * rewrite Es, X3. reflexivity.
Qed.

Lemma by_p_order : weak_order (by_p (F := F)).
Proof.
  unfold by_p. split; [|split].
  - intros a. apply Z.ltb_irrefl.
  - intros a b c H1 H2. apply Z.ltb_lt in H1, H2. apply Z.ltb_lt. lia.
  - intros a b c H. apply Z.ltb_lt in H. rewrite !Z.ltb_lt. lia.
Qed.
Lemma pop_ok l : ordered (by_p (F := F)) l -> (forall w, In w l -> w_p w <= maxf) ->
  exists tail, l = pop_finished l ++ tail /\ (forall w, In w tail -> w_p w = maxf) /\
    (forall w, In w (pop_finished l) -> w_p w < maxf).
Proof.
  induction l as [|w l IH]; intros HO HB; [exists []; split; [reflexivity|split; intros ? []]|].
  inversion HO as [|? ? HO' HA]; subst. rewrite Forall_forall in HA.
  destruct IH as (tail & E & H1 & H2); [exact HO'|intros x Hx; apply HB; right; exact Hx|].
  cbn [pop_finished]. destruct (pop_finished l) as [|y r] eqn:EP.
  - cbn [app] in E. subst tail. destruct (Z.eqb_spec (w_p w) maxf) as [E|E].
    + exists (w :: l). split; [reflexivity|]. split; [|intros ? []].
      intros x [<-|Hx]; [exact E|exact (H1 x Hx)].
    + exists l. split; [reflexivity|]. split; [exact H1|]. intros x [<-|[]].
      specialize (HB w (or_introl eq_refl)). lia.
  - exists tail. split; [cbn [app]; f_equal; exact E|]. split; [exact H1|].
    intros x [<-|Hx]; [|exact (H2 x Hx)]. specialize (H2 y (or_introl eq_refl)).
    assert (Hy : In y l) by (rewrite E; left; reflexivity). specialize (HA y Hy). unfold by_p in HA.
    apply Z.ltb_ge in HA. lia.
Qed.
Lemma find_pivot_some target l : forall x a w b, le x target ->
  find_pivot add lt target x l = Some (a, w, b) ->
  l = a ++ w :: b /\ le (fold_left (fun s w => add s (w_idf w)) a x) target.
Proof.
  induction l as [|v l IH]; intros x a w b Hx; cbn [find_pivot]; [discriminate|].
  destruct (lt target (add x (w_idf v))) eqn:E.
  - intros [= <- <- <-]. split; [reflexivity|exact Hx].
  - destruct (find_pivot add lt target (add x (w_idf v)) l) as [[[a' w'] b']|] eqn:E2; [|discriminate].
    intros [= <- <- <-]. destruct (IH _ _ _ _ E E2) as [-> H]. split; [reflexivity|exact H].
Qed.
Lemma find_pivot_none target l : forall x, le x target -> find_pivot add lt target x l = None ->
  le (fold_left (fun s w => add s (w_idf w)) l x) target.
Proof.
  induction l as [|v l IH]; intros x Hx; cbn [find_pivot]; [intros _; exact Hx|].
  destruct (lt target (add x (w_idf v))) eqn:E; [discriminate|].
  destruct (find_pivot add lt target (add x (w_idf v)) l) as [[[a' w'] b']|] eqn:E2; [discriminate|].
  intros _. cbn [fold_left]. apply IH; assumption.
Qed.

Definition min_p (ws : list wand) : Z := fold_right (fun w m => Z.min (w_p w) m) maxf ws.
Lemma min_p_le ws : min_p ws <= maxf /\ forall w, In w ws -> min_p ws <= w_p w.
Proof.
  induction ws as [|v ws [IH1 IH2]]; cbn [min_p fold_right]; [split; [lia|intros ? []]|].
  fold (min_p ws). split; [lia|]. intros w [<-|Hw]; [lia|]. specialize (IH2 w Hw). lia.
Qed.
Lemma min_p_ge k ws : k <= maxf -> (forall w, In w ws -> k <= w_p w) -> k <= min_p ws.
Proof.
  intros Hk. induction ws as [|v ws IH]; intros H; cbn [min_p fold_right]; [exact Hk|].
  fold (min_p ws). specialize (IH (fun w Hw => H w (or_intror Hw))).
  specialize (H v (or_introl eq_refl)). lia.
Qed.
Lemma Forall2_in_r {A B} (R : A -> B -> Prop) la lb b : Forall2 R la lb -> In b lb -> exists a, In a la /\ R a b.
Proof.
  induction 1 as [|x y la lb H HF IH]; intros Hb; [destruct Hb|].
  destruct Hb as [->|Hb]; [exists x; split; [left; reflexivity|exact H]|].
  destruct (IH Hb) as (a & Ha & HR). exists a. split; [right; exact Ha|exact HR].
Qed.
Lemma Forall2_in_l {A B} (R : A -> B -> Prop) la lb a : Forall2 R la lb -> In a la -> exists b, In b lb /\ R a b.
Proof.
  induction 1 as [|x y la lb H HF IH]; intros Ha; [destruct Ha|].
  destruct Ha as [->|Ha]; [exists y; split; [left; reflexivity|exact H]|].
  destruct (IH Ha) as (b & Hb & HR). exists b. split; [right; exact Hb|exact HR].
Qed.

Lemma Forall2_perm {A B} (R : A -> B -> Prop) lb lb' : Permutation lb lb' -> forall la,
  Forall2 R la lb -> exists la', Permutation la la' /\ Forall2 R la' lb'.
Proof.
  induction 1 as [|x l l' H IH|x y l|l l' l'' H IH H' IH']; intros la HF.
  - inversion HF; subst. exists []. split; constructor.
  - inversion HF as [|a ? la0 ? Ha HF0]; subst. destruct (IH la0 HF0) as (la' & P & HF').
    exists (a :: la'). split; [apply perm_skip, P|constructor; assumption].
  - inversion HF as [|a ? la0 ? Ha HF0]; subst. inversion HF0 as [|b ? la1 ? Hb HF1]; subst.
    exists (b :: a :: la1). split; [apply perm_swap|constructor; [exact Hb|constructor; assumption]].
  - destruct (IH la HF) as (la' & P & HF'). destruct (IH' la' HF') as (la'' & P' & HF'').
    exists la''. split; [eapply perm_trans; eassumption|exact HF''].
Qed.

Context (docs : list iv) (GD : gclist docs) (HL : forall d, In d docs -> iq d - ip d <= maxf).
Context (orig : list entry).
Context (HD : forall e, In e orig -> of_docs docs (e_list e)).
Context (HB : forall e, In e orig -> le zero (e_idf e) /\
   forall x, In x (e_list e) -> le (e_gain e (ivl x) (iq x - ip x + 1)) (e_idf e)).
Context (gain : nat -> Z -> Z -> Z -> F).
Context (HG : forall j e v p q, nth_error orig j = Some e -> gain j v p q = e_gain e v (q - p + 1)).
Notation results := (doc_results zero add lt gain).
Notation lists := (map e_list orig).

Lemma doc_total d : doc_score add gain 0 d lists zero = total d orig.
Proof. destruct HX as (X1 & X2 & X3 & X4). rewrite (score_total gain d orig 0 zero HG). apply X3. Qed.
Lemma contrib_le d e : In d docs -> In e orig -> le (contrib d e) (e_idf e).
Proof.
  intros Hd He. unfold contrib. destruct (find (fun x => ip x =? ip d) (e_list e)) as [x|] eqn:E; [|apply HB, He].
  apply find_some in E. destruct E as [Hx E]. apply Z.eqb_eq in E.
  destruct (HD e He x Hx) as (d' & Hd' & E1 & E2).
  assert (d' = d) as -> by (apply (gclist_ip_inj docs); [exact GD|exact Hd'|exact Hd|lia]).
  rewrite E2, E1. apply HB; assumption.
Qed.
Lemma total_le d es : In d docs -> (forall e, In e es -> In e orig) -> le (total d es) (sum (map e_idf es)).
Proof.
  intros Hd. induction es as [|e es IH]; intros H; [apply W|].
  change (total d (e :: es)) with (add (contrib d e) (total d es)).
  change (sum (map e_idf (e :: es))) with (add (e_idf e) (sum (map e_idf es))).
  apply add_le; [apply contrib_le; [exact Hd|apply H; left; reflexivity]|].
  apply IH. intros x Hx. apply H. right. exact Hx.
Qed.
Lemma idfs k es ws : Forall2 (wstands k) es ws -> map w_idf ws = map e_idf es.
Proof. induction 1 as [|e w es ws (E & _) HF IH]; [reflexivity|]. cbn [map]. rewrite E, IH. reflexivity. Qed.

Context (depth : nat) (Hdepth : (0 < depth)%nat).

Definition wand_inv (s : list wand * (list result * list result)) : Prop :=
  let '(ws, (top, current)) := s in
  exists K live dead, minf < K <= maxf /\ Permutation orig (live ++ dead) /\
    Forall2 (wstands K) live ws /\
    (forall e, In e dead -> forall x, In x (e_list e) -> ip x < K) /\
    collected zero lt depth (results (early_docs K docs) lists) top current.
Definition wand_mu (s : list wand * (list result * list result)) : Z := maxf - min_p (fst s).

(** Documents whose terms cannot reach the target are dropped. *)
Lemma skip_docs K P live other es all top current :
  K <= P -> Permutation orig (live ++ other) -> Permutation live es ->
  (forall e, In e other -> forall x, In x (e_list e) -> ~ (K <= ip x < P)) ->
  le (sum (map e_idf es)) (target_of zero top depth) ->
  collected zero lt depth all top current ->
  collected zero lt depth (all ++ results (between K P docs) lists) top current.
Proof.
  intros HK HP HE HO HT HC. destruct HX as (X1 & X2 & X3 & X4).
  apply collected_skip; [exact Hdepth|exact HC|]. intros r Hr. unfold doc_results in Hr.
  apply in_map_iff in Hr. destruct Hr as (d & <- & Hd). apply filter_In in Hd. destruct Hd as [Hd Hz].
  cbn [res3 rscore]. split; [exact Hz|]. clear Hz. unfold between in Hd. apply filter_In in Hd.
  destruct Hd as [Hd Hk]. apply andb_true_iff in Hk. destruct Hk as [Hk1 Hk2].
  apply Z.leb_le in Hk1. apply Z.ltb_lt in Hk2.
  rewrite doc_total, (total_perm d _ _ HP), total_app.
  assert (total d other = zero) as ->.
  { apply total_none. intros e He. destruct (find (fun x => ip x =? ip d) (e_list e)) as [x|] eqn:E; [|reflexivity].
    exfalso. apply find_some in E. destruct E as [Hx E]. apply Z.eqb_eq in E.
    apply (HO e He x Hx). lia. }
  rewrite add_zero, (total_perm d _ _ HE). eapply (lt_neg lt W); [exact HT|].
  apply total_le; [exact Hd|]. intros e He. eapply Permutation_in; [apply Permutation_sym, HP|].
  apply in_or_app. left. eapply Permutation_in; [apply Permutation_sym, HE|exact He].
Qed.

Lemma wand_step s : wand_inv s ->
  wp (wand_body zero add lt sort depth s)
     (fun r => match r with
               | inl s' => wand_inv s' /\ wand_mu s' < wand_mu s
               | inr top => best lt depth (results docs lists) top
               end).
Proof.
  destruct s as [ws [top current]]. intros (K & live & dead & HK & HP & HF & Hdead & Hcol).
  destruct HX as (X1 & X2 & X3 & X4). unfold wand_body. cbv zeta.
  destruct (HS wand by_p ws by_p_order) as [HPs HOs].
  destruct (Forall2_perm _ _ _ HPs live HF) as (live1 & HPl & HF1).
  destruct (pop_ok (sort wand by_p ws) HOs) as (tail & Etail & Htail & Hpop).
  { intros w Hw. destruct (Forall2_in_r _ _ _ w HF1 Hw) as (e & _ & He).
    apply (wstands_bound K e w); [lia|exact He]. }
  set (ws1 := pop_finished (sort wand by_p ws)) in *. rewrite Etail in HF1, HPs.
  apply Forall2_app_inv_r in HF1. destruct HF1 as (lv & dd & HFv & HFd & ->).
  assert (HP1 : Permutation orig (lv ++ dd ++ dead)).
  { rewrite app_assoc. eapply perm_trans; [exact HP|]. apply Permutation_app_tail, HPl. }
  assert (Hdead1 : forall e, In e (dd ++ dead) -> forall x, In x (e_list e) -> ip x < K).
  { intros e He. apply in_app_or in He. destruct He as [He|He]; [|exact (Hdead e He)].
    destruct (Forall2_in_l _ _ _ e HFd He) as (w & Hw & Hs). specialize (Htail w Hw).
    rewrite (wstands_p _ _ _ Hs) in Htail.
    destruct (next_cases (e_list e) K (wstands_gclist _ _ _ Hs)) as [[_ H]|(_ & H & _)]; [exact H|lia]. }
  pose proof (target_nonneg zero lt W depth _ _ _ Hdepth Hcol) as Htn.
  destruct (find_pivot add lt (target_of zero top depth) zero ws1) as [[[before w] after]|] eqn:EP.
  - destruct (find_pivot_some _ _ _ _ _ _ Htn EP) as [Ew Hsum]. rewrite Ew in HFv, Hpop.
    assert (HO1 : ordered (by_p (F := F)) (before ++ w :: after)).
    { rewrite Etail, Ew in HOs. apply ssorted_app in HOs. apply HOs. }
    apply Forall2_app_inv_r in HFv. destruct HFv as (eb & er & HFb & HFr & ->).
    inversion HFr as [|ew ? ea ? Hw HFa]; subst er.
    assert (Hpiv : K <= w_p w < maxf).
    { split; [apply (wstands_bound K ew w); [lia|exact Hw]|].
      apply Hpop, in_or_app. right. left. reflexivity. }
    assert (Hin : In (next (e_list ew) K) (e_list ew) /\ In ew orig).
    { split.
      - destruct (next_cases (e_list ew) K (wstands_gclist _ _ _ Hw)) as [[E _]|(H & _)]; [|exact H].
        rewrite (wstands_p _ _ _ Hw), E in Hpiv. cbn in Hpiv. lia.
      - eapply Permutation_in; [apply Permutation_sym, HP1|]. rewrite !in_app_iff. left. right. left. reflexivity. }
    destruct Hin as [Hin Hew]. destruct (HD ew Hew _ Hin) as (d & Hd & Ed1 & Ed2).
    assert (Ep : w_p w = ip d) by (rewrite (wstands_p _ _ _ Hw); symmetry; exact Ed1).
    assert (Eq : w_q w = iq d).
    { unfold w_q. destruct Hw as (_ & _ & _ & Et). rewrite Et. symmetry. exact Ed2. }
    rewrite Ep, Eq in *.
    pose proof (HL d Hd) as Hlen. pose proof (gclist_finite _ _ GD Hd) as Fd.
    apply wp_bind, wp_chk; [clear - Hlen Fd; unfold finite, minf, maxf in *; lia|].
    apply wp_bind. eapply wp_mono.
    { apply (each_advance_ok eb before (ip d)); [|lia]. clear - HFb.
      induction HFb as [|e v eb before H HF IH]; constructor; [exact (wstands_over _ _ _ H)|exact IH]. }
    intros before' HFb'.
    assert (Hafter : forall v, In v (w :: after) -> ip d <= w_p v).
    { intros v Hv. apply ssorted_app in HO1. destruct HO1 as (_ & HO1 & _).
      inversion HO1 as [|? ? _ HA]; subst. destruct Hv as [<-|Hv]; [lia|].
      rewrite Forall_forall in HA. specialize (HA v Hv). unfold by_p in HA. apply Z.ltb_ge in HA. lia. }
    assert (HFall : Forall2 (wstands (ip d)) (eb ++ ew :: ea) (before' ++ w :: after)).
    { apply Forall2_app; [exact HFb'|]. assert (HFr' : Forall2 (wstands K) (ew :: ea) (w :: after)) by (constructor; assumption).
      clear - HFr' Hafter Hpiv. revert Hafter. induction HFr' as [|e v es vs H HF IH]; intros Hafter; constructor.
      - apply (wstands_skip K); [lia|apply Hafter; left; reflexivity|exact H].
      - apply IH. intros u Hu. apply Hafter. right. exact Hu. }
    apply wp_bind. eapply wp_mono; [apply (score_pivot_ok d _ _ ltac:(lia) HFall)|].
    intros [ws2 s] [HF2 Es]. rewrite X3 in Es. apply wp_ok.
    assert (Htot : total d orig = s).
    { rewrite (total_perm d _ _ HP1), total_app, Es.
      rewrite (total_none d (dd ++ dead)), add_zero; [reflexivity|]. intros e He.
      destruct (find (fun x => ip x =? ip d) (e_list e)) as [x|] eqn:E; [|reflexivity]. exfalso.
      apply find_some in E. destruct E as [Hx E]. apply Z.eqb_eq in E.
      specialize (Hdead1 e He x Hx). lia. }
    assert (ER : results (early_docs (ip d + 1) docs) lists =
                 (results (early_docs K docs) lists ++ results (between K (ip d) docs) lists) ++
                 (if lt zero s then [res3 (ip d) (iq d) s] else [])).
    { rewrite (early_docs_app K (ip d + 1) docs GD ltac:(lia)), results_app.
      rewrite (between_app K (ip d) (ip d + 1) docs GD ltac:(lia)), results_app, app_assoc. f_equal.
      rewrite between_one by assumption. unfold doc_results. cbn [filter map].
      rewrite doc_total, Htot. destruct (lt zero s); [|reflexivity]. cbn [map].
      rewrite doc_total, Htot. reflexivity. }
    assert (Hcol1 : collected zero lt depth
              (results (early_docs K docs) lists ++ results (between K (ip d) docs) lists) top current).
    { apply (skip_docs K (ip d) eb ((ew :: ea) ++ dd ++ dead) eb); [lia| |apply Permutation_refl| | |exact Hcol].
      - eapply perm_trans; [exact HP1|]. rewrite <- app_assoc. apply Permutation_refl.
      - intros e He x Hx. apply in_app_or in He. destruct He as [He|He]; [|specialize (Hdead1 e He x Hx); lia].
        assert (HFr' : Forall2 (wstands K) (ew :: ea) (w :: after)) by (constructor; assumption).
        destruct (Forall2_in_l _ _ _ e HFr' He) as (v & Hv & Hs). specialize (Hafter v Hv).
        rewrite (wstands_p _ _ _ Hs) in Hafter. intros [Hx1 Hx2].
        destruct (next_cases (e_list e) K (wstands_gclist _ _ _ Hs)) as [[_ H]|(_ & _ & H)];
          specialize (H x Hx); lia.
      - rewrite <- (idfs K eb before HFb). rewrite fold_sum, X3 in Hsum. exact Hsum. }
    destruct (keep lt sort depth (target_of zero top depth) (res3 (ip d) (iq d) s) (top, current))
      as [top' cur'] eqn:EK.
    split.
    + exists (ip d + 1), (eb ++ ew :: ea), (dd ++ dead).
      split; [lia|]. split; [exact HP1|]. split; [exact HF2|]. split.
      { intros e He x Hx. specialize (Hdead1 e He x Hx). lia. }
      rewrite ER. clear ER. destruct (lt zero s) eqn:EZ.
      * eapply keep_ok; eauto.
      * rewrite app_nil_r.
        rewrite (keep_zero zero lt sort W depth _ _ _ (res3 (ip d) (iq d) s) Hdepth Hcol1 EZ) in EK.
        injection EK as <- <-. exact Hcol1.
    + unfold wand_mu. cbn [fst].
      assert (ip d + 1 <= min_p ws2).
      { apply min_p_ge; [lia|]. intros v Hv. destruct (Forall2_in_r _ _ _ v HF2 Hv) as (e & _ & He).
        apply (wstands_bound (ip d + 1) e v); [lia|exact He]. }
      assert (Hw' : In w ws).
      { eapply Permutation_in; [apply Permutation_sym, HPs|]. rewrite Ew, !in_app_iff. left. right. left. reflexivity. }
      pose proof (proj2 (min_p_le ws) w Hw'). lia.
  - apply wp_ok. pose proof (find_pivot_none _ _ _ Htn EP) as Hsum.
    pose proof (skip_docs K maxf lv (dd ++ dead) lv (results (early_docs K docs) lists)
      top current ltac:(lia) HP1 (Permutation_refl _)) as Hs. rewrite <- results_app, <- early_docs_app in Hs by (try exact GD; lia).
    rewrite early_docs_all in Hs by exact GD. eapply collected_best; [exact W|exact HS|]. apply Hs; [| |exact Hcol].
    + intros e He x Hx. specialize (Hdead1 e He x Hx). lia.
    + rewrite <- (idfs K lv ws1 HFv). rewrite fold_sum, X3 in Hsum. exact Hsum.
Qed.

Lemma bm25_ok ws : Forall2 wover orig ws ->
  wp (bm25_ranking zero add lt sort depth ws) (best lt depth (results docs lists)).
Proof.
  intros HF. unfold bm25_ranking. destruct (Nat.eqb_spec depth 0) as [E|_]; [lia|].
  apply wp_bind. eapply wp_mono; [apply (each_advance_ok orig ws (minf + 1) HF); inf; lia|].
  intros ws' HF'. eapply loop_rule with (Inv := wand_inv) (mu := wand_mu).
  - intros s _. unfold wand_mu. pose proof (proj1 (min_p_le (fst s))). lia.
  - exact wand_step.
  - exists (minf + 1), orig, []. split; [inf; lia|]. split; [rewrite app_nil_r; apply Permutation_refl|].
    split; [exact HF'|]. split; [intros e []|].
    assert (early_docs (minf + 1) docs = []) as ->.
    { apply filter_none. intros x Hx. pose proof (gclist_finite _ _ GD Hx). apply Z.ltb_ge. fin. }
    apply collected_nil. exact Hdepth.
  - unfold wand_mu. cbn [fst].
    assert (minf + 1 <= min_p ws').
    { apply min_p_ge; [inf; lia|]. intros v Hv. destruct (Forall2_in_r _ _ _ v HF' Hv) as (e & _ & He).
      apply (wstands_bound (minf + 1) e v); [inf; lia|exact He]. }
    unfold minf, maxf, BIG in *. lia.
Qed.
End Wand.
