(** Feedback adds the best terms of the best texts. *)
From Verif Require Import Base Bytes RankModel RankSpec RankerModel RankerSpec RankerProofs RankerText.
From Verif Require Import RecipeModel RecipeProofs.
From Coq Require Import Sorting.Sorted Permutation.

Lemma existsb_in t l : existsb (eqb_bytes t) l = true <-> In t l.
Proof. apply in_stop. Qed.
Lemma once_in ws : forall seen t, In t (once seen ws) <-> In t ws /\ ~ In t seen.
Proof.
  induction ws as [|w r IH]; intros seen t; cbn [once In]; [tauto|]. destruct (existsb (eqb_bytes w) seen) eqn:E.
  - apply existsb_in in E. rewrite IH. split; [tauto|]. intros [[->|I] N]; [contradiction|auto].
  - assert (N : ~ In w seen) by (rewrite <- existsb_in, E; discriminate). cbn [In]. rewrite IH. cbn [In].
    destruct (list_eq_dec Z.eq_dec w t) as [->|D]; [tauto|]. tauto.
Qed.
Lemma once_nodup ws : forall seen, NoDup (once seen ws).
Proof. induction ws as [|w r IH]; intros seen; cbn [once]; [constructor|]. destruct (existsb (eqb_bytes w) seen); [apply IH|]. constructor; [rewrite once_in; cbn [In]; tauto|apply IH]. Qed.
Lemma filter_once {X} (f : bytes -> X) t ws :
  map f (filter (fun x => eqb_bytes x t) (once [] ws)) = if existsb (eqb_bytes t) ws then [f t] else [].
Proof.
  pose proof (once_nodup ws []) as D. assert (I : In t (once [] ws) <-> In t ws) by (rewrite once_in; cbn [In]; tauto).
  assert (G : forall l, NoDup l -> map f (filter (fun x => eqb_bytes x t) l) = if existsb (eqb_bytes t) l then [f t] else []).
  { clear. induction l as [|x l IH]; intros D; [reflexivity|]. apply NoDup_cons_iff in D. destruct D as [N D]. cbn [filter existsb]. destruct (eqb_bytes x t) eqn:E.
    - apply eqb_bytes_eq in E. subst x. rewrite eqb_bytes_refl. cbn [orb map]. rewrite (IH D). assert (existsb (eqb_bytes t) l = false) as -> by (apply not_true_iff_false; rewrite existsb_in; exact N). reflexivity.
    - rewrite (IH D). assert (eqb_bytes t x = false) as -> by (apply eqb_bytes_neq; intros ->; rewrite eqb_bytes_refl in E; discriminate). reflexivity. }
  rewrite (G _ D). assert (existsb (eqb_bytes t) (once [] ws) = existsb (eqb_bytes t) ws) as ->; [|reflexivity].
  apply eq_true_iff_eq. rewrite !existsb_in. exact I.
Qed.
Lemma fold_flat {A B M} (f : M -> B -> M) (g : A -> list B) l : forall m, fold_left (fun m x => fold_left f (g x) m) l m = fold_left f (flat_map g l) m.
Proof. induction l as [|x l IH]; intros m; cbn [fold_left flat_map]; [reflexivity|]. rewrite fold_left_app. apply IH. Qed.

Section F.
Context {F : Type} (zero one : F) (add mul : F -> F -> F) (lt : F -> F -> bool).
Notation weights := (list (bytes * F)).
(** * Counting *)
Lemma tally_flat texts : tally one add texts = fold_left (accumulate add (fun t => t) (fun _ => one)) (flat_map (once []) texts) [].
Proof. unfold tally. rewrite <- fold_flat. reflexivity. Qed.
Lemma tally_occurrences texts t : map (fun _ : bytes => one) (filter (fun x => eqb_bytes x t) (flat_map (once []) texts)) = repeat one (text_count texts t).
Proof.
  unfold text_count. induction texts as [|ws l IH]; [reflexivity|]. cbn [flat_map filter]. rewrite filter_app, map_app, IH, filter_once. destruct (existsb (eqb_bytes t) ws); reflexivity.
Qed.
Lemma tally_ok texts : a_map (tally one add texts) /\ forall t f, In (t, f) (tally one add texts) <-> exists n, text_count texts t = S n /\ f = times one add (S n).
Proof.
  assert (M : a_map (tally one add texts)) by (rewrite tally_flat; apply accumulate_map; constructor). split; [exact M|].
  intros t f. rewrite <- (get_in t f _ M). rewrite tally_flat, accumulate_get, tally_occurrences. cbn [get]. destruct (text_count texts t) as [|n]; cbn [repeat].
  - split; [discriminate|intros (n & X & _); discriminate].
  - rewrite total_times. split; [intros X; exists n; split; [reflexivity|congruence]|intros (n' & X & ->); congruence].
Qed.
Lemma flat_keys {A B} (f : bytes * A -> list (bytes * B)) m : a_map m -> (forall x y, In y (f x) -> fst y = fst x) -> (forall x, (length (f x) <= 1)%nat) -> NoDup (map fst (flat_map f m)).
Proof.
  intros M K L. induction m as [|[k v] m IH]; cbn [flat_map]; [constructor|]. apply a_map_cons in M. destruct M as [M1 M2]. rewrite map_app.
  specialize (L (k, v)). specialize (K (k, v)) as K1. destruct (f (k, v)) as [|[k2 v2] [|]]; cbn [length] in L; [apply IH, M1| |lia]. cbn [map fst app]. constructor; [|apply IH, M1].
  assert (k2 = k) as -> by (apply (K1 (k2, v2)); left; reflexivity). intros I. apply in_map_iff in I. destruct I as ([k3 v3] & E & I). cbn [fst] in E. subst k3. apply in_flat_map in I.
  destruct I as ([k4 v4] & I1 & I2). pose proof (K _ _ I2) as E. cbn [fst] in E. subst k4. apply M2 in I1. rewrite before_irrefl in I1. discriminate.
Qed.
(** * Choosing *)
Context (sort : sorter) (SO : sorts sort) (WO : weak_order lt).
Lemma chosen_ok n (cands : weights) P : NoDup (map fst cands) -> (forall t v, In (t, v) cands <-> P t v) -> best_of lt n P (chosen lt sort n cands).
Proof.
  intros D H. assert (W : weak_order (by_value lt)).
  { destruct WO as (W1 & W2 & W3). unfold by_value. repeat split; [intros a; apply W1|intros a b c X Y; eapply W2; eassumption|]. intros a b c X. destruct (W3 _ (snd b) _ X) as [Y|Y]; auto. }
  destruct (SO _ (by_value lt) cands W) as [Pm O]. unfold chosen. set (l := sort _ (by_value lt) cands) in *. exists (skipn n l). rewrite firstn_skipn. repeat split.
  - intros X. apply H. apply (Permutation_in _ (Permutation_sym Pm) X).
  - intros X. apply H in X. apply (Permutation_in _ Pm X).
  - apply (Permutation_NoDup (l := map fst cands)); [apply Permutation_map, Pm|exact D].
  - apply firstn_length.
  - intros x y X Y. assert (G : forall a b : weights, ordered (by_value lt) (a ++ b) -> forall x y, In x a -> In y b -> by_value lt y x = false).
    { clear. induction a as [|z a IH]; intros b O x y X Y; [destruct X|]. apply StronglySorted_inv in O. destruct O as [O1 O2]. destruct X as [->|X]; [|apply (IH b O1 x y X Y)].
      rewrite Forall_forall in O2. apply O2. apply in_or_app. right. exact Y. }
    rewrite <- (firstn_skipn n l) in O. apply (G _ _ O x y X Y).
Qed.
(** * Growing *)
Lemma grow_accumulate value q terms : grow add value q terms = fold_left (accumulate add fst (fun tv => value (snd tv))) terms q.
Proof. unfold grow. revert q. induction terms as [|x l IH]; intros q; [reflexivity|]. cbn [fold_left]. rewrite IH. reflexivity. Qed.
Lemma filter_key (f : F -> F) t (l : weights) : NoDup (map fst l) -> map (fun tv => f (snd tv)) (filter (fun x => eqb_bytes (fst x) t) l) = match get t l with Some v => [f v] | None => [] end.
Proof.
  induction l as [|[k v] l IH]; intros D; [reflexivity|]. cbn [map fst] in D. apply NoDup_cons_iff in D. destruct D as [N D]. cbn [filter get fst]. destruct (eqb_bytes k t) eqn:E.
  - apply eqb_bytes_eq in E. subst k. rewrite eqb_bytes_refl. cbn [map snd]. rewrite (IH D). assert (get t l = None) as -> by (apply get_none, N). reflexivity.
  - assert (eqb_bytes t k = false) as -> by (apply eqb_bytes_neq; intros ->; rewrite eqb_bytes_refl in E; discriminate). apply IH, D.
Qed.
Lemma get_in_nodup {A} t (v : A) l : NoDup (map fst l) -> (get t l = Some v <-> In (t, v) l).
Proof.
  induction l as [|[k w] l IH]; intros D; cbn [get In]; [split; [discriminate|intros []]|]. cbn [map fst] in D. apply NoDup_cons_iff in D. destruct D as [N D]. destruct (eqb_bytes t k) eqn:E.
  - apply eqb_bytes_eq in E. subst k. split; [intros X; left; congruence|]. intros [X|X]; [congruence|]. exfalso. apply N. apply (in_map fst) in X. exact X.
  - rewrite (IH D). split; [auto|]. intros [X|X]; [|exact X]. injection X as -> ->. rewrite eqb_bytes_refl in E. discriminate.
Qed.
Lemma grow_ok value q terms : a_map q -> NoDup (map fst terms) -> grown add value q terms (grow add value q terms).
Proof.
  intros M D. rewrite grow_accumulate. assert (M' : a_map (fold_left (accumulate add fst (fun tv => value (snd tv))) terms q)) by (apply accumulate_map, M).
  split; [exact M'|]. intros t w. rewrite <- (get_in t w _ M'). rewrite accumulate_get, (filter_key value t terms D).
  destruct (get t terms) as [v|] eqn:G; [apply (get_in_nodup _ _ _ D) in G as G'|apply get_none in G as G']; (destruct (get t q) as [u|] eqn:Q; [apply (get_in t u q M) in Q as Q'|apply get_none in Q as Q']); cbn [total].
  - split.
    + intros X. left. exists v. split; [exact G'|]. left. exists u. split; [exact Q'|congruence].
    + intros [(v' & X & [(u' & Y & ->)|(Y & ->)])|(N & _)]; [|exfalso; apply Y; apply (in_map fst) in Q'; exact Q'|exfalso; apply N; apply (in_map fst) in G'; exact G'].
      apply (get_in_nodup _ _ _ D) in X. apply (get_in t u' q M) in Y. congruence.
  - split.
    + intros X. left. exists v. split; [exact G'|]. right. split; [exact Q'|congruence].
    + intros [(v' & X & [(u' & Y & ->)|(Y & ->)])|(N & _)]; [exfalso; apply Q'; apply (in_map fst) in Y; exact Y| |exfalso; apply N; apply (in_map fst) in G'; exact G'].
      apply (get_in_nodup _ _ _ D) in X. congruence.
  - split.
    + intros X. right. split; [exact G'|]. apply (get_in t w q M). congruence.
    + intros [(v' & X & _)|(_ & Y)]; [exfalso; apply G'; apply (in_map fst) in X; exact X|]. apply (get_in t w q M) in Y. congruence.
  - split; [discriminate|]. intros [(v' & X & _)|(_ & Y)]; [exfalso; apply G'; apply (in_map fst) in X; exact X|exfalso; apply Q'; apply (in_map fst) in Y; exact Y].
Qed.
Lemma grown_nonempty value q terms q' : grown add value q terms q' -> q <> [] -> q' <> [].
Proof.
  intros [_ H] N ->. destruct q as [|[t u] q]; [congruence|]. destruct (in_dec (list_eq_dec Z.eq_dec) t (map fst terms)) as [I|I].
  - apply in_map_iff in I. destruct I as ([t' v] & E & I). cbn [fst] in E. subst t'. apply (proj2 (H t (add u (value v)))). left. exists v. split; [exact I|]. left. exists u. split; [left; reflexivity|reflexivity].
  - apply (proj2 (H t u)). right. split; [exact I|left; reflexivity].
Qed.
Lemma best_nodup n P l : best_of lt n P l -> NoDup (map fst l).
Proof. intros (rest & _ & D & _). rewrite map_app in D. revert D. generalize (map fst rest) (map fst l). induction l1 as [|x l1 IH]; intros D; [constructor|]. apply NoDup_cons_iff in D. destruct D as [N D]. constructor; [intros I; apply N, in_or_app; left; exact I|apply IH, D]. Qed.

(** * The two methods *)
Context (default : bytes -> F) (size_of : F -> nat) (addr_of : F -> Z) (translate : Z -> Z -> bytes) (wsplit : bytes -> list bytes) (wstem : bytes -> bytes).
Context (unstemmed : bool) (rsj : bytes -> F).
Lemma rsj_cands texts : NoDup (map fst (rsj_values zero lt rsj mul (tally one add texts))) /\
  forall t v, In (t, v) (rsj_values zero lt rsj mul (tally one add texts)) <-> rsj_candidate zero one add mul lt rsj texts t v.
Proof.
  destruct (tally_ok texts) as [M T]. unfold rsj_values. split.
  - apply flat_keys; [exact M| |]; intros [t f]; cbn [fst snd]; destruct (lt zero (rsj t)); [intros y [<-|[]]; reflexivity|intros y []|cbn; lia|cbn; lia].
  - intros t v. rewrite in_flat_map. unfold rsj_candidate. split.
    + intros ([t' f] & I & J). cbn [fst snd] in J. destruct (lt zero (rsj t')) eqn:L; [|destruct J]. destruct J as [J|[]]. injection J as -> <-. apply T in I. destruct I as (n & C & ->). split; [exact L|]. eauto.
    + intros (L & n & C & ->). exists (t, times one add (S n)). split; [apply T; eauto|]. cbn [fst snd]. rewrite L. left. reflexivity.
Qed.
Theorem rsj_ok ranking ps q : ranking <> [] -> a_map ps -> a_map q ->
  exists q' e d g terms, rsj_prf zero one add lt default sort size_of translate wsplit wstem true unstemmed rsj mul ranking ps q = Ok q' /\
    parameter_value default (lit "rsj") (lit "expansions") ps e /\ parameter_value default (lit "rsj") (lit "depth") ps d /\ parameter_value default (lit "rsj") (lit "gamma") ps g /\
    best_of lt (size_of e) (rsj_candidate zero one add mul lt rsj (map (fun r => words_of wsplit wstem unstemmed (translate (rcp r) (rcq r))) (firstn (size_of d) ranking))) terms /\
    grown add (fun _ => g) q terms q'.
Proof.
  intros N MP MQ. destruct (parameter_ok default (lit "rsj") (lit "expansions") ps _ MP eq_refl ltac:(vm_compute; tauto)) as (e & E1 & E2).
  destruct (parameter_ok default (lit "rsj") (lit "depth") ps _ MP eq_refl ltac:(vm_compute; tauto)) as (d & D1 & D2).
  destruct (parameter_ok default (lit "rsj") (lit "gamma") ps _ MP eq_refl ltac:(vm_compute; tauto)) as (g & G1 & G2).
  set (texts := map (fun r => words_of wsplit wstem unstemmed (translate (rcp r) (rcq r))) (firstn (size_of d) ranking)).
  destruct (rsj_cands texts) as [CD CI]. pose proof (chosen_ok (size_of e) _ _ CD CI) as B.
  set (terms := chosen lt sort (size_of e) (rsj_values zero lt rsj mul (tally one add texts))) in *.
  exists (grow add (fun _ => g) q terms), e, d, g, terms. split; [|split; [exact E2|split; [exact D2|split; [exact G2|split; [exact B|apply grow_ok; [exact MQ|apply (best_nodup _ _ _ B)]]]]]].
  assert (T0 : rsj_texts translate wsplit wstem unstemmed (size_of d) ranking = texts) by reflexivity. clearbody texts. unfold rsj_prf.
  destruct ranking as [|r0 rest] eqn:R; [congruence|]. rewrite <- R in *. cbn [negb]. rewrite E1, D1, G1. cbn [bind]. rewrite T0. destruct texts as [|x l] eqn:T; [|reflexivity].
  assert (terms = []) as ->; [|reflexivity]. destruct B as (rest' & H & _). destruct terms as [|[t v] l]; [reflexivity|]. exfalso.
  assert (I : In (t, v) (((t, v) :: l) ++ rest')) by (left; reflexivity). apply H in I. destruct I as (_ & n & C & _). discriminate.
Qed.

Context (expect : bytes -> nat -> F) (gain : F -> F -> F) (share : F -> F -> F -> F).
Lemma passages_ok depth w (ranking : list (@result F)) : forall seen n, (0 < n < depth)%nat \/ n = O ->
  passages depth w seen n ranking = map (passage w) (firstn (Nat.max 1 depth - n) (firsts seen ranking)).
Proof.
  induction ranking as [|r l IH]; intros seen n H; cbn [passages firsts]; [rewrite firstn_nil; reflexivity|].
  assert (EX : existsb (Z.eqb (rcp r)) seen = if in_dec Z.eq_dec (rcp r) seen then true else false).
  { destruct (in_dec Z.eq_dec (rcp r) seen) as [I|I]; [apply existsb_exists; exists (rcp r); split; [exact I|apply Z.eqb_refl]|].
    apply not_true_iff_false. intros X. apply existsb_exists in X. destruct X as (y & Y1 & Y2). apply Z.eqb_eq in Y2. subst y. contradiction. }
  rewrite EX. destruct (in_dec Z.eq_dec (rcp r) seen) as [I|I]; [apply IH, H|].
  destruct (Nat.max 1 depth - n)%nat as [|k] eqn:K; [lia|]. cbn [firstn map]. f_equal. destruct (Nat.leb depth (S n)) eqn:L.
  - apply Nat.leb_le in L. assert (k = O) as -> by lia. reflexivity.
  - apply Nat.leb_gt in L. rewrite IH by lia. replace (Nat.max 1 depth - S n)%nat with k by lia. reflexivity.
Qed.
Lemma expectations_ok texts t : get t (expectations add expect texts) = match map (fun ws => expect t (length ws)) (filter (existsb (eqb_bytes t)) texts) with [] => None | x :: xs => Some (total add x xs) end.
Proof.
  assert (E : expectations add expect texts = fold_left (accumulate add fst snd) (flat_map (fun ws => map (fun t => (t, expect t (length ws))) (once [] ws)) texts) []).
  { unfold expectations. rewrite <- fold_flat. generalize (@nil (bytes * F)). induction texts as [|ws l IH]; intros m; [reflexivity|]. cbn [fold_left]. rewrite IH. f_equal.
    generalize (once [] ws). intros o. revert m. induction o as [|x o IHo]; intros m; [reflexivity|]. cbn [fold_left map]. rewrite <- IHo. reflexivity. }
  rewrite E, accumulate_get. cbn [get].
  assert (X : map snd (filter (fun x : bytes * F => eqb_bytes (fst x) t) (flat_map (fun ws => map (fun t => (t, expect t (length ws))) (once [] ws)) texts)) = map (fun ws => expect t (length ws)) (filter (existsb (eqb_bytes t)) texts)).
  { clear E. induction texts as [|ws l IH]; [reflexivity|]. cbn [flat_map filter]. rewrite filter_app, map_app, IH.
    assert (Y : map snd (filter (fun x : bytes * F => eqb_bytes (fst x) t) (map (fun t => (t, expect t (length ws))) (once [] ws))) = if existsb (eqb_bytes t) ws then [expect t (length ws)] else []).
    { rewrite <- (filter_once (fun t => expect t (length ws)) t ws). generalize (once [] ws). induction l0 as [|x o IHo]; [reflexivity|]. cbn [map filter fst]. destruct (eqb_bytes x t); cbn [map snd]; rewrite IHo; reflexivity. }
    rewrite Y. destruct (existsb (eqb_bytes t) ws); reflexivity. }
  rewrite X. reflexivity.
Qed.
Lemma kld_cands texts : NoDup (map fst (kld_values zero one add lt expect gain texts)) /\
  forall t v, In (t, v) (kld_values zero one add lt expect gain texts) <-> kld_candidate one add lt expect gain texts t v.
Proof.
  destruct (tally_ok texts) as [M T]. unfold kld_values. split.
  - apply flat_keys; [exact M| |]; intros [t f]; cbn [fst snd]; destruct (lt one f); [intros y [<-|[]]; reflexivity|intros y []|cbn; lia|cbn; lia].
  - intros t v. rewrite in_flat_map. unfold kld_candidate.
    assert (C : forall n, text_count texts t = S n -> exists x xs, map (fun ws => expect t (length ws)) (filter (existsb (eqb_bytes t)) texts) = x :: xs /\ match get t (expectations add expect texts) with Some e => e | None => zero end = total add x xs).
    { intros n C. rewrite expectations_ok. unfold text_count in C. destruct (filter (existsb (eqb_bytes t)) texts) as [|y ys]; [discriminate|]. cbn [map]. eauto. }
    split.
    + intros ([t' f] & I & J). cbn [fst snd] in J. destruct (lt one f) eqn:L; [|destruct J]. destruct J as [J|[]]. injection J as -> <-. apply T in I. destruct I as (n & C1 & ->).
      destruct (C n C1) as (x & xs & X1 & X2). rewrite X2. exists n, x, xs. auto.
    + intros (n & x & xs & C1 & L & X & ->). exists (t, times one add (S n)). split; [apply T; eauto|]. cbn [fst snd]. rewrite L. left. destruct (C n C1) as (x' & xs' & X1 & X2). rewrite X2. congruence.
Qed.
Lemma max_value_ok l : forall m, lt m (max_value lt m l) = true \/ max_value lt m l = m.
Proof.
  destruct WO as (W1 & W2 & W3). induction l as [|x l IH]; intros m; [right; reflexivity|]. unfold max_value in *. cbn [fold_left]. destruct (lt m (snd x)) eqn:E; [|apply IH].
  left. destruct (IH (snd x)) as [Y| ->]; [eapply W2; eassumption|exact E].
Qed.
Lemma max_value_largest l m : largest lt m (map snd l) (max_value lt m l).
Proof.
  pose proof WO as (W1 & W2 & W3). revert m. induction l as [|x l IH]; intros m; unfold largest, max_value in *; cbn [fold_left map].
  - split; [left; reflexivity|]. intros v [<-|[]]. apply W1.
  - specialize (IH (if lt m (snd x) then snd x else m)). destruct IH as [A B]. split.
    + destruct (lt m (snd x)); cbn [In] in *; tauto.
    + intros v I. assert (X : v = m \/ v = snd x \/ In v (map snd l)) by (cbn [In] in I; intuition congruence). clear I. destruct (lt m (snd x)) eqn:E.
      * destruct X as [->|[->|X]]; [|apply B; left; reflexivity|apply B; right; exact X].
        apply not_true_iff_false. intros Y. destruct (W3 _ (snd x) _ Y) as [Z|Z]; [|pose proof (W2 _ _ _ Z E) as Q; rewrite W1 in Q; discriminate].
        assert (B' := B (snd x) ltac:(left; reflexivity)). congruence.
      * destruct X as [->|[->|X]]; [apply B; left; reflexivity| |apply B; right; exact X].
        apply not_true_iff_false. intros Y. destruct (W3 _ m _ Y) as [Z|Z]; [|congruence]. assert (B' := B m ltac:(left; reflexivity)). congruence.
Qed.
Theorem kld_ok ranking ps q : ranking <> [] -> a_map ps -> a_map q ->
  exists q' e d w g m terms, kld_prf zero one add lt default sort size_of addr_of translate wsplit expect gain share ranking ps q = Ok q' /\
    parameter_value default (lit "kld") (lit "expansions") ps e /\ parameter_value default (lit "kld") (lit "depth") ps d /\
    parameter_value default (lit "kld") (lit "window") ps w /\ parameter_value default (lit "kld") (lit "gamma") ps g /\
    let texts := map (fun r => wsplit (translate (fst (passage (addr_of w) r)) (snd (passage (addr_of w) r)))) (firstn (Nat.max 1 (size_of d)) (firsts [] ranking)) in
    (exists vs, (forall v, In v vs <-> exists t, kld_candidate one add lt expect gain texts t v) /\ largest lt zero vs m) /\
    best_of lt (size_of e) (kld_candidate one add lt expect gain texts) terms /\
    grown add (fun v => share g v m) q terms q'.
Proof.
  intros N MP MQ. destruct (parameter_ok default (lit "kld") (lit "expansions") ps _ MP eq_refl ltac:(vm_compute; tauto)) as (e & E1 & E2).
  destruct (parameter_ok default (lit "kld") (lit "depth") ps _ MP eq_refl ltac:(vm_compute; tauto)) as (d & D1 & D2).
  destruct (parameter_ok default (lit "kld") (lit "window") ps _ MP eq_refl ltac:(vm_compute; tauto)) as (w & W1 & W2).
  destruct (parameter_ok default (lit "kld") (lit "gamma") ps _ MP eq_refl ltac:(vm_compute; tauto)) as (g & G1 & G2).
  set (texts := map (fun r => wsplit (translate (fst (passage (addr_of w) r)) (snd (passage (addr_of w) r)))) (firstn (Nat.max 1 (size_of d)) (firsts [] ranking))).
  destruct (kld_cands texts) as [CD CI]. pose proof (chosen_ok (size_of e) _ _ CD CI) as B. set (values := kld_values zero one add lt expect gain texts) in *.
  set (terms := chosen lt sort (size_of e) values) in *. set (m := max_value lt zero values).
  exists (grow add (fun v => share g v m) q terms), e, d, w, g, m, terms.
  split; [|split; [exact E2|split; [exact D2|split; [exact W2|split; [exact G2|split; [|split; [exact B|apply grow_ok; [exact MQ|apply (best_nodup _ _ _ B)]]]]]]]].
  - assert (PE : passages (size_of d) (addr_of w) [] 0 ranking = map (passage (addr_of w)) (firstn (Nat.max 1 (size_of d)) (firsts [] ranking))) by (rewrite passages_ok by (right; reflexivity); rewrite Nat.sub_0_r; reflexivity).
    assert (TE : map (fun pq => wsplit (translate (fst pq) (snd pq))) (map (passage (addr_of w)) (firstn (Nat.max 1 (size_of d)) (firsts [] ranking))) = texts) by (unfold texts; rewrite map_map; reflexivity).
    assert (NE : map (passage (addr_of w)) (firstn (Nat.max 1 (size_of d)) (firsts [] ranking)) <> []).
    { destruct ranking as [|r0 rest]; [congruence|]. cbn [firsts]. destruct (in_dec Z.eq_dec (rcp r0) []) as [I|_]; [destruct I|]. destruct (Nat.max 1 (size_of d)) eqn:K; [lia|]. discriminate. }
    clearbody texts. unfold kld_prf. destruct ranking as [|r0 rest] eqn:R; [congruence|]. rewrite <- R in *. rewrite E1, D1, W1, G1. cbn [bind]. rewrite PE.
    destruct (map (passage (addr_of w)) _) as [|x l]; [congruence|]. rewrite TE. reflexivity.
  - exists (map snd values). split; [|apply max_value_largest]. intros v. rewrite in_map_iff. split.
    + intros ([t v'] & X & I). cbn [snd] in X. subst v'. exists t. apply CI, I.
    + intros (t & X). exists (t, v). split; [reflexivity|]. apply CI, X.
Qed.
End F.
(** * Passages *)
Theorem passage_ok {F} w (r : @result F) : rcp r <= rp r <= rq r -> rq r <= rcq r ->
  let '(p, q) := passage w r in rcp r <= p <= rp r /\ rq r <= q /\
  ((p = rcp r /\ q = rcq r /\ rcq r - rcp r + 1 <= w) \/ (p = rp r /\ q = rq r /\ w <= rq r - rp r + 1) \/ q - p + 1 = w \/ (p = rcp r /\ q - p + 1 = w + 1)).
Proof.
  intros H1 H2. unfold passage. destruct (rcq r - rcp r + 1 <=? w) eqn:E1; [apply Z.leb_le in E1; lia|]. apply Z.leb_gt in E1.
  destruct (rq r - rp r + 1 <? w) eqn:E2; [|apply Z.ltb_ge in E2; lia]. apply Z.ltb_lt in E2.
  set (rem := w - (rq r - rp r + 1)). assert (0 <= rem / 2 <= rem) by (split; [apply Z.div_pos; lia|apply Z.div_le_upper_bound; lia]).
  destruct (rp r - rem / 2 <? rcp r) eqn:E3; [apply Z.ltb_lt in E3|apply Z.ltb_ge in E3]; lia.
Qed.
