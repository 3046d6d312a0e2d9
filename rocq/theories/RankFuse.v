(** Fusing rankings, merging result lists and ranking by tiers. *)
From Verif Require Import Base HopperModel GclSpec HopperProofs GclProofs ArrayProofs UnaryProofs
  RankModel RankSpec RankProofs RankSsr.

Lemma seen_in k l : existsb (Z.eqb k) l = true <-> In k l.
Proof.
  rewrite existsb_exists. split.
  - intros (x & Hx & E). apply Z.eqb_eq in E. subst. exact Hx.
  - intros H. exists k. split; [exact H|apply Z.eqb_refl].
Qed.
Lemma seen_not k l : existsb (Z.eqb k) l = false <-> ~ In k l.
Proof. rewrite <- seen_in. destruct (existsb (Z.eqb k) l); split; congruence || auto. Qed.

Section Fuse.
Context {F : Type} (zero : F) (add : F -> F -> F) (lt : F -> F -> bool) (sort stable_sort : sorter).
Context (W : weak_order lt) (HS : sorts sort).
Notation result := (result (F := F)).

(** * Rank fusion *)
Definition plus (o : option F) (g : F) : option F :=
  match o with None => Some g | Some v => Some (add v g) end.
Lemma find_set k k' v (m : list (Z * F)) :
  find_score k (set_score k' v m) = if k =? k' then Some v else find_score k m.
Proof.
  induction m as [|[a w] m IH]; cbn [set_score find_score].
  - reflexivity.
  - destruct (Z.eqb_spec k' a) as [->|H]; cbn [find_score].
    + destruct (Z.eqb_spec k a); reflexivity.
    + destruct (Z.eqb_spec k a) as [->|Ha]; [|exact IH].
      destruct (Z.eqb_spec a k'); [congruence|reflexivity].
Qed.
Lemma gather_find (reciprocal : nat -> F) k : forall (ranking : list result) i m,
  find_score k (gather add reciprocal i ranking m)
  = fold_left plus (earned reciprocal k i ranking) (find_score k m).
Proof.
  induction ranking as [|r l IH]; intros i m; cbn [gather earned]; [reflexivity|].
  rewrite IH, fold_left_app. f_equal.
  destruct (Z.eqb_spec (rp r) k) as [->|H]; cbn [fold_left].
  - destruct (find_score k m) eqn:E; rewrite find_set, Z.eqb_refl; reflexivity.
  - destruct (find_score (rp r) m); rewrite find_set; destruct (Z.eqb_spec k (rp r)); congruence || reflexivity.
Qed.
Lemma gathered (reciprocal : nat -> F) k : forall (rankings : list (list result)) m,
  find_score k (fold_left (fun m ranking => gather add reciprocal 0 ranking m) rankings m)
  = fold_left plus (flat_map (earned reciprocal k 0) rankings) (find_score k m).
Proof.
  induction rankings as [|r l IH]; intros m; cbn [fold_left flat_map]; [reflexivity|].
  rewrite IH, gather_find, fold_left_app. reflexivity.
Qed.
Lemma plus_some l : forall v, fold_left plus l (Some v) = Some (fold_left add l v).
Proof. induction l as [|g l IH]; intros v; cbn [fold_left plus]; [reflexivity|apply IH]. Qed.
Lemma earned_in (reciprocal : nat -> F) k : forall (ranking : list result) i,
  In k (map rp ranking) -> earned reciprocal k i ranking <> [].
Proof.
  induction ranking as [|r l IH]; intros i H; [destruct H|]. cbn [earned].
  destruct (Z.eqb_spec (rp r) k) as [E|E]; [discriminate|]. destruct H as [H|H]; [congruence|].
  apply IH, H.
Qed.

Definition refer (m : list (Z * F)) (r : result) : result :=
  Res (rp r) (rq r) (rcp r) (rcq r) (match find_score (rp r) m with Some v => v | None => zero end).
Lemma fuse_ok m : forall (l : list result) seen,
  let out := fuse zero m seen l in
  NoDup (map rp out) /\
  (forall k, In k (map rp out) <-> In k (map rp l) /\ ~ In k seen) /\
  forall r, In r out -> exists r0 a b, l = a ++ r0 :: b /\ (forall y, In y a -> rp y <> rp r0) /\ r = refer m r0.
Proof.
  induction l as [|r l IH]; intros seen; cbn [fuse].
  - cbn. split; [constructor|]. split; [tauto|tauto].
  - destruct (existsb (Z.eqb (rp r)) seen) eqn:E.
    + apply seen_in in E. destruct (IH seen) as (I1 & I2 & I3). split; [exact I1|]. split.
      * intros k. rewrite I2. cbn [map In]. split; [tauto|]. intros [[H|H] Hn]; [subst; contradiction|tauto].
      * intros x Hx. destruct (I3 x Hx) as (r0 & a & b & E1 & Ha & E2).
        exists r0, (r :: a), b. split; [rewrite E1; reflexivity|]. split; [|exact E2].
        intros y [<-|Hy]; [|exact (Ha y Hy)]. intros Eq.
        assert (Hin : In (rp x) (map rp (fuse zero m seen l))) by (apply in_map, Hx).
        apply I2 in Hin. destruct Hin as [_ Hin]. apply Hin. rewrite E2. cbn [rp refer]. rewrite <- Eq. exact E.
    + apply seen_not in E. destruct (IH (rp r :: seen)) as (I1 & I2 & I3). cbn [map rp]. split; [|split].
      * constructor; [|exact I1]. rewrite I2. intros [_ H]. apply H. left. reflexivity.
      * intros k. cbn [In]. rewrite I2. cbn [In].
        destruct (Z.eq_dec k (rp r)) as [->|Hk]; [tauto|]. split.
        -- intros [H|[H1 H2]]; [congruence|]. split; [right; exact H1|]. intros H. apply H2. right. exact H.
        -- intros [[H|H] Hn]; [congruence|]. right. split; [exact H|]. intros [H'|H']; [congruence|contradiction].
      * intros x [<-|Hx].
        -- exists r, [], l. split; [reflexivity|]. split; [intros ? []|reflexivity].
        -- destruct (I3 x Hx) as (r0 & a & b & E1 & Ha & E2).
           exists r0, (r :: a), b. split; [rewrite E1; reflexivity|]. split; [|exact E2].
           intros y [<-|Hy]; [|exact (Ha y Hy)]. intros Eq.
           assert (Hin : In (rp x) (map rp (fuse zero m (rp r :: seen) l))) by (apply in_map, Hx).
           apply I2 in Hin. destruct Hin as [_ Hin]. apply Hin. left. rewrite E2. exact Eq.
Qed.

Lemma rrf_ok reciprocal (rankings : list (list result)) :
  fused add lt reciprocal rankings (rrf_fusion zero add lt sort reciprocal rankings).
Proof.
  unfold rrf_fusion. cbv zeta.
  set (m := fold_left (fun m ranking => gather add reciprocal 0 ranking m) rankings []).
  destruct (fuse_ok m (concat rankings) []) as (I1 & I2 & I3).
  destruct (HS result (by_score lt) (fuse zero m [] (concat rankings)) (by_score_order lt W)) as [P O].
  set (out := sort result (by_score lt) (fuse zero m [] (concat rankings))) in *.
  split; [exact O|]. split; [|split].
  - eapply Permutation_NoDup; [apply Permutation_map, P|exact I1].
  - intros k. split.
    + intros H. apply (Permutation_in k (Permutation_sym (Permutation_map rp P))) in H. apply I2 in H. apply H.
    + intros H. apply (Permutation_in k (Permutation_map rp P)). apply I2. auto.
  - intros r Hr. apply (Permutation_in r (Permutation_sym P)) in Hr.
    destruct (I3 r Hr) as (r0 & a & b & E1 & Ha & ->). split.
    + cbn [rp rscore refer].
      assert (Hin : In (rp r0) (map rp (concat rankings))).
      { rewrite E1, map_app. apply in_or_app. right. left. reflexivity. }
      assert (Hne : flat_map (earned reciprocal (rp r0) 0) rankings <> []).
      { clear -Hin. induction rankings as [|x l IH]; [destruct Hin|]. cbn [concat flat_map] in *.
        rewrite map_app in Hin. apply in_app_or in Hin. intros E. apply app_eq_nil in E. destruct E as [E E'].
        destruct Hin as [Hin|Hin]; [exact (earned_in _ _ _ _ Hin E)|exact (IH Hin E')]. }
      unfold fused_score. destruct (flat_map (earned reciprocal (rp r0) 0) rankings) as [|g gs] eqn:E; [congruence|].
      exists g, gs. split; [reflexivity|]. unfold m. rewrite gathered, E. cbn [find_score fold_left plus].
      rewrite plus_some. reflexivity.
    + exists r0. split; [exists a, b; auto|]. cbn. auto.
Qed.

(** * Merging result lists *)
Lemma by_container_order : weak_order (@by_container F).
Proof.
  unfold by_container. split; [|split]; intros.
  - apply Z.ltb_irrefl.
  - lia.
  - lia.
Qed.
Lemma merge_runs_ok : forall (l : list result) back,
  StronglySorted (fun a b => rcp a <= rcp b) l ->
  (forall b, back = Some b -> Forall (fun r => rcp b <= rcp r) l) ->
  let out := merge_runs back l in
  let new k := match back with None => True | Some b => rcp b < k end in
  NoDup (map rcp out) /\
  (forall k, In k (map rcp out) <-> In k (map rcp l) /\ new k) /\
  forall r, In r out -> exists a b, l = a ++ r :: b /\ forall y, In y a -> rcp y <> rcp r.
Proof.
  induction l as [|r l IH]; intros back S B; cbn [merge_runs].
  - cbn. split; [constructor|]. split; [tauto|tauto].
  - inversion S as [|? ? S' Fr]; subst.
    assert (Keep : let out := r :: merge_runs (Some r) l in
      NoDup (map rcp out) /\
      (forall k, In k (map rcp out) <-> k = rcp r \/ (In k (map rcp l) /\ rcp r < k)) /\
      forall x, In x out -> exists a b, r :: l = a ++ x :: b /\ forall y, In y a -> rcp y <> rcp x).
    { destruct (IH (Some r) S') as (I1 & I2 & I3); [intros b [= <-]; exact Fr|]. cbv zeta in *. cbn [map].
      split; [constructor; [rewrite I2; lia|exact I1]|]. split.
      - intros k. cbn [In]. rewrite I2. intuition congruence.
      - intros x [<-|Hx].
        + exists [], l. split; [reflexivity|intros ? []].
        + destruct (I3 x Hx) as (a & b & E & Ha). exists (r :: a), b. split; [rewrite E; reflexivity|].
          intros y [<-|Hy]; [|exact (Ha y Hy)].
          assert (Hin : In (rcp x) (map rcp (merge_runs (Some r) l))) by (apply in_map, Hx).
          apply I2 in Hin. lia. }
    assert (Hr : forall k, In k (map rcp l) -> rcp r <= k).
    { intros k Hk. apply in_map_iff in Hk. destruct Hk as (y & <- & Hy).
      exact (proj1 (Forall_forall _ _) Fr y Hy). }
    destruct back as [b|].
    + specialize (B b eq_refl). inversion B as [|? ? Hb Bl]; subst.
      destruct (Z.ltb_spec (rcp b) (rcp r)) as [H|H].
      * destruct Keep as (K1 & K2 & K3). split; [exact K1|]. split; [|exact K3].
        intros k. rewrite K2. cbn [map In]. split.
        -- intros [->|[H1 H2]]; [split; [left; reflexivity|exact H]|]. split; [right; exact H1|lia].
        -- intros [[<-|H1] H2]; [left; reflexivity|]. specialize (Hr k H1).
           destruct (Z.eq_dec k (rcp r)); [left; assumption|right; split; [exact H1|lia]].
      * destruct (IH (Some b) S') as (I1 & I2 & I3); [intros b' [= <-]; exact Bl|]. cbv zeta in *.
        split; [exact I1|]. split.
        -- intros k. rewrite I2. cbn [map In]. split; [tauto|]. intros [[<-|H1] H2]; [lia|tauto].
        -- intros x Hx. destruct (I3 x Hx) as (a & c & E & Ha). exists (r :: a), c.
           split; [rewrite E; reflexivity|]. intros y [<-|Hy]; [|exact (Ha y Hy)].
           assert (Hin : In (rcp x) (map rcp (merge_runs (Some b) l))) by (apply in_map, Hx).
           apply I2 in Hin. lia.
    + destruct Keep as (K1 & K2 & K3). split; [exact K1|]. split; [|exact K3].
      intros k. rewrite K2. cbn [map In]. split.
      * intros [->|[H1 H2]]; auto.
      * intros [[<-|H1] _]; [left; reflexivity|]. specialize (Hr k H1).
        destruct (Z.eq_dec k (rcp r)); [left; assumption|right; split; [exact H1|lia]].
Qed.

Context (HT : sorts_stably stable_sort).
Lemma merge_results_ok r0 r1 depth :
  exists all, one_each lt (r0 ++ r1) all /\
    best lt depth all (merge_results lt sort stable_sort r0 r1 depth).
Proof.
  unfold merge_results. cbv zeta.
  destruct (HS result (by_score lt) (r0 ++ r1) (by_score_order lt W)) as [P1 O1].
  set (s1 := sort result (by_score lt) (r0 ++ r1)) in *.
  destruct HT as [HT1 HT2]. destruct (HT1 result by_container s1 by_container_order) as [P2 O2].
  pose proof (fun a => HT2 result by_container s1 a by_container_order) as St. cbv zeta in St.
  set (s2 := stable_sort result by_container s1) in *.
  assert (P : Permutation (r0 ++ r1) s2) by (eapply perm_trans; eauto).
  destruct (merge_runs_ok s2 None) as (M1 & M2 & M3); [|discriminate|].
  { eapply ssorted_impl; [|exact O2]. intros x y _ _ H. unfold by_container in H. lia. }
  cbv zeta in *. exists (merge_runs None s2). split.
  - split; [exact M1|]. split.
    + intros k. rewrite M2. split.
      * intros [H _]. apply (Permutation_in k (Permutation_sym (Permutation_map rcp P))), H.
      * intros H. split; [|exact I]. apply (Permutation_in k (Permutation_map rcp P)), H.
    + intros r Hr. destruct (M3 r Hr) as (a & b & E & Ha). split.
      * apply (Permutation_in r (Permutation_sym P)). rewrite E. apply in_or_app. right. left. reflexivity.
      * intros y Hy Ey. apply (Permutation_in y P) in Hy.
        pose proof (St r) as Sr. set (tie := fun x : result => negb (by_container r x) && negb (by_container x r)) in Sr.
        assert (Et : forall x, tie x = true <-> rcp x = rcp r).
        { intros x. unfold tie, by_container. rewrite andb_true_iff, !negb_true_iff, !Z.ltb_ge. lia. }
        rewrite E, filter_app in Sr. cbn [filter] in Sr. rewrite (proj2 (Et r) eq_refl) in Sr.
        assert (filter tie a = []) as Ea.
        { apply filter_none. intros x Hx. specialize (Ha x Hx). destruct (tie x) eqn:Ex; [|reflexivity].
          apply Et in Ex. contradiction. }
        rewrite Ea in Sr. cbn [app] in Sr.
        assert (Hy' : In y (r :: filter tie b)).
        { rewrite E in Hy. apply in_app_or in Hy. destruct Hy as [Hy|[<-|Hy]].
          - specialize (Ha y Hy). contradiction.
          - left. reflexivity.
          - right. apply filter_In. split; [exact Hy|apply Et, Ey]. }
        assert (Os : StronglySorted (fun x y => by_score lt y x = false) (filter tie s1)).
        { clear -O1. induction O1 as [|x l S IH Fx]; cbn; [constructor|]. destruct (tie x); [|exact IH].
          constructor; [exact IH|]. apply Forall_forall. intros z Hz. apply filter_In in Hz.
          exact (proj1 (Forall_forall _ _) Fx z (proj1 Hz)). }
        rewrite <- Sr in Os. inversion Os as [|? ? _ Fb]; subst.
        destruct Hy' as [<-|Hy']; [apply W|]. exact (proj1 (Forall_forall _ _) Fb y Hy').
  - set (out := merge_runs None s2). clearbody out. clear - W HS.
    pose proof (best_top lt sort W HS depth [] [] out (best_nil lt depth)) as B. exact B.
Qed.

(** * Tiers *)
Lemma add_tier_ok (fake : nat -> F) depth : forall ranking seen top,
  NoDup (map rcp ranking) -> (length top <= depth)%nat ->
  let pick := firstn (depth - length top) (unseen seen ranking) in
  let '(seen', top') := add_tier fake depth ranking (seen, top) in
  (exists marked, top' = top ++ marked /\ map place marked = map place pick /\
     forall i r, nth_error marked i = Some r -> rscore r = fake (depth - (length top + i))%nat) /\
  (forall k, In k seen' <-> In k (map rcp pick) \/ In k seen) /\
  (NoDup seen -> NoDup seen') /\ (length seen' + length top = length seen + length top')%nat.
Proof.
  induction ranking as [|r l IH]; intros seen top ND L; cbn [add_tier].
  - cbv zeta. unfold unseen. cbn [filter]. rewrite firstn_nil. cbn [map In]. split; [|split; [tauto|split; [auto|lia]]].
    exists []. split; [rewrite app_nil_r; reflexivity|]. split; [reflexivity|]. intros [|i] x; discriminate.
  - inversion ND as [|? ? N1 N2]; subst. cbv zeta. unfold unseen. cbn [filter].
    destruct (Nat.ltb_spec (length top) depth) as [Hlt|Hge].
    + destruct (existsb (Z.eqb (rcp r)) seen) eqn:E; cbn [negb].
      * exact (IH seen top N2 L).
      * apply seen_not in E.
        set (mark := Res (rp r) (rq r) (rcp r) (rcq r) (fake (depth - length top)%nat)).
        specialize (IH (rcp r :: seen) (top ++ [mark]) N2). rewrite app_length in IH. cbn [length] in IH.
        specialize (IH ltac:(lia)). cbv zeta in IH.
        destruct (add_tier fake depth l (rcp r :: seen, top ++ [mark])) as [seen' top'].
        destruct IH as [(marked & E1 & E2 & E3) (IS & IN & IL)].
        assert (Eu : unseen (rcp r :: seen) l = filter (fun r => negb (existsb (Z.eqb (rcp r)) seen)) l).
        { unfold unseen. apply filter_ext_in. intros x Hx. cbn [existsb].
          destruct (Z.eqb_spec (rcp x) (rcp r)) as [Ex|_]; [|reflexivity].
          exfalso. apply N1. rewrite <- Ex. apply in_map, Hx. }
        rewrite Eu in E2, IS.
        replace (depth - length top)%nat with (S (depth - (length top + 1)))%nat by lia. cbn [firstn map].
        split.
        -- exists (mark :: marked). split; [rewrite E1, <- app_assoc; reflexivity|].
           split; [cbn [map]; rewrite E2; reflexivity|].
           intros [|i] x Hx.
           ++ injection Hx as <-. cbn [rscore mark]. f_equal. lia.
           ++ cbn [nth_error] in Hx. rewrite (E3 i x Hx). f_equal. lia.
        -- split; [intros k; rewrite IS; cbn [In]; tauto|]. split.
           ++ intros N. apply IN. constructor; [exact E|exact N].
           ++ cbn [length] in IL. lia.
    + replace (depth - length top)%nat with 0%nat by lia. cbn [firstn map In]. split; [|split; [tauto|split; [auto|lia]]].
      exists []. split; [rewrite app_nil_r; reflexivity|]. split; [reflexivity|]. intros [|i] x; discriminate.
Qed.

Lemma filter_ssorted {A} (R : A -> A -> Prop) f (l : list A) :
  StronglySorted R l -> StronglySorted R (filter f l).
Proof.
  induction 1 as [|x l S IH Fx]; cbn; [constructor|]. destruct (f x); [|exact IH].
  constructor; [exact IH|]. apply Forall_forall. intros z Hz. apply filter_In in Hz.
  exact (proj1 (Forall_forall _ _) Fx z (proj1 Hz)).
Qed.
Lemma firstn_ssorted {A} (R : A -> A -> Prop) n (l : list A) :
  StronglySorted R l -> StronglySorted R (firstn n l).
Proof. intros H. rewrite <- (firstn_skipn n l) in H. apply ssorted_app in H. apply H. Qed.

Lemma tier_best depth room all ranking seen :
  best lt depth all ranking -> NoDup (map rcp all) -> NoDup seen ->
  (length seen + room = depth)%nat ->
  best lt room (unseen seen all) (firstn room (unseen seen ranking)).
Proof.
  intros (rest & P & L & S & D) ND NS Hroom.
  assert (Pu : Permutation (unseen seen all) (unseen seen ranking ++ unseen seen rest)).
  { unfold unseen. rewrite <- filter_app. apply perm_filter, P. }
  assert (Lu : rest = [] \/ (room <= length (unseen seen ranking))%nat).
  { destruct rest as [|x rest]; [left; reflexivity|right].
    pose proof (Permutation_length P) as LP. rewrite app_length in LP. cbn in LP.
    assert (length ranking = depth) as Lr by lia.
    assert (Hs : (length (filter (fun r => existsb (Z.eqb (rcp r)) seen) ranking) <= length seen)%nat).
    { rewrite <- (map_length rcp). apply NoDup_incl_length.
      - assert (NR : NoDup (map rcp ranking)).
        { pose proof (Permutation_NoDup (Permutation_map rcp P) ND) as N. rewrite map_app in N.
          clear -N. induction (map rcp ranking) as [|k l IH]; [constructor|]. cbn in N. inversion N; subst.
          constructor; [intros H; apply H1, in_or_app; left; exact H|auto]. }
        clear -NR. induction ranking as [|r l IH]; cbn; [constructor|]. cbn in NR. inversion NR; subst.
        destruct (existsb (Z.eqb (rcp r)) seen); cbn; [|apply IH; assumption].
        constructor; [|apply IH; assumption]. intros H. apply H1. apply in_map_iff in H.
        destruct H as (y & E & Hy). rewrite <- E. apply in_map. apply filter_In in Hy. apply Hy.
      - intros k Hk. apply in_map_iff in Hk. destruct Hk as (y & <- & Hy). apply filter_In in Hy.
        apply seen_in, Hy. }
    assert (Hsum : forall l : list result, (length (filter (fun r => existsb (Z.eqb (rcp r)) seen) l) + length (unseen seen l) = length l)%nat).
    { clear. induction l as [|r l IH]; [reflexivity|]. unfold unseen in *. cbn.
      destruct (existsb (Z.eqb (rcp r)) seen); cbn; lia. }
    specialize (Hsum ranking). lia. }
  set (u := unseen seen ranking) in *.
  exists (skipn room u ++ unseen seen rest). split; [|split; [|split]].
  - rewrite app_assoc, firstn_skipn. exact Pu.
  - rewrite firstn_length. pose proof (Permutation_length Pu) as LP. rewrite app_length in LP.
    destruct Lu as [->|Lu]; [cbn in LP|]; lia.
  - apply firstn_ssorted, filter_ssorted, S.
  - intros t r Ht Hr. apply in_app_or in Hr. destruct Hr as [Hr|Hr].
    + assert (Su : StronglySorted (fun a b => lt (rscore a) (rscore b) = false) u) by (apply filter_ssorted, S).
      rewrite <- (firstn_skipn room u) in Su. apply ssorted_app in Su. apply Su; assumption.
    + apply D.
      * assert (Ht' : In t u).
        { rewrite <- (firstn_skipn room u). apply in_or_app. left. exact Ht. }
        apply filter_In in Ht'. apply Ht'.
      * apply filter_In in Hr. apply Hr.
Qed.

Lemma tiered_seen : forall alls depth seen seen' (top : list result),
  (forall k, In k seen <-> In k seen') -> tiered lt depth alls seen top -> tiered lt depth alls seen' top.
Proof.
  induction alls as [|all alls IH]; intros depth seen seen' top H Ht; cbn [tiered] in *; [exact Ht|].
  destruct Ht as (pick & top' & -> & B & Ht). exists pick, top'. split; [reflexivity|]. split.
  - replace (unseen seen' all) with (unseen seen all); [exact B|]. apply filter_ext. intros r. f_equal.
    destruct (existsb (Z.eqb (rcp r)) seen) eqn:E.
    + symmetry. apply seen_in, H, seen_in, E.
    + symmetry. apply seen_not. rewrite <- H. apply seen_not, E.
  - eapply IH; [|exact Ht]. intros k. rewrite !in_app_iff, H. tauto.
Qed.
Lemma tiered_full alls seen : tiered (F := F) lt 0 alls seen [].
Proof.
  revert seen. induction alls as [|all alls IH]; intros seen; cbn [tiered]; [reflexivity|].
  exists [], []. split; [reflexivity|]. split; [|apply IH].
  exists (unseen seen all). split; [reflexivity|]. split; [reflexivity|]. split; [constructor|]. intros t r [].
Qed.
Lemma tiers_ok {T} (rank : T -> res (list result)) fake depth : forall tiers alls,
  Forall2 (fun t all => wp (rank t) (best lt depth all) /\ NoDup (map rcp all)) tiers alls ->
  forall seen top, NoDup seen -> length seen = length top -> (length top <= depth)%nat ->
  (forall i r, nth_error top i = Some r -> rscore r = fake (depth - i)%nat) ->
  wp (add_tiers rank fake depth tiers (seen, top))
     (fun out => exists picks,
        map place out = map place top ++ map place picks /\
        tiered lt (depth - length top) alls seen picks /\
        forall i r, nth_error out i = Some r -> rscore r = fake (depth - i)%nat).
Proof.
  intros tiers alls HF. induction HF as [|t all tiers alls [Ht ND] HF IH]; intros seen top NS Ls Lt Hs; cbn [add_tiers].
  - apply wp_ok. exists []. cbn [map snd tiered]. rewrite app_nil_r. auto.
  - apply wp_bind. eapply wp_mono; [exact Ht|]. intros ranking B.
    assert (NR : NoDup (map rcp ranking)).
    { destruct B as (rest & P & _). pose proof (Permutation_NoDup (Permutation_map rcp P) ND) as N.
      rewrite map_app in N. clear -N. induction (map rcp ranking) as [|k l IH]; [constructor|]. cbn in N. inversion N; subst.
      constructor; [intros H; apply H1, in_or_app; left; exact H|auto]. }
    pose proof (add_tier_ok fake depth ranking seen top NR Lt) as HA. cbv zeta in HA.
    pose proof (tier_best depth (depth - length top) all ranking seen B ND NS ltac:(lia)) as HB.
    set (pick := firstn (depth - length top) (unseen seen ranking)) in *.
    destruct (add_tier fake depth ranking (seen, top)) as [seen' top'] eqn:EA.
    destruct HA as [(marked & E1 & E2 & E3) (IS & IN & IL)]. cbn [snd].
    assert (Lm : length marked = length pick) by (rewrite <- (map_length place marked), E2, map_length; reflexivity).
    assert (Lp : (length pick <= depth - length top)%nat) by (unfold pick; rewrite firstn_length; lia).
    assert (Hs' : forall i r, nth_error top' i = Some r -> rscore r = fake (depth - i)%nat).
    { intros i r. rewrite E1. destruct (Nat.ltb_spec i (length top)) as [Hi|Hi].
      - rewrite nth_error_app1 by exact Hi. apply Hs.
      - rewrite nth_error_app2 by exact Hi. intros Hr. rewrite (E3 _ _ Hr). f_equal. lia. }
    assert (L' : length top' = (length top + length pick)%nat) by (rewrite E1, app_length; lia).
    destruct (Nat.eqb_spec (length top') depth) as [Ef|Ef].
    + apply wp_ok. exists pick. split; [rewrite E1, map_app, E2; reflexivity|]. split; [|exact Hs'].
      cbn [tiered]. exists pick, []. split; [rewrite app_nil_r; reflexivity|]. split; [exact HB|].
      replace (depth - length top - length pick)%nat with 0%nat by lia. apply tiered_full.
    + eapply wp_mono; [apply (IH seen' top'); [apply IN, NS|lia|lia|exact Hs']|].
      intros out (picks & O1 & O2 & O3). exists (pick ++ picks). split; [|split; [|exact O3]].
      * rewrite O1, E1, !map_app, E2, app_assoc. reflexivity.
      * cbn [tiered]. exists pick, picks. split; [reflexivity|]. split; [exact HB|].
        replace (depth - length top - length pick)%nat with (depth - length top')%nat by lia.
        eapply tiered_seen; [|exact O2]. intros k. rewrite IS, in_app_iff. tauto.
Qed.
End Fuse.
