(** Background merging over whole histories: it ends, and where. *)
From Verif Require Import Base Bytes NameModel NameSpec NameProofs RecoverAll StoreModel StoreSpec StoreDir StoreInv StoreFacts StoreClone StoreCommit StoreJob StoreMerge StoreInstall StoreDown StoreOpen StoreMain StoreHist StoreTop StoreShards SchedModel SchedSpec SchedProofs.
From Coq Require Import Sorting.Sorted.

Definition QI (m : mem) : Prop :=
  (forall e, In e (m_entries m) -> e_kind e = Kitten -> exists i x, owner (m_clones m i) = Some (e_id e, x)) /\
  (forall k, In k (m_merging m) -> exists w a sel, run_of (m_workers m w) = Some (a, sel) /\ In k (map e_id sel)).
Lemma qi_of m m' : (forall e, In e (m_entries m') -> e_kind e = Kitten -> In e (m_entries m)) -> (forall i id x, owner (m_clones m i) = Some (id, x) -> owner (m_clones m' i) = Some (id, x)) ->
  (forall k, In k (m_merging m') -> In k (m_merging m)) -> (forall w a sel, run_of (m_workers m w) = Some (a, sel) -> run_of (m_workers m' w) = Some (a, sel)) -> QI m -> QI m'.
Proof.
  intros A B C D [H1 H2]. split.
  - intros e He K. destruct (H1 e (A e He K) K) as (i & x & O). exists i, x. apply B. exact O.
  - intros k Hk. destruct (H2 k (C k Hk)) as (w & a & sel & O & I). exists w, a, sel. split; [apply D; exact O|exact I].
Qed.
Definition weight (e : entry) : nat := match e_kind e with Kitten | FiverK => 2 | HazelK => 1 | Gone => 0 end.
Lemma work_weight m : work m = total (map weight (m_entries m)).
Proof. reflexivity. Qed.
Lemma work_same m m' : m_entries m' = m_entries m -> work m' = work m.
Proof. intros E. rewrite !work_weight, E. reflexivity. Qed.
Lemma weight_filter l : (total (map weight (cleanup l)) <= total (map weight l))%nat.
Proof. induction l as [|a l IH]; [cbn; lia|]. unfold cleanup in *. cbn. destruct (negb (kind_eqb (e_kind a) Gone)); cbn; lia. Qed.
Lemma weight_kind id k l : (forall e, In e l -> e_id e = id -> e_kind e = Kitten) -> (total (map weight (map (with_kind id k) l)) <= total (map weight l))%nat.
Proof.
  induction l as [|a l IH]; intros H; [cbn; lia|]. cbn. assert (weight (with_kind id k a) <= weight a)%nat.
  { unfold with_kind. destruct (Nat.eqb_spec (e_id a) id) as [E|E]; [|lia]. unfold weight. cbn. rewrite (H a (or_introl eq_refl) E). destruct k; lia. }
  specialize (IH (fun e He => H e (or_intror He))). lia.
Qed.
Lemma total_app (a b : list nat) : total (a ++ b) = (total a + total b)%nat.
Proof. induction a as [|x a IH]; cbn; [reflexivity|]. rewrite IH. lia. Qed.

Section Run.
Variables (sort merge : list shard -> list shard).
Hypothesis Hs : sorts shard_lt sort.
Hypothesis Hm : sorts owsla_lt merge.
Notation step := (step sort merge).
Notation steps := (steps sort merge).

Definition goes_on (l : label) (m m' : mem) : Prop := QI m' /\ (work m' + installs [l] <= work m + 2 * places [l])%nat.
Lemma quiet_step l m d g m' d' g' : Inv m d g -> QI m -> step false l (Up m d g) = Some (Up m' d' g') -> goes_on l m m'.
Proof.
  intros G Q H.
  assert (Same : forall m1, installs [l] = 0%nat -> m_entries m1 = m_entries m -> (forall i id x, owner (m_clones m i) = Some (id, x) -> owner (m_clones m1 i) = Some (id, x)) ->
    (forall k, In k (m_merging m1) -> In k (m_merging m)) -> (forall w a sel, run_of (m_workers m w) = Some (a, sel) -> run_of (m_workers m1 w) = Some (a, sel)) -> goes_on l m m1).
  { intros m1 E0 E1 E2 E3 E4. split; [apply (qi_of m); auto; rewrite E1; auto|]. rewrite (work_same m m1 E1), E0. lia. }
  assert (Kind : forall i id x k m1, installs [l] = 0%nat -> owner (m_clones m i) = Some (id, x) -> m_entries m1 = map (with_kind id k) (m_entries m) -> k <> Kitten -> (forall j, j <> i -> m_clones m1 j = m_clones m j) ->
    m_merging m1 = m_merging m -> m_workers m1 = m_workers m -> goes_on l m m1).
  { intros i id x k m1 E0 Oi E1 Nk E2 E3 E4. pose proof (i_cl _ _ _ G i) as Ci. split.
    - split; [|rewrite E3, E4; apply Q]. intros e He K. rewrite E1 in He. apply in_map_iff in He. destruct He as (e0 & <- & He). unfold with_kind in K |- *. destruct (Nat.eqb_spec (e_id e0) id) as [E|E]; [cbn in K; contradiction|].
      destruct (proj1 Q e0 He K) as (j & y & O). exists j, y. rewrite E2; [exact O|]. intros ->. rewrite Oi in O. injection O as O _. congruence.
    - rewrite !work_weight, E1, E0. assert (forall e, In e (m_entries m) -> e_id e = id -> e_kind e = Kitten).
      { intros e He E. rewrite (id_unique _ e (own_entry id x) (i_ids _ _ _ G) He (own_in _ _ _ G i id x Oi) E). reflexivity. }
      pose proof (weight_kind id k (m_entries m) H0). lia. }
  assert (Rel : forall w a sel m1 x, installs [l] = 0%nat -> run_of (m_workers m w) = Some (a, sel) -> m_entries m1 = m_entries m -> m_clones m1 = m_clones m ->
    m_merging m1 = filter (fun k => negb (existsb (Nat.eqb k) (map e_id sel))) (m_merging m) -> m_workers m1 = upd (m_workers m) w x -> goes_on l m m1).
  { intros w a sel m1 x E0 R E1 E2 E3 E4. split; [|rewrite (work_same m m1 E1), E0; lia]. split; [rewrite E1, E2; apply Q|]. intros k Hk. rewrite E3 in Hk. apply filter_In in Hk. destruct Hk as [Hk K].
    destruct (proj2 Q k Hk) as (w' & a' & sel' & R' & I). exists w', a', sel'. split; [|exact I]. rewrite E4. case_upd w'; [|exact R']. rewrite R in R'. injection R' as <- <-.
    exfalso. apply Bool.negb_true_iff in K. apply Bool.not_true_iff_false in K. apply K, existsb_exists. exists k. split; [exact I|apply Nat.eqb_refl]. }
  cbn [StoreModel.step] in H. destruct l; cbn [orb] in H.
  - destruct (m_clones m i) eqn:E; try discriminate. injection H as <- <- <-. apply Same; auto. intros j id x O. cbn. case_upd j; [rewrite E in O; discriminate|exact O].
  - destruct (m_clones m i) eqn:E; try discriminate. destruct (0 <=? n); [|discriminate]. injection H as <- <- <-. apply Same; auto. intros j id x O. cbn. case_upd j; [rewrite E in O; discriminate|exact O].
  - destruct (m_clones m i) as [|n b| | | | |] eqn:E; try discriminate. destruct (m_lock m); [discriminate|]. unfold same in H. destruct (place m i n b) as [m1|] eqn:P; [|discriminate]. injection H as <- <- <-.
    unfold place in P. destruct (_ <? _); [|discriminate]. injection P as <-. split.
    + split; [|exact (proj2 Q)]. cbn. intros e He K. apply in_app_iff in He. destruct He as [He|[<-|[]]].
      * destruct (proj1 Q e He K) as (j & x & O). exists j, x. case_upd j; [rewrite E in O; discriminate|exact O].
      * exists i. eexists. rewrite upd_same. reflexivity.
    + rewrite !work_weight. cbn [m_entries]. rewrite map_app, total_app. cbn. lia.
  - unfold up in H. destruct (pickle_step m d i) as [[m1 d1]|] eqn:P; [|discriminate]. injection H as <- <- <-. unfold pickle_step in P. destruct (m_clones m i) as [| |id x|id x p|id x j|id x|id x j] eqn:E; try discriminate.
    + destruct (t_data x); injection P as <- _; (apply Same; auto; intros k id0 x0 O; cbn; case_upd k; [rewrite E in O|]; exact O).
    + destruct (p_stage p); [injection P as <- _| |injection P as <- _]; [| destruct (link _ _ d); injection P as <- _ |]; (apply Same; auto; intros k id0 x0 O; cbn; case_upd k; [rewrite E in O|]; exact O).
  - unfold same in H. destruct (pickle_fail m i) eqn:P; [|discriminate]. injection H as <- <- <-. unfold pickle_fail in P. destruct (m_clones m i) as [| |id x|id x p|id x j|id x|id x j] eqn:E; try discriminate; [|destruct (p_stage p); try discriminate]; injection P as <-;
      (apply Same; auto; intros k id0 x0 O; cbn; case_upd k; [rewrite E in O|]; exact O).
  - destruct (m_lock m); [discriminate|]. unfold commit_link in H. destruct (m_clones m i) as [| |id x|id x p|id x j|id x|id x j] eqn:E; try discriminate. destruct (may_commit m j); [|discriminate]. destruct (link _ _ d); [|discriminate]. injection H as <- <- <-.
    apply Same; auto. intros k id0 x0 O. cbn. case_upd k; [rewrite E in O|]; exact O.
  - destruct (match m_lock m with Some j => Nat.eqb j i | None => false end); [|discriminate]. unfold up in H. destruct (commit_finish m d i) as [[m1 d1]|] eqn:P; [|discriminate]. injection H as <- <- <-. unfold commit_finish in P. destruct (m_clones m i) as [| |id x|id x p|id x j|id x|id x j] eqn:E; try discriminate. injection P as <- _.
    apply (Kind i id x FiverK); auto; [rewrite E; reflexivity|discriminate|]. intros j0 N. cbn. apply upd_other. exact N.
  - destruct (_ && _); [|discriminate]. unfold up in H. destruct (abort m d i g0 h) as [[m1 d1]|] eqn:P; [|discriminate]. injection H as <- <- <-. unfold abort in P. destruct (m_clones m i) as [|n c|id x|id x p|id x [j|]|id x|id x j] eqn:E; try discriminate; injection P as <- _.
    + apply Same; auto. intros k id0 x0 O. cbn. case_upd k; [rewrite E in O; discriminate|exact O].
    + apply (Kind i id x Gone); auto; [rewrite E; reflexivity|discriminate|]. intros j0 N. cbn. apply upd_other. exact N.
    + apply (Kind i id x Gone); auto; [rewrite E; reflexivity|discriminate|]. intros j0 N. cbn. apply upd_other. exact N.
  - destruct (_ && _); [|discriminate]. unfold script_write in H. destruct (m_jobs m k); [|discriminate]. destruct (members m is); [|discriminate]. destruct (forallb _ _); [|discriminate]. injection H as <- _ _.
    apply Same; auto. intros i id x O. cbn. destruct (m_clones m i) as [| |id0 x0|id0 x0 p|id0 x0 [j|]|id0 x0|id0 x0 j]; auto. destruct (existsb _ _); exact O.
  - unfold script_link in H. destruct (m_jobs m k) as [|is tmp seqs []]; try discriminate. destruct (link _ _ d); injection H as <- _ _; [apply Same; auto|]. apply Same; auto. intros i id x O. cbn. unfold unmark. destruct (m_clones m i) as [| |id0 x0|id0 x0 p|id0 x0 [j|]|id0 x0|id0 x0 j]; auto. destruct (Nat.eqb _ _); exact O.
  - unfold up in H. destruct (script_tidy m d k) as [[m1 d1]|] eqn:P; [|discriminate]. injection H as <- <- <-. unfold script_tidy in P. destruct (m_jobs m k) as [|is tmp seqs []]; try discriminate. injection P as <- _. apply Same; auto.
  - unfold up in H. destruct (script_done m d k) as [[m1 d1]|] eqn:P; [|discriminate]. injection H as <- <- <-. unfold script_done in P. destruct (m_jobs m k) as [|is tmp seqs []]; try discriminate. destruct (forallb _ is); [|discriminate]. injection P as <- _. apply Same; auto.
  - destruct (m_lock m); [discriminate|]. unfold same in H. destruct (choose m w a n) eqn:P; [|discriminate]. injection H as <- <- <-. unfold choose in P. destruct (m_workers m w) eqn:W; try discriminate. destruct (validate m _) as [act|]; [|discriminate]. injection P as <-.
    set (sel := firstn n _). split.
    + split.
      * cbn. intros e He K. apply filter_In in He. destruct He as [He _]. apply (proj1 Q e He K).
      * cbn. intros k Hk. apply in_app_iff in Hk. destruct Hk as [Hk|Hk]; [exists w, act, sel; rewrite upd_same; auto|]. destruct (proj2 Q k Hk) as (w' & a' & sel' & R' & I). exists w', a', sel'. split; [|exact I]. case_upd w'; [rewrite W in R'; discriminate|exact R'].
    + rewrite !work_weight. cbn [m_entries set_worker set_merging set_entries]. pose proof (weight_filter (m_entries m)). cbn. cbn in *. lia.
  - unfold up in H. destruct (merge_step m d w) as [[m1 d1]|] eqn:P; [|discriminate]. injection H as <- <- <-. unfold merge_step in P. destruct (m_workers m w) as [|a sel|a sel p|a sel|ns] eqn:W; try discriminate.
    + destruct (match a, find d (out_name a sel) with HMerge, Some _ => true | _, _ => false end); injection P as <- _; destruct a; (apply Same; auto; intros w' a' sel' R'; cbn; case_upd w'; [rewrite W in R'|]; exact R').
    + destruct (p_stage p); [injection P as <- _| |injection P as <- _]; [apply Same; auto; intros w' a' sel' R'; cbn; case_upd w'; [rewrite W in R'|]; exact R'| |apply Same; auto; intros w' a' sel' R'; cbn; case_upd w'; [rewrite W in R'|]; exact R'].
      destruct (link _ _ d); [injection P as <- _; apply Same; auto; intros w' a' sel' R'; cbn; case_upd w'; [rewrite W in R'|]; exact R'|]. destruct a; injection P as <- _; [apply Same; auto; intros w' a' sel' R'; cbn; case_upd w'; [rewrite W in R'|]; exact R'|apply Same; auto; intros w' a' sel' R'; cbn; case_upd w'; [rewrite W in R'|]; exact R'|].
      apply (Rel w Convert sel _ WIdle); auto. rewrite W. reflexivity.
  - unfold up in H. destruct (merge_fail false m d w) as [[m1 d1]|] eqn:P; [|discriminate]. injection H as <- <- <-. unfold merge_fail in P. destruct (m_workers m w) as [|a sel|a sel p|a sel|ns] eqn:W; try discriminate.
    + destruct a; try discriminate; injection P as <- _; [apply (Rel w HMerge sel _ WIdle)|apply (Rel w Convert sel _ WIdle)]; auto; rewrite W; reflexivity.
    + destruct a, (p_stage p); try discriminate; injection P as <- _; [apply (Rel w HMerge sel _ WIdle)|apply (Rel w HMerge sel _ WIdle)|apply (Rel w Convert sel _ WIdle)|apply (Rel w Convert sel _ WIdle)]; auto; rewrite W; reflexivity.
  - discriminate.
  - destruct (m_lock m); [discriminate|]. unfold same in H. destruct (install m w) eqn:P; [|discriminate]. injection H as <- <- <-.
    destruct (install_inv m d g w m0 G P) as (_ & a & sel & W & W').
    destruct (install_exact_inv m d g w a sel m0 G ltac:(rewrite W; reflexivity) P) as (p & q & new & E1 & E2 & _ & V & Kn & _).
    assert (R : run_ok m a sel) by (apply (proj1 (i_wk _ _ _ G w)); rewrite W; reflexivity).
    unfold install in P. rewrite W in P. destruct sel as [|x sl] eqn:Es; [discriminate|]. destruct (rev (x :: sl)) as [|y rl]; [discriminate|]. rewrite <- Es in *. destruct (replace _ _ _ _) as [es|]; injection P as <-; [|cbn in W'; rewrite upd_same in W'; discriminate].
    cbn in E2. subst es. split.
    + split.
      * cbn. intros e He K. apply (proj1 Q); [|exact K]. rewrite E1, !in_app_iff. apply in_app_iff in He. destruct He as [He|[<-|He]]; auto. rewrite K in Kn. destruct a; discriminate.
      * cbn. intros k Hk. apply filter_In in Hk. destruct Hk as [Hk K]. destruct (proj2 Q k Hk) as (w' & a' & sel' & R' & I). exists w', a', sel'. split; [|exact I]. case_upd w'; [|exact R']. rewrite W in R'. injection R' as <- <-.
        exfalso. apply Bool.negb_true_iff in K. apply Bool.not_true_iff_false in K. apply K, existsb_exists. exists k. split; [exact I|apply Nat.eqb_refl].
    + rewrite !work_weight. cbn [m_entries set_worker next_id set_entries]. rewrite E1, !map_app, !total_app. cbn [map total].
      destruct R as (Ne & L2 & _ & Qs & _).
      assert (Ws : total (map weight sel) = (length sel * (match in_kind a with FiverK => 2 | _ => 1 end))%nat).
      { assert (A : forall e, In e sel -> e_kind e = in_kind a) by (intros e He; apply Qs, He). clear - A. induction sel as [|e sel IH]; [reflexivity|]. cbn. rewrite IH by (intros; apply A; right; assumption).
        unfold weight. rewrite (A e (or_introl eq_refl)). destruct a; reflexivity. }
      rewrite Ws. unfold weight. rewrite Kn. assert (1 <= length sel)%nat by (rewrite Es; cbn; lia). cbn. destruct a; cbn in *; [specialize (L2 ltac:(discriminate))|specialize (L2 ltac:(discriminate))|]; lia.
  - unfold up in H. destruct (discard m d w) as [[m1 d1]|] eqn:P; [|discriminate]. injection H as <- <- <-. unfold discard in P. destruct (m_workers m w) eqn:W; try discriminate. destruct names; injection P as <- _; (apply Same; auto; intros w' a' sel' R'; cbn; case_upd w'; [rewrite W in R'; discriminate|exact R']).
  - destruct (_ || _); [|discriminate]. injection H as <- <- <-. apply Same; auto.
  - destruct (m_lock m); [discriminate|]. destruct (m_readers m r); injection H as <- <- <-; apply Same; auto.
  - injection H as <- <- <-. apply Same; auto.
  - discriminate.
  - discriminate.
  - discriminate.
Qed.
Definition qi (s : sys) : Prop := match s with Up m _ _ => QI m | Down _ _ => True end.
Lemma qi_steps ls : forall s s', good s -> qi s -> steps false ls s = Some s' -> qi s'.
Proof.
  induction ls as [|l r IH]; intros s s' G Q H; cbn [StoreModel.steps] in H; [injection H as <-; exact Q|]. destruct (step false l s) as [s1|] eqn:E; [|discriminate].
  pose proof (good_step sort merge Hs Hm l s s1 G E) as G1. apply (IH s1 s' G1); [|exact H]. destruct s1 as [m1 d1 g1|]; [|exact Logic.I]. destruct s as [m d g|d g].
  - apply (quiet_step l m d g m1 d1 g1 G Q E).
  - cbn [StoreModel.step] in E. destruct (opening sort merge d) as [[acts m2]|] eqn:Eo; [|destruct l; discriminate]. destruct l; try discriminate. injection E as <- _ _.
    destruct (opening_ok sort merge Hs Hm d g G) as (acts' & m' & Eo' & _ & _ & V). rewrite Eo in Eo'. injection Eo' as <- <-. split.
    + intros e He K. apply V in He. unfold visible in He. rewrite K in He. discriminate.
    + unfold opening in Eo. destruct (recover _ _ _) as [[[shards ?] removed]|]; [|discriminate]. destruct (load_all _ _ _) as [es|]; [|discriminate]. injection Eo as _ <-. cbn. contradiction.
Qed.
(** While a process runs, merges are limited by the shards there were and the transactions
    made ready. *)
Lemma installs_cons l r : installs (l :: r) = (installs [l] + installs r)%nat.
Proof. unfold installs. cbn. destruct l; reflexivity. Qed.
Lemma places_cons l r : places (l :: r) = (places [l] + places r)%nat.
Proof. unfold places. cbn. destruct l; reflexivity. Qed.
Lemma merges_run ls : forall m d g m' d' g', Inv m d g -> QI m -> steps false ls (Up m d g) = Some (Up m' d' g') -> ~ In LOpen ls -> (work m' + installs ls <= work m + 2 * places ls)%nat.
Proof.
  assert (Dn : forall xs d g m' d' g', steps false xs (Down d g) = Some (Up m' d' g') -> In LOpen xs).
  { induction xs as [|l r IH]; intros d g m' d' g' H; cbn [StoreModel.steps StoreModel.step] in H; [discriminate|]. destruct (opening sort merge d) as [[acts m2]|]; [|destruct l; discriminate].
    destruct l; try discriminate; [right; apply (IH _ _ _ _ _ H)|left; reflexivity]. }
  induction ls as [|l r IH]; intros m d g m' d' g' G Q H N; [cbn in H; injection H as <- <- <-; cbn; lia|]. cbn [StoreModel.steps] in H. destruct (step false l (Up m d g)) as [[m1 d1 g1|d1 g1]|] eqn:E; [| |discriminate].
  - destruct (quiet_step l m d g m1 d1 g1 G Q E) as [Q1 W]. pose proof (good_step sort merge Hs Hm l (Up m d g) _ G E) as G1. specialize (IH m1 d1 g1 m' d' g' G1 Q1 H ltac:(intros X; apply N; right; exact X)).
    rewrite installs_cons, places_cons. lia.
  - exfalso. apply N. right. apply (Dn _ _ _ _ _ _ H).
Qed.
Theorem merges_bounded ls1 ls2 m d g m' d' g' : steps false ls1 start = Some (Up m d g) -> steps false ls2 (Up m d g) = Some (Up m' d' g') -> ~ In LOpen ls2 -> (work m' + installs ls2 <= work m + 2 * places ls2)%nat.
Proof.
  intros H. pose proof (good_steps sort merge Hs Hm ls1 start _ start_good H) as G. cbn in G. pose proof (qi_steps ls1 start _ start_good Logic.I H) as Q. apply (merges_run ls2 m d g m' d' g' G Q).
Qed.
(** When every transaction has ended and every worker has come to its end, at most three
    shards are left, provided their numbers are consecutive. *)
Theorem at_rest ls m d g size recoveries max_workers : steps false ls start = Some (Up m d g) -> (2 <= max_workers)%nat -> (forall e, 0 <= size e) ->
  (forall i x, ~ holder m i x) -> (forall w sel, ~ selected m w sel) -> (forall x y, neighbours (cleanup (m_entries m)) x y -> e_start y = e_end x + 1) ->
  decide m size recoveries max_workers = None -> (length (cleanup (m_entries m)) <= 3)%nat.
Proof.
  intros H Mw Sz Nh Nw Nb D. pose proof (good_steps sort merge Hs Hm ls start _ start_good H) as G. cbn in G. pose proof (qi_steps ls start _ start_good Logic.I H) as [Q1 Q2].
  set (l := cleanup (m_entries m)) in *.
  assert (Vl : forall e, In e l -> eligible m e = true /\ visible e = true /\ 0 <= size e).
  { intros e He. apply filter_In in He. destruct He as [He K]. split; [|split; [|apply Sz]].
    - unfold eligible. destruct (existsb _ _) eqn:X; [|reflexivity]. apply existsb_exists in X. destruct X as (k & Hk & _). destruct (Q2 k Hk) as (w & a & sel & R & _). exfalso. apply (Nw w sel). apply selected_run. exists a. exact R.
    - unfold visible. destruct (e_kind e) eqn:Ek; try reflexivity; [|discriminate]. exfalso. destruct (Q1 e He Ek) as (i & x & O). apply (Nh i x). unfold holder. unfold owner in O. destruct (m_clones m i); try discriminate; injection O as _ ->; reflexivity. }
  assert (Fn : find_merge_action m size recoveries max_workers l = None).
  { destruct (decide_none m size recoveries max_workers l eq_refl D) as [F|(s & e & sel & _ & (p & q & E & _ & _) & _ & C)]; [exact F|exfalso].
    assert (Lt : forall e, In e sel -> e_end e <> maxf).
    { intros x Hx. assert (In x (m_entries m)) by (apply (proj1 (filter_In (fun e => negb (kind_eqb (e_kind e) Gone)) x (m_entries m))); change (In x l); rewrite E, !in_app_iff; auto). pose proof (i_ent _ _ _ G x H0). pose proof (i_seq _ _ _ G). lia. }
    assert (C' : contiguous sel = true); [|congruence]. clear C. revert p E. induction sel as [|a [|b sel] IH]; intros p E; try reflexivity. cbn [contiguous].
    rewrite (Nb a b) by (exists p, (sel ++ q); rewrite E; reflexivity). rewrite Z.eqb_refl. destruct (Z.eqb_spec (e_end a) maxf) as [X|_]; [destruct (Lt a (or_introl eq_refl) X)|]. cbn [negb andb].
    apply (IH (fun e He => Lt e (or_intror He)) (p ++ [a])). rewrite <- app_assoc. exact E. }
  destruct (rest m size recoveries max_workers l Mw Vl Fn) as [->|[(x & ->)|(f & h & f' & -> & _)]]; cbn; lia.
Qed.
End Run.
