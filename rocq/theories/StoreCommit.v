(** Placing, committing and aborting a transaction keep the invariant. *)
From Verif Require Import Base Bytes NameModel NameSpec NameProofs RecoverAll StoreModel StoreSpec StoreDir StoreInv StoreFacts StoreClone.
From Coq Require Import Sorting.Sorted.

Lemma run_frame m m' a sel : run_ok m a sel -> (forall e, In e sel -> In e (m_entries m) -> In e (m_entries m')) ->
  (forall e, In e (m_entries m') -> (exists e0, In e0 (m_entries m) /\ e_start e0 = e_start e /\ e_end e0 = e_end e /\ (In e0 sel -> e = e0)) \/ sel_end sel < e_start e) ->
  (forall e, In e sel -> In (e_id e) (m_merging m) -> In (e_id e) (m_merging m')) -> run_ok m' a sel.
Proof.
  intros (A & B & C & D & E & F) H1 H2 H3. repeat split; try assumption.
  - apply H1; [assumption|]. apply D. assumption.
  - apply D. assumption.
  - apply H3; [assumption|]. apply D. assumption.
  - intros e He. destruct (H2 e He) as [(e0 & K1 & K2 & K3 & K4)|K]; [|auto]. destruct (F e0 K1) as [K|K]; [left; rewrite (K4 K); exact K|right; lia].
Qed.
Lemma beneath_frame m m' n : (forall v, In v (m_entries m) -> visible v = true -> In v (m_entries m')) -> beneath m n -> beneath m' n.
Proof. intros H (k & s & e & v & A & B & C & D & E). exists k, s, e, v. repeat split; try tauto; try lia. apply H; assumption. Qed.
Lemma worker_frame m m' d d' w : worker_ok m d w -> (forall a sel, run_of w = Some (a, sel) -> run_ok m a sel -> run_ok m' a sel) ->
  (forall v, In v (m_entries m) -> visible v = true -> In v (m_entries m')) ->
  (forall a sel, linkedw w = Some (a, sel) -> find d (out_name a sel) = Some (out_file sel) -> find d' (out_name a sel) = Some (out_file sel)) ->
  (forall n, wsrc w = Some n -> find d' n = find d n) -> worker_ok m' d' w.
Proof.
  intros (A & B & C) H1 H2 H3 H4. split; [intros a sel R; apply (H1 a sel R), A, R|]. split; [intros a sel R; apply (H3 a sel R), B, R|].
  destruct w; try exact C.
  - destruct C as (C1 & C2 & C3). repeat split; try assumption. intros P. rewrite (H4 (p_src p) eq_refl). apply C3. exact P.
  - intros n Hn. apply (beneath_frame m); [exact H2|]. apply C. exact Hn.
Qed.
Lemma sorted_snoc {A} (R : A -> A -> Prop) l x : StronglySorted R l -> Forall (fun y => R y x) l -> StronglySorted R (l ++ [x]).
Proof.
  induction 1 as [|a l S1 IH F]; intros Hx; cbn; [constructor; constructor|]. inversion Hx; subst. constructor; [apply IH; assumption|].
  apply Forall_app. split; [exact F|]. constructor; [assumption|constructor].
Qed.

Lemma place_inv m d g i n b m' : Inv m d g -> m_clones m i = Open n b -> place m i n b = Some m' -> Inv m' d g.
Proof.
  intros I E H. unfold place in H. destruct (m_sequence m <? maxf) eqn:L; [|discriminate]. apply Z.ltb_lt in L. injection H as <-.
  pose proof (i_seq _ _ _ I) as Hq. set (x := Txn (m_sequence m) (m_address m) n b). set (new := Entry (m_next m) Kitten (t_seq x) (t_seq x) [x]).
  assert (Hnew : forall v, In v (m_entries m) -> In v (m_entries m ++ [new])) by (intros v Hv; apply in_app_iff; left; exact Hv).
  constructor; try apply I; cbn; fold x new.
  - lia.
  - apply sorted_snoc; [apply I|]. apply Forall_forall. intros v Hv. apply (i_ent _ _ _ I) in Hv. cbn. lia.
  - rewrite map_app. cbn.
    apply (NoDup_Add (a := m_next m) (l := map e_id (m_entries m))); [rewrite <- (app_nil_r (map e_id (m_entries m))) at 1; apply Add_app|].
    split; [apply I|]. intros K. apply in_map_iff in K. destruct K as (v & Hv & K). apply (i_ent _ _ _ I) in K. lia.
  - intros v Hv. apply in_app_iff in Hv. destruct Hv as [Hv|[<-|[]]]; [apply (i_ent _ _ _ I) in Hv; lia|cbn; lia].
  - intros v Hv V. apply in_app_iff in Hv. destruct Hv as [Hv|[<-|[]]]; [apply (i_vis _ _ _ I v Hv V)|discriminate].
  - intros j. case_upd j.
    + split; [|exact Logic.I]. cbn. intros id y K. injection K as <- <-. apply in_app_iff. right. left. reflexivity.
    + pose proof (i_cl _ _ _ I j) as [A B]. split; [|exact B]. intros id y K. apply Hnew, A, K.
  - intros a c id y z A B. case_upd a; case_upd c; try reflexivity.
    + cbn in A. injection A as <- <-. apply (own_in _ _ _ I), (i_ent _ _ _ I) in B. cbn in B. lia.
    + cbn in B. injection B as <- <-. apply (own_in _ _ _ I), (i_ent _ _ _ I) in A. cbn in A. lia.
    + apply (i_own _ _ _ I a c id y z A B).
  - apply (same_kit m d g); [exact I|]. rewrite E. reflexivity.
  - intros w. apply (worker_frame m _ d d); auto; [apply I|]. intros a sel R Rk. apply (run_frame m); auto.
    intros e He. apply in_app_iff in He. destruct He as [He|[<-|[]]].
    + left. exists e. repeat split; auto.
    + right. apply (run_range _ _ _ I) in Rk. cbn. lia.
  - intros k. pose proof (i_jb _ _ _ I k) as J. destruct (m_jobs m k) as [|is tmp seqs st]; [exact J|]. destruct J as (Nd & A & B & C & D).
    split; [exact Nd|]. split; [exact A|]. split; [exact B|]. split; [intros s Hs; cbn; specialize (C s Hs); lia|]. cbn. intros j id y. case_upd j; [|apply D].
    cbn. intros K Hs. injection K as <- <-. specialize (C _ Hs). cbn in C. lia.
  - assert (T : forall a, src (Mem (m_address m + n) (m_sequence m + 1) (m_entries m ++ [new]) (m_merging m) (m_gen m)
              (S (m_next m)) (m_temp m) (m_lock m) (upd (m_clones m) i (Placed (m_next m) x)) (m_workers m) (m_jobs m) (m_readers m)) a = src m a).
    { intros [j|w|k]; cbn; auto. case_upd j; [rewrite E; reflexivity|reflexivity]. }
    intros a c y A B. rewrite T in A, B. apply (i_src _ _ _ I _ _ _ A B).
  - intros a y A. apply (i_tmp _ _ _ I a). destruct a as [j|w|k]; cbn in A |- *; auto. case_upd j; [discriminate|exact A].
  - intros y f F K. destruct (i_sh _ _ _ I y f F K) as (k & s & e & l & A1 & A2 & A3 & A4 & A5 & A6 & C). exists k, s, e, l. do 6 (split; [assumption|]).
    destruct C as [(v & C1 & C2)|[C|(j & id & z & c & Ej & C)]]; [left; exists v; split; [apply Hnew; exact C1|exact C2]|right; left; exact C|].
    right. right. exists j, id, z, c. split; [|exact C]. cbn. rewrite upd_other; [exact Ej|]. intros ->. congruence.
  - split; [apply I|]. intros y Hy. apply (i_g _ _ _ I) in Hy. lia.
  - intros y Hy. destruct (i_dur _ _ _ I y Hy) as [(v & A & B)|(j & A)]; [left; exists v; split; [apply Hnew; exact A|exact B]|right]. exists j.
    case_upd j; [rewrite E in A; discriminate|exact A].
  - intros j y A. case_upd j; [discriminate|apply (i_lead _ _ _ I j); exact A].
  - intros j id y A B z Hz. case_upd j; [cbn in A; injection A as <- <-; cbn; apply (i_g _ _ _ I) in Hz; lia|apply (i_fresh _ _ _ I j id y A B z Hz)].
Qed.

Lemma holds_add g g' x s e l : (forall y, In y g' <-> In y g \/ y = x) -> ~ (s <= t_seq x <= e) -> holds g s e l -> holds g' s e l.
Proof.
  intros G N [A B]. split; [exact A|]. intros y. rewrite B, G. split; [tauto|]. intros [[Hy|Hy] R]; [tauto|subst y; contradiction].
Qed.
Lemma holds_one g x : NoDup (map t_seq g) -> In x g -> holds g (t_seq x) (t_seq x) [x].
Proof.
  intros N H. split; [constructor; constructor|]. intros y. cbn. split.
  - intros [<-|[]]. split; [exact H|lia].
  - intros [Hy R]. left. apply (seq_unique g); auto; lia.
Qed.
Lemma may_commit_job m d g i id x k : Inv m d g -> m_clones m i = Ready id x (Some k) -> may_commit m (Some k) = true ->
  exists is tmp seqs, m_jobs m k = Job is tmp seqs JClean /\ In i is /\ In (t_seq x) seqs.
Proof.
  intros I E M. pose proof (proj2 (i_cl _ _ _ I i)) as K. rewrite E in K. destruct K as (_ & is & tmp & seqs & st & J & A & B).
  cbn in M. rewrite J in M. destruct st; try discriminate. exists is, tmp, seqs. auto.
Qed.
Lemma commit_core m d g i id x j f g' : Inv m d g -> m_lock m = None -> m_clones m i = Ready id x j -> may_commit m j = true ->
  find d (kitten_name x) = Some f -> find d (fiver_name x) = None -> (forall y, In y g' <-> In y g \/ y = x) -> NoDup (map t_seq g') ->
  Inv (set_lock (set_clone m i (Committing id x j)) (Some i)) (put (fiver_name x) f d) g'.
Proof.
  intros I Lk E M Fk Ff G Ng. assert (Oi : owner (m_clones m i) = Some (id, x)) by (rewrite E; reflexivity).
  assert (Hx : t_data x <> [] /\ f = xfile x).
  { apply (i_kit _ _ _ I) in Fk. destruct Fk as (j' & y & A & B & C). destruct (kit_owner _ _ A) as [id' A'].
    assert (j' = i) by (apply (own_same _ _ _ I _ _ _ _ _ _ A' Oi B)). subst j'. rewrite E in A. cbn in A.
    destruct (t_data x) eqn:D; [discriminate|]. injection A as <-. split; [discriminate|exact C]. }
  destruct Hx as [Hd ->].
  assert (Nc : forall a b c e, m_clones m a <> Committing b c e) by (intros a b c e K; apply (committing_lock _ _ _ I) in K; congruence).
  assert (Mo : forall n h, find d n = Some h -> find (put (fiver_name x) (xfile x) d) n = Some h).
  { intros n h F. rewrite find_put_other; [exact F|]. intros <-. congruence. }
  assert (Se : forall n, first n <> 102 -> find (put (fiver_name x) (xfile x) d) n = find d n).
  { intros n Hn. apply find_put_other. intros <-. apply Hn. reflexivity. }
  assert (Ns : forall a n, src m a = Some n -> find (put (fiver_name x) (xfile x) d) n = find d n).
  { intros a n A. apply Se. destruct (not_tmp _ _ _ I _ _ A) as [T|T]; rewrite T; discriminate. }
  assert (U : forall k s e h, k = FiverK \/ k = HazelK -> find d (shard_name (kname k) s e) = Some h -> ~ (s <= t_seq x <= e)).
  { intros k s e h K F R. destruct (sh_cover _ _ _ I _ _ _ _ F K) as (_ & _ & C & _). destruct (own_covered _ _ _ I _ _ _ _ _ _ Oi C R) as ((c & K') & _). apply (Nc _ _ _ _ K'). }
  assert (Sx : 0 <= t_seq x < m_sequence m) by (apply (own_range _ _ _ I _ _ _ Oi)).
  constructor; try apply I; cbn.
  - apply nodup_put, I.
  - intros v Hv V. destruct (i_vis _ _ _ I v Hv V) as [A B]. split; [|apply Mo; exact B]. apply (holds_add g _ x); [exact G| |exact A].
    destruct (own_hidden _ _ _ I _ _ _ _ Oi Hv V); lia.
  - intros a. case_upd a.
    + split; [cbn; intros b y K; apply (own_in _ _ _ I i); rewrite E; exact K|]. cbn. split; [exact Hd|]. split; [reflexivity|]. split; [apply find_put_same|].
      intros k ->. apply (may_commit_job m d g i id x k I E M).
    + pose proof (i_cl _ _ _ I a) as [A B]. split; [exact A|]. pose proof (Ns (Cl a)) as Sj. cbn in Sj. pose proof (Nc a) as Na.
      destruct (m_clones m a) as [| |id' y|id' y q|id' y [k|]|id' y|id' y k]; try exact B.
      * destruct B as (B1 & B2 & B3 & B4). repeat split; try assumption. intros Hq. apply Mo, B4, Hq.
      * exfalso. apply (Na id' y k). reflexivity.
  - assert (K : forall a, owner (upd (m_clones m) i (Committing id x j) a) = owner (m_clones m a)) by (intros a; case_upd a; [rewrite E; reflexivity|reflexivity]).
    intros a b id' y z A B. rewrite K in A, B. apply (i_own _ _ _ I a b id' y z A B).
  - intros s h. rewrite Se by discriminate. apply (same_kit m d g); [exact I|]. rewrite E. cbn. destruct (t_data x); [contradiction|reflexivity].
  - intros w. apply (worker_frame m _ d); [apply I| |auto|auto|intros n A; apply (Ns (Wk w)); exact A].
    intros a sel _ R. apply (run_frame m); auto. intros e He. left. exists e. auto.
  - intros k. pose proof (i_jb _ _ _ I k) as J. destruct (m_jobs m k) as [|is tmp seqs st]; [exact J|]. destruct J as (Nd & A & B & C & D).
    split; [exact Nd|]. split; [intros K; apply Mo, A, K|]. split; [intros K; apply Mo, B, K|]. split; [exact C|]. cbn. intros a id' y. case_upd a; [|apply D].
    intros K Hs. specialize (D i id' y). rewrite E in D. apply D; assumption.
  - assert (T : forall a, src (set_lock (set_clone m i (Committing id x j)) (Some i)) a = src m a).
    { intros [a|w|k]; cbn; auto. case_upd a; [rewrite E; reflexivity|reflexivity]. }
    intros a c y A B. rewrite T in A, B. apply (i_src _ _ _ I _ _ _ A B).
  - intros a y A. apply (i_tmp _ _ _ I a). destruct a as [a|w|k]; cbn in A |- *; auto. case_upd a; [discriminate|exact A].
  - intros n h F K. rewrite find_put in F. destruct (bytes_eq_dec (fiver_name x) n) as [<-|Nn].
    + injection F as <-. exists FiverK, (t_seq x), (t_seq x), [x]. split; [reflexivity|]. split; [auto|]. split; [lia|]. split; [pose proof (i_seq _ _ _ I); lia|].
      split; [reflexivity|]. split; [apply holds_one; [exact Ng|apply G; auto]|]. right. right. exists i, id, x, j. cbn. rewrite upd_same. auto.
    + destruct (i_sh _ _ _ I n h F K) as (k & s & e & l & A1 & A2 & A3 & A4 & A5 & A6 & C). exists k, s, e, l. do 5 (split; [assumption|]).
      split; [apply (holds_add g _ x); [exact G| |exact A6]; rewrite A1 in F; apply (U k s e h A2 F)|].
      destruct C as [C|[C|(a & b & c & e' & Ea & _)]]; [left; exact C|right; left; exact C|]. exfalso. apply (Nc _ _ _ _ Ea).
  - assert (Q : forall k s e h, k = FiverK \/ k = HazelK -> find d (shard_name (kname k) s e) = Some h -> e < t_seq x \/ t_seq x < s).
    { intros k s e h K F. pose proof (U k s e h K F). destruct (sh_cover _ _ _ I _ _ _ _ F K) as (R & _). lia. }
    intros k s e h k' s' e' h' F F' K K'. rewrite find_put in F, F'.
    destruct (bytes_eq_dec (fiver_name x) (shard_name (kname k) s e)) as [X|X]; destruct (bytes_eq_dec (fiver_name x) (shard_name (kname k') s' e')) as [X'|X'].
    + apply (shard_inj FiverK) in X, X'. destruct X as (<- & <- & <-), X' as (<- & <- & <-). right. right. left. repeat split; auto; lia.
    + apply (shard_inj FiverK) in X. destruct X as (<- & <- & <-). destruct (Q _ _ _ _ K' F'); [right; left|left]; assumption.
    + apply (shard_inj FiverK) in X'. destruct X' as (<- & <- & <-). destruct (Q _ _ _ _ K F); [left|right; left]; assumption.
    + apply (i_lam _ _ _ I _ _ _ _ _ _ _ _ F F' K K').
  - intros n h F K. rewrite Se in F by (rewrite K; discriminate). apply (i_scr _ _ _ I n h F K).
  - split; [exact Ng|]. intros y Hy. apply G in Hy. destruct Hy as [Hy| ->]; [apply (i_g _ _ _ I); exact Hy|exact Sx].
  - intros y Hy. apply G in Hy. destruct Hy as [Hy| ->]; [|right; exists i; rewrite upd_same; reflexivity].
    destruct (i_dur _ _ _ I y Hy) as [A|(a & A)]; [left; exact A|right]. exists a. case_upd a; [|exact A].
    rewrite E in A. cbn in A. destruct j as [k|]; [|discriminate]. destruct (linked (m_jobs m k)); [exact A|discriminate].
  - intros a y A. case_upd a; [cbn in A; injection A as <-; apply G; auto|]. apply G. left. apply (i_lead _ _ _ I a). exact A.
  - intros a id' y A B z Hz. case_upd a; [discriminate|]. apply G in Hz. destruct Hz as [Hz| ->]; [apply (i_fresh _ _ _ I a id' y A B z Hz)|].
    intros K. apply Nu. symmetry in K. apply (own_same _ _ _ I _ _ _ _ _ _ A Oi K).
Qed.
Lemma commit_link_inv m d g i s : Inv m d g -> m_lock m = None -> commit_link m d g i = Some s ->
  match s with Up m' d' g' => Inv m' d' g' | Down d' g' => d' = d /\ g' = g end.
Proof.
  intros I Lk H. unfold commit_link in H. destruct (m_clones m i) as [| |id x|id x p|id x j|id x|id x j] eqn:E; try discriminate.
  destruct (may_commit m j) eqn:M; [|discriminate]. destruct (link (kitten_name x) (fiver_name x) d) as [d'|] eqn:L; [|injection H as <-; split; reflexivity].
  injection H as <-. apply link_some in L. destruct L as (f & L1 & L2 & ->).
  assert (Oi : owner (m_clones m i) = Some (id, x)) by (rewrite E; reflexivity).
  apply (commit_core m d g); auto.
  - destruct j as [k|]; intros y.
    + destruct (may_commit_job m d g i id x k I E M) as (is & tmp & seqs & J & _). split; [auto|]. intros [K| ->]; [exact K|].
      apply (i_lead _ _ _ I i). rewrite E. cbn. rewrite J. reflexivity.
    + rewrite in_app_iff. cbn. intuition.
  - destruct j as [k|]; [apply I|]. rewrite map_app. cbn.
    apply (NoDup_Add (a := t_seq x) (l := map t_seq g)); [rewrite <- (app_nil_r (map t_seq g)) at 1; apply Add_app|]. split; [apply I|].
    intros K. apply in_map_iff in K. destruct K as (y & K1 & K2). apply (i_fresh _ _ _ I i id x Oi) in K2; [contradiction|]. rewrite E. reflexivity.
Qed.

(** The end of a transaction. *)
Lemma with_kind_in l id k v : In v (map (with_kind id k) l) ->
  (exists e, In e l /\ e_id e = id /\ v = Entry id k (e_start e) (e_end e) (e_txns e)) \/ (In v l /\ e_id v <> id).
Proof.
  intros H. apply in_map_iff in H. destruct H as (e & E & He). unfold with_kind in E. destruct (Nat.eqb_spec (e_id e) id) as [K|K].
  - left. exists e. subst v. rewrite K. auto.
  - right. subst v. auto.
Qed.
Lemma with_kind_keep l id k v : In v l -> e_id v <> id -> In v (map (with_kind id k) l).
Proof. intros H N. apply in_map_iff. exists v. split; [|exact H]. unfold with_kind. apply Nat.eqb_neq in N. rewrite N. reflexivity. Qed.
Lemma with_kind_new l id k v : In v l -> e_id v = id -> In (Entry id k (e_start v) (e_end v) (e_txns v)) (map (with_kind id k) l).
Proof. intros H N. apply in_map_iff. exists v. split; [|exact H]. unfold with_kind. rewrite N, Nat.eqb_refl. reflexivity. Qed.
Lemma with_kind_sorted l id k : StronglySorted (fun a b => e_end a < e_start b) l -> StronglySorted (fun a b => e_end a < e_start b) (map (with_kind id k) l).
Proof.
  assert (W : forall e, e_start (with_kind id k e) = e_start e /\ e_end (with_kind id k e) = e_end e) by (intros e; unfold with_kind; destruct (Nat.eqb _ _); auto).
  induction 1 as [|a l _ IH F]; cbn; constructor; [exact IH|]. rewrite Forall_forall in F |- *. intros v Hv. apply in_map_iff in Hv. destruct Hv as (e & <- & He).
  rewrite (proj2 (W a)), (proj1 (W e)). apply F. exact He.
Qed.
Lemma with_kind_ids l id k : map e_id (map (with_kind id k) l) = map e_id l.
Proof. rewrite map_map. apply map_ext. intros e. unfold with_kind. destruct (Nat.eqb _ _); reflexivity. Qed.
Lemma retire_core m d g i id x k gen lock : Inv m d g -> owner (m_clones m i) = Some (id, x) ->
  (k = FiverK /\ exists j, m_clones m i = Committing id x j) \/ (k = Gone /\ lead m (m_clones m i) = None) ->
  (forall a b c e, a <> i -> m_clones m a = Committing b c e -> lock = Some a) ->
  Inv (Mem (m_address m) (m_sequence m) (map (with_kind id k) (m_entries m)) (m_merging m) gen (m_next m) (m_temp m) lock (upd (m_clones m) i Idle) (m_workers m) (m_jobs m) (m_readers m))
      (erase (kitten_name x) d) g.
Proof.
  intros I Oi Hk Hl. pose proof (own_in _ _ _ I _ _ _ Oi) as Ie.
  assert (Un : forall v, In v (m_entries m) -> e_id v = id -> v = own_entry id x) by (intros v Hv E; apply (id_unique (m_entries m)); auto; apply I).
  assert (Vn : forall v, In v (m_entries m) -> visible v = true -> e_id v <> id) by (intros v Hv V E; rewrite (Un v Hv E) in V; discriminate).
  assert (Ve : forall v, In v (m_entries m) -> visible v = true -> In v (map (with_kind id k) (m_entries m))) by (intros v Hv V; apply with_kind_keep; auto).
  assert (Nk : forall n, first n <> 107 -> find (erase (kitten_name x) d) n = find d n) by (intros n Hn; apply find_erase_other; intros <-; apply Hn; reflexivity).
  assert (Ns : forall a n, src m a = Some n -> find (erase (kitten_name x) d) n = find d n).
  { intros a n A. apply Nk. destruct (not_tmp _ _ _ I _ _ A) as [T|T]; rewrite T; discriminate. }
  assert (Hc : forall j, m_clones m i = Committing id x j -> find d (fiver_name x) = Some (xfile x)) by (intros j E; pose proof (proj2 (i_cl _ _ _ I i)) as K; rewrite E in K; apply K).
  constructor; try apply I; cbn.
  - apply nodup_erase, I.
  - apply with_kind_sorted, I.
  - rewrite with_kind_ids. apply I.
  - intros v Hv. apply with_kind_in in Hv. destruct Hv as [(e & He & E1 & ->)|[Hv _]]; [apply (i_ent _ _ _ I) in He; cbn; lia|apply (i_ent _ _ _ I v Hv)].
  - intros v Hv V. apply with_kind_in in Hv. destruct Hv as [(e & He & E1 & ->)|[Hv _]].
    + destruct Hk as [[-> [j E]]|[-> _]]; [|discriminate]. rewrite (Un e He E1) in *. cbn. pose proof (Hc j E) as F. split.
      * destruct (sh_cover _ _ _ I FiverK (t_seq x) (t_seq x) _ F) as (_ & _ & _ & l & K1 & K2); [auto|]. injection K1 as <-. exact K2.
      * rewrite Nk by discriminate. exact F.
    + destruct (i_vis _ _ _ I v Hv V) as [A B]. split; [exact A|]. rewrite Nk; [exact B|]. unfold ename. rewrite first_shard. apply visible_kind in V. destruct V as [-> | ->]; discriminate.
  - intros a. case_upd a; [split; [discriminate|exact Logic.I]|]. pose proof (i_cl _ _ _ I a) as [A B]. split.
    + intros id' y K. apply with_kind_keep; [apply A; exact K|]. cbn. intros ->. apply Nu. apply (i_own _ _ _ I a i id y x K Oi).
    + pose proof (Ns (Cl a)) as Sj. cbn in Sj. pose proof (Hl a) as Hla. destruct (m_clones m a) as [| |id' y|id' y q|id' y [c|]|id' y|id' y c]; try exact B.
      * destruct B as (B1 & B2 & B3 & B4). repeat split; try assumption. intros Hq. rewrite Sj by reflexivity. apply B4, Hq.
      * destruct B as (B1 & B2 & B3 & B4). repeat split; try assumption; [apply (Hla id' y c Nu eq_refl)|]. rewrite Nk by discriminate. exact B3.
  - intros a b id' y z A B. case_upd a; [discriminate|]. case_upd b; [discriminate|]. apply (i_own _ _ _ I a b id' y z A B).
  - intros s f. destruct (Z.eq_dec (t_seq x) s) as [<-|Ne].
    + change (shard_name (lit "kitten") (t_seq x) (t_seq x)) with (kitten_name x). rewrite find_erase_same. split; [discriminate|].
      intros (j & y & A & B & _). case_upd j; [discriminate|]. apply kit_owner in A. destruct A as [id' A]. exfalso. apply Nu. apply (own_same _ _ _ I _ _ _ _ _ _ A Oi B).
    + rewrite find_erase_other; [|intros A; apply (shard_name_inj (lit "kitten")) in A; lia]. rewrite (i_kit _ _ _ I).
      split; intros (j & y & A & B & C); exists j, y.
      * case_upd j; [|auto]. exfalso. apply kit_owner in A. destruct A as [id' A]. rewrite Oi in A. injection A as _ <-. contradiction.
      * case_upd j; [discriminate|auto].
  - intros w. apply (worker_frame m _ d); [apply I| |exact Ve| |intros n A; apply (Ns (Wk w)); exact A].
    + intros a sel _ R. pose proof R as (_ & _ & _ & Q & _). apply (run_frame m); auto.
      * intros e He He'. apply Ve; [exact He'|]. apply Q in He. destruct He as (_ & He & _). apply (in_kind_visible _ _ He).
      * intros e He. left. apply with_kind_in in He. destruct He as [(e0 & He & E1 & ->)|[He N]]; [|exists e; auto].
        exists e0. split; [exact He|]. split; [reflexivity|]. split; [reflexivity|]. intros Hs. exfalso. apply Q in Hs. destruct Hs as (_ & Hs & _).
        apply in_kind_visible in Hs. apply (Vn e0 He Hs E1).
    + intros a sel _ F. rewrite Nk; [exact F|]. unfold out_name. rewrite first_shard. destruct a; discriminate.
  - intros c. pose proof (i_jb _ _ _ I c) as J. pose proof (Ns (Jb c)) as Sj. cbn in Sj. destruct (m_jobs m c) as [|is tmp seqs st]; [exact J|]. destruct J as (Nd & A & B & C & D).
    split; [exact Nd|]. split; [intros ->; rewrite Sj by reflexivity; apply A; reflexivity|]. split; [intros K; rewrite Nk by discriminate; apply B, K|]. split; [exact C|]. cbn.
    intros a id' y. case_upd a; [discriminate|apply D].
  - intros a b n A B. apply (i_src _ _ _ I _ _ n).
    + destruct a as [a|w|c]; cbn in A |- *; auto. case_upd a; [discriminate|exact A].
    + destruct b as [b|w|c]; cbn in B |- *; auto. case_upd b; [discriminate|exact B].
  - intros a n A. apply (i_tmp _ _ _ I a). destruct a as [a|w|c]; cbn in A |- *; auto. case_upd a; [discriminate|exact A].
  - intros n f F K. rewrite Nk in F by (intros X; rewrite X in K; destruct K; discriminate).
    destruct (i_sh _ _ _ I n f F K) as (k' & s & e & l & A1 & A2 & A3 & A4 & A5 & A6 & C). exists k', s, e, l. do 6 (split; [assumption|]).
    destruct C as [(v & C1 & C2 & C3)|[C|(a & b & c & e' & Ea & C1 & C2 & C3)]]; [left; exists v; split; [apply Ve; assumption|tauto]|right; left; exact C|].
    destruct (Nat.eq_dec a i) as [->|Na].
    + left. destruct Hk as [[-> [j E]]|[_ Hk]]; [|rewrite Ea in Hk; discriminate]. rewrite Ea in E. injection E as -> -> _. subst.
      exists (Entry id FiverK (t_seq x) (t_seq x) [x]). split; [apply (with_kind_new (m_entries m) id FiverK (own_entry id x) Ie eq_refl)|]. cbn. repeat split; try lia. discriminate.
    + right. right. exists a, b, c, e'. cbn. rewrite upd_other by exact Na. auto.
  - intros k1 s1 e1 f1 k2 s2 e2 f2 F F' K K'. rewrite Nk in F by (destruct K; subst k1; discriminate). rewrite Nk in F' by (destruct K'; subst k2; discriminate).
    apply (i_lam _ _ _ I _ _ _ _ _ _ _ _ F F' K K').
  - intros n f F K. rewrite Nk in F by (rewrite K; discriminate). apply (i_scr _ _ _ I n f F K).
  - intros y Hy. destruct (i_dur _ _ _ I y Hy) as [(v & A & B & C)|(a & A)]; [left; exists v; split; [apply Ve; assumption|tauto]|].
    destruct (Nat.eq_dec a i) as [->|Na]; [|right; exists a; rewrite upd_other by exact Na; exact A].
    left. destruct Hk as [[-> [j E]]|[_ Hk]]; [|congruence]. rewrite E in A. cbn in A. injection A as <-.
    exists (Entry id FiverK (t_seq x) (t_seq x) [x]). split; [apply (with_kind_new (m_entries m) id FiverK (own_entry id x) Ie eq_refl)|]. cbn. split; [reflexivity|lia].
  - intros a y A. case_upd a; [discriminate|]. apply (i_lead _ _ _ I a). exact A.
  - intros a id' y A B. case_upd a; [discriminate|]. apply (i_fresh _ _ _ I a id' y A B).
Qed.
Lemma commit_finish_inv m d g i m' d' : Inv m d g -> commit_finish m d i = Some (m', d') -> Inv m' d' g.
Proof.
  intros I H. unfold commit_finish in H. destruct (m_clones m i) as [| |id x|id x p|id x j|id x|id x j] eqn:E; try discriminate. injection H as <- <-.
  apply (retire_core m d g i id x FiverK (S (m_gen m)) None I).
  - rewrite E. reflexivity.
  - left. split; [reflexivity|]. exists j. exact E.
  - intros a b c e N K. apply (committing_lock _ _ _ I) in K, E. congruence.
Qed.
Lemma abort_inv m d g i a b m' d' : Inv m d g -> abort m d i a b = Some (m', d') ->
  (forall n c, m_clones m i = Open n c -> find d (shard_name (lit "kitten") a b) = None) -> Inv m' d' g.
Proof.
  intros I H N. unfold abort in H. pose proof (fun c e f (N : c <> i) => committing_lock _ _ _ I c e f) as Lk.
  destruct (m_clones m i) as [|n c|id x|id x p|id x [j|]|id x|id x j] eqn:E; try discriminate; injection H as <- <-.
  - apply (dir_same _ d).
    + apply (drop_inv m d g i n c); assumption.
    + apply nodup_erase, I.
    + intros y. rewrite find_erase. destruct (bytes_eq_dec _ y) as [<-|]; [symmetry; apply (N n c eq_refl)|reflexivity].
  - apply (retire_core m d g i id x Gone (m_gen m) (m_lock m) I); [rewrite E; reflexivity|right; split; [reflexivity|rewrite E; reflexivity]|].
    intros c e f h _ K. apply (committing_lock _ _ _ I _ _ _ _ K).
  - apply (retire_core m d g i id x Gone (m_gen m) (m_lock m) I); [rewrite E; reflexivity|right; split; [reflexivity|rewrite E; reflexivity]|].
    intros c e f h _ K. apply (committing_lock _ _ _ I _ _ _ _ K).
Qed.
