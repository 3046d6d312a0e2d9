(** The steps of the background mergers keep the invariant. *)
From Verif Require Import Base Bytes NameModel NameSpec NameProofs RecoverAll StoreModel StoreSpec StoreDir StoreInv StoreFacts StoreClone StoreCommit.
From Coq Require Import Sorting.Sorted.

Definition mrg_name (sel : list entry) : bytes := hazel_sidecar_name (out_name HMerge sel) (lit "mrg").
Lemma mrg_inj sel sel' : mrg_name sel = mrg_name sel' -> sel_start sel = sel_start sel' /\ sel_end sel = sel_end sel'.
Proof.
  unfold mrg_name, hazel_sidecar_name. intros E. apply app_inv_head, app_inv_head in E. unfold out_name in E. apply shard_inj in E. tauto.
Qed.
Lemma mrg_plain sel : plain (mrg_name sel).
Proof. unfold plain. change (first (mrg_name sel)) with 109. repeat split; discriminate. Qed.

Definition reworker (m : mem) (w : nat) (w' : worker) (mg : list nat) (t : nat) : mem :=
  Mem (m_address m) (m_sequence m) (m_entries m) mg (m_gen m) (m_next m) t (m_lock m) (m_clones m) (upd (m_workers m) w w') (m_jobs m) (m_readers m).
Lemma run_merging m mg w t v a sel : run_ok m a sel -> (forall e, In e sel -> In (e_id e) mg) -> run_ok (reworker m w v mg t) a sel.
Proof. intros R H. apply (run_frame m); auto. intros e He. left. exists e. auto. Qed.
Lemma worker_mem m d g w w' mg t : Inv m d g -> (m_temp m <= t)%nat -> worker_ok (reworker m w w' mg t) d w' ->
  (forall v a sel e, v <> w -> run_of (m_workers m v) = Some (a, sel) -> In e sel -> In (e_id e) mg) ->
  (run_of w' = None \/ run_of w' = run_of (m_workers m w)) -> linkedw w' = linkedw (m_workers m w) ->
  (wsrc w' = None \/ (exists k, (k < t)%nat /\ wsrc w' = Some (temp_name k) /\ (wsrc (m_workers m w) = Some (temp_name k) \/ (m_temp m <= k)%nat)) \/
    exists sel p, w' = WPickling HMerge sel p /\ p_src p = mrg_name sel) ->
  Inv (reworker m w w' mg t) d g.
Proof.
  intros I Ht Hw Hm Hr Hl Hs.
  constructor; try apply I; cbn.
  - intros v. case_upd v; [exact Hw|]. apply (worker_frame m _ d); [apply I| |auto|auto|auto].
    intros a sel R1 R. apply run_merging; [exact R|]. intros e He. apply (Hm v a sel e Nu R1 He).
  - intros v v' a sel a' sel' e H H' He He'.
    assert (K : forall u a sel, run_of (upd (m_workers m) w w' u) = Some (a, sel) -> run_of (m_workers m u) = Some (a, sel)).
    { intros u b l. case_upd u; [|auto]. destruct Hr as [Hr|Hr]; [congruence|]. rewrite Hr. auto. }
    apply (i_dis _ _ _ I v v' a sel a' sel' e); auto.
  - assert (T : forall a n, src (reworker m w w' mg t) a = Some n -> src m a = Some n \/ (a = Wk w /\ forall b, src m b = Some n -> b = Wk w)).
    { intros [j|v|k] n; cbn; auto. case_upd v; [|auto]. intros A. destruct Hs as [Hs|[(k & K1 & K2 & K3)|(sel & p & K1 & K2)]]; [congruence| |].
      - rewrite K2 in A. injection A as <-. destruct K3 as [K3|K3]; [left; exact K3|]. right. split; [reflexivity|]. intros b B. exfalso.
        destruct (i_tmp _ _ _ I _ _ B) as [(k' & L & E)|(v & sel & p & _ & _ & E)]; [apply temp_inj in E; lia|apply (f_equal first) in E; discriminate].
      - right. split; [reflexivity|]. rewrite K1 in A. cbn in A. injection A as <-. rewrite K2. intros b B.
        destruct (i_tmp _ _ _ I _ _ B) as [(k' & L & E)|(v & sel' & q & -> & Ev & E)]; [apply (f_equal first) in E; discriminate|].
        apply mrg_inj in E. destruct (Nat.eq_dec w v) as [<-|Nw]; [reflexivity|exfalso].
        destruct Hr as [Hr|Hr]; [rewrite K1 in Hr; discriminate|]. rewrite K1 in Hr. cbn in Hr. symmetry in Hr.
        assert (Hv : run_of (m_workers m v) = Some (HMerge, sel')) by (rewrite Ev; reflexivity).
        pose proof (run_range _ _ _ I _ _ (run_at _ _ _ I _ _ _ Hr)). destruct (runs_apart _ _ _ I _ _ _ _ _ _ Nw Hr Hv); lia. }
    intros a b n A B. destruct (T _ _ A) as [A'|[-> A']], (T _ _ B) as [B'|[-> B']]; auto.
    + apply (i_src _ _ _ I _ _ _ A' B').
    + symmetry. auto.
  - assert (L : forall a n, a <> Wk w -> src m a = Some n -> (exists k, (k < t)%nat /\ n = temp_name k) \/
            (exists v sel p, a = Wk v /\ upd (m_workers m) w w' v = WPickling HMerge sel p /\ n = hazel_sidecar_name (out_name HMerge sel) (lit "mrg"))).
    { intros a n Na A. destruct (i_tmp _ _ _ I a n A) as [(k & L & E)|(v & sel & p & -> & E1 & E2)]; [left; exists k; split; [lia|exact E]|right]. exists v, sel, p.
      rewrite upd_other by congruence. auto. }
    intros [j|v|k] n A; cbn in A; [apply (L (Cl j)); [discriminate|exact A]| |apply (L (Jb k)); [discriminate|exact A]].
    case_upd v; [|apply (L (Wk v)); [congruence|exact A]]. destruct Hs as [Hs|[(k & K1 & K2 & _)|(sel & p & K1 & K2)]]; [congruence| |].
    + left. exists k. split; [exact K1|congruence].
    + right. exists w, sel, p. split; [reflexivity|]. rewrite upd_same. split; [exact K1|]. rewrite K1 in A. cbn in A. injection A as <-. exact K2.
  - intros n f F K. destruct (i_sh _ _ _ I n f F K) as (k & s & e & l & A1 & A2 & A3 & A4 & A5 & A6 & C). exists k, s, e, l. do 6 (split; [assumption|]).
    destruct C as [C|[(v & a & sel & L & C)|C]]; [left; exact C| |right; right; exact C]. right. left. exists v, a, sel. split; [|exact C]. cbn. case_upd v; congruence.
Qed.

(** The file of a merge is linked. *)
Lemma run_strict m d g a sel v : Inv m d g -> run_ok m a sel -> In v (m_entries m) -> e_start v <= sel_start sel -> sel_end sel <= e_end v ->
  sel = [v] /\ a = Convert.
Proof.
  intros I R Hv H1 H2. pose proof R as (N & L2 & L1 & Q & Ss & G).
  assert (T : forall e, In e sel -> e = v).
  { intros e He. pose proof (run_hull _ _ _ I _ _ R e He). destruct (Q e He) as (He' & _). destruct (sorted_two _ _ _ _ (i_sorted _ _ _ I) He' Hv) as [X|[X|X]]; [exact X|lia|lia]. }
  destruct sel as [|e1 [|e2 sel]]; [contradiction| |].
  - rewrite (T e1 (or_introl eq_refl)). split; [reflexivity|]. destruct a; auto; assert (K : (2 <= length [e1])%nat) by (apply L2; discriminate); cbn in K; lia.
  - exfalso. assert (e1 = v) by (apply T; left; reflexivity). assert (e2 = v) by (apply T; right; left; reflexivity). subst e1 e2.
    inversion Ss as [|? ? A1 B1]; subst. rewrite Forall_forall in B1. specialize (B1 v (or_introl eq_refl)). pose proof (proj1 (i_ent _ _ _ I v Hv)). lia.
Qed.
Lemma link_core m d g w a sel p p' : Inv m d g -> m_workers m w = WPickling a sel p -> p_stage p = Filled -> p_src p' = p_src p -> p_dst p' = p_dst p -> p_file p' = p_file p -> p_stage p' = Linked ->
  Inv (set_worker m w (WPickling a sel p')) (put (out_name a sel) (out_file sel) d) g.
Proof.
  intros I E P0 P1 P2 P3 P4. assert (Hr : run_of (m_workers m w) = Some (a, sel)) by (rewrite E; reflexivity).
  pose proof (run_at _ _ _ I _ _ _ Hr) as R. pose proof (run_range _ _ _ I _ _ R) as Rr. pose proof (run_holds _ _ _ I _ _ R) as Rh.
  assert (Fr : find d (out_name a sel) = None) by (apply (out_free _ _ _ I w); [exact Hr|rewrite E; cbn; rewrite P0; reflexivity]).
  assert (Fo : first (out_name a sel) = 102 \/ first (out_name a sel) = 104) by (unfold out_name; rewrite first_shard; destruct a; auto).
  assert (Mo : forall n h, find d n = Some h -> find (put (out_name a sel) (out_file sel) d) n = Some h) by (intros n h F; rewrite find_put_other; [exact F|]; intros <-; congruence).
  assert (Se : forall n, first n <> 102 -> first n <> 104 -> find (put (out_name a sel) (out_file sel) d) n = find d n).
  { intros n H1 H2. apply find_put_other. intros <-. destruct Fo; contradiction. }
  assert (Ns : forall b n, src m b = Some n -> find (put (out_name a sel) (out_file sel) d) n = find d n).
  { intros b n A. destruct (not_tmp _ _ _ I _ _ A) as [T|T]; apply Se; rewrite T; discriminate. }
  assert (Ok : out_kind a = FiverK \/ out_kind a = HazelK) by (destruct a; auto).
  constructor; try apply I; cbn.
  - apply nodup_put, I.
  - intros v Hv V. destruct (i_vis _ _ _ I v Hv V) as [A B]. split; [exact A|]. apply Mo, B.
  - intros i. pose proof (i_cl _ _ _ I i) as [A B]. split; [exact A|]. destruct (m_clones m i) as [| |id x|id x q|id x [c|]|id x|id x c]; try exact B.
    + destruct B as (B1 & B2 & B3 & B4). repeat split; try assumption. intros Hq. apply Mo, B4, Hq.
    + destruct B as (B1 & B2 & B3 & B4). repeat split; try assumption. apply Mo, B3.
  - intros s f. rewrite Se by discriminate. apply I.
  - intros v. case_upd v.
    + pose proof (i_wk _ _ _ I w) as (W1 & W2 & W3). rewrite E in W1, W3. destruct W3 as (W3 & W4 & W5). split; [|split].
      * intros b l H. cbn in H. injection H as <- <-. exact R.
      * intros b l H. cbn in H. rewrite P4 in H. injection H as <- <-. apply find_put_same.
      * rewrite P2, P3, P4. repeat split; try assumption. discriminate.
    + apply (worker_frame m _ d); [apply I|auto|auto|intros b l _ F; apply Mo, F|]. intros n A. apply (Ns (Wk v)). exact A.
  - intros v v' b l b' l' e H H' He He'.
    assert (K : forall u b l, run_of (upd (m_workers m) w (WPickling a sel p') u) = Some (b, l) -> run_of (m_workers m u) = Some (b, l)).
    { intros u c k. case_upd u; [|auto]. rewrite E. auto. }
    apply (i_dis _ _ _ I v v' b l b' l' e); auto.
  - intros k. pose proof (i_jb _ _ _ I k) as J. destruct (m_jobs m k) as [|is tmp seqs st]; [exact J|]. destruct J as (Nd & A & B & C & D).
    split; [exact Nd|]. split; [intros K; apply Mo, A, K|]. split; [intros K; apply Mo, B, K|]. split; [exact C|exact D].
  - assert (T : forall b, src (set_worker m w (WPickling a sel p')) b = src m b).
    { intros [j|v|k]; cbn; auto. case_upd v; [rewrite E; cbn; congruence|reflexivity]. }
    intros b c n A B. rewrite T in A, B. apply (i_src _ _ _ I _ _ _ A B).
  - intros b n A. assert (A' : src m b = Some n) by (destruct b as [j|v|k]; cbn in A |- *; auto; case_upd v; [rewrite E; cbn in *; congruence|exact A]).
    destruct (i_tmp _ _ _ I b n A') as [K|(v & l & q & -> & E1 & E2)]; [left; exact K|right].
    destruct (Nat.eq_dec v w) as [->|Nv]; [|exists v, l, q; rewrite upd_other by exact Nv; auto].
    rewrite E in E1. injection E1 as -> -> ->. exists w, l, p'. rewrite upd_same. auto.
  - intros n f F K. rewrite find_put in F. destruct (bytes_eq_dec (out_name a sel) n) as [<-|Nn].
    + injection F as <-. exists (out_kind a), (sel_start sel), (sel_end sel), (sel_txns sel). split; [reflexivity|]. split; [exact Ok|]. split; [lia|].
      split; [pose proof (i_seq _ _ _ I); lia|]. split; [reflexivity|]. split; [exact Rh|]. right. left. exists w, a, sel. cbn. rewrite upd_same. cbn. rewrite P4. auto.
    + destruct (i_sh _ _ _ I n f F K) as (k & s & e & l & A1 & A2 & A3 & A4 & A5 & A6 & C). exists k, s, e, l. do 6 (split; [assumption|]).
      destruct C as [C|[(v & b & l' & L & C)|C]]; [left; exact C| |right; right; exact C]. right. left. exists v, b, l'. split; [|exact C]. cbn. case_upd v; [|exact L].
      rewrite E in L. cbn in L. rewrite P0 in L. discriminate.
  - assert (Q : forall k s e h, k = FiverK \/ k = HazelK -> find d (shard_name (kname k) s e) = Some h ->
      e < sel_start sel \/ sel_end sel < s \/ (sel_start sel <= s /\ e <= sel_end sel /\ (k = HazelK -> out_kind a = HazelK))).
    { intros k s e h K F. destruct (sh_cover _ _ _ I _ _ _ _ F K) as (Rs & _ & C & _).
      destruct C as [(v & Hv & V & S1 & S2 & Kv)|[(w' & a' & sel' & L' & _ & S1 & S2)|(i & id & x & j & Ei & _ & S1 & S2)]].
      - destruct (run_shard _ _ _ v R Hv) as [Hs|Hs]; [|lia]. pose proof (run_hull _ _ _ I _ _ R v Hs). right. right. split; [lia|]. split; [lia|].
        intros Hk. specialize (Kv Hk). destruct R as (_ & _ & _ & R & _). destruct (R v Hs) as (_ & Rv & _). destruct a; cbn in *; congruence.
      - destruct (Nat.eq_dec w w') as [<-|Nw]; [rewrite E in L'; cbn in L'; rewrite P0 in L'; discriminate|]. destruct (runs_apart _ _ _ I _ _ _ _ _ _ Nw Hr (linkedw_run _ _ _ L')); lia.
      - assert (O : owner (m_clones m i) = Some (id, x)) by (rewrite Ei; reflexivity). destruct (own_outside _ _ _ I _ _ _ _ _ O R); lia. }
    intros k s e h k' s' e' h' F F' K K'. rewrite find_put in F, F'. unfold fits.
    destruct (bytes_eq_dec (out_name a sel) (shard_name (kname k) s e)) as [X|X]; destruct (bytes_eq_dec (out_name a sel) (shard_name (kname k') s' e')) as [X'|X'].
    + unfold out_name in X, X'. apply shard_inj in X, X'. destruct X as (<- & <- & <-), X' as (<- & <- & <-). right. right. left. repeat split; auto; lia.
    + unfold out_name in X. apply shard_inj in X. destruct X as (<- & <- & <-). destruct (Q _ _ _ _ K' F') as [|[|]]; auto.
    + unfold out_name in X'. apply shard_inj in X'. destruct X' as (<- & <- & <-). destruct (Q _ _ _ _ K F) as [|[|]]; auto.
    + apply (i_lam _ _ _ I _ _ _ _ _ _ _ _ F F' K K').
  - intros n h F K. rewrite Se in F by (rewrite K; discriminate). apply (i_scr _ _ _ I n h F K).
Qed.
Lemma same_merging m d g w : Inv m d g -> forall v a sel e, v <> w -> run_of (m_workers m v) = Some (a, sel) -> In e sel -> In (e_id e) (m_merging m).
Proof. intros I v a sel e _ H He. destruct (run_at _ _ _ I _ _ _ H) as (_ & _ & _ & R & _). apply R. exact He. Qed.
Lemma release_merging m d g w b l : Inv m d g -> run_of (m_workers m w) = Some (b, l) -> forall v a sel e, v <> w -> run_of (m_workers m v) = Some (a, sel) -> In e sel ->
  In (e_id e) (filter (fun k => negb (existsb (Nat.eqb k) (map e_id l))) (m_merging m)).
Proof.
  intros I Hw v a sel e N Hv He. apply filter_In. split; [apply (same_merging _ _ _ w I v a sel e N Hv He)|].
  destruct (existsb _ _) eqn:X; [|reflexivity]. exfalso. apply existsb_exists in X. destruct X as (k & X1 & X2). apply Nat.eqb_eq in X2. subst k.
  apply in_map_iff in X1. destruct X1 as (e' & E1 & E2).
  destruct (run_at _ _ _ I _ _ _ Hv) as (_ & _ & _ & R & _). destruct (run_at _ _ _ I _ _ _ Hw) as (_ & _ & _ & R' & _).
  assert (K : e' = e) by (apply (id_unique (m_entries m)); [apply I|apply R'; exact E2|apply R; exact He|exact E1]). subst e'.
  apply N. apply (i_dis _ _ _ I v w a sel b l e Hv Hw He E2).
Qed.
Lemma wk_src m w a sel p : m_workers m w = WPickling a sel p -> src m (Wk w) = Some (p_src p).
Proof. intros E. cbn. rewrite E. reflexivity. Qed.
(** What names the file being written has. *)
Lemma wk_name m d g w a sel p : Inv m d g -> m_workers m w = WPickling a sel p ->
  (exists k, (k < m_temp m)%nat /\ p_src p = temp_name k) \/ (a = HMerge /\ p_src p = mrg_name sel).
Proof.
  intros I E. destruct (i_tmp _ _ _ I _ _ (wk_src _ _ _ _ _ E)) as [K|(v & l & q & K1 & K2 & K3)]; [left; exact K|right].
  injection K1 as <-. rewrite E in K2. injection K2 as -> -> ->. split; [reflexivity|exact K3].
Qed.
Lemma merge_step_inv m d g w m' d' : Inv m d g -> merge_step m d w = Some (m', d') -> Inv m' d' g.
Proof.
  intros I H. unfold merge_step in H. pose proof (i_wk _ _ _ I w) as (W1 & W2 & W3).
  destruct (m_workers m w) as [|a sel|a sel p|a sel|ns] eqn:E; try discriminate.
  - assert (Hr : run_of (m_workers m w) = Some (a, sel)) by (rewrite E; reflexivity).
    assert (Fr : find d (out_name a sel) = None) by (apply (out_free _ _ _ I w); rewrite E; reflexivity).
    replace (match a, find d (out_name a sel) with HMerge, Some _ => true | _, _ => false end) with false in H by (rewrite Fr; destruct a; reflexivity).
    injection H as <- <-. set (src0 := match a with HMerge => hazel_sidecar_name (out_name a sel) (lit "mrg") | _ => temp_name (m_temp m) end).
    replace (set_worker (match a with HMerge => m | _ => next_temp m end) w (WPickling a sel (PJob src0 (out_name a sel) (out_file sel) Opened)))
      with (reworker m w (WPickling a sel (PJob src0 (out_name a sel) (out_file sel) Opened)) (m_merging m) (match a with HMerge => m_temp m | _ => S (m_temp m) end))
      by (destruct m, a; reflexivity).
    assert (Sp : plain src0) by (destruct a; [apply temp_plain|apply mrg_plain|apply temp_plain]).
    assert (Nn : forall b h, ~ needs m b src0 h).
    { intros b h N. apply needs_src in N. destruct a; [apply (new_temp _ _ _ _ I N)| |apply (new_temp _ _ _ _ I N)].
      destruct (i_tmp _ _ _ I _ _ N) as [(k' & L & E')|(v & sel' & q & -> & Ev & E')]; [apply (f_equal first) in E'; discriminate|].
      apply mrg_inj in E'. destruct (Nat.eq_dec w v) as [<-|Nw]; [congruence|].
      assert (Hv : run_of (m_workers m v) = Some (HMerge, sel')) by (rewrite Ev; reflexivity).
      pose proof (run_range _ _ _ I _ _ (run_at _ _ _ I _ _ _ Hr)). destruct (runs_apart _ _ _ I _ _ _ _ _ _ Nw Hr Hv); lia. }
    apply worker_mem.
    + apply dir_put; [exact I|exact Sp|]. intros b h N. exfalso. apply (Nn b h N).
    + destruct a; lia.
    + split; [|split].
      * intros b l K. cbn in K. injection K as <- <-. apply run_merging; [apply W1; reflexivity|]. intros e He. destruct (W1 a sel eq_refl) as (_ & _ & _ & R & _). apply R. exact He.
      * intros b l K. discriminate.
      * cbn. repeat split. discriminate.
    + apply (same_merging m d g w I).
    + right. rewrite E. reflexivity.
    + rewrite E. reflexivity.
    + right. destruct a; [left; exists (m_temp m); repeat split; [lia|right; lia]| |left; exists (m_temp m); repeat split; [lia|right; lia]]. right. eexists _, _. split; reflexivity.
  - destruct W3 as (W3 & W4 & W5). assert (Hr : run_of (m_workers m w) = Some (a, sel)) by (rewrite E; reflexivity). pose proof (wk_src _ _ _ _ _ E) as Sp.
    pose proof (wk_name _ _ _ _ _ _ _ I E) as Nm.
    assert (Ok : forall l v, run_ok m a sel -> run_ok (reworker m w v (m_merging m) l) a sel).
    { intros l v R. apply run_merging; [exact R|]. intros e He. apply R. exact He. }
    assert (Src : forall w', wsrc w' = Some (p_src p) -> (exists q, w' = WPickling a sel q) ->
       wsrc w' = None \/ (exists k, (k < m_temp m)%nat /\ wsrc w' = Some (temp_name k) /\ (wsrc (m_workers m w) = Some (temp_name k) \/ (m_temp m <= k)%nat)) \/
       exists l q, w' = WPickling HMerge l q /\ p_src q = mrg_name l).
    { intros w' K (q & ->). cbn in K. injection K as K. destruct Nm as [(k & N1 & N2)|(-> & N)]; right; [left|right].
      - exists k. split; [exact N1|]. cbn. rewrite K, E. cbn. rewrite N2. auto.
      - exists sel, q. split; [reflexivity|congruence]. }
    destruct (p_stage p) eqn:P.
    + injection H as <- <-. set (w' := WPickling a sel _). replace (set_worker m w w') with (reworker m w w' (m_merging m) (m_temp m)) by (destruct m; reflexivity).
      apply worker_mem.
      * apply dir_put; [exact I|apply (src_plain _ _ _ _ _ I Sp)|]. intros b h N. rewrite (needs_own _ _ _ _ _ I Sp _ _ N) in N. cbn in N. rewrite E in N. destruct N; congruence.
      * lia.
      * split; [|split].
        -- intros b l K. cbn in K. injection K as <- <-. apply Ok. apply W1. reflexivity.
        -- discriminate.
        -- cbn. repeat split; try assumption. intros _. apply find_put_same.
      * apply (same_merging m d g w I).
      * right. rewrite E. reflexivity.
      * rewrite E. cbn. rewrite P. reflexivity.
      * apply Src; [reflexivity|eexists; reflexivity].
    + assert (L : link (p_src p) (p_dst p) d = Some (put (out_name a sel) (out_file sel) d)).
      { unfold link. rewrite W5 by reflexivity. rewrite W3, W4. rewrite (out_free _ _ _ I w a sel Hr) by (rewrite E; cbn; rewrite P; reflexivity). reflexivity. }
      rewrite L in H. injection H as <- <-. apply (link_core m d g w a sel p); auto.
    + injection H as <- <-. replace (set_worker m w (WOutput a sel)) with (reworker m w (WOutput a sel) (m_merging m) (m_temp m)) by (destruct m; reflexivity).
      apply worker_mem.
      * apply dir_erase; [exact I|apply (src_plain _ _ _ _ _ I Sp)|]. intros b h N. rewrite (needs_own _ _ _ _ _ I Sp _ _ N) in N. cbn in N. rewrite E in N. destruct N; congruence.
      * lia.
      * split; [|split].
        -- intros b l K. cbn in K. injection K as <- <-. apply Ok. apply W1. reflexivity.
        -- intros b l K. cbn in K. injection K as <- <-. rewrite find_erase_other; [apply W2; cbn; rewrite P; reflexivity|]. intros X.
           destruct (not_tmp _ _ _ I _ _ Sp) as [T|T]; rewrite X in T; unfold out_name in T; rewrite first_shard in T; destruct a; discriminate.
        -- exact Logic.I.
      * apply (same_merging m d g w I).
      * right. rewrite E. reflexivity.
      * rewrite E. cbn. rewrite P. reflexivity.
      * left. reflexivity.
Qed.
Lemma release_inv m d g w b l : Inv m d g -> run_of (m_workers m w) = Some (b, l) -> linkedw (m_workers m w) = None -> Inv (set_worker (release m l) w WIdle) d g.
Proof.
  intros I Hr Hl. replace (set_worker (release m l) w WIdle) with (reworker m w WIdle (filter (fun k => negb (existsb (Nat.eqb k) (map e_id l))) (m_merging m)) (m_temp m)) by (destruct m; reflexivity).
  apply worker_mem; auto.
  - split; [discriminate|]. split; [discriminate|exact Logic.I].
  - apply (release_merging m d g w b l I Hr).
Qed.
Lemma merge_fail_inv m d g w m' d' : Inv m d g -> merge_fail false m d w = Some (m', d') -> Inv m' d' g.
Proof.
  intros I H. unfold merge_fail in H. destruct (m_workers m w) as [|a sel|a sel p|a sel|ns] eqn:E; try discriminate.
  - assert (K : m' = set_worker (release m sel) w WIdle /\ d' = d) by (destruct a; try discriminate; injection H as <- <-; auto). destruct K as [-> ->].
    apply (release_inv _ _ _ _ a); [exact I|rewrite E; reflexivity|rewrite E; reflexivity].
  - assert (K : p_stage p <> Linked /\ m' = set_worker (release m sel) w WIdle /\ d' = erase (p_src p) d).
    { destruct a, (p_stage p); try discriminate; injection H as <- <-; repeat split; discriminate. }
    destruct K as (P & -> & ->). pose proof (wk_src _ _ _ _ _ E) as Sp. apply dir_erase.
    + apply (release_inv _ _ _ _ a); [exact I|rewrite E; reflexivity|rewrite E; cbn; destruct (p_stage p); auto; contradiction].
    + apply (src_plain _ _ _ _ _ I Sp).
    + intros b h N. assert (K : needs m b (p_src p) h).
      { destruct b as [j|v|k]; cbn in N |- *; try exact N. case_upd v; [contradiction|exact N]. }
      rewrite (needs_own _ _ _ _ _ I Sp _ _ K) in N. cbn in N. rewrite upd_same in N. contradiction.
Qed.
