(** The calls made, and what became durable. *)
From Verif Require Import Base Bytes NameModel NameSpec NameProofs RecoverAll StoreModel StoreSpec StoreDir StoreInv StoreFacts StoreClone StoreCommit StoreJob StoreMerge StoreInstall StoreDown StoreOpen StoreMain.
From Coq Require Import Sorting.Sorted Sorting.Permutation.

Definition nil_txn : txn := Txn 0 0 0 [].
Definition nthx (P : list txn) (t : nat) : txn := nth t P nil_txn.
Record HB (h : hist) (P : list txn) (dur : list nat) (g : list txn) : Prop := {
  hb_placed : map content P = h_placed h;
  hb_g : g = map (nthx P) dur;
  hb_dur : forall t, In t dur -> (t < length P)%nat /\ In t (h_asked h);
  hb_ack : incl (h_acked h) dur;
  hb_nd : NoDup (h_acked h);
  hb_bat : forall b t, In b (h_batches h) -> In t b -> (t < length P)%nat }.
Definition alive (h : hist) (dur : list nat) (m : mem) (t : nat) : Prop := In t dur \/ exists i id x, owner (m_clones m i) = Some (id, x) /\ h_tick h i = t.
Record HU (h : hist) (P : list txn) (dur : list nat) (m : mem) (g : list txn) : Prop := {
  hu_base : HB h P dur g;
  hu_open : forall i n b, m_clones m i = Open n b -> h_open h i = (n, b);
  hu_own : forall i id x, owner (m_clones m i) = Some (id, x) ->
    (h_tick h i < length P)%nat /\ nthx P (h_tick h i) = x /\ (In x g -> In (h_tick h i) dur) /\ ~ In (h_tick h i) (h_acked h);
  hu_ord : forall t t', alive h dur m t -> alive h dur m t' -> (t < t')%nat -> t_seq (nthx P t) < t_seq (nthx P t');
  hu_ask : forall i k, cjob (m_clones m i) = Some k -> In (h_tick h i) (h_asked h);
  hu_bat : forall b, In b (h_batches h) -> incl b dur \/ ((forall t, In t b -> ~ In t dur) /\
    ((exists k is tmp seqs, m_jobs m k = Job is tmp seqs JTemp /\ b = map (h_tick h) is /\ forall i, In i is -> exists id x, m_clones m i = Ready id x (Some k)) \/
     (forall t i id x, In t b -> owner (m_clones m i) = Some (id, x) -> h_tick h i <> t))) }.
Record HD (h : hist) (P : list txn) (dur : list nat) (g : list txn) : Prop := {
  hd_base : HB h P dur g;
  hd_ord : forall t t', In t dur -> In t' dur -> (t < t')%nat -> t_seq (nthx P t) < t_seq (nthx P t');
  hd_bat : forall b, In b (h_batches h) -> incl b dur \/ (forall t, In t b -> ~ In t dur) }.
Definition HS (h : hist) (P : list txn) (dur : list nat) (s : sys) : Prop :=
  match s with Up m d g => HU h P dur m g | Down d g => HD h P dur g end.

Lemma hist_crash h P dur m g : HU h P dur m g -> HD h P dur g.
Proof.
  intros U. constructor; [apply U| |].
  - intros t t' A B. apply (hu_ord _ _ _ _ _ U); left; assumption.
  - intros b Hb. destruct (hu_bat _ _ _ _ _ U b Hb) as [K|[K _]]; auto.
Qed.
Lemma hist_open h P dur es g : HD h P dur g -> HU h P dur (fresh es) g.
Proof.
  intros D. constructor; [apply D|discriminate|discriminate| |discriminate|].
  - intros t t' [A|(i & id & x & A & _)] [B|(i' & id' & x' & B & _)]; try discriminate. apply (hd_ord _ _ _ _ D); assumption.
  - intros b Hb. destruct (hd_bat _ _ _ _ D b Hb) as [K|K]; [left; exact K|right]. split; [exact K|right]. intros t i id x _ A. discriminate.
Qed.
(** Steps that neither place nor make durable. *)
Lemma hist_frame h h' P dur m m' g : HU h P dur m g -> h_placed h' = h_placed h -> h_tick h' = h_tick h -> h_batches h' = h_batches h ->
  incl (h_asked h) (h_asked h') -> incl (h_acked h') dur -> NoDup (h_acked h') -> (forall i id x, owner (m_clones m' i) = Some (id, x) -> ~ In (h_tick h i) (h_acked h')) ->
  (forall i n b, m_clones m' i = Open n b -> h_open h' i = (n, b)) -> (forall i id x, owner (m_clones m' i) = Some (id, x) -> owner (m_clones m i) = Some (id, x)) ->
  (forall i k, cjob (m_clones m' i) = Some k -> In (h_tick h i) (h_asked h')) ->
  (forall k is tmp seqs, m_jobs m k = Job is tmp seqs JTemp -> (forall i, In i is -> exists id x, m_clones m i = Ready id x (Some k)) ->
     m_jobs m' k = Job is tmp seqs JTemp /\ forall i, In i is -> exists id x, m_clones m' i = Ready id x (Some k)) -> HU h' P dur m' g.
Proof.
  intros U Ep Et Eb Ia Ik Nk Wk O W C J. constructor.
  - destruct (hu_base _ _ _ _ _ U) as [B1 B2 B3 B4 B5 B6]. constructor; rewrite ?Ep, ?Eb; auto. intros t Ht. destruct (B3 t Ht). auto.
  - exact O.
  - intros i id x E. rewrite Et. destruct (hu_own _ _ _ _ _ U i id x (W _ _ _ E)) as (A1 & A2 & A3 & _). split; [exact A1|]. split; [exact A2|]. split; [exact A3|]. apply (Wk i id x E).
  - intros t t' A B. apply (hu_ord _ _ _ _ _ U); [destruct A as [A|(i & id & x & A & K)]|destruct B as [B|(i & id & x & B & K)]]; try (left; assumption); right; exists i, id, x; rewrite Et in K; (split; [apply W; assumption|exact K]).
  - intros i k E. rewrite Et. apply (C i k E).
  - intros b Hb. rewrite Eb in Hb. destruct (hu_bat _ _ _ _ _ U b Hb) as [K|[K [(k & is & tmp & seqs & A1 & A2 & A3)|K']]]; [left; exact K|right|right]; (split; [exact K|]); rewrite Et.
    + left. exists k, is, tmp, seqs. destruct (J k is tmp seqs A1 A3). auto.
    + right. intros t i id x Ht E. apply (K' t i id x Ht (W _ _ _ E)).
Qed.
(** Nothing is noted. *)
Lemma hist_same h P dur m m' g : HU h P dur m g ->
  (forall i n b, m_clones m' i = Open n b -> m_clones m i = Open n b) -> (forall i id x, owner (m_clones m' i) = Some (id, x) -> owner (m_clones m i) = Some (id, x)) ->
  (forall i k, cjob (m_clones m' i) = Some k -> cjob (m_clones m i) = Some k) ->
  (forall k is tmp seqs, m_jobs m k = Job is tmp seqs JTemp -> (forall i, In i is -> exists id x, m_clones m i = Ready id x (Some k)) ->
     m_jobs m' k = Job is tmp seqs JTemp /\ forall i, In i is -> exists id x, m_clones m' i = Ready id x (Some k)) -> HU h P dur m' g.
Proof.
  intros U O W C J. apply (hist_frame h h P dur m m' g U); auto; try apply U; [intros t Ht; exact Ht| | |].
  - intros i id x E. apply W, (hu_own _ _ _ _ _ U) in E. apply E.
  - intros i n b E. apply (hu_open _ _ _ _ _ U), O, E.
  - intros i k E. apply (hu_ask _ _ _ _ _ U i k), C, E.
Qed.
Lemma hist_clones h P dur m m' g : HU h P dur m g -> m_clones m' = m_clones m -> m_jobs m' = m_jobs m -> HU h P dur m' g.
Proof. intros U E1 E2. apply (hist_same h P dur m); auto; rewrite E1; auto. rewrite E2. auto. Qed.
Lemma hist_clone h P dur m m' g i c : HU h P dur m g -> m_clones m' = upd (m_clones m) i c -> m_jobs m' = m_jobs m ->
  (forall n b, c <> Open n b) -> (forall id x, owner c = Some (id, x) -> owner (m_clones m i) = Some (id, x)) -> cjob c = None ->
  (forall id x k, m_clones m i <> Ready id x (Some k)) -> HU h P dur m' g.
Proof.
  intros U E1 E2 No Ow Cj Nr. apply (hist_same h P dur m); auto; rewrite E1.
  - intros j n b E. case_upd j; [destruct (No n b E)|exact E].
  - intros j id x E. case_upd j; [apply Ow; exact E|exact E].
  - intros j k E. case_upd j; [congruence|exact E].
  - intros k is tmp seqs A B. rewrite E2. split; [exact A|]. intros j Hj. destruct (B j Hj) as (id & x & K). exists id, x. case_upd j; [destruct (Nr id x k K)|exact K].
Qed.
Lemma nthx_snoc P x t : nthx (P ++ [x]) t = if (t =? length P)%nat then x else nthx P t.
Proof.
  unfold nthx. destruct (Nat.eqb_spec t (length P)) as [->|N]; [rewrite app_nth2, Nat.sub_diag by lia; reflexivity|]. destruct (Nat.lt_ge_cases t (length P)); [apply app_nth1; assumption|].
  rewrite !nth_overflow; [reflexivity|lia|rewrite app_length; cbn; lia].
Qed.
Lemma nthx_keep P x t : (t < length P)%nat -> nthx (P ++ [x]) t = nthx P t.
Proof. intros L. rewrite nthx_snoc. destruct (Nat.eqb_spec t (length P)); [lia|reflexivity]. Qed.
Lemma alive_bound h P dur m g t : HU h P dur m g -> alive h dur m t -> (t < length P)%nat.
Proof. intros U [A|(i & id & x & A & <-)]; [apply (hb_dur _ _ _ _ (hu_base _ _ _ _ _ U)) in A; tauto|apply (hu_own _ _ _ _ _ U) in A; tauto]. Qed.
Ltac case2 j i := destruct (Nat.eq_dec j i) as [Nu|Nu]; [subst j; rewrite ?upd_same in *|rewrite ?(upd_other _ i _ j Nu) in *].
Lemma hist_place h P dur m d g i n b m' : Inv m d g -> HU h P dur m g -> m_clones m i = Open n b -> place m i n b = Some m' -> exists P', HU (note (LPlace i) h) P' dur m' g.
Proof.
  intros I U E H. unfold place in H. destruct (_ <? _); [|discriminate]. injection H as <-. set (x := Txn (m_sequence m) (m_address m) n b). exists (P ++ [x]).
  pose proof (hu_base _ _ _ _ _ U) as [B1 B2 B3 B4 B5 B6]. assert (Lp : length (h_placed h) = length P) by (rewrite <- B1, map_length; reflexivity).
  constructor; cbn [note h_open h_placed h_tick h_asked h_acked h_batches m_clones m_jobs].
  - constructor; cbn.
    + rewrite map_app, B1. cbn. f_equal. f_equal. unfold content. cbn. symmetry. apply (hu_open _ _ _ _ _ U i n b E).
    + rewrite B2. apply map_ext_in. intros t Ht. symmetry. apply nthx_keep. apply B3 in Ht. tauto.
    + intros t Ht. rewrite app_length. apply B3 in Ht. split; [lia|tauto].
    + exact B4.
    + exact B5.
    + intros c t Hc Ht. rewrite app_length. specialize (B6 c t Hc Ht). lia.
  - intros j k c H. case2 j i; [discriminate|]. apply (hu_open _ _ _ _ _ U j k c H).
  - intros j id y H. rewrite app_length. case2 j i.
    + cbn in H. injection H as <- <-. rewrite Lp. split; [cbn; lia|]. split; [rewrite nthx_snoc, Nat.eqb_refl; reflexivity|]. split.
      * intros K. apply (i_g _ _ _ I) in K. cbn in K. lia.
      * intros K. apply B4, B3 in K. lia.
    + destruct (hu_own _ _ _ _ _ U j id y H) as (A1 & A2 & A3 & A4). split; [lia|]. split; [rewrite nthx_keep by exact A1; exact A2|]. auto.
  - assert (Al : forall t, alive (note (LPlace i) h) dur (Mem (m_address m + n) (m_sequence m + 1) (m_entries m ++ [Entry (m_next m) Kitten (t_seq x) (t_seq x) [x]]) (m_merging m) (m_gen m)
              (S (m_next m)) (m_temp m) (m_lock m) (upd (m_clones m) i (Placed (m_next m) x)) (m_workers m) (m_jobs m) (m_readers m)) t -> t = length P \/ alive h dur m t /\ t_seq (nthx P t) < m_sequence m).
    { intros t [A|(j & id & y & A & K)].
      - right. split; [left; exact A|]. assert (Q : In (nthx P t) g) by (rewrite B2; apply in_map; exact A). apply (i_g _ _ _ I) in Q. lia.
      - cbn in A, K. case2 j i; [left; congruence|]. right. split; [right; exists j, id, y; auto|].
        destruct (hu_own _ _ _ _ _ U j id y A) as (_ & A2 & _). rewrite <- K, A2. apply (own_range _ _ _ I) in A. lia. }
    intros t t' A B L. destruct (Al t A) as [->|[A1 A2]], (Al t' B) as [->|[B7 B8]]; try lia.
    + apply (alive_bound _ P _ _ g) in B7; [lia|exact U].
    + rewrite (nthx_keep P x t) by (apply (alive_bound _ P _ _ g) in A1; assumption). rewrite nthx_snoc, Nat.eqb_refl. exact A2.
    + rewrite !nthx_keep by (eapply alive_bound; eassumption). apply (hu_ord _ _ _ _ _ U); assumption.
  - intros j k H. case2 j i; [discriminate|]. apply (hu_ask _ _ _ _ _ U j k H).
  - intros c Hc. destruct (hu_bat _ _ _ _ _ U c Hc) as [K|[K [(k & is & tmp & seqs & A1 & A2 & A3)|K']]]; [left; exact K|right|right]; (split; [exact K|]).
    + left. exists k, is, tmp, seqs. split; [exact A1|].
      assert (Ni : forall j, In j is -> j <> i) by (intros j Hj ->; destruct (A3 i Hj) as (? & ? & Q); congruence). split.
      * rewrite A2. apply map_ext_in. intros j Hj. rewrite upd_other by (apply Ni; exact Hj). reflexivity.
      * intros j Hj. rewrite upd_other by (apply Ni; exact Hj). apply A3. exact Hj.
    + right. intros t j id y Ht H. specialize (B6 c t Hc Ht). case2 j i; [lia|]. apply (K' t j id y Ht H).
Qed.
(** Some clones' transactions become durable. *)
Lemma hist_durable h h' P dur m m' d g is : Inv m d g -> HU h P dur m g -> NoDup is ->
  h_placed h' = h_placed h -> h_tick h' = h_tick h -> h_batches h' = h_batches h -> h_acked h' = h_acked h -> h_open h' = h_open h ->
  incl (h_asked h) (h_asked h') -> (forall i, In i is -> In (h_tick h i) (h_asked h')) ->
  forall xs, Forall2 (fun i x => exists id, owner (m_clones m i) = Some (id, x) /\ lead m (m_clones m i) = None) is xs ->
  (forall i n b, m_clones m' i = Open n b -> m_clones m i = Open n b) -> (forall i id x, owner (m_clones m' i) = Some (id, x) -> owner (m_clones m i) = Some (id, x)) ->
  (forall i k, cjob (m_clones m' i) = Some k -> cjob (m_clones m i) = Some k) ->
  (forall k is' tmp seqs, m_jobs m k = Job is' tmp seqs JTemp -> (forall i, In i is' -> exists id x, m_clones m i = Ready id x (Some k)) ->
     (is' = is) \/ ((forall i, In i is -> In i is' -> False) /\ m_jobs m' k = Job is' tmp seqs JTemp /\ forall i, In i is' -> exists id x, m_clones m' i = Ready id x (Some k))) ->
  HU h' P (dur ++ map (h_tick h) is) m' (g ++ xs).
Proof.
  intros I U Nis Ep Et Eb Ek Eo Ia Ii xs Fx O W C J.
  assert (Own : forall i, In i is -> exists id x, owner (m_clones m i) = Some (id, x) /\ lead m (m_clones m i) = None /\ In x xs).
  { intros i Hi. destruct (proj1 (forall2_in _ _ _ Fx) i Hi) as (x & Hx & id & A & B). eauto. }
  pose proof (hu_base _ _ _ _ _ U) as [B1 B2 B3 B4 B5 B6].
  constructor.
  - constructor; rewrite ?Ep, ?Eb, ?Ek; auto.
    + rewrite map_app, <- B2. f_equal. clear - Fx U. induction Fx as [|i x is xs (id & A & _) _ IH]; cbn; [reflexivity|]. rewrite IH. f_equal. symmetry. apply (hu_own _ _ _ _ _ U i id x A).
    + intros t Ht. apply in_app_iff in Ht. destruct Ht as [Ht|Ht]; [apply B3 in Ht; split; [tauto|apply Ia; tauto]|]. apply in_map_iff in Ht. destruct Ht as (i & <- & Hi).
      destruct (Own i Hi) as (id & x & A & _). apply (hu_own _ _ _ _ _ U) in A. split; [tauto|apply Ii; exact Hi].
    + intros t Ht. apply in_app_iff. left. apply B4. exact Ht.
  - intros i n b E. rewrite Eo. apply (hu_open _ _ _ _ _ U), O, E.
  - intros i id x E. rewrite Et, Ek. apply W in E. destruct (hu_own _ _ _ _ _ U i id x E) as (A1 & A2 & A3 & A4). split; [exact A1|]. split; [exact A2|]. split; [|exact A4].
    intros K. apply in_app_iff in K. rewrite in_app_iff. destruct K as [K|K]; [left; auto|right]. destruct (proj2 (forall2_in _ _ _ Fx) x K) as (j & Hj & id' & A5 & _).
    rewrite (own_same _ _ _ I _ _ _ _ _ _ E A5 eq_refl). apply in_map. exact Hj.
  - assert (Al : forall t, alive h' (dur ++ map (h_tick h) is) m' t -> alive h dur m t).
    { intros t [A|(i & id & x & A & K)].
      - apply in_app_iff in A. destruct A as [A|A]; [left; exact A|right]. apply in_map_iff in A. destruct A as (i & <- & Hi). destruct (Own i Hi) as (id & x & A & _). exists i, id, x. auto.
      - right. rewrite Et in K. exists i, id, x. auto. }
    intros t t' A B. apply (hu_ord _ _ _ _ _ U); auto.
  - intros i k E. rewrite Et. apply Ia, (hu_ask _ _ _ _ _ U i k), C, E.
  - intros b Hb. rewrite Eb in Hb.
    assert (Out : forall i id x, owner (m_clones m i) = Some (id, x) -> ~ In i is -> forall t, t = h_tick h i -> ~ In t (map (h_tick h) is)).
    { intros i id x E N t -> K. apply in_map_iff in K. destruct K as (j & K & Hj). destruct (Own j Hj) as (id' & y & A & _). apply N.
      destruct (hu_own _ _ _ _ _ U i id x E) as (_ & X1 & _). destruct (hu_own _ _ _ _ _ U j id' y A) as (_ & X2 & _). rewrite K in X2.
      rewrite (own_same _ _ _ I _ _ _ _ _ _ E A); [exact Hj|congruence]. }
    destruct (hu_bat _ _ _ _ _ U b Hb) as [K|[K [(k & is' & tmp & seqs & A1 & A2 & A3)|K']]].
    + left. intros t Ht. apply in_app_iff. left. apply K. exact Ht.
    + destruct (J k is' tmp seqs A1 A3) as [-> |(J1 & J2 & J3)].
      * left. rewrite A2. intros t Ht. apply in_app_iff. right. exact Ht.
      * right. split; [|left; exists k, is', tmp, seqs; rewrite Et; auto]. intros t Ht X. apply in_app_iff in X. destruct X as [X|X]; [apply (K t Ht X)|].
        rewrite A2 in Ht. apply in_map_iff in Ht. destruct Ht as (i & Hi & Hi'). destruct (A3 i Hi') as (id & x & E).
        apply (Out i id x) with (t := t); [rewrite E; reflexivity|intros Y; apply (J1 i Y Hi')|auto|exact X].
    + right. split.
      * intros t Ht X. apply in_app_iff in X. destruct X as [X|X]; [apply (K t Ht X)|]. apply in_map_iff in X. destruct X as (j & X & Hj). destruct (Own j Hj) as (id & x & A & _). apply (K' t j id x Ht A X).
      * right. intros t i id x Ht E. rewrite Et. apply (K' t i id x Ht (W _ _ _ E)).
Qed.

Lemma not_lead_dur h P dur m d g i id x : Inv m d g -> HU h P dur m g -> owner (m_clones m i) = Some (id, x) -> lead m (m_clones m i) = None -> ~ In (h_tick h i) dur.
Proof.
  intros I U E L K. destruct (hu_own _ _ _ _ _ U i id x E) as (_ & A & _). apply (i_fresh _ _ _ I i id x E L x); [|reflexivity].
  rewrite (hb_g _ _ _ _ (hu_base _ _ _ _ _ U)). apply in_map_iff. exists (h_tick h i). auto.
Qed.
Lemma hist_script h P dur m d g k is s : Inv m d g -> HU h P dur m g -> script_write m d g k is = Some s -> HS (note (LScript k is) h) P dur s.
Proof.
  intros I U H. unfold script_write in H. destruct (m_jobs m k) eqn:Jk; [|discriminate]. destruct (members m is) as [xs|] eqn:Ms; [|discriminate].
  destruct (members_spec _ _ _ Ms) as [M1 M2].
  assert (Rd : forall i, In i is -> exists id x, m_clones m i = Ready id x None) by (intros i Hi; destruct (M1 i Hi) as (id & x & A & _); eauto).
  assert (Nd : forall t, In t (map (h_tick h) is) -> ~ In t dur).
  { intros t Ht. apply in_map_iff in Ht. destruct Ht as (i & <- & Hi). destruct (Rd i Hi) as (id & x & E). apply (not_lead_dur h P dur m d g i id x I U); rewrite E; reflexivity. }
  assert (Bd : forall t, In t (map (h_tick h) is) -> (t < length P)%nat).
  { intros t Ht. apply in_map_iff in Ht. destruct Ht as (i & <- & Hi). destruct (Rd i Hi) as (id & x & E). apply (hu_own _ _ _ _ _ U i id x). rewrite E. reflexivity. }
  assert (Bs : HB (note (LScript k is) h) P dur g).
  { destruct (hu_base _ _ _ _ _ U) as [B1 B2 B3 B4 B5 B6]. constructor; cbn; auto.
    - intros t Ht. apply B3 in Ht. rewrite in_app_iff. tauto.
    - intros b t [<-|Hb] Ht; [apply Bd; exact Ht|apply (B6 b t Hb Ht)]. }
  destruct (forallb _ xs); injection H as <-; cbn [HS].
  - set (h1 := Hist (h_open h) (h_placed h) (h_tick h) (map (h_tick h) is ++ h_asked h) (h_acked h) (h_batches h)).
    match goal with |- HU _ _ _ ?m' _ => set (m1 := m') end.
    assert (Cl : forall i, m_clones m1 i = m_clones m i \/ exists id x, m_clones m i = Ready id x None /\ m_clones m1 i = Ready id x (Some k) /\ In i is).
    { intros i. cbn. destruct (m_clones m i) as [| |id x|id x p|id x [j|]|id x|id x j]; auto. destruct (existsb (Nat.eqb i) is) eqn:Eb; [|auto]. right. exists id, x. apply existsb_nat in Eb. auto. }
    assert (U1 : HU h1 P dur m1 g).
    { apply (hist_frame h h1 P dur m m1 g U); auto; try apply U.
      - intros t Ht. apply in_app_iff. right. exact Ht.
      - intros i id x E. destruct (Cl i) as [K|(id' & y & K1 & K2 & _)].
        + rewrite K in E. apply (hu_own _ _ _ _ _ U) in E. apply E.
        + apply (hu_own _ _ _ _ _ U i id' y). rewrite K1. reflexivity.
      - intros i n b E. destruct (Cl i) as [K|(id' & y & K1 & K2 & _)]; [|congruence]. rewrite K in E. apply (hu_open _ _ _ _ _ U i n b E).
      - intros i id x E. destruct (Cl i) as [K|(id' & y & K1 & K2 & _)]; [congruence|]. rewrite K2 in E. rewrite K1. exact E.
      - intros i k' E. cbn. apply in_app_iff. destruct (Cl i) as [K|(id' & y & K1 & K2 & K3)]; [right; rewrite K in E; apply (hu_ask _ _ _ _ _ U i k' E)|left; apply in_map; exact K3].
      - intros k' is' tmp seqs A B. split.
        + cbn. rewrite upd_other by congruence. exact A.
        + intros i Hi. destruct (B i Hi) as (id & x & E). exists id, x. destruct (Cl i) as [K|(id' & y & K1 & K2 & K3)]; congruence. }
    destruct U1 as [V1 V2 V3 V4 V5 V6]. constructor; [exact Bs|exact V2|exact V3|exact V4|exact V5|]. cbn [note h_batches]. intros b [<-|Hb]; [|apply (V6 b Hb)].
    right. split; [exact Nd|]. left. exists k, is. eexists. eexists. split; [cbn; rewrite upd_same; reflexivity|]. split; [reflexivity|].
    intros i Hi. destruct (Rd i Hi) as (id & x & E). exists id, x. cbn. rewrite E. rewrite (proj2 (existsb_nat i is) Hi). reflexivity.
  - pose proof (hist_crash _ _ _ _ _ U) as [D1 D2 D3]. constructor; [exact Bs|exact D2|]. cbn. intros b [<-|Hb]; [right; exact Nd|apply D3; exact Hb].
Qed.
Lemma job_members h P dur m d g k is tmp seqs : Inv m d g -> HU h P dur m g -> m_jobs m k = Job is tmp seqs JTemp ->
  let is' := filter (fun i => match m_clones m i with Ready _ _ (Some j) => Nat.eqb j k | _ => false end) is in
  Forall2 (fun i x => exists id, owner (m_clones m i) = Some (id, x) /\ lead m (m_clones m i) = None) is' (job_txns m k is).
Proof.
  intros I U Jk is'. unfold is'. clear is'. assert (Nl : forall i id x, m_clones m i = Ready id x (Some k) -> lead m (m_clones m i) = None) by (intros i id x E; rewrite E; cbn; rewrite Jk; reflexivity).
  clear Jk. induction is as [|i is IH]; cbn; [constructor|]. destruct (m_clones m i) as [| |id x|id x p|id x [j|]|id x|id x j] eqn:E; try exact IH.
  destruct (Nat.eqb_spec j k) as [J|J]; [|exact IH]. cbn. subst j. constructor; [|exact IH]. exists id. split; [rewrite E; reflexivity|apply (Nl i id x E)].
Qed.
Section Run.
Variables (sort merge : list shard -> list shard).
Hypothesis Hs : sorts shard_lt sort.
Hypothesis Hm : sorts owsla_lt merge.
Notation step := (step sort merge).
Notation steps := (steps sort merge).
Theorem hist_step l s s' h P dur : good s -> HS h P dur s -> step false l s = Some s' -> exists P' dur', HS (note l h) P' dur' s'.
Proof.
  intros G U H. destruct s as [m d g|d g]; cbn [good HS StoreModel.step] in G, U, H.
  - destruct l; cbn [orb] in H.
    + destruct (m_clones m i) eqn:E; try discriminate. injection H as <-. exists P, dur. cbn [HS]. apply (hist_frame h _ P dur m _ g U); auto; try apply U; [intros t Ht; exact Ht| | | | |].
      * intros j id x K. cbn in K. case_upd j; [discriminate|]. apply (hu_own _ _ _ _ _ U j id x K).
      * intros j n b K. cbn in K |- *. case2 j i; [injection K as <- <-; reflexivity|]. apply (hu_open _ _ _ _ _ U j n b K).
      * intros j id x K. cbn in K. case_upd j; [discriminate|exact K].
      * intros j k K. cbn in K. case_upd j; [discriminate|]. apply (hu_ask _ _ _ _ _ U j k K).
      * intros k is tmp seqs A B. split; [exact A|]. intros j Hj. destruct (B j Hj) as (id & x & K). exists id, x. cbn. case_upd j; congruence.
    + destruct (m_clones m i) as [|n0 b0| | | | |] eqn:E; try discriminate. destruct (Z.leb_spec 0 n); [|discriminate]. injection H as <-. exists P, dur. cbn [HS].
      pose proof (hu_open _ _ _ _ _ U i n0 b0 E) as Op. apply (hist_frame h _ P dur m _ g U); auto; try apply U; [intros t Ht; exact Ht| | | | |].
      * intros j id x K. cbn in K. case_upd j; [discriminate|]. apply (hu_own _ _ _ _ _ U j id x K).
      * intros j n1 b1 K. cbn in K |- *. case2 j i; [rewrite Op; cbn; injection K as <- <-; reflexivity|]. apply (hu_open _ _ _ _ _ U j n1 b1 K).
      * intros j id x K. cbn in K. case_upd j; [discriminate|exact K].
      * intros j k K. cbn in K. case_upd j; [discriminate|]. apply (hu_ask _ _ _ _ _ U j k K).
      * intros k is tmp seqs A B. split; [exact A|]. intros j Hj. destruct (B j Hj) as (id & x & K). exists id, x. cbn. case_upd j; congruence.
    + destruct (m_clones m i) eqn:E; try discriminate. destruct (m_lock m); [discriminate|]. unfold same in H. destruct (place m i n b) eqn:Pl; [|discriminate]. injection H as <-.
      destruct (hist_place h P dur m d g i n b m0 G U E Pl) as (P' & K). exists P', dur. exact K.
    + unfold up in H. destruct (pickle_step m d i) as [[m1 d1]|] eqn:Pk; [|discriminate]. injection H as <-. exists P, dur. cbn [HS note]. unfold pickle_step in Pk.
      destruct (m_clones m i) as [| |id x|id x p|id x j|id x|id x j] eqn:E; try discriminate.
      * destruct (t_data x); injection Pk as <- <-; (eapply (hist_clone h P dur m _ g i); [exact U|reflexivity|reflexivity|discriminate| |reflexivity|congruence]; rewrite E; auto).
      * destruct (p_stage p); [injection Pk as <- <-| |injection Pk as <- <-]; [| destruct (link _ _ d); injection Pk as <- <- |]; (eapply (hist_clone h P dur m _ g i); [exact U|reflexivity|reflexivity|discriminate| |reflexivity|congruence]; rewrite E; auto).
    + unfold same in H. destruct (pickle_fail m i) eqn:Pk; [|discriminate]. injection H as <-. exists P, dur. cbn [HS note]. unfold pickle_fail in Pk.
      destruct (m_clones m i) as [| |id x|id x p|id x j|id x|id x j] eqn:E; try discriminate; [|destruct (p_stage p); try discriminate]; injection Pk as <-;
        (eapply (hist_clone h P dur m _ g i); [exact U|reflexivity|reflexivity|discriminate| |reflexivity|congruence]; rewrite E; auto).
    + destruct (m_lock m) eqn:Lk; [discriminate|]. unfold commit_link in H. destruct (m_clones m i) as [| |id x|id x p|id x j|id x|id x j] eqn:E; try discriminate.
      destruct (may_commit m j) eqn:Mc; [|discriminate]. destruct (link _ _ d); injection H as <-; cbn [HS]; exists P.
      * destruct j as [k|]; [exists dur|exists (dur ++ map (h_tick h) [i])].
        -- apply (hist_frame h _ P dur m _ g U); auto; try apply U; [intros t Ht; right; exact Ht| | | | |].
           ++ intros j id' x' K. cbn in K. case_upd j; [|apply (hu_own _ _ _ _ _ U j id' x' K)]. apply (hu_own _ _ _ _ _ U i id x). rewrite E. reflexivity.
           ++ intros j n b K. cbn in K |- *. case_upd j; [discriminate|]. apply (hu_open _ _ _ _ _ U j n b K).
           ++ intros j id' x' K. cbn in K. case_upd j; [rewrite E|]; exact K.
           ++ intros j k' K. cbn in K |- *. case_upd j; [left; reflexivity|right]. apply (hu_ask _ _ _ _ _ U j k' K).
           ++ intros k' is tmp seqs A B. split; [exact A|]. intros j Hj. destruct (B j Hj) as (id' & x' & K). exists id', x'. cbn. case_upd j; [|exact K]. exfalso.
              rewrite E in K. injection K as -> -> ->. cbn in Mc. rewrite A in Mc. discriminate.
        -- apply (hist_durable h _ P dur m _ d g [i] G U); auto.
           ++ constructor; [intros []|constructor].
           ++ intros t Ht. right. exact Ht.
           ++ intros j [<-|[]]. left. reflexivity.
           ++ constructor; [|constructor]. exists id. rewrite E. auto.
           ++ intros j n b K. cbn in K. case_upd j; [discriminate|exact K].
           ++ intros j id' x' K. cbn in K. case_upd j; [rewrite E|]; exact K.
           ++ intros j k' K. cbn in K. case_upd j; [discriminate|exact K].
           ++ intros k' is tmp seqs A B. right. assert (Ni : forall j, In j is -> j <> i) by (intros j Hj ->; destruct (B i Hj) as (? & ? & Q); congruence).
              split; [intros j [<-|[]] K; apply (Ni i K eq_refl)|]. split; [exact A|]. intros j Hj. cbn. rewrite upd_other by (apply Ni; exact Hj). apply B. exact Hj.
      * exists dur. pose proof (hist_crash _ _ _ _ _ U) as [[B1 B2 B3 B4 B5 B6] D2 D3]. constructor; [|exact D2|exact D3]. constructor; auto. intros t Ht. apply B3 in Ht. cbn. tauto.
    + destruct (m_lock m) as [j0|]; [|discriminate]. destruct (Nat.eqb j0 i); [|discriminate]. unfold up in H. destruct (commit_finish m d i) as [[m1 d1]|] eqn:Pf; [|discriminate]. injection H as <-. exists P, dur. cbn [HS].
      unfold commit_finish in Pf. destruct (m_clones m i) as [| |id x|id x p|id x j|id x|id x j] eqn:E; try discriminate. injection Pf as <- <-.
      destruct (hu_own _ _ _ _ _ U i id x) as (A1 & A2 & A3 & A4); [rewrite E; reflexivity|].
      assert (Lx : In x g) by (apply (i_lead _ _ _ G i); rewrite E; reflexivity).
      apply (hist_frame h _ P dur m _ g U); auto.
      * intros t Ht. exact Ht.
      * cbn. intros t [<-|Ht]; [apply A3, Lx|]. apply (hb_ack _ _ _ _ (hu_base _ _ _ _ _ U) t Ht).
      * cbn. constructor; [exact A4|apply U].
      * intros j' id' y K. cbn in K |- *. case_upd j'; [discriminate|]. intros [Q|Q]; [|apply (hu_own _ _ _ _ _ U j' id' y K); exact Q].
        destruct (hu_own _ _ _ _ _ U j' id' y K) as (_ & C2 & _). rewrite <- Q in C2. apply Nu.
        assert (Ox : owner (m_clones m i) = Some (id, x)) by (rewrite E; reflexivity). apply (own_same _ _ _ G _ _ _ _ _ _ K Ox). congruence.
      * intros j' n b K. cbn in K |- *. case_upd j'; [discriminate|]. apply (hu_open _ _ _ _ _ U j' n b K).
      * intros j' id' y K. cbn in K. case_upd j'; [discriminate|exact K].
      * intros j' k K. cbn in K |- *. case_upd j'; [discriminate|]. apply (hu_ask _ _ _ _ _ U j' k K).
      * intros k is tmp seqs A B. split; [exact A|]. intros j' Hj. destruct (B j' Hj) as (id' & y & K). exists id', y. cbn. case_upd j'; congruence.
    + destruct (match m_lock m with None => true | Some _ => false end); [|discriminate]. cbn [andb] in H.
      destruct (match m_clones m i with Open _ _ => match find d (shard_name (lit "kitten") g0 h0) with None => true | Some _ => false end | _ => true end) eqn:C; [|discriminate].
      unfold up in H. destruct (abort m d i g0 h0) as [[m1 d1]|] eqn:Pa; [|discriminate]. injection H as <-. exists P, dur. cbn [HS note]. unfold abort in Pa.
      destruct (m_clones m i) as [|n c|id x|id x p|id x [j|]|id x|id x j] eqn:E; try discriminate; injection Pa as <- <-;
        (eapply (hist_clone h P dur m _ g i); [exact U|reflexivity|reflexivity|discriminate|discriminate|reflexivity|congruence]).
    + destruct is as [|i0 r] eqn:Ei; [discriminate|]. rewrite <- Ei in *. destruct (distinct is) eqn:Di; [|rewrite andb_false_r in H; discriminate].
      assert (H' : script_write m d g k is = Some s') by (destruct is; [discriminate|exact H]). exists P, dur. apply (hist_script h P dur m d g k is s' G U H').
    + pose proof (script_link_inv m d g k s' G H) as (m' & d' & g' & -> & _). destruct (shown_step sort merge Hs Hm (LScriptLink k) m d g m' d' g' G H) as [Eg _]. cbn in Eg. rewrite Eg. clear Eg.
      unfold script_link in H. destruct (m_jobs m k) as [|is tmp seqs []] eqn:Jk; try discriminate. exists P.
      pose proof (i_jb _ _ _ G k) as J. rewrite Jk in J. cbn in J. destruct J as (Ni & Jt & _).
      destruct (link tmp (script_name k) d) as [d1|] eqn:L.
      * injection H as <- <- <-. pose proof (job_members h P dur m d g k is tmp seqs G U Jk) as Fm. cbn zeta in Fm. set (is' := filter _ is) in Fm. exists (dur ++ map (h_tick h) is'). cbn [HS note].
        assert (Is' : forall i, In i is' -> exists id x, m_clones m i = Ready id x (Some k)).
        { intros i Hi. apply filter_In in Hi. destruct Hi as [_ Hi]. destruct (m_clones m i) as [| |id x|id x p|id x [j|]|id x|id x j]; try discriminate. apply Nat.eqb_eq in Hi. subst j. eauto. }
        apply (hist_durable h h P dur m _ d g is' G U); auto.
        -- apply NoDup_filter. exact Ni.
        -- intros t Ht. exact Ht.
        -- intros i Hi. destruct (Is' i Hi) as (id & x & E). apply (hu_ask _ _ _ _ _ U i k). rewrite E. reflexivity.
        -- intros k' is2 tmp2 seqs2 A B. destruct (Nat.eq_dec k' k) as [Ek|Ek].
           ++ subst k'. left. rewrite Jk in A. injection A as <- <- <-. clear - B. unfold is'. clear is'. induction is as [|i r IH]; [reflexivity|]. cbn. destruct (B i (or_introl eq_refl)) as (id & x & ->). rewrite Nat.eqb_refl.
              f_equal. apply IH. intros j Hj. apply B. right. exact Hj.
           ++ right. split; [|split; [cbn; rewrite upd_other by exact Ek; exact A|exact B]]. intros i Hi Hi2. destruct (Is' i Hi) as (id & x & E1). destruct (B i Hi2) as (id' & x' & E2). congruence.
      * exfalso. unfold link in L. rewrite (Jt eq_refl) in L. destruct (find d (script_name k)) eqn:F; [|discriminate].
        destruct (i_scr _ _ _ G _ _ F eq_refl) as (k' & is2 & tmp' & seqs' & st & A & B & C & D). apply script_inj in C. subst k'. rewrite Jk in A. injection A as <- <- <- <-. rewrite Jk in B. discriminate.
    + unfold up in H. destruct (script_tidy m d k) as [[m1 d1]|] eqn:Pt; [|discriminate]. injection H as <-. exists P, dur. cbn [HS note]. unfold script_tidy in Pt. destruct (m_jobs m k) as [|is tmp seqs []] eqn:Jk; try discriminate.
      injection Pt as <- <-. apply (hist_same h P dur m); auto. intros k' is2 tmp2 seqs2 A B. split; [cbn; rewrite upd_other by congruence; exact A|exact B].
    + unfold up in H. destruct (script_done m d k) as [[m1 d1]|] eqn:Pt; [|discriminate]. injection H as <-. exists P, dur. cbn [HS note]. unfold script_done in Pt. destruct (m_jobs m k) as [|is tmp seqs []] eqn:Jk; try discriminate.
      destruct (forallb _ is); [|discriminate]. injection Pt as <- <-. apply (hist_same h P dur m); auto. intros k' is2 tmp2 seqs2 A B. split; [cbn; rewrite upd_other by congruence; exact A|exact B].
    + destruct (m_lock m); [discriminate|]. unfold same in H. destruct (choose m w a n) eqn:Pc; [|discriminate]. injection H as <-. exists P, dur. cbn [HS note]. unfold choose in Pc. destruct (m_workers m w); try discriminate.
      destruct (validate m _); [|discriminate]. injection Pc as <-. apply (hist_clones h P dur m); auto.
    + unfold up in H. destruct (merge_step m d w) as [[m1 d1]|] eqn:Pm; [|discriminate]. injection H as <-. exists P, dur. cbn [HS note]. apply (hist_clones h P dur m); auto; unfold merge_step in Pm; destruct (m_workers m w); try discriminate;
        try (destruct (match a, find d (out_name a sel) with HMerge, Some _ => true | _, _ => false end); injection Pm as <- _; destruct a; reflexivity);
        (destruct (p_stage p); [injection Pm as <- _; reflexivity| |injection Pm as <- _; reflexivity]; destruct (link _ _ d); [injection Pm as <- _; reflexivity|]; destruct a; injection Pm as <- _; reflexivity).
    + unfold up in H. destruct (merge_fail false m d w) as [[m1 d1]|] eqn:Pm; [|discriminate]. injection H as <-. exists P, dur. cbn [HS note]. apply (hist_clones h P dur m); auto; unfold merge_fail in Pm; destruct (m_workers m w); try discriminate;
        try (destruct a; try discriminate; injection Pm as <- _; reflexivity); destruct a, (p_stage p); try discriminate; injection Pm as <- _; reflexivity.
    + discriminate.
    + destruct (m_lock m); [discriminate|]. unfold same in H. destruct (install m w) eqn:Pi; [|discriminate]. injection H as <-. exists P, dur. cbn [HS note].
      assert (K : m_clones m0 = m_clones m /\ m_jobs m0 = m_jobs m).
      { unfold install in Pi. destruct (m_workers m w); try discriminate. destruct sel; [discriminate|]. destruct (rev (e :: sel)); [discriminate|]. destruct (replace _ _ _ _); injection Pi as <-; auto. }
      apply (hist_clones h P dur m); tauto.
    + unfold up in H. destruct (discard m d w) as [[m1 d1]|] eqn:Pd; [|discriminate]. injection H as <-. exists P, dur. cbn [HS note]. apply (hist_clones h P dur m); auto; unfold discard in Pd; destruct (m_workers m w); try discriminate; destruct names; injection Pd as <- _; reflexivity.
    + destruct (_ || _); [|discriminate]. injection H as <-. exists P, dur. exact U.
    + destruct (m_lock m); [discriminate|]. exists P, dur. destruct (m_readers m r); injection H as <-; [exact U|]. apply (hist_clones h P dur m); auto.
    + injection H as <-. exists P, dur. apply (hist_clones h P dur m); auto.
    + injection H as <-. exists P, dur. apply (hist_crash h P dur m). exact U.
    + discriminate.
    + discriminate.
  - destruct (opening sort merge d) as [[acts m]|] eqn:Eo; [|destruct l; discriminate]. destruct l; try discriminate; injection H as <-; exists P, dur; [exact U|]. cbn [HS note].
    destruct (opening_ok sort merge Hs Hm d g G) as (acts' & m' & E & _). unfold opening in Eo. destruct (recover _ _ _) as [[[shards ?] removed]|]; [|discriminate].
    destruct (load_all _ _ _) as [es|]; [|discriminate]. injection Eo as <- <-. apply hist_open. exact U.
Qed.
Lemma hist_start : HS nothing [] [] start.
Proof.
  cbn. constructor; [constructor; cbn|intros t t' []|intros b []]; [reflexivity|reflexivity|intros t []|intros t []|constructor|intros b t []].
Qed.
Lemma hist_steps ls : forall s s' h P dur, good s -> HS h P dur s -> steps false ls s = Some s' -> exists P' dur', HS (fold_left (fun h l => note l h) ls h) P' dur' s'.
Proof.
  induction ls as [|l r IH]; intros s s' h P dur G U H; cbn [StoreModel.steps fold_left] in H |- *; [injection H as <-; eauto|].
  destruct (step false l s) as [s1|] eqn:E; [|discriminate]. destruct (hist_step l s s1 h P dur G U E) as (P1 & dur1 & U1).
  apply (IH s1 s' _ P1 dur1 (good_step sort merge Hs Hm l s s1 G E) U1 H).
Qed.
Theorem hist_run ls s : steps false ls start = Some s -> good s /\ exists P dur, HS (notes ls) P dur s.
Proof.
  intros H. split; [apply (good_steps sort merge Hs Hm ls start s start_good H)|]. apply (hist_steps ls start s nothing [] [] start_good hist_start H).
Qed.
End Run.

(** * Reading off the tickets *)
Lemma tickets P dur : (forall t t', In t dur -> In t' dur -> (t < t')%nat -> t_seq (nthx P t) < t_seq (nthx P t')) ->
  forall l, StronglySorted (fun x y => t_seq x < t_seq y) l -> (forall x, In x l -> In x (map (nthx P) dur)) ->
  exists ts, StronglySorted lt ts /\ incl ts dur /\ map (nthx P) ts = l.
Proof.
  intros Ord l. induction 1 as [|x l S1 IH F]; intros Hl.
  - exists []. split; [constructor|]. split; [intros t []|reflexivity].
  - destruct IH as (ts & A & B & C); [intros y Hy; apply Hl; right; exact Hy|]. specialize (Hl x (or_introl eq_refl)). apply in_map_iff in Hl. destruct Hl as (t & E & Ht).
    exists (t :: ts). split; [|split; [intros u [<-|Hu]; [exact Ht|apply B; exact Hu]|cbn; congruence]]. constructor; [exact A|]. apply Forall_forall. intros u Hu.
    rewrite Forall_forall in F. assert (K : In (nthx P u) l) by (rewrite <- C; apply in_map; exact Hu). apply F in K. rewrite <- E in K.
    destruct (Nat.lt_trichotomy t u) as [L|[L|L]]; [exact L|subst u; lia|]. specialize (Ord u t (B u Hu) Ht L). lia.
Qed.
Lemma one_ticket P dur t t' : (forall t t', In t dur -> In t' dur -> (t < t')%nat -> t_seq (nthx P t) < t_seq (nthx P t')) -> In t dur -> In t' dur -> nthx P t = nthx P t' -> t = t'.
Proof. intros Ord A B E. destruct (Nat.lt_trichotomy t t') as [L|[L|L]]; [|exact L|]; [specialize (Ord t t' A B L)|specialize (Ord t' t B A L)]; rewrite E in Ord; lia. Qed.
Lemma are_tickets h P dur g ts l : HB h P dur g -> StronglySorted lt ts -> incl ts dur -> map (nthx P) ts = l -> are h ts l.
Proof.
  intros B A I <-. assert (Lp : length (h_placed h) = length P) by (rewrite <- (hb_placed _ _ _ _ B), map_length; reflexivity).
  split; [exact A|]. split; [intros t Ht; rewrite Lp; apply (hb_dur _ _ _ _ B), I, Ht|]. rewrite map_map. apply map_ext_in. intros t Ht. rewrite <- (hb_placed _ _ _ _ B).
  change (0, []) with (content nil_txn). rewrite map_nth. reflexivity.
Qed.
