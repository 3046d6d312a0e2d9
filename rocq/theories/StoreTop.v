(** Durability, snapshots and addresses over whole histories. *)
From Verif Require Import Base Bytes NameModel NameSpec NameProofs RecoverAll StoreModel StoreSpec StoreDir StoreInv StoreFacts StoreClone StoreCommit StoreJob StoreMerge StoreInstall StoreDown StoreOpen StoreMain StoreHist.
From Coq Require Import Sorting.Sorted Sorting.Permutation.

Lemma good_disk s : good s -> exists g, DI (disk s) g /\ (match s with Up _ _ g' => g' | Down _ g' => g' end) = g.
Proof. destruct s as [m d g|d g]; cbn; intros G; exists g; (split; [|reflexivity]); [apply (crash_inv m); exact G|exact G]. Qed.
Lemma owner_holder m i x : holder m i x <-> exists id, owner (m_clones m i) = Some (id, x).
Proof.
  unfold holder, owner. destruct (m_clones m i) as [| |id y|id y p|id y j|id y|id y j]; (split; [intros H; try contradiction; subst; eexists; reflexivity|intros (id' & H); try discriminate; injection H as _ H; exact H]).
Qed.

Section Run.
Variables (sort merge : list shard -> list shard).
Hypothesis Hs : sorts shard_lt sort.
Hypothesis Hm : sorts owsla_lt merge.
Notation step := (step sort merge).
Notation steps := (steps sort merge).
Notation reopened := (reopened sort merge).

Lemma steps_app ls1 : forall ls2 s, steps false (ls1 ++ ls2) s = match steps false ls1 s with Some s' => steps false ls2 s' | None => None end.
Proof. induction ls1 as [|l r IH]; intros ls2 s; cbn; [reflexivity|]. destruct (step false l s); [apply IH|reflexivity]. Qed.
Lemma reopened_spec d g : DI d g -> exists l, reopened d = Some l /\ StronglySorted (fun x y => t_seq x < t_seq y) l /\ forall x, In x l <-> In x g.
Proof.
  intros D. destruct (opening_ok sort merge Hs Hm d g D) as (acts & m & E & I & _). unfold StoreSpec.reopened. rewrite E. exists (shown m). split; [reflexivity|]. split; [apply (shown_sorted _ _ _ I)|].
  unfold opening in E. destruct (recover _ _ _) as [[[shards ?] removed]|]; [|discriminate]. destruct (load_all _ _ _) as [es|]; [|discriminate]. injection E as <- <-. apply (fresh_shown _ _ _ I).
Qed.
Lemma reopened_same d d' g g' : DI d g -> DI d' g' -> (forall x, In x g <-> In x g') -> reopened d = reopened d'.
Proof.
  intros D D' E. destruct (reopened_spec d g D) as (l & A & B & C). destruct (reopened_spec d' g' D') as (l' & A' & B' & C'). rewrite A, A'. f_equal. apply sorted_same; [exact B|exact B'|].
  intros x. rewrite C, C'. apply E.
Qed.
Theorem durable ls s : steps false ls start = Some s -> exists l ts, reopened (disk s) = Some l /\ are (notes ls) ts l /\
  incl (h_acked (notes ls)) ts /\ incl ts (h_asked (notes ls)) /\ forall b, In b (h_batches (notes ls)) -> incl b ts \/ forall t, In t b -> ~ In t ts.
Proof.
  intros H. destruct (hist_run sort merge Hs Hm ls s H) as (G & P & dur & U).
  assert (D : exists g, DI (disk s) g /\ HD (notes ls) P dur g) by (destruct s as [m d g|d g]; exists g; cbn in *; [split; [apply (crash_inv m); exact G|apply (hist_crash _ _ _ m); exact U]|split; assumption]).
  destruct D as (g & D & [B Ord Bat]). destruct (reopened_spec _ _ D) as (l & R1 & R2 & R3).
  destruct (tickets P dur Ord l R2) as (ts & T1 & T2 & T3); [intros x Hx; rewrite <- (hb_g _ _ _ _ B); apply R3; exact Hx|].
  assert (T4 : incl dur ts).
  { intros t Ht. assert (K : In (nthx P t) l) by (apply R3; rewrite (hb_g _ _ _ _ B); apply in_map; exact Ht). rewrite <- T3 in K. apply in_map_iff in K. destruct K as (t' & E & Ht').
    rewrite <- (one_ticket P dur t' t Ord (T2 _ Ht') Ht E). exact Ht'. }
  exists l, ts. split; [exact R1|]. split; [apply (are_tickets _ P dur g); assumption|]. split; [intros t Ht; apply T4, (hb_ack _ _ _ _ B), Ht|].
  split; [intros t Ht; apply (hb_dur _ _ _ _ B), T2, Ht|]. intros b Hb. destruct (Bat b Hb) as [K|K]; [left; intros t Ht; apply T4, K, Ht|right]. intros t Ht K'. apply (K t Ht), T2, K'.
Qed.
Theorem running ls m d g : steps false ls start = Some (Up m d g) -> exists ts, are (notes ls) ts (shown m) /\
  incl (h_acked (notes ls)) ts /\ NoDup (h_acked (notes ls)) /\ incl ts (h_asked (notes ls)) /\
  (forall i x, holder m i x -> content x = nth (h_tick (notes ls) i) (h_placed (notes ls)) (0, []) /\ ~ In (h_tick (notes ls) i) ts).
Proof.
  intros H. destruct (hist_run sort merge Hs Hm ls _ H) as (G & P & dur & U). cbn in G, U. pose proof (hu_base _ _ _ _ _ U) as B.
  assert (Ord : forall t t', In t dur -> In t' dur -> (t < t')%nat -> t_seq (nthx P t) < t_seq (nthx P t')) by (intros t t' A C; apply (hu_ord _ _ _ _ _ U); left; assumption).
  destruct (tickets P dur Ord (shown m) (shown_sorted _ _ _ G)) as (ts & T1 & T2 & T3); [intros x Hx; rewrite <- (hb_g _ _ _ _ B); apply (shown_spec _ _ _ G) in Hx; apply Hx|].
  exists ts. split; [apply (are_tickets _ P dur g); assumption|]. split; [|split; [apply B|split]].
  - intros t Ht. assert (K : In (nthx P t) (shown m)).
    { apply (shown_spec _ _ _ G). split; [rewrite (hb_g _ _ _ _ B); apply in_map, (hb_ack _ _ _ _ B), Ht|]. intros i L. destruct (lead_owner _ _ _ L) as (id & O).
      destruct (hu_own _ _ _ _ _ U i id _ O) as (_ & O2 & O3 & O4). apply O4.
      assert (K : In (h_tick (notes ls) i) dur) by (apply O3, (i_lead _ _ _ G i), L). rewrite (one_ticket P dur _ t Ord K (hb_ack _ _ _ _ B t Ht) O2). exact Ht. }
    rewrite <- T3 in K. apply in_map_iff in K. destruct K as (t' & E & Ht'). rewrite <- (one_ticket P dur t' t Ord (T2 _ Ht') (hb_ack _ _ _ _ B t Ht) E). exact Ht'.
  - intros t Ht. apply (hb_dur _ _ _ _ B), T2, Ht.
  - intros i x O. apply owner_holder in O. destruct O as (id & O). destruct (hu_own _ _ _ _ _ U i id x O) as (O1 & O2 & O3 & O4). split.
    + rewrite <- O2, <- (hb_placed _ _ _ _ B). change (0, []) with (content nil_txn). rewrite map_nth. reflexivity.
    + intros K. assert (Q : In x (shown m)) by (rewrite <- T3, <- O2; apply in_map; exact K). unfold shown in Q. apply in_flat_map in Q. destruct Q as (e & He & Hx). apply filter_In in He. destruct He as [He V].
      destruct (i_vis _ _ _ G e He V) as [[_ Hh] _]. apply Hh in Hx. destruct (own_hidden _ _ _ G _ _ _ _ O He V); lia.
Qed.

(** * Nothing is lost *)
Lemma shown_mono l m d g s' : Inv m d g -> step false l (Up m d g) = Some s' -> incl g (match s' with Up _ _ g' | Down _ g' => g' end) /\
  match s' with Up m' _ _ => incl (shown m) (shown m') | Down _ _ => True end.
Proof.
  intros I H. destruct s' as [m' d' g'|d' g'].
  - destruct (shown_step sort merge Hs Hm l m d g m' d' g' I H) as [-> K]. split; [intros x Hx; apply in_app_iff; left; exact Hx|].
    destruct l; try (rewrite K; intros x Hx; exact Hx). destruct K as (id & x & j & _ & K). intros y Hy. apply K. left. exact Hy.
  - split; [|exact Logic.I]. cbn [StoreModel.step] in H. destruct l; try discriminate.
    + destruct (m_clones m i); discriminate.
    + destruct (m_clones m i); try discriminate. destruct (0 <=? n); discriminate.
    + destruct (m_clones m i); try discriminate. destruct (m_lock m); [discriminate|]. unfold same in H. destruct (place m i n b); discriminate.
    + unfold up in H. destruct (pickle_step m d i) as [[? ?]|]; discriminate.
    + unfold same in H. destruct (pickle_fail m i); discriminate.
    + destruct (m_lock m) eqn:Lk; [discriminate|]. pose proof (commit_link_inv m d g i _ I Lk H) as K. cbn in K. destruct K as [-> ->]. apply incl_refl.
    + destruct (match m_lock m with Some j => Nat.eqb j i | None => false end); [|discriminate]. unfold up in H. destruct (commit_finish m d i) as [[? ?]|]; discriminate.
    + destruct (_ && _); [|discriminate]. unfold up in H. destruct (abort m d i g0 h) as [[? ?]|]; discriminate.
    + destruct (_ && _) eqn:A; [|discriminate]. apply andb_prop in A. destruct A as [_ A]. pose proof (script_write_inv m d g k is _ I (distinct_nodup _ A) H) as K. cbn in K. destruct K as [-> ->]. apply incl_refl.
    + destruct (script_link_inv m d g k _ I H) as (? & ? & ? & X & _). discriminate.
    + unfold up in H. destruct (script_tidy m d k) as [[? ?]|]; discriminate.
    + unfold up in H. destruct (script_done m d k) as [[? ?]|]; discriminate.
    + destruct (m_lock m); [discriminate|]. unfold same in H. destruct (choose m w a n); discriminate.
    + unfold up in H. destruct (merge_step m d w) as [[? ?]|]; discriminate.
    + unfold up in H. destruct (merge_fail false m d w) as [[? ?]|]; discriminate.
    + destruct (m_lock m); [discriminate|]. unfold same in H. destruct (install m w); discriminate.
    + unfold up in H. destruct (discard m d w) as [[? ?]|]; discriminate.
    + destruct (_ || _); discriminate.
    + destruct (m_lock m); [discriminate|]. destruct (m_readers m r); discriminate.
    + injection H as <- <-. apply incl_refl.
Qed.
Lemma down_step l d g s' : DI d g -> step false l (Down d g) = Some s' -> match s' with Down _ g' => g' = g | Up m _ g' => g' = g /\ incl g (shown m) end.
Proof.
  intros D H. pose proof (good_step sort merge Hs Hm l (Down d g) s' D H) as G'. cbn [StoreModel.step] in H. destruct (opening sort merge d) as [[acts m]|] eqn:E; [|destruct l; discriminate].
  destruct l; try discriminate; injection H as <-; [reflexivity|]. split; [reflexivity|]. cbn in G'. unfold opening in E. destruct (recover _ _ _) as [[[shards ?] removed]|]; [|discriminate].
  destruct (load_all _ _ _) as [es|]; [|discriminate]. injection E as <- <-. intros x Hx. apply (fresh_shown _ _ _ G'). exact Hx.
Qed.
Definition dur_of (s : sys) : list txn := match s with Up _ _ g | Down _ g => g end.
Lemma kept_steps ls : forall s s' l, good s -> steps false ls s = Some s' -> incl l (match s with Up m _ _ => shown m | Down _ g => g end) -> incl l (dur_of s) ->
  incl l (match s' with Up m _ _ => shown m | Down _ g => g end) /\ incl l (dur_of s').
Proof.
  induction ls as [|a r IH]; intros s s' l G H A B; cbn [StoreModel.steps] in H; [injection H as <-; auto|]. destruct (step false a s) as [s1|] eqn:E; [|discriminate].
  pose proof (good_step sort merge Hs Hm a s s1 G E) as G1. apply (IH s1 s' l G1 H).
  - destruct s as [m d g|d g]; cbn in G.
    + destruct (shown_mono a m d g s1 G E) as [K1 K2]. destruct s1; intros x Hx; [apply K2, A, Hx|apply K1, B, Hx].
    + pose proof (down_step a d g s1 G E) as K. destruct s1; [destruct K as [-> K]; intros x Hx; apply K, B, Hx|subst; exact A].
  - destruct s as [m d g|d g]; cbn in G.
    + destruct (shown_mono a m d g s1 G E) as [K1 K2]. intros x Hx. destruct s1; cbn in *; apply K1, B, Hx.
    + pose proof (down_step a d g s1 G E) as K. destruct s1; [destruct K as [-> K]|subst]; exact B.
Qed.
Theorem nothing_lost ls1 ls2 m d g s : steps false ls1 start = Some (Up m d g) -> steps false (ls1 ++ ls2) start = Some s ->
  (exists l, reopened (disk s) = Some l /\ incl (shown m) l) /\ (forall m' d' g', s = Up m' d' g' -> incl (shown m) (shown m')).
Proof.
  intros H1 H2. rewrite steps_app, H1 in H2. pose proof (good_steps sort merge Hs Hm ls1 start _ start_good H1) as G1. pose proof (good_steps sort merge Hs Hm ls2 _ s G1 H2) as G2.
  destruct (kept_steps ls2 (Up m d g) s (shown m) G1 H2) as [K1 K2]; [intros x Hx; exact Hx|intros x Hx; apply (shown_spec _ _ _ G1) in Hx; apply Hx|].
  split; [|intros m' d' g' ->; exact K1]. destruct (good_disk s G2) as (g' & D & Eg). destruct (reopened_spec _ _ D) as (l & R1 & R2 & R3). exists l. split; [exact R1|].
  intros x Hx. apply R3. rewrite <- Eg. apply K2 in Hx. destruct s; exact Hx.
Qed.
Theorem opening_interrupted ls s k acts m : steps false ls start = Some s -> opening sort merge (disk s) = Some (acts, m) -> reopened (run (firstn k acts) (disk s)) = reopened (disk s).
Proof.
  intros H E. pose proof (good_steps sort merge Hs Hm ls start s start_good H) as G. destruct (good_disk s G) as (g & D & _). destruct (opening_ok sort merge Hs Hm _ _ D) as (acts' & m' & E' & _ & K & _).
  rewrite E in E'. injection E' as <- <-. apply (reopened_same _ _ g g (K k) D). reflexivity.
Qed.

(** * Background work *)
Theorem background_invisible ls l m d g s' : steps false ls start = Some (Up m d g) -> background l = true -> step false l (Up m d g) = Some s' ->
  exists m' d' g', s' = Up m' d' g' /\ shown m' = shown m /\ reopened d' = reopened d /\ exists x, reopened d = Some x /\ incl (shown m) x.
Proof.
  intros H L E. pose proof (good_steps sort merge Hs Hm ls start _ start_good H) as G. pose proof (good_step sort merge Hs Hm l _ s' G E) as G'.
  destruct s' as [m' d' g'|d' g'].
  - destruct (shown_step sort merge Hs Hm l m d g m' d' g' G E) as [Eg K]. assert (Q : g ++ gained l m = g) by (destruct l; try discriminate; apply app_nil_r). rewrite Q in Eg. subst g'. exists m', d', g.
    split; [reflexivity|]. split; [destruct l; try discriminate; exact K|]. split; [apply (reopened_same _ _ g g); [apply (crash_inv m'); exact G'|apply (crash_inv m); exact G|reflexivity]|].
    destruct (reopened_spec d g (crash_inv _ _ _ G)) as (x & R1 & _ & R3). exists x. split; [exact R1|]. intros y Hy. apply R3. apply (shown_spec _ _ _ G) in Hy. apply Hy.
  - exfalso. cbn [StoreModel.step] in E. destruct l; try discriminate.
    + destruct (m_lock m); [discriminate|]. unfold same in E. destruct (choose m w a n); discriminate.
    + unfold up in E. destruct (merge_step m d w) as [[? ?]|]; discriminate.
    + unfold up in E. destruct (merge_fail false m d w) as [[? ?]|]; discriminate.
    + destruct (m_lock m); [discriminate|]. unfold same in E. destruct (install m w); discriminate.
    + unfold up in E. destruct (discard m d w) as [[? ?]|]; discriminate.
    + destruct (_ || _); discriminate.
Qed.

(** * Readers *)
Lemma reader_step l m d g m' d' g' r : step false l (Up m d g) = Some (Up m' d' g') ->
  match l with
  | LStart q => q = r /\ m_readers m r = None /\ m_readers m' r = Some (filter visible (m_entries m), m_gen m) \/ m_readers m' r = m_readers m r
  | LEnd q => q = r /\ m_readers m' r = None \/ m_readers m' r = m_readers m r
  | _ => m_readers m' r = m_readers m r
  end.
Proof.
  intros H. cbn [StoreModel.step] in H. destruct l; cbn [orb] in H.
  - destruct (m_clones m i); try discriminate. injection H as <- <- <-. reflexivity.
  - destruct (m_clones m i); try discriminate. destruct (0 <=? n); [|discriminate]. injection H as <- <- <-. reflexivity.
  - destruct (m_clones m i); try discriminate. destruct (m_lock m); [discriminate|]. unfold same in H. destruct (place m i n b) eqn:P; [|discriminate]. injection H as <- <- <-. unfold place in P. destruct (_ <? _); [|discriminate]. injection P as <-. reflexivity.
  - unfold up in H. destruct (pickle_step m d i) as [[m1 d1]|] eqn:P; [|discriminate]. injection H as <- <- <-. unfold pickle_step in P. destruct (m_clones m i); try discriminate; [destruct (t_data x); injection P as <- _; reflexivity|].
    destruct (p_stage p); [injection P as <- _; reflexivity| |injection P as <- _; reflexivity]. destruct (link _ _ d); injection P as <- _; reflexivity.
  - unfold same in H. destruct (pickle_fail m i) eqn:P; [|discriminate]. injection H as <- <- <-. unfold pickle_fail in P. destruct (m_clones m i); try discriminate; [injection P as <-; reflexivity|]. destruct (p_stage p); try discriminate; injection P as <-; reflexivity.
  - destruct (m_lock m); [discriminate|]. unfold commit_link in H. destruct (m_clones m i); try discriminate. destruct (may_commit m j); [|discriminate]. destruct (link _ _ d); [|discriminate]. injection H as <- <- <-. reflexivity.
  - destruct (match m_lock m with Some j => Nat.eqb j i | None => false end); [|discriminate]. unfold up in H. destruct (commit_finish m d i) as [[m1 d1]|] eqn:P; [|discriminate]. injection H as <- <- <-. unfold commit_finish in P. destruct (m_clones m i); try discriminate. injection P as <- _. reflexivity.
  - destruct (_ && _); [|discriminate]. unfold up in H. destruct (abort m d i g0 h) as [[m1 d1]|] eqn:P; [|discriminate]. injection H as <- <- <-. unfold abort in P. destruct (m_clones m i) as [|n c|id x|id x p|id x [j|]|id x|id x j]; try discriminate; injection P as <- _; reflexivity.
  - destruct (_ && _); [|discriminate]. unfold script_write in H. destruct (m_jobs m k); [|discriminate]. destruct (members m is); [|discriminate]. destruct (forallb _ _); [|discriminate]. injection H as <- _ _. reflexivity.
  - unfold script_link in H. destruct (m_jobs m k) as [|is tmp seqs []]; try discriminate. destruct (link _ _ d); injection H as <- _ _; reflexivity.
  - unfold up in H. destruct (script_tidy m d k) as [[m1 d1]|] eqn:P; [|discriminate]. injection H as <- <- <-. unfold script_tidy in P. destruct (m_jobs m k) as [|is tmp seqs []]; try discriminate. injection P as <- _. reflexivity.
  - unfold up in H. destruct (script_done m d k) as [[m1 d1]|] eqn:P; [|discriminate]. injection H as <- <- <-. unfold script_done in P. destruct (m_jobs m k) as [|is tmp seqs []]; try discriminate. destruct (forallb _ is); [|discriminate]. injection P as <- _. reflexivity.
  - destruct (m_lock m); [discriminate|]. unfold same in H. destruct (choose m w a n) eqn:P; [|discriminate]. injection H as <- <- <-. unfold choose in P. destruct (m_workers m w); try discriminate. destruct (validate m _); [|discriminate]. injection P as <-. reflexivity.
  - unfold up in H. destruct (merge_step m d w) as [[m1 d1]|] eqn:P; [|discriminate]. injection H as <- <- <-. unfold merge_step in P. destruct (m_workers m w); try discriminate.
    + destruct (match a, find d (out_name a sel) with HMerge, Some _ => true | _, _ => false end); injection P as <- _; destruct a; reflexivity.
    + destruct (p_stage p); [injection P as <- _; reflexivity| |injection P as <- _; reflexivity]. destruct (link _ _ d); [injection P as <- _; reflexivity|]. destruct a; injection P as <- _; reflexivity.
  - unfold up in H. destruct (merge_fail false m d w) as [[m1 d1]|] eqn:P; [|discriminate]. injection H as <- <- <-. unfold merge_fail in P. destruct (m_workers m w); try discriminate.
    + destruct a; try discriminate; injection P as <- _; reflexivity.
    + destruct a, (p_stage p); try discriminate; injection P as <- _; reflexivity.
  - discriminate.
  - destruct (m_lock m); [discriminate|]. unfold same in H. destruct (install m w) eqn:P; [|discriminate]. injection H as <- <- <-. unfold install in P. destruct (m_workers m w); try discriminate. destruct sel; [discriminate|]. destruct (rev (e :: sel)); [discriminate|]. destruct (replace _ _ _ _); injection P as <-; reflexivity.
  - unfold up in H. destruct (discard m d w) as [[m1 d1]|] eqn:P; [|discriminate]. injection H as <- <- <-. unfold discard in P. destruct (m_workers m w); try discriminate. destruct names; injection P as <- _; reflexivity.
  - destruct (_ || _); [|discriminate]. injection H as <- <- <-. reflexivity.
  - destruct (m_lock m); [discriminate|]. destruct (m_readers m r0) eqn:R; injection H as <- <- <-; [right; reflexivity|]. cbn. destruct (Nat.eq_dec r r0) as [Q|Q]; [subst r0; left; rewrite upd_same; auto|right; apply upd_other; exact Q].
  - injection H as <- <- <-. cbn. destruct (Nat.eq_dec r r0) as [Q|Q]; [subst r0; left; rewrite upd_same; auto|right; apply upd_other; exact Q].
  - discriminate.
  - discriminate.
  - discriminate.
Qed.
Lemma numbers_step l m d g m' d' g' : step false l (Up m d g) = Some (Up m' d' g') ->
  m_gen m' = match l with LCommitted _ => S (m_gen m) | _ => m_gen m end /\ ((forall i, l <> LPlace i) -> m_address m' = m_address m /\ m_sequence m' = m_sequence m).
Proof.
  intros H. cbn [StoreModel.step] in H. destruct l; cbn [orb] in H.
  - destruct (m_clones m i); try discriminate. injection H as <- <- <-. auto.
  - destruct (m_clones m i); try discriminate. destruct (0 <=? n); [|discriminate]. injection H as <- <- <-. auto.
  - destruct (m_clones m i); try discriminate. destruct (m_lock m); [discriminate|]. unfold same in H. destruct (place m i n b) eqn:P; [|discriminate]. injection H as <- <- <-. unfold place in P. destruct (_ <? _); [|discriminate]. injection P as <-. split; [reflexivity|]. intros Q. destruct (Q i eq_refl).
  - unfold up in H. destruct (pickle_step m d i) as [[m1 d1]|] eqn:P; [|discriminate]. injection H as <- <- <-. unfold pickle_step in P. destruct (m_clones m i); try discriminate; [destruct (t_data x); injection P as <- _; auto|].
    destruct (p_stage p); [injection P as <- _; auto| |injection P as <- _; auto]. destruct (link _ _ d); injection P as <- _; auto.
  - unfold same in H. destruct (pickle_fail m i) eqn:P; [|discriminate]. injection H as <- <- <-. unfold pickle_fail in P. destruct (m_clones m i); try discriminate; [injection P as <-; auto|]. destruct (p_stage p); try discriminate; injection P as <-; auto.
  - destruct (m_lock m); [discriminate|]. unfold commit_link in H. destruct (m_clones m i); try discriminate. destruct (may_commit m j); [|discriminate]. destruct (link _ _ d); [|discriminate]. injection H as <- <- <-. auto.
  - destruct (match m_lock m with Some j => Nat.eqb j i | None => false end); [|discriminate]. unfold up in H. destruct (commit_finish m d i) as [[m1 d1]|] eqn:P; [|discriminate]. injection H as <- <- <-. unfold commit_finish in P. destruct (m_clones m i); try discriminate. injection P as <- _. auto.
  - destruct (_ && _); [|discriminate]. unfold up in H. destruct (abort m d i g0 h) as [[m1 d1]|] eqn:P; [|discriminate]. injection H as <- <- <-. unfold abort in P. destruct (m_clones m i) as [|n c|id x|id x p|id x [j|]|id x|id x j]; try discriminate; injection P as <- _; auto.
  - destruct (_ && _); [|discriminate]. unfold script_write in H. destruct (m_jobs m k); [|discriminate]. destruct (members m is); [|discriminate]. destruct (forallb _ _); [|discriminate]. injection H as <- _ _. auto.
  - unfold script_link in H. destruct (m_jobs m k) as [|is tmp seqs []]; try discriminate. destruct (link _ _ d); injection H as <- _ _; auto.
  - unfold up in H. destruct (script_tidy m d k) as [[m1 d1]|] eqn:P; [|discriminate]. injection H as <- <- <-. unfold script_tidy in P. destruct (m_jobs m k) as [|is tmp seqs []]; try discriminate. injection P as <- _. auto.
  - unfold up in H. destruct (script_done m d k) as [[m1 d1]|] eqn:P; [|discriminate]. injection H as <- <- <-. unfold script_done in P. destruct (m_jobs m k) as [|is tmp seqs []]; try discriminate. destruct (forallb _ is); [|discriminate]. injection P as <- _. auto.
  - destruct (m_lock m); [discriminate|]. unfold same in H. destruct (choose m w a n) eqn:P; [|discriminate]. injection H as <- <- <-. unfold choose in P. destruct (m_workers m w); try discriminate. destruct (validate m _); [|discriminate]. injection P as <-. auto.
  - unfold up in H. destruct (merge_step m d w) as [[m1 d1]|] eqn:P; [|discriminate]. injection H as <- <- <-. unfold merge_step in P. destruct (m_workers m w); try discriminate.
    + destruct (match a, find d (out_name a sel) with HMerge, Some _ => true | _, _ => false end); injection P as <- _; destruct a; auto.
    + destruct (p_stage p); [injection P as <- _; auto| |injection P as <- _; auto]. destruct (link _ _ d); [injection P as <- _; auto|]. destruct a; injection P as <- _; auto.
  - unfold up in H. destruct (merge_fail false m d w) as [[m1 d1]|] eqn:P; [|discriminate]. injection H as <- <- <-. unfold merge_fail in P. destruct (m_workers m w); try discriminate.
    + destruct a; try discriminate; injection P as <- _; auto.
    + destruct a, (p_stage p); try discriminate; injection P as <- _; auto.
  - discriminate.
  - destruct (m_lock m); [discriminate|]. unfold same in H. destruct (install m w) eqn:P; [|discriminate]. injection H as <- <- <-. unfold install in P. destruct (m_workers m w); try discriminate. destruct sel; [discriminate|]. destruct (rev (e :: sel)); [discriminate|]. destruct (replace _ _ _ _); injection P as <-; auto.
  - unfold up in H. destruct (discard m d w) as [[m1 d1]|] eqn:P; [|discriminate]. injection H as <- <- <-. unfold discard in P. destruct (m_workers m w); try discriminate. destruct names; injection P as <- _; auto.
  - destruct (_ || _); [|discriminate]. injection H as <- <- <-. auto.
  - destruct (m_lock m); [discriminate|]. destruct (m_readers m r); injection H as <- <- <-; auto.
  - injection H as <- <- <-. auto.
  - discriminate.
  - discriminate.
  - discriminate.
Qed.
(** A reader reads what was shown when it started, until it ends. *)
Theorem snapshot ls : forall m d g r es n, steps false ls start = Some (Up m d g) -> m_readers m r = Some (es, n) ->
  exists ls1 ls2 m1 d1 g1, ls = ls1 ++ LStart r :: ls2 /\ steps false ls1 start = Some (Up m1 d1 g1) /\ flat_map e_txns es = shown m1 /\ n = m_gen m1 /\
    ~ In (LEnd r) ls2 /\ (forall a b, ls2 = a ++ b -> exists m2 d2 g2, steps false (ls1 ++ LStart r :: a) start = Some (Up m2 d2 g2)) /\ incl (shown m1) (shown m).
Proof.
  induction ls as [|l ls IH] using rev_ind; intros m d g r es n H R; [discriminate|]. rewrite steps_app in H. destruct (steps false ls start) as [s|] eqn:E; [|discriminate]. cbn [StoreModel.steps] in H.
  destruct (step false l s) as [s1|] eqn:E1; [|discriminate]. injection H as ->. pose proof (good_steps sort merge Hs Hm ls start s start_good E) as G. destruct s as [m0 d0 g0|d0 g0].
  - pose proof (shown_mono l m0 d0 g0 _ G E1) as [_ Mono]. cbn in Mono.
    assert (Old : m_readers m0 r = Some (es, n) -> l <> LEnd r -> exists ls1 ls2 m1 d1 g1, ls ++ [l] = ls1 ++ LStart r :: ls2 /\ steps false ls1 start = Some (Up m1 d1 g1) /\ flat_map e_txns es = shown m1 /\ n = m_gen m1 /\
        ~ In (LEnd r) ls2 /\ (forall a b, ls2 = a ++ b -> exists m2 d2 g2, steps false (ls1 ++ LStart r :: a) start = Some (Up m2 d2 g2)) /\ incl (shown m1) (shown m)).
    { intros R0 Nl. destruct (IH m0 d0 g0 r es n eq_refl R0) as (ls1 & ls2 & m1 & d1 & g1 & A1 & A2 & A3 & A4 & A5 & A6 & A7). exists ls1, (ls2 ++ [l]), m1, d1, g1.
      split; [rewrite A1, <- app_assoc; reflexivity|]. do 3 (split; [assumption|]). rewrite !in_app_iff. split; [intros [K|[K|[]]]; [apply A5; exact K|apply Nl; exact K]|].
      split; [|intros x Hx; apply Mono, A7, Hx]. intros a b Q. destruct b as [|b0 b] using rev_ind; [rewrite app_nil_r in Q; subst a; exists m, d, g|clear IHb; rewrite app_assoc in Q; apply app_inj_tail in Q; destruct Q as [Q _]; apply (A6 a b Q)].
      change (LStart r :: ls2 ++ [l]) with ((LStart r :: ls2) ++ [l]). rewrite app_assoc, <- A1, steps_app, E. cbn [StoreModel.steps]. rewrite E1. reflexivity. }
    pose proof (reader_step l m0 d0 g0 m d g r E1) as K. destruct l; try (apply Old; [congruence|discriminate]).
    + destruct K as [(-> & K1 & K2)|K]; [|apply Old; [congruence|discriminate]]. exists ls, [], m0, d0, g0. rewrite K2 in R. injection R as <- <-.
      split; [reflexivity|]. split; [exact E|]. split; [reflexivity|]. split; [reflexivity|]. split; [intros []|]. split; [|exact Mono].
      intros a b Q. symmetry in Q. apply app_eq_nil in Q. destruct Q as [-> ->]. exists m, d, g. rewrite steps_app, E. cbn [StoreModel.steps]. rewrite E1. reflexivity.
    + destruct K as [(-> & K)|K]; [congruence|]. destruct (Nat.eq_dec r0 r) as [Q|Q]; [|apply Old; [congruence|congruence]]. subst r0. cbn in E1. injection E1 as <- _ _. cbn in R. rewrite upd_same in R. discriminate.
  - exfalso. cbn [StoreModel.step] in E1. destruct (opening sort merge d0) as [[acts m2]|] eqn:Eo; [|destruct l; discriminate]. destruct l; try discriminate. injection E1 as <- _ _.
    unfold opening in Eo. destruct (recover _ _ _) as [[[shards ?] removed]|]; [|discriminate]. destruct (load_all _ _ _) as [es'|]; [|discriminate]. injection Eo as _ <-. discriminate.
Qed.
(** Readers of one generation read the same. *)
Definition RI (m : mem) : Prop :=
  (forall r es n, m_readers m r = Some (es, n) -> (n <= m_gen m)%nat /\ (n = m_gen m -> flat_map e_txns es = shown m)) /\
  (forall r r' es es' n, m_readers m r = Some (es, n) -> m_readers m r' = Some (es', n) -> flat_map e_txns es = flat_map e_txns es').
Lemma ri_step l s s' : good s -> match s with Up m _ _ => RI m | Down _ _ => True end -> step false l s = Some s' -> match s' with Up m _ _ => RI m | Down _ _ => True end.
Proof.
  intros G R H. destruct s' as [m' d' g'|]; [|exact Logic.I]. destruct s as [m d g|d g].
  - cbn in G. pose proof (fun r => reader_step l m d g m' d' g' r H) as Rs. destruct (numbers_step l m d g m' d' g' H) as [Gn _]. destruct (shown_step sort merge Hs Hm l m d g m' d' g' G H) as [_ Sh].
    destruct R as [R1 R2].
    assert (Same : (forall r, m_readers m' r = m_readers m r) -> RI m').
    { intros Q. split.
      - intros r es n K. rewrite Q in K. destruct (R1 r es n K) as [A B]. destruct l; rewrite Gn; try (split; [lia|]; intros X; rewrite Sh; apply B; lia). split; [lia|intros X; lia].
      - intros r r' es es' n K K'. rewrite Q in K, K'. apply (R2 r r' es es' n K K'). }
    destruct l; try (apply Same; intros q; apply (Rs q)).
    + assert (New : forall q es n, m_readers m' q = Some (es, n) -> m_readers m q = Some (es, n) \/ (flat_map e_txns es = shown m /\ n = m_gen m)).
      { intros q es n K. destruct (Rs q) as [(-> & _ & X)|X]; [right; rewrite X in K; injection K as <- <-; split; reflexivity|left; congruence]. }
      split.
      * intros q es n K. rewrite Gn, Sh. destruct (New q es n K) as [K'|[K1 K2]]; [apply (R1 q es n K')|]. split; [lia|intros _; exact K1].
      * intros q q' es es' n K K'. destruct (New q es n K) as [A|[A1 A2]], (New q' es' n K') as [B|[B1 B2]].
        -- apply (R2 q q' es es' n A B).
        -- rewrite B1. apply (R1 q es n A). exact B2.
        -- rewrite A1. symmetry. apply (R1 q' es' n B). exact A2.
        -- congruence.
    + assert (New : forall q es n, m_readers m' q = Some (es, n) -> m_readers m q = Some (es, n)) by (intros q es n K; destruct (Rs q) as [(-> & X)|X]; congruence).
      split.
      * intros q es n K. rewrite Gn, Sh. apply (R1 q es n), New, K.
      * intros q q' es es' n K K'. apply (R2 q q' es es' n); apply New; assumption.
  - cbn [StoreModel.step] in H. destruct (opening sort merge d) as [[acts m2]|] eqn:Eo; [|destruct l; discriminate]. destruct l; try discriminate. injection H as <- _ _.
    unfold opening in Eo. destruct (recover _ _ _) as [[[shards ?] removed]|]; [|discriminate]. destruct (load_all _ _ _) as [es'|]; [|discriminate]. injection Eo as _ <-. split; discriminate.
Qed.
Lemma ri_steps ls : forall s s', good s -> match s with Up m _ _ => RI m | Down _ _ => True end -> steps false ls s = Some s' -> match s' with Up m _ _ => RI m | Down _ _ => True end.
Proof.
  induction ls as [|l r IH]; intros s s' G R H; cbn [StoreModel.steps] in H; [injection H as <-; exact R|]. destruct (step false l s) as [s1|] eqn:E; [|discriminate].
  apply (IH s1 s' (good_step sort merge Hs Hm l s s1 G E) (ri_step l s s1 G R E) H).
Qed.
Theorem generation ls m d g r r' es es' n : steps false ls start = Some (Up m d g) -> m_readers m r = Some (es, n) ->
  (m_readers m r' = Some (es', n) -> flat_map e_txns es = flat_map e_txns es') /\ (n = m_gen m -> flat_map e_txns es = shown m).
Proof.
  intros H R. destruct (ri_steps ls start (Up m d g) start_good Logic.I H) as [A B]. split; [intros R'; apply (B r r' es es' n R R')|apply (A r es n R)].
Qed.
(** A commit shows its transaction and nothing else. *)
Theorem commit_shows ls i m d g m' d' g' : steps false ls start = Some (Up m d g) -> step false (LCommitted i) (Up m d g) = Some (Up m' d' g') ->
  exists x a b, holder m i x /\ shown m = a ++ b /\ shown m' = a ++ x :: b /\ content x = nth (h_tick (notes ls) i) (h_placed (notes ls)) (0, []).
Proof.
  intros H E. pose proof (good_steps sort merge Hs Hm ls start _ start_good H) as G. cbn in G. pose proof (good_step sort merge Hs Hm _ (Up m d g) _ G E) as G'. cbn in G'.
  destruct (shown_step sort merge Hs Hm _ m d g m' d' g' G E) as [_ (id & x & j & C & K)]. assert (Ho : holder m i x) by (unfold holder; rewrite C; reflexivity).
  destruct (running ls m d g H) as (ts & _ & _ & _ & _ & R). assert (X : In x (shown m')) by (apply K; right; reflexivity). apply in_split in X. destruct X as (a & b & X). exists x, a, b.
  split; [exact Ho|]. split; [|split; [exact X|apply (R i x Ho)]]. pose proof (shown_sorted _ _ _ G') as S'. rewrite X in S'. apply sorted_app in S'. destruct S' as (S1 & S2 & S3). inversion S2 as [|? ? S4 S5]; subst. rewrite Forall_forall in S5.
  assert (Nx : ~ In x (shown m)).
  { intros Q. apply (shown_spec _ _ _ G) in Q. destruct Q as [_ Q]. apply (Q i). rewrite C. reflexivity. }
  apply sorted_same; [apply (shown_sorted _ _ _ G)| |].
  - apply sorted_app. split; [exact S1|]. split; [exact S4|]. intros y z Hy Hz. apply S3; [exact Hy|right; exact Hz].
  - intros y. rewrite in_app_iff. split.
    + intros Hy. assert (Q : In y (shown m')) by (apply K; left; exact Hy). rewrite X in Q. apply in_app_iff in Q. destruct Q as [Q|[Q|Q]]; auto. subst y. contradiction.
    + intros Hy. assert (Q : In y (shown m')) by (rewrite X; apply in_app_iff; destruct Hy; [left|right; right]; assumption). apply K in Q. destruct Q as [Q|Q]; [exact Q|]. subst y. exfalso.
      destruct Hy as [Hy|Hy]; [specialize (S3 x x Hy (or_introl eq_refl))|specialize (S5 x Hy)]; lia.
Qed.
End Run.
