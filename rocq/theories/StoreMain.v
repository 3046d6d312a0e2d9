(** The invariant holds in every state, and what readers are shown changes only when a
    commit finishes. *)
From Verif Require Import Base Bytes NameModel NameSpec NameProofs RecoverAll StoreModel StoreSpec StoreDir StoreInv StoreFacts StoreClone StoreCommit StoreJob StoreMerge StoreInstall StoreDown StoreOpen.
From Coq Require Import Sorting.Sorted Sorting.Permutation.

Definition good (s : sys) : Prop := match s with Up m d g => Inv m d g | Down d g => DI d g end.

Lemma distinct_nodup l : distinct l = true -> NoDup l.
Proof.
  induction l as [|i l IH]; cbn; [constructor|]. intros H. apply andb_prop in H. destruct H as [H1 H2]. constructor; [|apply IH; exact H2].
  intros K. apply negb_true_iff in H1. rewrite (proj2 (existsb_nat i l) K) in H1. discriminate.
Qed.
Lemma reader_inv m d g r v : Inv m d g -> Inv (set_reader m r v) d g.
Proof. intros I. destruct I. constructor; assumption. Qed.
Lemma side_plain n : has_prefix (lit "pst.") n || has_prefix (lit "dct.") n = true -> first n = 112 \/ first n = 100.
Proof. intros H. apply orb_prop in H. destruct H as [H|H]; apply first_prefix in H; try discriminate; rewrite H; auto. Qed.
Lemma start_good : good start.
Proof.
  cbn. constructor.
  - constructor; [intros []|constructor].
  - split; [constructor|intros x []].
  - intros n f F K. unfold find in F. destruct (bytes_eq_dec (lit "dna") n) as [<-|]; [|discriminate]. vm_compute in K. destruct K; discriminate.
  - intros k s e f k' s' e' f' F F' K. unfold find in F. destruct (bytes_eq_dec (lit "dna") (shard_name (kname k) s e)) as [X|]; [|discriminate].
    pose proof (first_shard k s e) as Y. rewrite <- X in Y. destruct K as [-> | ->]; vm_compute in Y; discriminate.
  - intros n f F K. unfold find in F. destruct (bytes_eq_dec (lit "dna") n) as [<-|]; [|discriminate]. vm_compute in K. discriminate.
  - intros x [].
Qed.

Section Run.
Variables (sort merge : list shard -> list shard).
Hypothesis Hs : sorts shard_lt sort.
Hypothesis Hm : sorts owsla_lt merge.
Notation step := (step sort merge).
Notation steps := (steps sort merge).

Theorem good_step l s s' : good s -> step false l s = Some s' -> good s'.
Proof.
  intros G H. destruct s as [m d g|d g]; cbn [good StoreModel.step] in G, H.
  - destruct l; cbn [orb] in H.
    + destruct (m_clones m i) eqn:E; try discriminate. injection H as <-. apply begin_inv; assumption.
    + destruct (m_clones m i) eqn:E; try discriminate. destruct (Z.leb_spec 0 n); [|discriminate]. injection H as <-. cbn. eapply write_inv; eassumption.
    + destruct (m_clones m i) eqn:E; try discriminate. destruct (m_lock m); [discriminate|]. unfold same in H. destruct (place m i n b) eqn:P; [|discriminate]. injection H as <-. apply (place_inv m d g i n b); assumption.
    + unfold up in H. destruct (pickle_step m d i) as [[m' d']|] eqn:P; [|discriminate]. injection H as <-. apply (pickle_inv m d g i); assumption.
    + unfold same in H. destruct (pickle_fail m i) eqn:P; [|discriminate]. injection H as <-. apply (pickle_fail_inv m d g i); assumption.
    + destruct (m_lock m) eqn:Lk; [discriminate|]. pose proof (commit_link_inv m d g i s' G Lk H) as K. destruct s' as [m' d' g'|d' g']; [exact K|]. destruct K as [-> ->]. apply (crash_inv m). exact G.
    + destruct (m_lock m) as [j|]; [|discriminate]. destruct (Nat.eqb j i); [|discriminate]. unfold up in H. destruct (commit_finish m d i) as [[m' d']|] eqn:P; [|discriminate]. injection H as <-. apply (commit_finish_inv m d g i); assumption.
    + destruct (match m_lock m with None => true | Some _ => false end); [|discriminate]. cbn [andb] in H.
      destruct (match m_clones m i with Open _ _ => match find d (shard_name (lit "kitten") g0 h) with None => true | Some _ => false end | _ => true end) eqn:C; [|discriminate].
      unfold up in H. destruct (abort m d i g0 h) as [[m' d']|] eqn:P; [|discriminate]. injection H as <-. apply (abort_inv m d g i g0 h m' d' G P).
      intros n c E. rewrite E in C. destruct (find d _); [discriminate|reflexivity].
    + destruct is as [|i0 r] eqn:Ei; [discriminate|]. rewrite <- Ei in *. destruct (distinct is) eqn:Di; [|rewrite andb_false_r in H; discriminate].
      assert (H' : script_write m d g k is = Some s') by (destruct is; [discriminate|exact H]). pose proof (script_write_inv m d g k is s' G (distinct_nodup _ Di) H') as K.
      destruct s' as [m' d' g'|d' g']; [apply K|]. destruct K as [-> ->]. apply (crash_inv m). exact G.
    + destruct (script_link_inv m d g k s' G H) as (m' & d' & g' & -> & K). exact K.
    + unfold up in H. destruct (script_tidy m d k) as [[m' d']|] eqn:P; [|discriminate]. injection H as <-. apply (script_tidy_inv m d g k); assumption.
    + unfold up in H. destruct (script_done m d k) as [[m' d']|] eqn:P; [|discriminate]. injection H as <-. apply (script_done_inv m d g k); assumption.
    + destruct (m_lock m); [discriminate|]. unfold same in H. destruct (choose m w a n) eqn:P; [|discriminate]. injection H as <-. apply (choose_inv m d g w a n); assumption.
    + unfold up in H. destruct (merge_step m d w) as [[m' d']|] eqn:P; [|discriminate]. injection H as <-. apply (merge_step_inv m d g w); assumption.
    + unfold up in H. destruct (merge_fail false m d w) as [[m' d']|] eqn:P; [|discriminate]. injection H as <-. apply (merge_fail_inv m d g w); assumption.
    + discriminate.
    + destruct (m_lock m); [discriminate|]. unfold same in H. destruct (install m w) eqn:P; [|discriminate]. injection H as <-. apply (install_inv m d g w); assumption.
    + unfold up in H. destruct (discard m d w) as [[m' d']|] eqn:P; [|discriminate]. injection H as <-. apply (discard_inv m d g w); assumption.
    + destruct (_ || _) eqn:P; [|discriminate]. apply side_plain in P. injection H as <-.
      assert (Pl : plain n) by (destruct P as [P|P]; unfold plain; rewrite P; repeat split; discriminate).
      assert (Nd : forall a h, ~ needs m a n h). { intros a h K. apply needs_src in K. apply (not_tmp _ _ _ G) in K. destruct P as [P|P], K as [K|K]; rewrite P in K; discriminate. }
      destruct keep; [apply dir_put; [exact G|exact Pl|]; intros a h K; destruct (Nd a h K)|apply dir_erase; assumption].
    + destruct (m_lock m); [discriminate|]. destruct (m_readers m r); injection H as <-; [exact G|apply reader_inv; exact G].
    + injection H as <-. apply reader_inv. exact G.
    + injection H as <-. apply (crash_inv m). exact G.
    + discriminate.
    + discriminate.
  - destruct (opening_ok sort merge Hs Hm d g G) as (acts & m & E & I & P & _). rewrite E in H. destruct l; try discriminate; injection H as <-; [apply P|exact I].
Qed.
Theorem good_steps ls : forall s s', good s -> steps false ls s = Some s' -> good s'.
Proof.
  induction ls as [|l r IH]; intros s s' G H; cbn [StoreModel.steps] in H; [injection H as <-; exact G|]. destruct (step false l s) as [s1|] eqn:E; [|discriminate].
  apply (IH s1 s' (good_step l s s1 G E) H).
Qed.
End Run.

(** * What is shown *)
Lemma shown_sorted m d g : Inv m d g -> StronglySorted (fun x y => t_seq x < t_seq y) (shown m).
Proof.
  intros I. apply (sel_txns_sorted g (filter visible (m_entries m))).
  - apply sorted_filter, I.
  - intros e He. apply filter_In in He. destruct He as [He _]. apply (i_ent _ _ _ I) in He. lia.
  - intros e He. apply filter_In in He. destruct He as [He V]. apply (i_vis _ _ _ I e He V).
Qed.
Lemma shown_spec m d g : Inv m d g -> forall x, In x (shown m) <-> In x g /\ forall i, lead m (m_clones m i) <> Some x.
Proof.
  intros I x. unfold shown. rewrite in_flat_map. split.
  - intros (e & He & Hx). apply filter_In in He. destruct He as [He V]. destruct (i_vis _ _ _ I e He V) as [[_ Hh] _]. apply Hh in Hx. destruct Hx as [Hx R]. split; [exact Hx|].
    intros i L. apply lead_owner in L. destruct L as [id L]. destruct (own_hidden _ _ _ I _ _ _ _ L He V); lia.
  - intros [Hx N]. destruct (i_dur _ _ _ I x Hx) as [(v & Hv & V & R)|(i & L)]; [|destruct (N i L)]. exists v. split; [apply filter_In; auto|].
    destruct (i_vis _ _ _ I v Hv V) as [[_ Hh] _]. apply Hh. auto.
Qed.
Lemma sorted_same (l r : list txn) : StronglySorted (fun x y => t_seq x < t_seq y) l -> StronglySorted (fun x y => t_seq x < t_seq y) r -> (forall x, In x l <-> In x r) -> l = r.
Proof.
  intros Hl. revert r. induction Hl as [|a l Hl IH Fl]; intros r Hr E.
  - destruct r as [|b r]; [reflexivity|]. destruct (proj2 (E b) (or_introl eq_refl)).
  - destruct Hr as [|b r Hr Fr]; [destruct (proj1 (E a) (or_introl eq_refl))|]. rewrite Forall_forall in Fl, Fr.
    assert (a = b).
    { destruct (proj1 (E a) (or_introl eq_refl)) as [K|K]; [auto|]. destruct (proj2 (E b) (or_introl eq_refl)) as [K'|K']; [auto|]. apply Fr in K. apply Fl in K'. lia. }
    subst b. f_equal. apply IH; [exact Hr|]. intros x. split; intros Hx.
    + destruct (proj1 (E x) (or_intror Hx)) as [<-|K]; [apply Fl in Hx; lia|exact K].
    + destruct (proj2 (E x) (or_intror Hx)) as [<-|K]; [apply Fr in Hx; lia|exact K].
Qed.
Lemma sorted_nodup (l : list txn) : StronglySorted (fun x y => t_seq x < t_seq y) l -> NoDup (map t_seq l).
Proof.
  induction 1 as [|a l _ IH F]; cbn; constructor; [|exact IH]. intros K. apply in_map_iff in K. destruct K as (x & E & Hx). rewrite Forall_forall in F. apply F in Hx. lia.
Qed.
Lemma fresh_shown es d g : Inv (fresh es) d g -> forall x, In x (shown (fresh es)) <-> In x g.
Proof. intros I x. rewrite (shown_spec _ _ _ I). split; [tauto|]. intros H. split; [exact H|]. intros i. discriminate. Qed.
Lemma visible_with_kind l id k : (forall e, In e l -> e_id e = id -> visible e = false) -> k = Gone \/ k = Kitten -> filter visible (map (with_kind id k) l) = filter visible l.
Proof.
  intros H K. induction l as [|e l IH]; [reflexivity|]. cbn [map filter]. rewrite IH by (intros v Hv; apply H; right; exact Hv).
  unfold with_kind. destruct (Nat.eqb_spec (e_id e) id) as [E|E]; [|reflexivity]. rewrite (H e (or_introl eq_refl) E). destruct K as [-> | ->]; reflexivity.
Qed.
Lemma filter_cleanup l : filter visible (cleanup l) = filter visible l.
Proof.
  unfold cleanup. induction l as [|e l IH]; [reflexivity|]. cbn [filter]. destruct (kind_eqb (e_kind e) Gone) eqn:E; cbn [negb filter]; rewrite IH; [|reflexivity].
  replace (visible e) with false; [reflexivity|]. unfold visible. destruct (e_kind e); try discriminate; reflexivity.
Qed.

Section Shown.
Variables (sort merge : list shard -> list shard).
Hypothesis Hs : sorts shard_lt sort.
Hypothesis Hm : sorts owsla_lt merge.
Notation step := (step sort merge).
Notation steps := (steps sort merge).
Lemma shown_entries m m' : m_entries m' = m_entries m -> shown m' = shown m.
Proof. unfold shown. intros ->. reflexivity. Qed.
(** The transactions that become durable, and what is shown, step by step. *)
Definition gained (l : label) (m : mem) : list txn :=
  match l with
  | LCommit i => match m_clones m i with Ready _ x None => [x] | _ => [] end
  | LScriptLink k => match m_jobs m k with Job is _ _ _ => job_txns m k is | JNone => [] end
  | _ => []
  end.
Lemma commit_finish_shown m d g i m' d' : Inv m d g -> commit_finish m d i = Some (m', d') ->
  exists id x j, m_clones m i = Committing id x j /\ forall y, In y (shown m') <-> In y (shown m) \/ y = x.
Proof.
  intros I H. pose proof (commit_finish_inv m d g i m' d' I H) as I'. unfold commit_finish in H. destruct (m_clones m i) as [| |id x|id x p|id x j|id x|id x j] eqn:E; try discriminate.
  exists id, x, j. split; [reflexivity|]. intros y. rewrite (shown_spec _ _ _ I), (shown_spec _ _ _ I'). injection H as <- <-. cbn.
  assert (Lx : lead m (m_clones m i) = Some x) by (rewrite E; reflexivity). split.
  - intros [Hy N]. destruct (Z.eq_dec (t_seq y) (t_seq x)) as [Q|Q]; [right; apply (seq_unique g); [apply I|exact Hy|apply (i_lead _ _ _ I i x Lx)|exact Q]|].
    left. split; [exact Hy|]. intros k L. destruct (Nat.eq_dec k i) as [->|Nk]; [rewrite L in Lx; injection Lx as ->; lia|]. apply (N k). rewrite upd_other by exact Nk. exact L.
  - intros [[Hy N]|Q].
    + split; [exact Hy|]. intros k. destruct (Nat.eq_dec k i) as [->|Nk]; [rewrite upd_same; discriminate|rewrite upd_other by exact Nk; apply N].
    + rewrite Q. split; [apply (i_lead _ _ _ I i x Lx)|]. intros k. destruct (Nat.eq_dec k i) as [->|Nk]; [rewrite upd_same; discriminate|rewrite upd_other by exact Nk]. intros L. apply Nk.
      apply lead_owner in L. destruct L as [id' L]. apply lead_owner in Lx. destruct Lx as [id'' Lx]. apply (own_same _ _ _ I _ _ _ _ _ _ L Lx). reflexivity.
Qed.
Theorem shown_step l m d g m' d' g' : Inv m d g -> step false l (Up m d g) = Some (Up m' d' g') ->
  g' = g ++ gained l m /\
  match l with
  | LCommitted i => exists id x j, m_clones m i = Committing id x j /\ forall y, In y (shown m') <-> In y (shown m) \/ y = x
  | _ => shown m' = shown m
  end.
Proof.
  intros G H. pose proof (good_step sort merge Hs Hm l (Up m d g) _ G H) as G'. cbn [good] in G'. cbn [StoreModel.step] in H. destruct l; cbn [orb gained] in H |- *; rewrite ?app_nil_r.
  - destruct (m_clones m i) eqn:E; try discriminate. injection H as <- <- <-. auto.
  - destruct (m_clones m i) eqn:E; try discriminate. destruct (Z.leb_spec 0 n); [|discriminate]. injection H as <- <- <-. auto.
  - destruct (m_clones m i) eqn:E; try discriminate. destruct (m_lock m); [discriminate|]. unfold same in H. destruct (place m i n b) eqn:P; [|discriminate]. injection H as <- <- <-. split; [reflexivity|].
    unfold place in P. destruct (_ <? _); [|discriminate]. injection P as <-. unfold shown. cbn. rewrite filter_app. cbn. rewrite app_nil_r. reflexivity.
  - unfold up in H. destruct (pickle_step m d i) as [[m1 d1]|] eqn:P; [|discriminate]. injection H as <- <- <-. split; [reflexivity|]. apply shown_entries. unfold pickle_step in P.
    destruct (m_clones m i); try discriminate; [destruct (t_data x); injection P as <- _; reflexivity|]. destruct (p_stage p); [injection P as <- _; reflexivity| |injection P as <- _; reflexivity].
    destruct (link _ _ d); injection P as <- _; reflexivity.
  - unfold same in H. destruct (pickle_fail m i) eqn:P; [|discriminate]. injection H as <- <- <-. split; [reflexivity|]. apply shown_entries. unfold pickle_fail in P.
    destruct (m_clones m i); try discriminate; [injection P as <-; reflexivity|]. destruct (p_stage p); try discriminate; injection P as <-; reflexivity.
  - destruct (m_lock m) eqn:Lk; [discriminate|]. unfold commit_link in H. destruct (m_clones m i) as [| |id x|id x p|id x j|id x|id x j] eqn:E; try discriminate.
    destruct (may_commit m j); [|discriminate]. destruct (link _ _ d); [|discriminate]. injection H as <- <- <-. split; [|reflexivity]. destruct j; [rewrite app_nil_r|]; reflexivity.
  - destruct (m_lock m) as [j|]; [|discriminate]. destruct (Nat.eqb j i); [|discriminate]. unfold up in H. destruct (commit_finish m d i) as [[m1 d1]|] eqn:P; [|discriminate]. injection H as <- <- <-.
    split; [reflexivity|]. apply (commit_finish_shown m d g i m1 d1); assumption.
  - destruct (match m_lock m with None => true | Some _ => false end); [|discriminate]. cbn [andb] in H.
    destruct (match m_clones m i with Open _ _ => match find d (shard_name (lit "kitten") g0 h) with None => true | Some _ => false end | _ => true end) eqn:C; [|discriminate].
    unfold up in H. destruct (abort m d i g0 h) as [[m1 d1]|] eqn:P; [|discriminate]. injection H as <- <- <-. split; [reflexivity|]. unfold abort in P.
    assert (V : forall id x, owner (m_clones m i) = Some (id, x) -> forall e, In e (m_entries m) -> e_id e = id -> visible e = false).
    { intros id x O e He Hi. apply (own_in _ _ _ G) in O. rewrite (id_unique (m_entries m) e (own_entry id x)); [reflexivity|apply G|exact He|exact O|exact Hi]. }
    destruct (m_clones m i) as [|n c|id x|id x p|id x [j|]|id x|id x j] eqn:E; try discriminate; injection P as <- <-; [reflexivity| |]; unfold shown; cbn; (rewrite visible_with_kind; [reflexivity|apply (V id x eq_refl)|left; reflexivity]).
  - destruct is as [|i0 r] eqn:Ei; [discriminate|]. rewrite <- Ei in *. destruct (distinct is) eqn:Di; [|rewrite andb_false_r in H; discriminate].
    assert (H' : script_write m d g k is = Some (Up m' d' g')) by (destruct is; [discriminate|exact H]). pose proof (script_write_inv m d g k is _ G (distinct_nodup _ Di) H') as [_ K]. split; [exact K|].
    unfold script_write in H'. destruct (m_jobs m k); [|discriminate]. destruct (members m is); [|discriminate]. destruct (forallb _ _); [|discriminate]. injection H' as <- _ _. reflexivity.
  - unfold script_link in H. destruct (m_jobs m k) as [|is tmp seqs []] eqn:Jk; try discriminate.
    pose proof (i_jb _ _ _ G k) as J. rewrite Jk in J. cbn in J. destruct J as (Ni & Jt & _).
    destruct (link tmp (script_name k) d) as [d1|] eqn:L; [injection H as <- <- <-; split; reflexivity|]. exfalso. unfold link in L. rewrite (Jt eq_refl) in L.
    destruct (find d (script_name k)) eqn:F; [|discriminate]. destruct (i_scr _ _ _ G _ _ F eq_refl) as (k' & is' & tmp' & seqs' & st & A & B & C & D). apply script_inj in C. subst k'. rewrite Jk in A. injection A as <- <- <- <-. rewrite Jk in B. discriminate.
  - unfold up in H. destruct (script_tidy m d k) as [[m1 d1]|] eqn:P; [|discriminate]. injection H as <- <- <-. split; [reflexivity|]. unfold script_tidy in P. destruct (m_jobs m k) as [|is tmp seqs []]; try discriminate. injection P as <- _. reflexivity.
  - unfold up in H. destruct (script_done m d k) as [[m1 d1]|] eqn:P; [|discriminate]. injection H as <- <- <-. split; [reflexivity|]. unfold script_done in P. destruct (m_jobs m k) as [|is tmp seqs []]; try discriminate. destruct (forallb _ is); [|discriminate]. injection P as <- _. reflexivity.
  - destruct (m_lock m); [discriminate|]. unfold same in H. destruct (choose m w a n) eqn:P; [|discriminate]. injection H as <- <- <-. split; [reflexivity|]. unfold choose in P. destruct (m_workers m w); try discriminate.
    destruct (validate m _); [|discriminate]. injection P as <-. unfold shown. cbn. rewrite filter_cleanup. reflexivity.
  - unfold up in H. destruct (merge_step m d w) as [[m1 d1]|] eqn:P; [|discriminate]. injection H as <- <- <-. split; [reflexivity|]. apply shown_entries. unfold merge_step in P. destruct (m_workers m w); try discriminate.
    + destruct (match a, find d (out_name a sel) with HMerge, Some _ => true | _, _ => false end); injection P as <- _; destruct a; reflexivity.
    + destruct (p_stage p); [injection P as <- _; reflexivity| |injection P as <- _; reflexivity]. destruct (link _ _ d); [injection P as <- _; reflexivity|]. destruct a; injection P as <- _; reflexivity.
  - unfold up in H. destruct (merge_fail false m d w) as [[m1 d1]|] eqn:P; [|discriminate]. injection H as <- <- <-. split; [reflexivity|]. apply shown_entries. unfold merge_fail in P. destruct (m_workers m w); try discriminate.
    + destruct a; try discriminate; injection P as <- _; reflexivity.
    + destruct a, (p_stage p); try discriminate; injection P as <- _; reflexivity.
  - discriminate.
  - destruct (m_lock m); [discriminate|]. unfold same in H. destruct (install m w) eqn:P; [|discriminate]. injection H as <- <- <-. split; [reflexivity|].
    apply sorted_same; [apply (shown_sorted _ _ _ G')|apply (shown_sorted _ _ _ G)|]. intros x. rewrite (shown_spec _ _ _ G), (shown_spec _ _ _ G').
    assert (K : m_clones m0 = m_clones m /\ m_jobs m0 = m_jobs m).
    { unfold install in P. destruct (m_workers m w); try discriminate. destruct sel; [discriminate|]. destruct (rev (e :: sel)); [discriminate|]. destruct (replace _ _ _ _); injection P as <-; auto. }
    destruct K as [K1 K2]. unfold lead. rewrite K1, K2. reflexivity.
  - unfold up in H. destruct (discard m d w) as [[m1 d1]|] eqn:P; [|discriminate]. injection H as <- <- <-. split; [reflexivity|]. apply shown_entries. unfold discard in P. destruct (m_workers m w); try discriminate. destruct names; injection P as <- _; reflexivity.
  - destruct (_ || _) eqn:P; [|discriminate]. injection H as <- <- <-. auto.
  - destruct (m_lock m); [discriminate|]. destruct (m_readers m r); injection H as <- <- <-; auto.
  - injection H as <- <- <-. auto.
  - discriminate.
  - discriminate.
  - discriminate.
Qed.
End Shown.
