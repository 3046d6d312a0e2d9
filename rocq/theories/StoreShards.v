(** The order of the shards, and the runs that are merged. *)
From Verif Require Import Base Bytes NameModel NameSpec NameProofs RecoverAll StoreModel StoreSpec StoreDir StoreInv StoreFacts StoreClone StoreCommit StoreJob StoreMerge StoreInstall StoreDown StoreOpen StoreMain StoreHist StoreTop.
From Coq Require Import Sorting.Sorted Sorting.Permutation.

Lemma entries_same (l r : list entry) : StronglySorted (fun a b => e_end a < e_start b) l -> StronglySorted (fun a b => e_end a < e_start b) r ->
  (forall e, In e l -> e_start e <= e_end e) -> (forall x, In x l <-> In x r) -> l = r.
Proof.
  intros Hl. revert r. induction Hl as [|a l Hl IH Fl]; intros r Hr W E.
  - destruct r as [|b r]; [reflexivity|]. destruct (proj2 (E b) (or_introl eq_refl)).
  - assert (Wr : forall e, In e r -> e_start e <= e_end e) by (intros e He; apply W, E, He).
    destruct Hr as [|b r Hr Fr]; [destruct (proj1 (E a) (or_introl eq_refl))|]. rewrite Forall_forall in Fl, Fr.
    assert (a = b).
    { destruct (proj1 (E a) (or_introl eq_refl)) as [K|K]; [auto|]. destruct (proj2 (E b) (or_introl eq_refl)) as [K'|K']; [auto|]. apply Fr in K. apply Fl in K'.
      pose proof (W a (or_introl eq_refl)). pose proof (Wr b (or_introl eq_refl)). lia. }
    subst b. f_equal. apply IH; [exact Hr|intros e He; apply W; right; exact He|]. pose proof (W a (or_introl eq_refl)). intros x. split; intros Hx.
    + destruct (proj1 (E x) (or_intror Hx)) as [<-|K]; [apply Fl in Hx; lia|exact K].
    + destruct (proj2 (E x) (or_intror Hx)) as [<-|K]; [apply Fr in Hx; lia|exact K].
Qed.

Section Run.
Variables (sort merge : list shard -> list shard).
Hypothesis Hs : sorts shard_lt sort.
Hypothesis Hm : sorts owsla_lt merge.
Notation step := (step sort merge).
Notation steps := (steps sort merge).
Theorem shards_ordered ls m d g : steps false ls start = Some (Up m d g) ->
  StronglySorted (fun a b => e_end a < e_start b) (m_entries m) /\ (forall e, In e (m_entries m) -> 0 <= e_start e <= e_end e) /\
  (forall e x, In e (m_entries m) -> visible e = true -> In x (e_txns e) -> e_start e <= t_seq x <= e_end e).
Proof.
  intros H. pose proof (good_steps sort merge Hs Hm ls start _ start_good H) as G. cbn in G. split; [apply G|]. split; [intros e He; apply (i_ent _ _ _ G) in He; lia|].
  intros e x He V Hx. destruct (i_vis _ _ _ G e He V) as [[_ Hh] _]. apply Hh in Hx. apply Hx.
Qed.
Lemma selected_run m w sel : selected m w sel <-> exists a, run_of (m_workers m w) = Some (a, sel).
Proof.
  unfold selected, run_of. destruct (m_workers m w) as [|a l|a l p|a l|ns]; (split; [intros X; try contradiction; subst; eexists; reflexivity|intros (b & X); try discriminate; injection X as _ <-; reflexivity]).
Qed.
Theorem runs_disjoint ls m d g w w' sel sel' e : steps false ls start = Some (Up m d g) -> selected m w sel -> selected m w' sel' -> In e sel -> In e sel' -> w = w'.
Proof.
  intros H A B. pose proof (good_steps sort merge Hs Hm ls start _ start_good H) as G. cbn in G. apply selected_run in A, B. destruct A as (a & A), B as (b & B). apply (i_dis _ _ _ G w w' a sel b sel' e A B).
Qed.
Lemma run_split m d g a sel : Inv m d g -> run_ok m a sel -> exists p q, m_entries m = p ++ sel ++ q.
Proof.
  intros I R. pose proof R as (Ne & _ & _ & Q & Ss & G). destruct sel as [|x sl] eqn:Es; [contradiction|]. destruct (rev (x :: sl)) as [|y rl] eqn:Er; [apply (f_equal (@length _)) in Er; rewrite rev_length in Er; discriminate|]. rewrite <- Es in *.
  assert (Sx : sel_start sel = e_start x) by (rewrite Es; reflexivity). assert (Sy : sel_end sel = e_end y) by (unfold sel_end; rewrite Er; reflexivity).
  assert (Hx : In x sel) by (rewrite Es; left; reflexivity). assert (Hy : In y sel) by (apply in_rev; rewrite Er; left; reflexivity).
  pose proof (run_hull _ _ _ I _ _ R x Hx) as Ux. pose proof (run_hull _ _ _ I _ _ R y Hy) as Uy.
  assert (Wf : forall e, In e (m_entries m) -> e_start e <= e_end e) by (intros e He; apply (i_ent _ _ _ I) in He; lia).
  destruct (replace_spec x y x (m_entries m)) as (p & mid & q & K1 & K2 & (r1 & K3) & (r2 & K4)); auto; try apply I; [apply Q; exact Hx|apply Q; exact Hy|lia|].
  exists p, q. rewrite K1. f_equal. f_equal. pose proof (i_sorted _ _ _ I) as So. rewrite K1 in So. apply sorted_app in So. destruct So as (So1 & So & So3). apply sorted_app in So. destruct So as (So2 & So4 & So5).
  apply entries_same; [exact So2|exact Ss|intros e He; apply Wf; rewrite K1, !in_app_iff; auto|]. intros e. split.
  - intros He. assert (Ie : In e (m_entries m)) by (rewrite K1, !in_app_iff; auto). destruct (G e Ie) as [K|[K|K]]; [exact K| |]; exfalso; pose proof (Wf e Ie).
    + rewrite K3 in He. destruct He as [<-|He]; [lia|]. rewrite K3 in So2. inversion So2 as [|? ? B1 B2]; subst. rewrite Forall_forall in B2. specialize (B2 e He). lia.
    + rewrite K4 in He. apply in_app_iff in He. destruct He as [He|[<-|[]]]; [|lia]. rewrite K4 in So2. apply sorted_app in So2. destruct So2 as (_ & _ & B2). specialize (B2 e y He (or_introl eq_refl)). lia.
  - intros He. destruct (Q e He) as (Ie & _). pose proof (run_hull _ _ _ I _ _ R e He). rewrite K1, !in_app_iff in Ie. destruct Ie as [K|[K|K]]; [|exact K|]; exfalso.
    + assert (e_end e < e_start x) by (apply So3; [exact K|rewrite K3; left; reflexivity]). lia.
    + assert (e_end y < e_start e) by (apply So5; [rewrite K4; apply in_app_iff; right; left; reflexivity|exact K]). lia.
Qed.
(** What a worker merges stays in one piece while it works. *)
Theorem run_stays ls m d g w sel : steps false ls start = Some (Up m d g) -> selected m w sel -> exists p q, m_entries m = p ++ sel ++ q.
Proof.
  intros H A. pose proof (good_steps sort merge Hs Hm ls start _ start_good H) as G. cbn in G. apply selected_run in A. destruct A as (a & A). apply (run_split m d g a sel G). apply (run_at _ _ _ G w a sel A).
Qed.
(** Installing replaces exactly what was merged. *)
Lemma install_exact_inv m d g w a sel m' : Inv m d g -> run_of (m_workers m w) = Some (a, sel) -> install m w = Some m' ->
  exists p q new, m_entries m = p ++ sel ++ q /\ m_entries m' = p ++ new :: q /\ e_txns new = flat_map e_txns sel /\ visible new = true /\ e_kind new = out_kind a /\
    (forall x, In x (e_txns new) <-> In x (shown m) /\ e_start new <= t_seq x <= e_end new).
Proof.
  intros G A I. pose proof (run_at _ _ _ G w a sel A) as R. destruct (run_split m d g a sel G R) as (p & q & K).
  unfold install in I. destruct (m_workers m w) as [|b l|b l pj|b l|ns] eqn:W; try discriminate. cbn in A. injection A as -> ->.
  destruct sel as [|x sl] eqn:Es; [discriminate|]. destruct (rev (x :: sl)) as [|y rl] eqn:Er; [discriminate|]. rewrite <- Es in *.
  set (new := Entry (m_next m) (out_kind a) (sel_start sel) (sel_end sel) (sel_txns sel)) in *. exists p, q, new. split; [exact K|].
  pose proof (i_ids _ _ _ G) as Ni. rewrite K in Ni.
  assert (Rp : replace (e_id x) (e_id y) new (m_entries m) = Some (p ++ new :: q)).
  { rewrite K. assert (Sl : sel = removelast sel ++ [y]) by (rewrite <- (rev_involutive sel), Er; cbn [rev]; rewrite removelast_last; reflexivity).
    clear - Ni Es Sl. revert Ni. induction p as [|e p IH]; intros Ni.
    - cbn [app]. assert (Al : after_last (e_id y) (sel ++ q) = Some q).
      { rewrite Sl in Ni |- *. clear Sl Es. revert Ni. generalize (removelast sel) as l. induction l as [|e l IH]; cbn; intros Ni; [rewrite Nat.eqb_refl; reflexivity|]. inversion Ni as [|? ? N1 N2]; subst.
        destruct (Nat.eqb_spec (e_id e) (e_id y)) as [Q|Q]; [|apply IH; exact N2]. exfalso. apply N1. rewrite Q, !map_app, !in_app_iff. cbn. auto. }
      rewrite Es in Al |- *. cbn [replace app] in Al |- *. rewrite Nat.eqb_refl. cbn [app] in Al. rewrite Al. reflexivity.
    - cbn [replace app]. cbn in Ni. apply NoDup_cons_iff in Ni. destruct Ni as [N1 N2]. destruct (Nat.eqb_spec (e_id e) (e_id x)) as [Q|Q]; [exfalso; apply N1; rewrite Q, Es, !map_app, !in_app_iff; cbn; auto|].
      rewrite (IH N2). reflexivity. }
  rewrite Rp in I. injection I as <-. cbn. split; [reflexivity|]. split; [reflexivity|]. split; [destruct a; reflexivity|]. split; [reflexivity|].
  intros z. destruct (run_holds _ _ _ G a sel R) as [_ Hh]. rewrite Hh. rewrite (shown_spec _ _ _ G). split; [|tauto]. intros [Hz Rz]. split; [|exact Rz]. split; [exact Hz|].
  intros i L. apply lead_owner in L. destruct L as (id & L). destruct (own_outside _ _ _ G _ _ _ _ _ L R); lia.
Qed.
Theorem install_exact ls m d g w sel m' d' g' : steps false ls start = Some (Up m d g) -> selected m w sel -> step false (LInstall w) (Up m d g) = Some (Up m' d' g') ->
  exists p q new, m_entries m = p ++ sel ++ q /\ m_entries m' = p ++ new :: q /\ e_txns new = flat_map e_txns sel /\ visible new = true /\
    (forall x, In x (e_txns new) <-> In x (shown m) /\ e_start new <= t_seq x <= e_end new).
Proof.
  intros H A E. pose proof (good_steps sort merge Hs Hm ls start _ start_good H) as G. cbn in G. apply selected_run in A. destruct A as (a & A).
  cbn [StoreModel.step] in E. destruct (m_lock m); [discriminate|]. unfold same in E. destruct (install m w) as [m1|] eqn:I; [|discriminate]. injection E as <- <- <-.
  destruct (install_exact_inv m d g w a sel m1 G A I) as (p & q & new & K1 & K2 & K3 & K4 & _ & K5). exists p, q, new. auto.
Qed.
Theorem install_succeeds ls m d g w a sel : steps false ls start = Some (Up m d g) -> m_workers m w = WOutput a sel -> m_lock m = None ->
  exists m', step false (LInstall w) (Up m d g) = Some (Up m' d g) /\ m_workers m' w = WDiscard (map ename sel).
Proof.
  intros H W L. pose proof (good_steps sort merge Hs Hm ls start _ start_good H) as G. cbn in G. cbn [StoreModel.step]. rewrite L.
  assert (R : run_ok m a sel) by (apply (run_at _ _ _ G w); rewrite W; reflexivity).
  destruct (install m w) as [m'|] eqn:I.
  - exists m'. split; [reflexivity|]. destruct (install_inv m d g w m' G I) as (_ & b & l & E1 & E2). rewrite W in E1. injection E1 as <- <-. exact E2.
  - exfalso. unfold install in I. rewrite W in I. destruct R as (Ne & _). destruct sel as [|x sl]; [contradiction|]. destruct (rev (x :: sl)) as [|y rl] eqn:Er; [apply (f_equal (@length _)) in Er; rewrite rev_length in Er; discriminate|].
    destruct (replace _ _ _ _); discriminate.
Qed.
(** Transactions made ready one after the other get addresses and numbers one after the other. *)
Lemma numbers_run ls : forall m d g m' d' g', steps false ls (Up m d g) = Some (Up m' d' g') -> (forall l, In l ls -> l <> LOpen /\ forall i, l <> LPlace i) -> m_address m' = m_address m /\ m_sequence m' = m_sequence m.
Proof.
  assert (Dn : forall xs d g m' d' g', steps false xs (Down d g) = Some (Up m' d' g') -> In LOpen xs).
  { induction xs as [|l r IH]; intros d g m' d' g' H; cbn [StoreModel.steps StoreModel.step] in H; [discriminate|]. destruct (opening sort merge d) as [[acts m2]|]; [|destruct l; discriminate].
    destruct l; try discriminate; [right; apply (IH _ _ _ _ _ H)|left; reflexivity]. }
  induction ls as [|l r IH]; intros m d g m' d' g' H N; [cbn in H; injection H as <- <- <-; auto|]. cbn [StoreModel.steps] in H. destruct (step false l (Up m d g)) as [[m1 d1 g1|d1 g1]|] eqn:E; [| |discriminate].
  - destruct (numbers_step sort merge l m d g m1 d1 g1 E) as [_ K]. destruct (K (proj2 (N l (or_introl eq_refl)))) as [<- <-]. apply (IH m1 d1 g1 m' d' g' H). intros x Hx. apply N. right. exact Hx.
  - exfalso. apply Dn in H. destruct (N LOpen (or_intror H)) as [X _]. apply X. reflexivity.
Qed.
Lemma place_exact m d g i s : step false (LPlace i) (Up m d g) = Some s -> exists m' x, s = Up m' d g /\ holder m' i x /\ t_addr x = m_address m /\ t_seq x = m_sequence m /\ m_address m' = t_addr x + t_len x /\ m_sequence m' = t_seq x + 1.
Proof.
  cbn [StoreModel.step]. intros E. destruct (m_clones m i) as [|n b| | | | |] eqn:C; try discriminate. destruct (m_lock m) eqn:Lk; [discriminate|]. unfold same in E. destruct (place m i n b) eqn:Pl; [|discriminate]. injection E as <-.
  unfold place in Pl. destruct (_ <? _); [|discriminate]. injection Pl as <-. eexists. exists (Txn (m_sequence m) (m_address m) n b). split; [reflexivity|]. split; [unfold holder; cbn; rewrite upd_same; reflexivity|]. auto.
Qed.
Theorem consecutive s i s1 ls s2 j s3 : step false (LPlace i) s = Some s1 -> steps false ls s1 = Some s2 -> (forall l, In l ls -> l <> LOpen /\ forall i, l <> LPlace i) -> step false (LPlace j) s2 = Some s3 ->
  exists m1 d1 g1 m3 d3 g3 x y, s1 = Up m1 d1 g1 /\ s3 = Up m3 d3 g3 /\ holder m1 i x /\ holder m3 j y /\ t_addr y = t_addr x + t_len x /\ t_seq y = t_seq x + 1.
Proof.
  intros A B N C. destruct s as [m d g|d g]; [|cbn [StoreModel.step] in A; destruct (opening sort merge d) as [[? ?]|]; discriminate]. destruct s2 as [m2 d2 g2|d2 g2]; [|cbn [StoreModel.step] in C; destruct (opening sort merge d2) as [[? ?]|]; discriminate].
  destruct (place_exact m d g i s1 A) as (m1 & x & -> & X1 & X2 & X3 & X4 & X5). destruct (place_exact m2 d2 g2 j s3 C) as (m3 & y & -> & Y1 & Y2 & Y3 & Y4 & Y5).
  destruct (numbers_run ls _ _ _ _ _ _ B N) as [E1 E2]. exists m1, d, g, m3, d2, g2, x, y. do 4 (split; [auto; reflexivity|]). split; lia.
Qed.
End Run.
