(** Addresses, and calls that succeed. *)
From Verif Require Import Base Bytes NameModel NameSpec NameProofs RecoverAll StoreModel StoreSpec StoreDir StoreInv StoreFacts StoreClone StoreCommit StoreJob StoreMerge StoreInstall StoreDown StoreOpen StoreMain StoreHist StoreTop.
From Coq Require Import Sorting.Sorted Sorting.Permutation.

Definition alive_txn (m : mem) (g : list txn) (x : txn) : Prop := In x g \/ exists i id, owner (m_clones m i) = Some (id, x).
Definition text_after (a : Z) (P : txn -> Prop) : Prop :=
  0 <= a /\ (forall x, P x -> 0 <= t_len x /\ 0 <= t_addr x) /\ (forall x, P x -> 0 < t_len x -> t_addr x + t_len x <= a) /\
  (forall x y, P x -> P y -> t_seq x < t_seq y -> 0 < t_len x -> 0 < t_len y -> t_addr x + t_len x <= t_addr y).
Definition AI (s : sys) : Prop := match s with Up m _ g => text_after (m_address m) (alive_txn m g) | Down _ g => exists a, text_after a (fun x => In x g) end.
Lemma text_after_less a (P Q : txn -> Prop) : text_after a P -> (forall x, Q x -> P x) -> text_after a Q.
Proof. intros (A & B & C & D) H. split; [exact A|]. split; [intros x Hx; apply B, H, Hx|]. split; [intros x Hx; apply C, H, Hx|]. intros x y Hx Hy. apply D; apply H; assumption. Qed.

Lemma owners_step sort merge l m d g m' d' g' : Inv m d g -> (forall i, l <> LPlace i) -> step sort merge false l (Up m d g) = Some (Up m' d' g') ->
  forall i id x, owner (m_clones m' i) = Some (id, x) -> owner (m_clones m i) = Some (id, x).
Proof.
  intros G Np H k id0 x0. cbn [step] in H. destruct l; cbn [orb] in H.
  - destruct (m_clones m i) eqn:E; try discriminate. injection H as <- <- <-. cbn. case_upd k; [discriminate|auto].
  - destruct (m_clones m i) eqn:E; try discriminate. destruct (0 <=? n); [|discriminate]. injection H as <- <- <-. cbn. case_upd k; [discriminate|auto].
  - destruct (Np i eq_refl).
  - unfold up in H. destruct (pickle_step m d i) as [[m1 d1]|] eqn:P; [|discriminate]. injection H as <- <- <-. unfold pickle_step in P. destruct (m_clones m i) as [| |id x|id x p|id x j|id x|id x j] eqn:E; try discriminate.
    + destruct (t_data x); injection P as <- _; cbn; (case_upd k; [rewrite E|]; auto).
    + destruct (p_stage p); [injection P as <- _| |injection P as <- _]; [| destruct (link _ _ d); injection P as <- _ |]; cbn; (case_upd k; [rewrite E|]; auto).
  - unfold same in H. destruct (pickle_fail m i) eqn:P; [|discriminate]. injection H as <- <- <-. unfold pickle_fail in P. destruct (m_clones m i) as [| |id x|id x p|id x j|id x|id x j] eqn:E; try discriminate; [|destruct (p_stage p); try discriminate]; injection P as <-; cbn; (case_upd k; [rewrite E|]; auto).
  - destruct (m_lock m); [discriminate|]. unfold commit_link in H. destruct (m_clones m i) as [| |id x|id x p|id x j|id x|id x j] eqn:E; try discriminate. destruct (may_commit m j); [|discriminate]. destruct (link _ _ d); [|discriminate]. injection H as <- <- <-. cbn. case_upd k; [rewrite E|]; auto.
  - destruct (match m_lock m with Some j => Nat.eqb j i | None => false end); [|discriminate]. unfold up in H. destruct (commit_finish m d i) as [[m1 d1]|] eqn:P; [|discriminate]. injection H as <- <- <-. unfold commit_finish in P. destruct (m_clones m i); try discriminate. injection P as <- _. cbn. case_upd k; [discriminate|auto].
  - destruct (_ && _); [|discriminate]. unfold up in H. destruct (abort m d i g0 h) as [[m1 d1]|] eqn:P; [|discriminate]. injection H as <- <- <-. unfold abort in P. destruct (m_clones m i) as [|n c|id x|id x p|id x [j|]|id x|id x j]; try discriminate; injection P as <- _; cbn; (case_upd k; [discriminate|auto]).
  - destruct (_ && _); [|discriminate]. unfold script_write in H. destruct (m_jobs m k0); [|discriminate]. destruct (members m is); [|discriminate]. destruct (forallb _ _); [|discriminate]. injection H as <- _ _. cbn. destruct (m_clones m k) as [| |id x|id x p|id x [j|]|id x|id x j]; auto. destruct (existsb _ _); auto.
  - unfold script_link in H. destruct (m_jobs m k0) as [|is tmp seqs []]; try discriminate. destruct (link _ _ d); injection H as <- _ _; cbn; [auto|]. unfold unmark. destruct (m_clones m k) as [| |id x|id x p|id x [j|]|id x|id x j]; auto. destruct (Nat.eqb _ _); auto.
  - unfold up in H. destruct (script_tidy m d k0) as [[m1 d1]|] eqn:P; [|discriminate]. injection H as <- <- <-. unfold script_tidy in P. destruct (m_jobs m k0) as [|is tmp seqs []]; try discriminate. injection P as <- _. auto.
  - unfold up in H. destruct (script_done m d k0) as [[m1 d1]|] eqn:P; [|discriminate]. injection H as <- <- <-. unfold script_done in P. destruct (m_jobs m k0) as [|is tmp seqs []]; try discriminate. destruct (forallb _ is); [|discriminate]. injection P as <- _. auto.
  - destruct (m_lock m); [discriminate|]. unfold same in H. destruct (choose m w a n) eqn:P; [|discriminate]. injection H as <- <- <-. unfold choose in P. destruct (m_workers m w); try discriminate. destruct (validate m _); [|discriminate]. injection P as <-. auto.
  - unfold up in H. destruct (merge_step m d w) as [[m1 d1]|] eqn:P; [|discriminate]. injection H as <- <- <-. unfold merge_step in P. destruct (m_workers m w); try discriminate.
    + destruct (match a, find d (out_name a sel) with HMerge, Some _ => true | _, _ => false end); injection P as <- _; destruct a; auto.
    + destruct (p_stage p); [injection P as <- _; auto| |injection P as <- _; auto]. destruct (link _ _ d); [injection P as <- _; auto|]. destruct a; injection P as <- _; auto.
  - unfold up in H. destruct (merge_fail false m d w) as [[m1 d1]|] eqn:P; [|discriminate]. injection H as <- <- <-. unfold merge_fail in P. destruct (m_workers m w); try discriminate.
    + destruct a; try discriminate; injection P as <- _; auto.
    + destruct a, (p_stage p); try discriminate; injection P as <- _; auto.
  - discriminate.
  - destruct (m_lock m); [discriminate|]. unfold same in H. destruct (install m w) eqn:P; [|discriminate]. injection H as <- <- <-. unfold install in P. destruct (m_workers m w); try discriminate. destruct sel; [discriminate|]. destruct (rev (e :: sel)); [discriminate|]. destruct (replace _ _ _ _); injection P as <-; auto.
  - unfold up in H. destruct (discard m d w) as [[m1 d1]|] eqn:P; [|discriminate]. injection H as <- <- <-. unfold discard in P. destruct (m_workers m w); try discriminate. destruct names; injection P as <- _; auto.
  - destruct (_ || _); [|discriminate]. injection H as <- <- <-. auto.
  - destruct (m_lock m); [discriminate|]. destruct (m_readers m r); injection H as <- <- <-; auto.
  - injection H as <- <- <-. auto.
  - discriminate.
  - discriminate.
  - discriminate.
Qed.
Lemma gained_alive m d g l x : Inv m d g -> In x (gained l m) -> exists i id, owner (m_clones m i) = Some (id, x).
Proof.
  intros I H. destruct l; cbn in H; try contradiction.
  - destruct (m_clones m i) as [| |id y|id y p|id y [j|]|id y|id y j] eqn:E; try contradiction. destruct H as [<-|[]]. exists i, id. rewrite E. reflexivity.
  - destruct (m_jobs m k) as [|is tmp seqs st]; [contradiction|]. apply in_job_txns in H. destruct H as (i & id & _ & E). exists i, id. rewrite E. reflexivity.
Qed.
Lemma text_end_fold l : forall a, fold_left (fun a x => if 0 <? t_len x then Some (t_addr x + t_len x) else a) l a = match text_end l with Some b => Some b | None => a end.
Proof.
  unfold text_end. induction l as [|x l IH]; intros a; cbn; [reflexivity|]. rewrite IH, (IH (if 0 <? t_len x then _ else None)). destruct (fold_left _ l None); [reflexivity|]. destruct (0 <? t_len x); reflexivity.
Qed.
Lemma text_end_app l r : text_end (l ++ r) = match text_end r with Some b => Some b | None => text_end l end.
Proof. unfold text_end at 1. rewrite fold_left_app, text_end_fold. reflexivity. Qed.
Lemma next_address_spec es : next_address (rev es) = match text_end (flat_map e_txns es) with Some a => a | None => 0 end.
Proof.
  induction es as [|e es IH] using rev_ind; [reflexivity|]. rewrite rev_app_distr, flat_map_app. cbn [rev app next_address flat_map]. rewrite app_nil_r, text_end_app. destruct (text_end (e_txns e)); [reflexivity|exact IH].
Qed.
Lemma text_end_max l : StronglySorted (fun x y => t_seq x < t_seq y) l -> (forall x, In x l -> 0 <= t_len x) -> (forall x y, In x l -> In y l -> t_seq x < t_seq y -> 0 < t_len x -> 0 < t_len y -> t_addr x + t_len x <= t_addr y) ->
  forall x, In x l -> 0 < t_len x -> exists a, text_end l = Some a /\ t_addr x + t_len x <= a.
Proof.
  induction l as [|y l IH] using rev_ind; intros S W O x Hx L; [contradiction|]. rewrite text_end_app. change (text_end [y]) with (if 0 <? t_len y then Some (t_addr y + t_len y) else None). apply sorted_app in S. destruct S as (S1 & _ & S3).
  destruct (Z.ltb_spec 0 (t_len y)) as [Ly|Ly].
  - exists (t_addr y + t_len y). split; [reflexivity|]. apply in_app_iff in Hx. destruct Hx as [Hx|[->|[]]]; [|lia].
    assert (t_addr x + t_len x <= t_addr y) by (apply O; [apply in_app_iff; auto|apply in_app_iff; right; left; reflexivity|apply S3; [exact Hx|left; reflexivity]|exact L|exact Ly]). lia.
  - apply in_app_iff in Hx. destruct Hx as [Hx|[->|[]]]; [|lia]. apply IH; auto; intros; [apply W|apply O]; auto; apply in_app_iff; auto.
Qed.
Lemma text_end_nonneg l a : (forall x, In x l -> 0 <= t_len x /\ 0 <= t_addr x) -> text_end l = Some a -> 0 <= a /\ exists x, In x l /\ 0 < t_len x /\ a = t_addr x + t_len x.
Proof.
  induction l as [|y l IH] using rev_ind; intros W E; [discriminate|]. rewrite text_end_app in E. change (text_end [y]) with (if 0 <? t_len y then Some (t_addr y + t_len y) else None) in E.
  destruct (Z.ltb_spec 0 (t_len y)) as [Ly|Ly].
  - injection E as <-. assert (K : In y (l ++ [y])) by (apply in_app_iff; right; left; reflexivity). pose proof (W y K). split; [lia|]. exists y. auto.
  - destruct IH as (A & x & B & C); [intros x Hx; apply W, in_app_iff; auto|exact E|]. split; [exact A|]. exists x. split; [apply in_app_iff; auto|exact C].
Qed.

Section Run.
Variables (sort merge : list shard -> list shard).
Hypothesis Hs : sorts shard_lt sort.
Hypothesis Hm : sorts owsla_lt merge.
Notation step := (step sort merge).
Notation steps := (steps sort merge).
Lemma ai_step l s s' : good s -> AI s -> step false l s = Some s' -> AI s'.
Proof.
  intros G A H. pose proof (good_step sort merge Hs Hm l s s' G H) as G'. destruct s as [m d g|d g]; cbn in G, A.
  - destruct s' as [m' d' g'|d' g']; cbn in G'.
    + destruct (shown_step sort merge Hs Hm l m d g m' d' g' G H) as [Eg _].
      assert (Pl : (exists i, l = LPlace i) \/ (forall i, l <> LPlace i)) by (destruct l; try (right; discriminate); left; eexists; reflexivity). destruct Pl as [(i & ->)|Np].
      * cbn in Eg. rewrite app_nil_r in Eg. subst g'. cbn [StoreModel.step] in H. destruct (m_clones m i) as [|n b| | | | |] eqn:E; try discriminate. destruct (m_lock m); [discriminate|]. unfold same in H. destruct (place m i n b) eqn:P; [|discriminate]. injection H as <- <-.
        pose proof (i_cl _ _ _ G i) as [_ C]. rewrite E in C. unfold place in P. destruct (_ <? _); [|discriminate]. injection P as <-. cbn [AI m_address].
        set (x := Txn (m_sequence m) (m_address m) n b). destruct A as (A1 & A2 & A3 & A4).
        assert (K : forall y, alive_txn (Mem (m_address m + n) (m_sequence m + 1) (m_entries m ++ [Entry (m_next m) Kitten (t_seq x) (t_seq x) [x]]) (m_merging m) (m_gen m)
              (S (m_next m)) (m_temp m) (m_lock m) (upd (m_clones m) i (Placed (m_next m) x)) (m_workers m) (m_jobs m) (m_readers m)) g y -> y = x \/ alive_txn m g y /\ t_seq y < m_sequence m).
        { intros y [Hy|(j & id & Hy)]; [right; split; [left; exact Hy|]; apply (i_g _ _ _ G) in Hy; lia|]. cbn in Hy. case_upd j; [injection Hy as _ <-; left; reflexivity|]. right. split; [right; exists j, id; exact Hy|]. apply (own_range _ _ _ G) in Hy. lia. }
        split; [lia|]. split; [|split].
        -- intros y Hy. destruct (K y Hy) as [->|[Hy' _]]; [cbn; lia|apply A2, Hy'].
        -- intros y Hy L. destruct (K y Hy) as [->|[Hy' _]]; [cbn; lia|]. specialize (A3 y Hy' L). lia.
        -- intros y z Hy Hz L L1 L2. destruct (K y Hy) as [->|[Hy' _]], (K z Hz) as [->|[Hz' Sz]]; [cbn in *; lia|cbn in *; lia|apply (A3 y Hy' L1)|apply (A4 y z); assumption].
      * destruct (numbers_step sort merge l m d g m' d' g' H) as [_ Nu]. destruct (Nu Np) as [Ea _]. cbn [AI]. rewrite Ea. apply (text_after_less _ _ _ A). intros x [Hx|(i & id & Hx)].
        -- rewrite Eg in Hx. apply in_app_iff in Hx. destruct Hx as [Hx|Hx]; [left; exact Hx|right]. apply (gained_alive m d g l x G Hx).
        -- right. exists i, id. apply (owners_step sort merge l m d g m' d' g' G Np H i id x Hx).
    + cbn. exists (m_address m). assert (Eg : g' = g).
      { cbn [StoreModel.step] in H. destruct l; try discriminate.
        + destruct (m_clones m i); discriminate.
        + destruct (m_clones m i); try discriminate. destruct (0 <=? n); discriminate.
        + destruct (m_clones m i); try discriminate. destruct (m_lock m); [discriminate|]. unfold same in H. destruct (place m i n b); discriminate.
        + unfold up in H. destruct (pickle_step m d i) as [[? ?]|]; discriminate.
        + unfold same in H. destruct (pickle_fail m i); discriminate.
        + destruct (m_lock m) eqn:Lk; [discriminate|]. pose proof (commit_link_inv m d g i _ G Lk H) as K. apply K.
        + destruct (match m_lock m with Some j => Nat.eqb j i | None => false end); [|discriminate]. unfold up in H. destruct (commit_finish m d i) as [[? ?]|]; discriminate.
        + destruct (_ && _); [|discriminate]. unfold up in H. destruct (abort m d i g0 h) as [[? ?]|]; discriminate.
        + destruct (_ && _) eqn:Q; [|discriminate]. apply andb_prop in Q. destruct Q as [_ Q]. pose proof (script_write_inv m d g k is _ G (distinct_nodup _ Q) H) as K. apply K.
        + destruct (script_link_inv m d g k _ G H) as (? & ? & ? & X & _). discriminate.
        + unfold up in H. destruct (script_tidy m d k) as [[? ?]|]; discriminate.
        + unfold up in H. destruct (script_done m d k) as [[? ?]|]; discriminate.
        + destruct (m_lock m); [discriminate|]. unfold same in H. destruct (choose m w a n); discriminate.
        + unfold up in H. destruct (merge_step m d w) as [[? ?]|]; discriminate.
        + unfold up in H. destruct (merge_fail false m d w) as [[? ?]|]; discriminate.
        + destruct (m_lock m); [discriminate|]. unfold same in H. destruct (install m w); discriminate.
        + unfold up in H. destruct (discard m d w) as [[? ?]|]; discriminate.
        + destruct (_ || _); discriminate.
        + destruct (m_lock m); [discriminate|]. destruct (m_readers m r); discriminate.
        + injection H as <- <-. reflexivity. }
      subst g'. apply (text_after_less _ _ _ A). intros x Hx. left. exact Hx.
  - destruct A as (a & A1 & A2 & A3 & A4). cbn [StoreModel.step] in H. destruct (opening sort merge d) as [[acts m2]|] eqn:Eo; [|destruct l; discriminate]. destruct l; try discriminate; injection H as <-.
    + exists a. split; [exact A1|]. auto.
    + cbn in G'. destruct (opening_ok sort merge Hs Hm d g G) as (acts' & m' & Eo' & _ & _ & V). rewrite Eo in Eo'. injection Eo' as <- <-.
      unfold opening in Eo. destruct (recover _ _ _) as [[[shards ?] removed]|]; [|discriminate]. destruct (load_all _ _ _) as [es|]; [|discriminate]. injection Eo as _ <-. cbn [AI].
      assert (Sh : shown (fresh es) = flat_map e_txns es).
      { unfold shown. cbn. f_equal. cbn in V. clear - V. induction es as [|e es IH]; [reflexivity|]. cbn. rewrite (V e (or_introl eq_refl)). f_equal. apply IH. intros v Hv. apply V. right. exact Hv. }
      assert (Al : forall x, alive_txn (fresh es) g x -> In x (shown (fresh es))) by (intros x [Hx|(i & id & Hx)]; [apply (fresh_shown _ _ _ G'); exact Hx|discriminate]).
      pose proof (shown_sorted _ _ _ G') as So. assert (Ig : forall x, In x (shown (fresh es)) -> In x g) by (intros x; apply (fresh_shown _ _ _ G')).
      cbn [m_address fresh]. rewrite next_address_spec, <- Sh. split; [|split; [intros x Hx; apply A2, Ig, Al, Hx|split]].
      * destruct (text_end _) as [b|] eqn:T; [|lia]. apply (text_end_nonneg (shown (fresh es))); [intros x Hx; apply A2, Ig, Hx|exact T].
      * intros x Hx L. destruct (text_end_max (shown (fresh es)) So (fun y Hy => proj1 (A2 y (Ig y Hy))) (fun y z Hy Hz => A4 y z (Ig y Hy) (Ig z Hz)) x (Al x Hx) L) as (b & -> & K). exact K.
      * intros x y Hx Hy. apply A4; apply Ig, Al; assumption.
Qed.
Lemma ai_steps ls : forall s s', good s -> AI s -> steps false ls s = Some s' -> AI s'.
Proof.
  induction ls as [|l r IH]; intros s s' G A H; cbn [StoreModel.steps] in H; [injection H as <-; exact A|]. destruct (step false l s) as [s1|] eqn:E; [|discriminate].
  apply (IH s1 s' (good_step sort merge Hs Hm l s s1 G E) (ai_step l s s1 G A E) H).
Qed.
Lemma ai_start : AI start.
Proof. cbn. exists 0. split; [lia|]. split; [intros x []|]. split; [intros x []|intros x y []]. Qed.
(** Every token has one address: transactions that are shown or under way do not overlap. *)
Theorem addresses ls m d g : steps false ls start = Some (Up m d g) ->
  StronglySorted (fun x y => forall a b, at_address x a -> at_address y b -> a < b) (shown m) /\
  (forall i x y a, holder m i x -> In y (shown m) -> at_address x a -> ~ at_address y a) /\
  (forall i j x y a, holder m i x -> holder m j y -> at_address x a -> at_address y a -> i = j).
Proof.
  intros H. pose proof (good_steps sort merge Hs Hm ls start _ start_good H) as G. pose proof (ai_steps ls start _ start_good ai_start H) as (A1 & A2 & A3 & A4). cbn in G.
  assert (Ov : forall x y a, alive_txn m g x -> alive_txn m g y -> at_address x a -> at_address y a -> t_seq x = t_seq y).
  { intros x y a Hx Hy [X1 X2] [Y1 Y2]. destruct (Z.lt_trichotomy (t_seq x) (t_seq y)) as [L|[L|L]]; [|exact L|]; exfalso; [assert (t_addr x + t_len x <= t_addr y) by (apply A4; auto; lia)|assert (t_addr y + t_len y <= t_addr x) by (apply A4; auto; lia)]; lia. }
  assert (Sg : forall x, In x (shown m) -> In x g) by (intros x Hx; apply (shown_spec _ _ _ G) in Hx; apply Hx).
  assert (Hg : forall i x, holder m i x -> alive_txn m g x) by (intros i x Hx; apply owner_holder in Hx; destruct Hx as (id & Hx); right; eauto).
  split; [|split].
  - pose proof (shown_sorted _ _ _ G) as So. clear - So Sg A4. induction So as [|x l So IH F]; constructor; [apply IH; intros y Hy; apply Sg; right; exact Hy|]. rewrite Forall_forall in F |- *. intros y Hy a b [X1 X2] [Y1 Y2].
    assert (t_addr x + t_len x <= t_addr y) by (apply A4; [left; apply Sg; left; reflexivity|left; apply Sg; right; exact Hy|apply F; exact Hy|lia|lia]). lia.
  - intros i x y a Hx Hy Ax Ay. pose proof (Ov x y a (Hg i x Hx) (or_introl (Sg y Hy)) Ax Ay) as E. apply owner_holder in Hx. destruct Hx as (id & Hx).
    unfold shown in Hy. apply in_flat_map in Hy. destruct Hy as (e & He & Hy). apply filter_In in He. destruct He as [He V]. destruct (i_vis _ _ _ G e He V) as [[_ Hh] _]. apply Hh in Hy.
    destruct (own_hidden _ _ _ G _ _ _ _ Hx He V); lia.
  - intros i j x y a Hx Hy Ax Ay. pose proof (Ov x y a (Hg i x Hx) (Hg j y Hy) Ax Ay) as E. apply owner_holder in Hx, Hy. destruct Hx as (id & Hx), Hy as (id' & Hy). apply (own_same _ _ _ G _ _ _ _ _ _ Hx Hy E).
Qed.
(** The place a transaction gets: after all text so far, and consecutive in the order of the calls. *)
Theorem placed ls m d g i s : steps false ls start = Some (Up m d g) -> step false (LPlace i) (Up m d g) = Some s ->
  exists m' x, s = Up m' d g /\ holder m' i x /\ content x = h_open (notes ls) i /\ (forall y a b, In y (shown m) \/ (exists j, holder m j y) -> at_address y a -> at_address x b -> a < b) /\
    (forall y, In y (shown m) \/ (exists j, holder m j y) -> t_seq y < t_seq x) /\ (forall j y, j <> i -> holder m' j y <-> holder m j y).
Proof.
  intros H E. pose proof (good_steps sort merge Hs Hm ls start _ start_good H) as G. pose proof (ai_steps ls start _ start_good ai_start H) as (A1 & A2 & A3 & A4). cbn in G.
  destruct (hist_run sort merge Hs Hm ls _ H) as (_ & P & dur & U). cbn in U. cbn [StoreModel.step] in E. destruct (m_clones m i) as [|n b| | | | |] eqn:C; try discriminate. destruct (m_lock m) eqn:Lk; [discriminate|]. unfold same in E. destruct (place m i n b) eqn:Pl; [|discriminate]. injection E as <-.
  unfold place in Pl. destruct (_ <? _); [|discriminate]. injection Pl as <-. eexists. exists (Txn (m_sequence m) (m_address m) n b). split; [reflexivity|].
  assert (Al : forall y, In y (shown m) \/ (exists j, holder m j y) -> alive_txn m g y).
  { intros y [Hy|(j & Hy)]; [left; apply (shown_spec _ _ _ G) in Hy; apply Hy|right; apply owner_holder in Hy; destruct Hy as (id & Hy); eauto]. }
  split; [unfold holder; cbn; rewrite upd_same; reflexivity|]. split; [unfold content; cbn; symmetry; apply (hu_open _ _ _ _ _ U i n b C)|]. split; [|split].
  - intros y a0 b0 Hy [Y1 Y2] [X1 X2]. cbn in *. assert (t_addr y + t_len y <= m_address m) by (apply A3; [apply Al, Hy|lia]). lia.
  - intros y Hy. cbn. destruct (Al y Hy) as [K|(j & id & K)]; [apply (i_g _ _ _ G) in K; lia|apply (own_range _ _ _ G) in K; lia].
  - intros j y Nj. unfold holder. cbn. rewrite upd_other by exact Nj. reflexivity.
Qed.
(** A transaction that wrote something and is ready commits: nothing stops the process. *)
Theorem commit_succeeds ls m d g i id x : steps false ls start = Some (Up m d g) -> m_clones m i = Ready id x None -> t_data x <> [] -> m_lock m = None ->
  exists m' d' g', step false (LCommit i) (Up m d g) = Some (Up m' d' g') /\ exists m'' d'' g'', step false (LCommitted i) (Up m' d' g') = Some (Up m'' d'' g'').
Proof.
  intros H C T L. pose proof (good_steps sort merge Hs Hm ls start _ start_good H) as G. cbn in G. cbn [StoreModel.step]. rewrite L. unfold commit_link. rewrite C. cbn [may_commit].
  assert (F1 : find d (kitten_name x) = Some (xfile x)) by (apply (i_kit _ _ _ G); exists i, x; rewrite C; cbn; destruct (t_data x); [contradiction|auto]).
  assert (F2 : find d (fiver_name x) = None) by (apply (fiver_free _ _ _ G i id x); rewrite C; [reflexivity|discriminate]).
  unfold link. rewrite F1, F2. eexists. eexists. eexists. split; [reflexivity|]. eexists. eexists. eexists. cbn [m_lock set_lock]. rewrite Nat.eqb_refl. unfold commit_finish. cbn. rewrite upd_same. reflexivity.
Qed.
(** And so does a batch, to the end. *)
Theorem batch_written ls m d g k is : steps false ls start = Some (Up m d g) -> is <> [] -> NoDup is -> m_jobs m k = JNone ->
  (forall i, In i is -> exists id x, m_clones m i = Ready id x None /\ t_data x <> []) ->
  exists m' d', step false (LScript k is) (Up m d g) = Some (Up m' d' g) /\ exists m'' d'' g'', step false (LScriptLink k) (Up m' d' g) = Some (Up m'' d'' g'').
Proof.
  intros H Ne Nd Jk Rd. pose proof (good_steps sort merge Hs Hm ls start _ start_good H) as G. cbn in G.
  assert (Di : distinct is = true).
  { clear - Nd. induction Nd as [|i r N _ IH]; [reflexivity|]. cbn. rewrite IH, andb_true_r. destruct (existsb (Nat.eqb i) r) eqn:E; [|reflexivity]. apply existsb_nat in E. contradiction. }
  assert (Ms : exists xs, members m is = Some xs /\ forall x, In x xs -> exists i id, m_clones m i = Ready id x None /\ t_data x <> []).
  { clear - Rd. unfold members. induction is as [|i r IH]; [exists []; split; [reflexivity|intros x []]|]. destruct IH as (xs & E & K); [intros j Hj; apply Rd; right; exact Hj|].
    destruct (Rd i (or_introl eq_refl)) as (id & x & A & B). exists (x :: xs). cbn. rewrite A, E. split; [reflexivity|]. intros y [<-|Hy]; [exists i, id; auto|apply K, Hy]. }
  destruct Ms as (xs & Ms & K).
  assert (Fa : forallb (fun x => match find d (kitten_name x) with Some _ => true | None => false end) xs = true).
  { apply forallb_forall. intros x Hx. destruct (K x Hx) as (i & id & C & T). assert (F1 : find d (kitten_name x) = Some (xfile x)) by (apply (i_kit _ _ _ G); exists i, x; rewrite C; cbn; destruct (t_data x); [contradiction|auto]). rewrite F1. reflexivity. }
  cbn [StoreModel.step]. rewrite Di. assert (X : (match is with [] => false | _ => true end) && true = true) by (destruct is; [contradiction|reflexivity]). rewrite X.
  unfold script_write. rewrite Jk, Ms, Fa. eexists. eexists. split; [reflexivity|]. unfold script_link. cbn [m_jobs]. rewrite upd_same. destruct (link _ _ _); eexists; eexists; eexists; reflexivity.
Qed.
(** Once its script is linked a batch is durable. *)
Theorem batch_durable ls m d g k is tmp seqs s : steps false ls start = Some (Up m d g) -> m_jobs m k = Job is tmp seqs JTemp -> step false (LScriptLink k) (Up m d g) = Some s ->
  exists l, reopened sort merge (disk s) = Some l /\ forall i id x, In i is -> m_clones m i = Ready id x (Some k) -> In x l.
Proof.
  intros H Jk E. pose proof (good_steps sort merge Hs Hm ls start _ start_good H) as G. pose proof (good_step sort merge Hs Hm _ _ _ G E) as G'. cbn in G. destruct (script_link_inv m d g k s G E) as (m' & d' & g' & -> & _). cbn in G'.
  destruct (shown_step sort merge Hs Hm _ m d g m' d' g' G E) as [Eg _]. cbn in Eg. rewrite Jk in Eg. destruct (reopened_spec sort merge Hs Hm d' g' (crash_inv _ _ _ G')) as (l & R1 & _ & R3). exists l. split; [exact R1|].
  intros i id x Hi C. apply R3. rewrite Eg. apply in_app_iff. right. apply in_job_txns. exists i, id. auto.
Qed.
End Run.
