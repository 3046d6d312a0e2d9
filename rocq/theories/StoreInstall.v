(** Choosing shards, installing a merged shard and removing the old files keep the
    invariant. *)
From Verif Require Import Base Bytes NameModel NameSpec NameProofs RecoverAll StoreModel StoreSpec StoreDir StoreInv StoreFacts StoreClone StoreCommit StoreMerge.
From Coq Require Import Sorting.Sorted.

Lemma sorted_app {A} (R : A -> A -> Prop) l r : StronglySorted R (l ++ r) <-> StronglySorted R l /\ StronglySorted R r /\ (forall x y, In x l -> In y r -> R x y).
Proof.
  induction l as [|a l IH]; cbn; split.
  - intros H. split; [constructor|]. split; [exact H|intros x y []].
  - intros (_ & H & _). exact H.
  - intros H. inversion H as [|? ? A1 B1]; subst. apply IH in A1. destruct A1 as (A1 & A2 & A3). rewrite Forall_forall in B1. split; [|split; [exact A2|]].
    + constructor; [exact A1|]. apply Forall_forall. intros x Hx. apply B1, in_app_iff. auto.
    + intros x y [<-|Hx] Hy; [apply B1, in_app_iff; auto|apply A3; assumption].
  - intros (H1 & H2 & H3). inversion H1 as [|? ? A1 B1]; subst. constructor; [apply IH; split; [exact A1|split; [exact H2|auto]]|].
    rewrite Forall_forall in B1 |- *. intros x Hx. apply in_app_iff in Hx. destruct Hx; auto.
Qed.
Lemma cleanup_in l e : In e (cleanup l) <-> In e l /\ e_kind e <> Gone.
Proof. unfold cleanup. rewrite filter_In. destruct (e_kind e); cbn; intuition (try discriminate; congruence). Qed.
Lemma sorted_filter {A} (R : A -> A -> Prop) f l : StronglySorted R l -> StronglySorted R (filter f l).
Proof.
  induction 1 as [|a l S1 IH F]; cbn; [constructor|]. destruct (f a); [|exact IH]. constructor; [exact IH|].
  rewrite Forall_forall in F |- *. intros x Hx. apply filter_In in Hx. apply F. tauto.
Qed.
Lemma nodup_map_filter {A B} (h : A -> B) f l : NoDup (map h l) -> NoDup (map h (filter f l)).
Proof.
  induction l as [|a l IH]; cbn; intros N; [constructor|]. inversion N as [|? ? X Y]; subst. destruct (f a); [|auto]. cbn. constructor; [|auto].
  intros K. apply X. apply in_map_iff in K. destruct K as (b & E & K). apply filter_In in K. rewrite <- E. apply in_map. tauto.
Qed.
Lemma kind_eqb_eq k k' : kind_eqb k k' = true -> k = k'.
Proof. destruct k, k'; cbn; try discriminate; reflexivity. Qed.
Lemma validate_spec m sel a : validate m sel = Some a ->
  sel <> [] /\ (a <> Convert -> (2 <= length sel)%nat) /\ (a = Convert -> length sel = 1%nat) /\ forall e, In e sel -> e_kind e = in_kind a /\ ~ In (e_id e) (m_merging m).
Proof.
  assert (K : forall k l, forallb (fun e => kind_eqb (e_kind e) k && eligible m e) l = true -> forall e, In e l -> e_kind e = k /\ ~ In (e_id e) (m_merging m)).
  { intros k l F e He. rewrite forallb_forall in F. specialize (F e He). apply andb_prop in F. destruct F as [F1 F2]. split; [apply kind_eqb_eq; exact F1|].
    unfold eligible in F2. intros X. assert (Y : existsb (Nat.eqb (e_id e)) (m_merging m) = true) by (apply existsb_exists; exists (e_id e); split; [exact X|apply Nat.eqb_refl]).
    rewrite Y in F2. discriminate. }
  unfold validate. destruct sel as [|e1 [|e2 sel]]; intros H; [discriminate| |].
  - destruct (forallb _ _) eqn:F; [|discriminate]. injection H as <-. repeat split; try discriminate; try congruence; apply (K _ _ F); assumption.
  - destruct (forallb _ _) eqn:F; [|destruct (forallb (fun e => kind_eqb (e_kind e) HazelK && _) _) eqn:F'; [|discriminate]; cbn [andb] in H; destruct (contiguous _); [|discriminate]];
      injection H as <-; (split; [discriminate|]; split; [cbn; lia|]; split; [discriminate|]); apply K; assumption.
Qed.
(** A run taken from an ordered list. *)
Lemma run_taken l a n e : StronglySorted (fun a b : entry => e_end a < e_start b) l -> (forall e, In e l -> e_start e <= e_end e) -> let sel := firstn n (skipn a l) in
  sel <> [] -> In e l -> In e sel \/ e_end e < sel_start sel \/ sel_end sel < e_start e.
Proof.
  intros Hs W sel N He. rewrite <- (firstn_skipn a l) in He, Hs. rewrite <- (firstn_skipn n (skipn a l)) in He, Hs. fold sel in He, Hs.
  apply sorted_app in Hs. destruct Hs as (_ & Hs & H1). apply sorted_app in Hs. destruct Hs as (_ & _ & H2).
  destruct (sel_ends sel N) as (x & y & Hx & Hy & -> & ->). apply in_app_iff in He. destruct He as [He|He].
  - right. left. apply H1; [exact He|]. apply in_app_iff. left. exact Hx.
  - apply in_app_iff in He. destruct He as [He|He]; [left; exact He|]. right. right. apply H2; assumption.
Qed.
Lemma in_firstn {A} n (l : list A) x : In x (firstn n l) -> In x l.
Proof. intros H. rewrite <- (firstn_skipn n l). apply in_app_iff. left. exact H. Qed.
Lemma in_skipn {A} n (l : list A) x : In x (skipn n l) -> In x l.
Proof. intros H. rewrite <- (firstn_skipn n l). apply in_app_iff. right. exact H. Qed.
Lemma sorted_part {A} (R : A -> A -> Prop) a n l : StronglySorted R l -> StronglySorted R (firstn n (skipn a l)).
Proof.
  intros H. rewrite <- (firstn_skipn a l) in H. apply sorted_app in H. destruct H as (_ & H & _). rewrite <- (firstn_skipn n (skipn a l)) in H. apply sorted_app in H. tauto.
Qed.
Lemma choose_inv m d g w a n m' : Inv m d g -> choose m w a n = Some m' -> Inv m' d g.
Proof.
  intros I H. unfold choose in H. destruct (m_workers m w) eqn:E; try discriminate. destruct (validate m _) as [act|] eqn:V; [|discriminate]. injection H as <-.
  set (es := cleanup (m_entries m)) in *. set (sel := firstn n (skipn a es)) in *. apply validate_spec in V. destruct V as (V1 & V2 & V3 & V4).
  assert (Sub : forall e, In e es -> In e (m_entries m)) by (intros e He; apply cleanup_in in He; tauto).
  assert (Vis : forall e, In e (m_entries m) -> visible e = true -> In e es) by (intros e He V; apply cleanup_in; split; [exact He|]; intros K; unfold visible in V; rewrite K in V; discriminate).
  assert (Ssel : forall e, In e sel -> In e es) by (intros e He; apply in_firstn, in_skipn in He; exact He).
  assert (So : StronglySorted (fun a b => e_end a < e_start b) es) by (apply sorted_filter, I).
  assert (Nr : run_ok (set_worker (set_merging (set_entries m es) (map e_id sel ++ m_merging m)) w (WChosen act sel)) act sel).
  { repeat split; try assumption; cbn.
    - apply Ssel. assumption.
    - apply V4. assumption.
    - apply in_app_iff. left. apply in_map. assumption.
    - apply sorted_part, So.
    - intros e He. apply run_taken; [exact So| |exact V1|exact He]. intros v Hv. apply Sub, (i_ent _ _ _ I) in Hv. lia. }
  assert (Or : forall v b l, run_of (m_workers m v) = Some (b, l) -> run_ok m b l -> run_ok (set_worker (set_merging (set_entries m es) (map e_id sel ++ m_merging m)) w (WChosen act sel)) b l).
  { intros v b l H R. apply (run_frame m); [exact R| | |]; cbn.
    - intros e He He'. apply Vis; [exact He'|]. destruct R as (_ & _ & _ & R & _). destruct (R e He) as (_ & K & _). apply (in_kind_visible _ _ K).
    - intros e He. left. exists e. auto.
    - intros e He K. apply in_app_iff. right. exact K. }
  constructor; try apply I; cbn; try exact So.
  - apply nodup_map_filter, I.
  - intros v Hv. apply (i_ent _ _ _ I), Sub, Hv.
  - intros v Hv. apply (i_vis _ _ _ I), Sub, Hv.
  - intros i. pose proof (i_cl _ _ _ I i) as [A B]. split; [|exact B]. intros id x K. apply cleanup_in. split; [apply A; exact K|discriminate].
  - intros v. case_upd v; [split; [|split; [discriminate|exact Logic.I]]; intros b l K; cbn in K; injection K as <- <-; exact Nr|].
    apply (worker_frame m _ d); [apply I|apply Or|exact Vis|auto|auto].
  - assert (D : forall v b l e, v <> w -> run_of (m_workers m v) = Some (b, l) -> In e l -> In e sel -> False).
    { intros v b l e N H He Hs. destruct (V4 e Hs) as [_ K]. apply K. destruct (run_at _ _ _ I _ _ _ H) as (_ & _ & _ & R & _). apply R. exact He. }
    intros v v' b l b' l' e H H' He He'. case_upd v; case_upd v'; auto.
    + cbn in H. injection H as <- <-. exfalso. apply (D v' b' l' e Nu H' He' He).
    + cbn in H'. injection H' as <- <-. exfalso. apply (D v b l e Nu H He He').
    + apply (i_dis _ _ _ I v v' b l b' l' e H H' He He').
  - assert (T : forall b, src (set_worker (set_merging (set_entries m es) (map e_id sel ++ m_merging m)) w (WChosen act sel)) b = src m b).
    { intros [j|v|k]; cbn; auto. case_upd v; [rewrite E; reflexivity|reflexivity]. }
    intros b c n0 A B. rewrite T in A, B. apply (i_src _ _ _ I _ _ _ A B).
  - intros b n0 A. assert (A' : src m b = Some n0) by (destruct b as [j|v|k]; cbn in A |- *; auto; case_upd v; [discriminate|exact A]).
    destruct (i_tmp _ _ _ I b n0 A') as [K|(v & l & q & -> & E1 & E2)]; [left; exact K|right]. exists v, l, q. split; [reflexivity|]. split; [|exact E2]. case_upd v; congruence.
  - intros n0 f F K. destruct (i_sh _ _ _ I n0 f F K) as (k & s & e & l & A1 & A2 & A3 & A4 & A5 & A6 & C). exists k, s, e, l. do 6 (split; [assumption|]).
    destruct C as [(v & C1 & C2 & C3)|[(v & b & l' & L & C)|C]]; [left; exists v; split; [apply Vis; assumption|auto]| |right; right; exact C].
    right. left. exists v, b, l'. split; [|exact C]. cbn. case_upd v; [rewrite E in L; discriminate|exact L].
  - intros x Hx. destruct (i_dur _ _ _ I x Hx) as [(v & C1 & C2 & C3)|A]; [left; exists v; split; [apply Vis; assumption|auto]|right; exact A].
Qed.

Lemma after_last_spec y : forall l, NoDup (map e_id l) -> In y l -> exists mid q, l = (mid ++ [y]) ++ q /\ after_last (e_id y) l = Some q.
Proof.
  induction l as [|e l IH]; intros N H; [contradiction|]. cbn. destruct (Nat.eqb_spec (e_id e) (e_id y)) as [X|X].
  - assert (e = y) by (apply (id_unique (e :: l)); [exact N|left; reflexivity|exact H|exact X]). subst e. exists [], l. split; reflexivity.
  - destruct H as [->|H]; [contradiction|]. inversion N; subst. destruct (IH) as (mid & q & -> & K); [assumption|exact H|]. exists (e :: mid), q. split; [reflexivity|exact K].
Qed.
Lemma replace_spec x y new : forall l, NoDup (map e_id l) -> StronglySorted (fun a b => e_end a < e_start b) l -> (forall e, In e l -> e_start e <= e_end e) ->
  In x l -> In y l -> e_start x <= e_start y ->
  exists p mid q, l = p ++ mid ++ q /\ replace (e_id x) (e_id y) new l = Some (p ++ new :: q) /\ (exists r, mid = x :: r) /\ (exists r, mid = r ++ [y]).
Proof.
  induction l as [|e l IH]; intros N Hs W Hx Hy L; [contradiction|]. cbn [replace]. destruct (Nat.eqb_spec (e_id e) (e_id x)) as [X|X].
  - assert (e = x) by (apply (id_unique (e :: l)); [exact N|left; reflexivity|exact Hx|exact X]). subst e.
    destruct (after_last_spec y _ N Hy) as (mid & q & K1 & K2). rewrite K2. exists [], (mid ++ [y]), q. split; [exact K1|]. split; [reflexivity|]. split; [|exists mid; reflexivity].
    destruct mid as [|e' mid]; cbn in K1; injection K1 as -> _; [exists []|exists (mid ++ [y])]; reflexivity.
  - destruct Hx as [->|Hx]; [contradiction|]. inversion Hs as [|? ? S1 S2]; subst. rewrite Forall_forall in S2.
    destruct Hy as [->|Hy]; [specialize (S2 x Hx); specialize (W y (or_introl eq_refl)); lia|]. inversion N; subst.
    destruct IH as (p & mid & q & -> & K2 & K3); auto; [intros v Hv; apply W; right; exact Hv|]. rewrite K2. exists (e :: p), mid, q. split; [reflexivity|]. split; [reflexivity|exact K3].
Qed.
Lemma install_inv m d g w m' : Inv m d g -> install m w = Some m' ->
  Inv m' d g /\ exists a sel, m_workers m w = WOutput a sel /\ m_workers m' w = WDiscard (map ename sel).
Proof.
  intros I H. unfold install in H. pose proof (i_wk _ _ _ I w) as (W1 & W2 & _). destruct (m_workers m w) as [|a sel|a sel p|a sel|ns] eqn:E; try discriminate.
  assert (Hr : run_of (m_workers m w) = Some (a, sel)) by (rewrite E; reflexivity). assert (R : run_ok m a sel) by (apply W1; reflexivity).
  assert (Fo : find d (out_name a sel) = Some (out_file sel)) by (apply W2; reflexivity).
  pose proof R as (Ne & L2 & L1 & Q & Ss & G). pose proof (run_range _ _ _ I _ _ R) as Rr.
  destruct sel as [|x sl] eqn:Es; [contradiction|]. destruct (rev (x :: sl)) as [|y rl] eqn:Er; [discriminate|]. rewrite <- Es in *.
  assert (Sx : sel_start sel = e_start x) by (rewrite Es; reflexivity). assert (Sy : sel_end sel = e_end y) by (unfold sel_end; rewrite Er; reflexivity).
  assert (Hx : In x sel) by (rewrite Es; left; reflexivity). assert (Hy : In y sel) by (apply in_rev; rewrite Er; left; reflexivity).
  set (new := Entry (m_next m) (out_kind a) (sel_start sel) (sel_end sel) (sel_txns sel)) in *.
  pose proof (run_hull _ _ _ I _ _ R x Hx) as Ux. pose proof (run_hull _ _ _ I _ _ R y Hy) as Uy.
  assert (Wf : forall e, In e (m_entries m) -> e_start e <= e_end e) by (intros e He; apply (i_ent _ _ _ I) in He; lia).
  assert (Lxy : e_start x <= e_start y) by lia.
  destruct (replace_spec x y new (m_entries m)) as (p & mid & q & K1 & K2 & (r1 & K3) & (r2 & K4)); auto; try apply I; [apply Q; exact Hx|apply Q; exact Hy|].
  rewrite K2 in H. injection H as <-. split; [|exists a, sel; split; [reflexivity|cbn; apply upd_same]].
  pose proof (i_sorted _ _ _ I) as So. rewrite K1 in So. apply sorted_app in So. destruct So as (So1 & So & So3). apply sorted_app in So. destruct So as (So2 & So4 & So5).
  assert (Hp : forall e, In e p -> e_end e < sel_start sel) by (intros e He; rewrite Sx; apply So3; [exact He|]; rewrite K3; left; reflexivity).
  assert (Hq : forall e, In e q -> sel_end sel < e_start e) by (intros e He; rewrite Sy; apply So5; [|exact He]; rewrite K4; apply in_app_iff; right; left; reflexivity).
  assert (Hm : forall e, In e mid -> In e sel).
  { intros e He. assert (Ie : In e (m_entries m)) by (rewrite K1, !in_app_iff; auto). destruct (G e Ie) as [K|[K|K]]; [exact K| |]; exfalso; pose proof (Wf e Ie).
    - rewrite K3 in He. destruct He as [<-|He]; [lia|]. rewrite K3 in So2. inversion So2 as [|? ? B1 B2]; subst. rewrite Forall_forall in B2. specialize (B2 e He). lia.
    - rewrite K4 in He. apply in_app_iff in He. destruct He as [He|[<-|[]]]; [|lia]. rewrite K4 in So2. apply sorted_app in So2. destruct So2 as (_ & _ & B2). specialize (B2 e y He (or_introl eq_refl)). lia. }
  set (es := p ++ new :: q) in *.
  assert (In1 : forall v, In v es -> v = new \/ (In v (m_entries m) /\ (e_end v < sel_start sel \/ sel_end sel < e_start v))).
  { intros v Hv. unfold es in Hv. rewrite in_app_iff in Hv. cbn in Hv. destruct Hv as [Hv|[Hv|Hv]]; auto; right; (split; [rewrite K1, !in_app_iff; auto|auto]). }
  assert (In2 : forall v, In v (m_entries m) -> ~ In v sel -> In v es).
  { intros v Hv N. rewrite K1, !in_app_iff in Hv. unfold es. rewrite in_app_iff. cbn. destruct Hv as [Hv|[Hv|Hv]]; auto. exfalso. apply N, Hm, Hv. }
  assert (Inn : In new es) by (unfold es; rewrite in_app_iff; right; left; reflexivity).
  assert (Vn : visible new = true) by (apply visible_kind; destruct a; cbn; auto).
  assert (In3 : forall v s, In v (m_entries m) -> visible v = true -> e_start v <= s <= e_end v -> exists v', In v' es /\ visible v' = true /\ e_start v' <= s <= e_end v').
  { intros v s Hv V Rs. destruct (G v Hv) as [K|K]; [|exists v; split; [apply In2; [exact Hv|intros X; pose proof (run_hull _ _ _ I _ _ R v X); lia]|auto]].
    exists new. pose proof (run_hull _ _ _ I _ _ R v K). cbn. repeat split; auto; lia. }
  set (mm := set_worker (next_id (set_entries (release m sel) es)) w (WDiscard (map ename sel))).
  constructor; try apply I; cbn -[es].
  - unfold es. apply sorted_app. split; [exact So1|]. split.
    + constructor; [exact So4|]. apply Forall_forall. exact Hq.
    + intros v v' Hv [<-|Hv']; [apply Hp; exact Hv|]. apply Hp in Hv. apply Hq in Hv'. lia.
  - pose proof (i_ids _ _ _ I) as Ni. unfold es. rewrite map_app. cbn. apply (NoDup_Add (a := m_next m) (l := map e_id p ++ map e_id q)); [apply Add_app|]. split.
    + rewrite K1, !map_app in Ni. clear - Ni. induction (map e_id p) as [|b l IH]; cbn in *.
      * induction (map e_id mid) as [|b l IH]; cbn in *; [exact Ni|]. inversion Ni; subst. auto.
      * inversion Ni as [|? ? X Y]; subst. constructor; [|auto]. intros K. apply X. rewrite !in_app_iff in *. tauto.
    + intros K. rewrite in_app_iff in K. assert (Z : exists v, e_id v = m_next m /\ In v (m_entries m)).
      { destruct K as [K|K]; apply in_map_iff in K; destruct K as (v & Z1 & Z2); exists v; (split; [exact Z1|rewrite K1, !in_app_iff; auto]). }
      destruct Z as (v & Z1 & Z2). apply (i_ent _ _ _ I) in Z2. lia.
  - intros v Hv. destruct (In1 v Hv) as [->|[Hv' _]]; [cbn; lia|]. apply (i_ent _ _ _ I) in Hv'. lia.
  - intros v Hv V. destruct (In1 v Hv) as [->|[Hv' _]]; [|apply (i_vis _ _ _ I v Hv' V)]. split; [apply (run_holds _ _ _ I _ _ R)|exact Fo].
  - intros i. pose proof (i_cl _ _ _ I i) as [A B]. split; [|exact B]. intros id z K. apply In2; [apply A; exact K|]. intros X. apply Q in X. destruct X as (_ & X & _). destruct a; discriminate.
  - intros v. case_upd v.
    + split; [discriminate|]. split; [discriminate|]. intros n Hn. apply in_map_iff in Hn. destruct Hn as (e & <- & He).
      pose proof (run_hull _ _ _ I _ _ R e He). destruct (Q e He) as (Q1 & Q2 & _).
      exists (e_kind e), (e_start e), (e_end e), new. split; [reflexivity|]. split; [rewrite Q2; destruct a; auto|]. split; [exact Inn|]. split; [exact Vn|]. cbn.
      split; [lia|]. split; [lia|]. split; [rewrite Q2; destruct a; cbn; congruence|]. intros X. injection X as X1 X2 X3.
      destruct (run_strict _ _ _ _ _ e I R Q1) as [_ ->]; [lia|lia|]. rewrite Q2 in X1. discriminate.
    + pose proof (i_wk _ _ _ I v) as (A & B & C). split; [|split; [exact B|]].
      * intros b l H. pose proof (A b l H) as R'. pose proof R' as (A1 & A2 & A3 & A4 & A5 & A6). repeat split; try assumption.
        -- apply In2; [apply A4; assumption|]. intros X. apply Nu. apply (i_dis _ _ _ I v w b l a sel e); assumption.
        -- apply A4. assumption.
        -- apply (release_merging m d g w a sel I Hr v b l e Nu); assumption.
        -- intros e He. destruct (In1 e He) as [->|[He' _]]; [|apply A6; exact He']. right. cbn. destruct (runs_apart _ _ _ I _ _ _ _ _ _ Nu H Hr); lia.
      * destruct (m_workers m v) as [|b l|b l pj|b l|ns]; try exact C. intros n Hn. destruct (C n Hn) as (k & s & e & z & C1 & C2 & C3 & C4 & C5 & C6 & C7 & C8).
        destruct (G z C3) as [K|K].
        -- pose proof (run_hull _ _ _ I _ _ R z K). destruct (Q z K) as (_ & Q2 & _). exists k, s, e, new. do 2 (split; [assumption|]). split; [exact Inn|]. split; [exact Vn|]. cbn.
           split; [lia|]. split; [lia|]. split; [intros Hk; specialize (C7 Hk); destruct a; cbn in *; congruence|]. intros X. injection X as X1 X2 X3.
           destruct (run_strict _ _ _ _ _ z I R C3) as [_ ->]; [lia|lia|]. cbn in *. specialize (C7 X1). congruence.
        -- exists k, s, e, z. do 2 (split; [assumption|]). split; [apply In2; [exact C3|intros X; pose proof (run_hull _ _ _ I _ _ R z X); lia]|]. do 4 (split; [assumption|]). assumption.
  - intros v v' b l b' l' e H H' He He'. case_upd v; [discriminate|]. case_upd v'; [discriminate|]. apply (i_dis _ _ _ I v v' b l b' l' e H H' He He').
  - assert (T : forall b, src mm b = src m b).
    { intros [j|v|k]; cbn; auto. case_upd v; [rewrite E; reflexivity|reflexivity]. }
    intros b c n0 A B. rewrite T in A, B. apply (i_src _ _ _ I _ _ _ A B).
  - intros b n0 A. assert (A' : src m b = Some n0) by (destruct b as [j|v|k]; cbn in A |- *; auto; case_upd v; [discriminate|exact A]).
    destruct (i_tmp _ _ _ I b n0 A') as [K|(v & l & pj & -> & E1 & E2)]; [left; exact K|right]. exists v, l, pj. split; [reflexivity|]. split; [|exact E2]. case_upd v; congruence.
  - intros n0 f F K. destruct (i_sh _ _ _ I n0 f F K) as (k & s & e & l & A1 & A2 & A3 & A4 & A5 & A6 & C). exists k, s, e, l. do 6 (split; [assumption|]).
    destruct C as [(v & C1 & C2 & C3 & C4 & C5)|[(v & b & l' & L & C1 & C2 & C3)|C]]; [left| |right; right; exact C].
    + destruct (G v C1) as [X|X].
      * exists new. pose proof (run_hull _ _ _ I _ _ R v X). cbn. split; [exact Inn|]. split; [exact Vn|]. split; [lia|]. split; [lia|].
        intros Hk. specialize (C5 Hk). destruct (Q v X) as (_ & Q2 & _). destruct a; cbn in *; congruence.
      * exists v. split; [apply In2; [exact C1|intros Y; pose proof (run_hull _ _ _ I _ _ R v Y); lia]|auto].
    + destruct (Nat.eq_dec v w) as [->|Nv].
      * left. rewrite E in L. cbn in L. injection L as <- <-. exists new. cbn. subst. repeat split; auto; lia.
      * right. left. exists v, b, l'. cbn. rewrite upd_other by exact Nv. auto.
  - intros z Hz. destruct (i_dur _ _ _ I z Hz) as [(v & C1 & C2 & C3)|A]; [left|right; exact A]. apply (In3 v _ C1 C2 C3).
Qed.
Lemma discard_inv m d g w m' d' : Inv m d g -> discard m d w = Some (m', d') -> Inv m' d' g.
Proof.
  intros I H. unfold discard in H. pose proof (i_wk _ _ _ I w) as (_ & _ & W3). destruct (m_workers m w) as [|a sel|a sel p|a sel|[|n r]] eqn:E; try discriminate; injection H as <- <-.
  - replace (set_worker m w WIdle) with (reworker m w WIdle (m_merging m) (m_temp m)) by (destruct m; reflexivity).
    apply worker_mem; auto; [split; [discriminate|split; [discriminate|exact Logic.I]]|apply (same_merging m d g w I)|rewrite E; reflexivity].
  - assert (I' : Inv (set_worker m w (WDiscard r)) d g).
    { replace (set_worker m w (WDiscard r)) with (reworker m w (WDiscard r) (m_merging m) (m_temp m)) by (destruct m; reflexivity).
      apply worker_mem; auto; [split; [discriminate|split; [discriminate|]]|apply (same_merging m d g w I)|rewrite E; reflexivity].
      intros n0 Hn. apply W3. right. exact Hn. }
    destruct (W3 n (or_introl eq_refl)) as (k & s & e & z & -> & Hk & Hz & Vz & B1 & B2 & B3 & B4).
    set (mm := set_worker m w (WDiscard r)) in *. change (m_entries m) with (m_entries mm) in Hz. clearbody mm. clear I W3 E m w r. rename mm into m, I' into I.
    set (n := shard_name (kname k) s e). assert (Fn : first n = 102 \/ first n = 104) by (unfold n; rewrite first_shard; destruct Hk; subst k; auto).
    assert (Se : forall x, first x <> 102 -> first x <> 104 -> find (erase n d) x = find d x) by (intros x H1 H2; apply find_erase_other; intros <-; destruct Fn; contradiction).
    assert (Ns : forall b x, src m b = Some x -> find (erase n d) x = find d x).
    { intros b x A. destruct (not_tmp _ _ _ I _ _ A) as [T|T]; apply Se; rewrite T; discriminate. }
    assert (Le : forall x f, find (erase n d) x = Some f -> find d x = Some f) by (intros x f F; rewrite find_erase in F; destruct (bytes_eq_dec n x); [discriminate|exact F]).
    constructor; try apply I.
    + apply nodup_erase, I.
    + intros v Hv V. destruct (i_vis _ _ _ I v Hv V) as [A B]. split; [exact A|]. rewrite find_erase_other; [exact B|]. intros X. unfold n, ename in X. apply shard_inj in X. destruct X as (-> & -> & ->).
      apply B4. destruct (sorted_two _ _ _ _ (i_sorted _ _ _ I) Hv Hz) as [->|[Y|Y]]; [reflexivity|lia|lia].
    + intros i. pose proof (i_cl _ _ _ I i) as [A B]. split; [exact A|]. pose proof (Ns (Cl i)) as Sj. cbn in Sj. pose proof (own_hidden _ _ _ I i) as Oh.
      destruct (m_clones m i) as [| |id x|id x q|id x [c|]|id x|id x c]; try exact B.
      * destruct B as (C1 & C2 & C3 & C4). repeat split; try assumption. intros Hq. rewrite Sj by reflexivity. apply C4, Hq.
      * destruct B as (C1 & C2 & C3 & C4). repeat split; try assumption. rewrite find_erase_other; [exact C3|]. intros X. unfold n in X. apply (shard_inj k s e FiverK) in X.
        destruct X as (-> & -> & ->). destruct (Oh id x z eq_refl Hz Vz); lia.
    + intros s0 f. rewrite Se by discriminate. apply I.
    + intros v. apply (worker_frame m _ d); [apply I|auto|auto| |intros x A; apply (Ns (Wk v)); exact A].
      intros a sel L F. rewrite find_erase_other; [exact F|]. intros X. unfold n, out_name in X. apply shard_inj in X. destruct X as (-> & -> & ->).
      apply linkedw_run in L. pose proof (run_at _ _ _ I _ _ _ L) as R. destruct (run_strict _ _ _ _ _ z I R Hz) as [-> ->]; [lia|lia|].
      specialize (B3 eq_refl). destruct R as (_ & _ & _ & R & _). destruct (R z (or_introl eq_refl)) as (_ & K & _). cbn in K. congruence.
    + intros c. pose proof (i_jb _ _ _ I c) as J. pose proof (Ns (Jb c)) as Sj. cbn in Sj. destruct (m_jobs m c) as [|is tmp seqs st]; [exact J|]. destruct J as (Nd & A & B & C & D).
      split; [exact Nd|]. split; [intros ->; rewrite Sj by reflexivity; apply A; reflexivity|]. split; [intros K; rewrite Se by discriminate; apply B, K|]. split; [exact C|exact D].
    + intros x f F K. apply (i_sh _ _ _ I x f); [apply Le; exact F|exact K].
    + intros k1 s1 e1 f1 k2 s2 e2 f2 F F' K K'. apply (i_lam _ _ _ I _ _ _ _ _ _ _ _ (Le _ _ F) (Le _ _ F') K K').
    + intros x f F K. apply (i_scr _ _ _ I x f (Le _ _ F) K).
Qed.
