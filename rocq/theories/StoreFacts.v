(** Consequences of the invariant. *)
From Verif Require Import Base Bytes NameModel NameSpec NameProofs RecoverAll StoreModel StoreSpec StoreDir StoreInv.
From Coq Require Import Sorting.Sorted.

Section Facts.
Variables (m : mem) (d : dir) (g : list txn).
Hypothesis I : Inv m d g.

Lemma own_in i id x : owner (m_clones m i) = Some (id, x) -> In (own_entry id x) (m_entries m).
Proof. intros H. apply (proj1 (i_cl _ _ _ I i)). exact H. Qed.
Lemma own_range i id x : owner (m_clones m i) = Some (id, x) -> 0 <= t_seq x < m_sequence m.
Proof. intros H. apply own_in, (i_ent _ _ _ I) in H. cbn in H. lia. Qed.
Lemma own_same i j id id' x y : owner (m_clones m i) = Some (id, x) -> owner (m_clones m j) = Some (id', y) -> t_seq x = t_seq y -> i = j.
Proof.
  intros A B E. pose proof (own_in _ _ _ A) as A'. pose proof (own_in _ _ _ B) as B'.
  destruct (sorted_two _ _ _ _ (i_sorted _ _ _ I) A' B') as [K|[K|K]]; cbn in K; [|lia|lia].
  injection K as K1 K2. subst id'. apply (i_own _ _ _ I i j id x y); assumption.
Qed.
Lemma own_hidden i id x v : owner (m_clones m i) = Some (id, x) -> In v (m_entries m) -> visible v = true -> t_seq x < e_start v \/ e_end v < t_seq x.
Proof.
  intros A Hv V. pose proof (own_in _ _ _ A) as A'.
  destruct (sorted_two _ _ _ _ (i_sorted _ _ _ I) A' Hv) as [K|[K|K]]; cbn in K; [|lia|lia]. subst v. discriminate.
Qed.
Lemma own_outside i id x a sel : owner (m_clones m i) = Some (id, x) -> run_ok m a sel -> t_seq x < sel_start sel \/ sel_end sel < t_seq x.
Proof.
  intros A (_ & _ & _ & R & _ & G). pose proof (own_in _ _ _ A) as A'. destruct (G _ A') as [K|K]; [|exact K].
  apply R in K. destruct K as (_ & K & _). destruct a; discriminate.
Qed.
Lemma run_at w a sel : run_of (m_workers m w) = Some (a, sel) -> run_ok m a sel.
Proof. intros H. exact (proj1 (i_wk _ _ _ I w) a sel H). Qed.
Lemma linkedw_run w a sel : linkedw w = Some (a, sel) -> run_of w = Some (a, sel).
Proof. destruct w as [|b l|b l p|b l|ns]; cbn; try discriminate; [destruct (p_stage p); try discriminate|]; intros E; exact E. Qed.
Lemma own_covered i id x k s e : owner (m_clones m i) = Some (id, x) -> cover m k s e -> s <= t_seq x <= e ->
  (exists j, m_clones m i = Committing id x j) /\ k = FiverK /\ s = t_seq x /\ e = t_seq x.
Proof.
  intros A [(v & Hv & V & S1 & S2 & _)|[(w & a & sel & L & _ & -> & ->)|(i' & id' & y & j & E & -> & -> & ->)]] R.
  - destruct (own_hidden _ _ _ _ A Hv V); lia.
  - apply linkedw_run, run_at in L. destruct (own_outside _ _ _ _ _ A L); lia.
  - assert (B : owner (m_clones m i') = Some (id', y)) by (rewrite E; reflexivity).
    assert (K : i = i') by (apply (own_same _ _ _ _ _ _ A B); lia). subst i'. rewrite B in A. injection A as -> ->. split; [exists j; exact E|]. repeat split; lia.
Qed.
Lemma run_hull a sel : run_ok m a sel -> forall e, In e sel -> sel_start sel <= e_start e /\ e_start e <= e_end e /\ e_end e <= sel_end sel.
Proof.
  intros (N & _ & _ & R & S1 & _) e He.
  assert (W : forall e, In e sel -> e_start e <= e_end e) by (intros v Hv; apply R in Hv; destruct Hv as (Hv & _); apply (i_ent _ _ _ I) in Hv; lia).
  destruct (sel_hull _ S1 W e He). specialize (W e He). lia.
Qed.
Lemma run_range a sel : run_ok m a sel -> 0 <= sel_start sel <= sel_end sel /\ sel_end sel < m_sequence m.
Proof.
  intros R. pose proof R as (N & _ & _ & Q & _). destruct (sel_ends sel N) as (x & y & Hx & Hy & E1 & E2).
  pose proof (run_hull _ _ R x Hx). apply Q in Hx, Hy. destruct Hx as (Hx & _), Hy as (Hy & _).
  apply (i_ent _ _ _ I) in Hx, Hy. lia.
Qed.
(** The shards of two workers do not meet. *)
Lemma runs_apart w w' a sel a' sel' : w <> w' -> run_of (m_workers m w) = Some (a, sel) -> run_of (m_workers m w') = Some (a', sel') ->
  sel_end sel < sel_start sel' \/ sel_end sel' < sel_start sel.
Proof.
  intros N H H'. pose proof (run_at _ _ _ H) as R. pose proof (run_at _ _ _ H') as R'.
  assert (D : forall e, In e sel -> In e sel' -> False) by (intros e A B; apply N; apply (i_dis _ _ _ I w w' _ _ _ _ e H H' A B)).
  pose proof R as (Ne & _ & _ & Q & _ & G). pose proof R' as (Ne' & _ & _ & Q' & _ & G').
  destruct (sel_ends sel Ne) as (x & y & Hx & Hy & E1 & E2). destruct (sel_ends sel' Ne') as (x' & y' & Hx' & Hy' & E1' & E2').
  pose proof (proj1 (Q x Hx)) as Ix. pose proof (proj1 (Q y Hy)) as Iy. pose proof (proj1 (Q' x' Hx')) as Ix'. pose proof (proj1 (Q' y' Hy')) as Iy'.
  pose proof (run_hull _ _ R x Hx). pose proof (run_hull _ _ R y Hy). pose proof (run_hull _ _ R' x' Hx'). pose proof (run_hull _ _ R' y' Hy').
  destruct (G' x Ix) as [K|Kx]; [exfalso; eauto|]. destruct (G' y Iy) as [K|Ky]; [exfalso; eauto|].
  destruct (G x' Ix') as [K|Kx']; [exfalso; eauto|]. destruct (G y' Iy') as [K|Ky']; [exfalso; eauto|]. lia.
Qed.
Lemma run_shard a sel v : run_ok m a sel -> In v (m_entries m) -> In v sel \/ e_end v < sel_start sel \/ sel_end sel < e_start v.
Proof. intros (_ & _ & _ & _ & _ & G) H. apply G. exact H. Qed.
(** The output of a merge is what is durable in its range. *)
Lemma sel_txns_sorted sel : StronglySorted (fun a b : entry => e_end a < e_start b) sel -> (forall e, In e sel -> e_start e <= e_end e) ->
  (forall e, In e sel -> holds g (e_start e) (e_end e) (e_txns e)) -> StronglySorted (fun x y => t_seq x < t_seq y) (sel_txns sel).
Proof.
  unfold sel_txns. induction sel as [|a sel IH]; intros H W Hh; cbn; [constructor|].
  inversion H as [|? ? A B]; subst. assert (IH' := IH A (fun e He => W e (or_intror He)) (fun e He => Hh e (or_intror He))).
  destruct (Hh a (or_introl eq_refl)) as [S1 S2]. clear IH.
  assert (R : forall x, In x (e_txns a) -> t_seq x <= e_end a) by (intros x Hx; apply S2 in Hx; lia).
  assert (L : forall y, In y (flat_map e_txns sel) -> e_end a < t_seq y).
  { intros y Hy. apply in_flat_map in Hy. destruct Hy as (e & He & Hy). destruct (Hh e (or_intror He)) as [_ E2]. apply E2 in Hy.
    rewrite Forall_forall in B. specialize (B e He). lia. }
  clear S2. induction S1 as [|x l S1 IH F]; cbn; [exact IH'|]. constructor.
  - apply IH. intros y Hy. apply R. right. exact Hy.
  - rewrite Forall_forall in F |- *. intros y Hy. apply in_app_iff in Hy. destruct Hy as [Hy|Hy]; [apply F; exact Hy|].
    apply L in Hy. specialize (R x (or_introl eq_refl)). lia.
Qed.
Lemma run_holds a sel : run_ok m a sel -> holds g (sel_start sel) (sel_end sel) (sel_txns sel).
Proof.
  intros R. pose proof R as (N & _ & _ & Q & S1 & G).
  assert (Hh : forall e, In e sel -> holds g (e_start e) (e_end e) (e_txns e)).
  { intros e He. destruct (Q e He) as (He' & K & _). apply (i_vis _ _ _ I) in He'; [apply He'|]. apply (in_kind_visible _ _ K). }
  assert (W : forall e, In e sel -> e_start e <= e_end e) by (intros e He; pose proof (run_hull _ _ R e He); lia).
  split; [apply sel_txns_sorted; assumption|]. intros x. unfold sel_txns. rewrite in_flat_map. split.
  - intros (e & He & Hx). destruct (Hh e He) as [_ E]. apply E in Hx. pose proof (run_hull _ _ R e He). split; [tauto|lia].
  - intros [Hx Rx]. destruct (i_dur _ _ _ I x Hx) as [(v & Hv & V & Rv)|(i & L)].
    + destruct (G v Hv) as [K|K]; [|lia]. exists v. split; [exact K|]. apply Hh; [exact K|]. split; [exact Hx|exact Rv].
    + apply lead_owner in L. destruct L as [id L]. destruct (own_outside _ _ _ _ _ L R); lia.
Qed.
Lemma sh_cover k s e f : find d (shard_name (kname k) s e) = Some f -> k = FiverK \/ k = HazelK ->
  0 <= s <= e /\ e < maxf /\ cover m k s e /\ exists l, f = Shard_ s e l /\ holds g s e l.
Proof.
  intros F K. destruct (i_sh _ _ _ I _ _ F) as (k' & s' & e' & l & E & _ & A & B & C & D & E').
  - rewrite first_shard. destruct K; subst k; auto.
  - apply shard_inj in E. destruct E as (-> & -> & ->). repeat split; try lia; [exact E'|]. exists l. split; assumption.
Qed.
(** The name of the output is free until it is linked. *)
Lemma out_free w a sel : run_of (m_workers m w) = Some (a, sel) -> linkedw (m_workers m w) = None -> find d (out_name a sel) = None.
Proof.
  intros H L. pose proof (run_at _ _ _ H) as R. destruct (find d (out_name a sel)) as [f|] eqn:E; [exfalso|reflexivity].
  destruct (sh_cover _ _ _ _ E) as (A & _ & C & _); [destruct a; auto|].
  pose proof R as (N & L2 & L1 & Q & _ & G). destruct C as [(v & Hv & V & S1 & S2 & K)|[(w' & a' & sel' & L' & _ & S1 & S2)|(i & id & x & j & Ei & _ & S1 & S2)]].
  - destruct (G v Hv) as [Hs|Hs]; [|pose proof (proj1 (i_ent _ _ _ I v Hv)); lia]. destruct (Q v Hs) as (_ & Kv & _).
    assert (T : forall e, In e sel -> e = v).
    { intros e He. pose proof (run_hull _ _ R e He). destruct (Q e He) as (He' & _). destruct (sorted_two _ _ _ _ (i_sorted _ _ _ I) He' Hv) as [X|[X|X]]; [exact X|lia|lia]. }
    destruct a; cbn in Kv, K; try (rewrite Kv in K; specialize (K eq_refl); discriminate).
    + assert (Le : (2 <= length sel)%nat) by (apply L2; discriminate). destruct sel as [|e1 [|e2 sel]]; cbn in Le; try lia.
      assert (e1 = v) by (apply T; left; reflexivity). assert (e2 = v) by (apply T; right; left; reflexivity). subst e1 e2.
      destruct R as (_ & _ & _ & _ & R & _). inversion R as [|? ? A1 B1]; subst. rewrite Forall_forall in B1.
      specialize (B1 v (or_introl eq_refl)). pose proof (proj1 (i_ent _ _ _ I v Hv)). lia.
    + assert (Le : (2 <= length sel)%nat) by (apply L2; discriminate). destruct sel as [|e1 [|e2 sel]]; cbn in Le; try lia.
      assert (e1 = v) by (apply T; left; reflexivity). assert (e2 = v) by (apply T; right; left; reflexivity). subst e1 e2.
      destruct R as (_ & _ & _ & _ & R & _). inversion R as [|? ? A1 B1]; subst. rewrite Forall_forall in B1.
      specialize (B1 v (or_introl eq_refl)). pose proof (proj1 (i_ent _ _ _ I v Hv)). lia.
  - destruct (Nat.eq_dec w w') as [<-|Nw]; [congruence|]. destruct (runs_apart _ _ _ _ _ _ Nw H (linkedw_run _ _ _ L')); lia.
  - assert (O : owner (m_clones m i) = Some (id, x)) by (rewrite Ei; reflexivity). destruct (own_outside _ _ _ _ _ O R); lia.
Qed.
Lemma fiver_free i id x : owner (m_clones m i) = Some (id, x) -> (forall j, m_clones m i <> Committing id x j) -> find d (fiver_name x) = None.
Proof.
  intros O N. destruct (find d (fiver_name x)) as [f|] eqn:E; [exfalso|reflexivity].
  destruct (sh_cover FiverK (t_seq x) (t_seq x) f E) as (A & _ & C & _); [auto|].
  destruct (own_covered _ _ _ _ _ _ O C) as ((j & K) & _); [lia|]. apply (N j K).
Qed.
Lemma committing_lock i id x j : m_clones m i = Committing id x j -> m_lock m = Some i.
Proof. intros E. pose proof (proj2 (i_cl _ _ _ I i)) as K. rewrite E in K. apply K. Qed.
Lemma not_tmp a n : src m a = Some n -> first n = 116 \/ first n = 109.
Proof. intros H. destruct (i_tmp _ _ _ I a n H) as [(k & _ & ->)|(w & sel & p & _ & _ & ->)]; [left|right]; reflexivity. Qed.
End Facts.

(** * Changing the directory *)
(** Contents that a thread relies on. *)
Definition needs (m : mem) (a : who) (n : bytes) (f : file) : Prop :=
  match a with
  | Cl i => match m_clones m i with Pickling _ _ p => p_stage p = Filled /\ n = p_src p /\ f = p_file p | _ => False end
  | Wk w => match m_workers m w with WPickling _ _ p => p_stage p = Filled /\ n = p_src p /\ f = p_file p | _ => False end
  | Jb k => match m_jobs m k with Job _ tmp seqs JTemp => n = tmp /\ f = Script seqs | _ => False end
  end.
Definition plain (n : bytes) : Prop := first n <> 107 /\ first n <> 102 /\ first n <> 104 /\ first n <> 99.
Lemma needs_src m a n f : needs m a n f -> src m a = Some n.
Proof.
  destruct a; cbn; [destruct (m_clones m i)|destruct (m_workers m w)|destruct (m_jobs m k) as [|? ? ? []]]; cbn; try contradiction; intuition congruence.
Qed.
Lemma plain_ne n k s e : plain n -> k <> Gone -> n <> shard_name (kname k) s e.
Proof. intros (A & B & C & D) N. apply first_ne. rewrite first_shard. destruct k; auto. Qed.
Lemma dir_frame m d g d' : Inv m d g -> NoDup (names d') -> (forall n, ~ plain n -> find d' n = find d n) ->
  (forall a n f, needs m a n f -> find d n = Some f -> find d' n = Some f) -> Inv m d' g.
Proof.
  intros I ND S1 S2.
  assert (Sk : forall k s e, k <> Gone -> find d' (shard_name (kname k) s e) = find d (shard_name (kname k) s e)).
  { intros k s e Hk. apply S1. intros P. apply (plain_ne _ k s e P Hk). reflexivity. }
  assert (Sc : forall k, find d' (script_name k) = find d (script_name k)) by (intros k; apply S1; intros (_ & _ & _ & P); apply P; reflexivity).
  constructor; try apply I; try exact ND.
  - intros v Hv V. destruct (i_vis _ _ _ I v Hv V) as [A B]. split; [exact A|]. unfold ename. rewrite Sk; [exact B|].
    apply visible_kind in V. destruct V as [-> | ->]; discriminate.
  - intros i. pose proof (i_cl _ _ _ I i) as [A B]. split; [exact A|]. pose proof (S2 (Cl i)) as N. cbn in N.
    destruct (m_clones m i) as [| |id x|id x p|id x [j|]|id x|id x j]; try exact B.
    + destruct B as (B1 & B2 & B3 & B4). repeat split; try assumption. intros Hp. apply N; auto.
    + destruct B as (B1 & B2 & B3 & B4). repeat split; try assumption. unfold fiver_name. rewrite (Sk FiverK) by discriminate. exact B3.
  - intros s f. rewrite (Sk Kitten) by discriminate. apply I.
  - intros w. pose proof (i_wk _ _ _ I w) as (A & B & C). pose proof (S2 (Wk w)) as N. cbn in N. split; [exact A|]. split.
    + intros a sel L. unfold out_name. rewrite Sk by (destruct a; discriminate). apply B. exact L.
    + destruct (m_workers m w); try exact C. destruct C as (C1 & C2 & C3). repeat split; try assumption. intros Hp. apply N; auto.
  - intros k. pose proof (i_jb _ _ _ I k) as J. pose proof (S2 (Jb k)) as N. cbn in N. destruct (m_jobs m k) as [|is tmp seqs st]; [exact Logic.I|].
    destruct J as (Nd & A & B & C & D). split; [exact Nd|]. split; [|split; [|split; assumption]].
    + intros ->. apply (N tmp (Script seqs)); [split; reflexivity|]. apply A. reflexivity.
    + intros L. rewrite Sc. apply B. exact L.
  - intros n f F K. rewrite S1 in F; [|intros (P1 & P2 & P3 & P4); tauto]. apply (i_sh _ _ _ I n f F K).
  - intros k s e f k' s' e' f' F F' K K'. rewrite Sk in F by (destruct K; subst k; discriminate). rewrite Sk in F' by (destruct K'; subst k'; discriminate).
    apply (i_lam _ _ _ I _ _ _ _ _ _ _ _ F F' K K').
  - intros n f F K. rewrite S1 in F; [|intros (P1 & P2 & P3 & P4); tauto]. apply (i_scr _ _ _ I n f F K).
Qed.
Lemma dir_put m d g n f : Inv m d g -> plain n -> (forall a h, needs m a n h -> h = f) -> Inv m (put n f d) g.
Proof.
  intros I P N. apply (dir_frame m d g); [exact I|apply nodup_put, I| |].
  - intros x Hx. apply find_put_other. intros E. subst x. contradiction.
  - intros a x h Hn F. destruct (bytes_eq_dec n x) as [->|E]; [|rewrite find_put_other; assumption]. rewrite find_put_same. f_equal. symmetry. apply (N a h Hn).
Qed.
Lemma dir_erase m d g n : Inv m d g -> plain n -> (forall a h, ~ needs m a n h) -> Inv m (erase n d) g.
Proof.
  intros I P N. apply (dir_frame m d g); [exact I|apply nodup_erase, I| |].
  - intros x Hx. apply find_erase_other. intros E. subst x. contradiction.
  - intros a x h Hn F. destruct (bytes_eq_dec n x) as [->|E]; [exfalso; apply (N a h Hn)|rewrite find_erase_other; assumption].
Qed.
Lemma dir_same m d g d' : Inv m d g -> NoDup (names d') -> (forall n, find d' n = find d n) -> Inv m d' g.
Proof. intros I ND S1. apply (dir_frame m d g); [exact I|exact ND|intros n _; apply S1|intros a n f _ F; rewrite S1; exact F]. Qed.
