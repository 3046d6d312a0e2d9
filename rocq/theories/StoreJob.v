(** The steps of commit_all keep the invariant. *)
From Verif Require Import Base Bytes NameModel NameSpec NameProofs RecoverAll StoreModel StoreSpec StoreDir StoreInv StoreFacts StoreClone StoreCommit.
From Coq Require Import Sorting.Sorted.

Lemma holds_more g g' s e l : holds g s e l -> (forall y, In y g -> In y g') -> (forall y, In y g' -> In y g \/ ~ (s <= t_seq y <= e)) -> holds g' s e l.
Proof.
  intros [A B] H1 H2. split; [exact A|]. intros y. rewrite B. split; [intros [C D]; auto|]. intros [C D]. destruct (H2 y C); [auto|contradiction].
Qed.
Definition rejob (m : mem) (t : nat) (cs : nat -> clone) (js : nat -> job) : mem :=
  Mem (m_address m) (m_sequence m) (m_entries m) (m_merging m) (m_gen m) (m_next m) t (m_lock m) cs (m_workers m) js (m_readers m).
Lemma job_frame m d g t cs js d' g' : Inv m d g -> let m' := rejob m t cs js in
  NoDup (names d') -> (forall n, first n <> 99 -> first n <> 116 -> find d' n = find d n) -> (forall w n, wsrc (m_workers m w) = Some n -> find d' n = find d n) ->
  (forall i, owner (cs i) = owner (m_clones m i)) -> (forall i, kit (cs i) = kit (m_clones m i)) ->
  (forall i id x j, m_clones m i = Committing id x j -> cs i = Committing id x j) ->
  (forall i, clone_ok m' d' i (cs i)) -> (forall k, job_ok m' d' k (js k)) ->
  (forall a b n, src m' a = Some n -> src m' b = Some n -> a = b) ->
  (forall a n, src m' a = Some n -> src m a = Some n \/ exists k, (k < t)%nat /\ n = temp_name k) -> (m_temp m <= t)%nat ->
  (forall n f, find d' n = Some f -> first n = 99 -> exists k is tmp seqs st, js k = Job is tmp seqs st /\ linked (js k) = true /\ n = script_name k /\ f = Script seqs) ->
  NoDup (map t_seq g') -> (forall y, In y g -> In y g') ->
  (forall y, In y g' -> In y g \/ exists i id j, m_clones m i = Ready id y j /\ lead m' (cs i) = Some y) ->
  (forall i x, lead m' (cs i) = Some x -> In x g') ->
  (forall i x, lead m (m_clones m i) = Some x -> lead m' (cs i) = Some x \/ exists v, In v (m_entries m) /\ visible v = true /\ e_start v <= t_seq x <= e_end v) ->
  (forall i id x, owner (cs i) = Some (id, x) -> lead m' (cs i) = None -> lead m (m_clones m i) = None) ->
  Inv m' d' g'.
Proof.
  intros I m' ND Sd Sw Ho Hk Hc Hcl Hjb Hs Ht Htt Hscr Ng G1 G2 Hl1 Hl2 Hl3.
  assert (Sk : forall k s e, k <> Gone -> find d' (shard_name (kname k) s e) = find d (shard_name (kname k) s e)).
  { intros k s e N. apply Sd; rewrite first_shard; destruct k; discriminate. }
  assert (Out : forall y k s e, In y g' -> cover m k s e -> In y g \/ ~ (s <= t_seq y <= e)).
  { intros y k s e Hy C. destruct (G2 y Hy) as [K|(i & id & j & E & _)]; [left; exact K|right]. intros R.
    assert (Oi : owner (m_clones m i) = Some (id, y)) by (rewrite E; reflexivity).
    destruct (own_covered _ _ _ I _ _ _ _ _ _ Oi C R) as ((c & K) & _). congruence. }
  constructor; try apply I; try exact ND; try exact Hcl; try exact Hjb; try exact Hs; try exact Hl1; try exact Hscr; cbn.
  - intros v Hv V. destruct (i_vis _ _ _ I v Hv V) as [A B]. split.
    + apply (holds_more g); [exact A|exact G1|]. intros y Hy. apply (Out y (e_kind v)); [exact Hy|]. left. exists v. repeat split; auto; lia.
    + unfold ename in *. rewrite Sk; [exact B|]. apply visible_kind in V. destruct V as [-> | ->]; discriminate.
  - intros a b id x y A B. rewrite Ho in A, B. apply (i_own _ _ _ I a b id x y A B).
  - intros s f. rewrite (Sk Kitten) by discriminate. rewrite (i_kit _ _ _ I). split; intros (j & x & A & B); exists j, x; [rewrite Hk|rewrite Hk in A]; auto.
  - intros w. apply (worker_frame m _ d); [apply I| |auto| |intros n A; apply (Sw w n A)].
    + intros a sel _ R. apply (run_frame m); auto. intros e He. left. exists e. auto.
    + intros a sel _ F. unfold out_name in *. rewrite Sk; [exact F|]. destruct a; discriminate.
  - intros a n A. destruct (Ht a n A) as [B|B]; [|left; exact B]. destruct (i_tmp _ _ _ I a n B) as [(k & L & E)|K]; [left; exists k; split; [lia|exact E]|right; exact K].
  - intros n f F K. rewrite Sd in F by (intros X; rewrite X in K; destruct K; discriminate).
    destruct (i_sh _ _ _ I n f F K) as (k & s & e & l & A1 & A2 & A3 & A4 & A5 & A6 & C). exists k, s, e, l. do 5 (split; [assumption|]).
    split; [apply (holds_more g); [exact A6|exact G1|]; intros y Hy; apply (Out y k); assumption|].
    destruct C as [C|[C|(j & id & x & b & E & C)]]; [left; exact C|right; left; exact C|]. right. right. exists j, id, x, b. split; [apply Hc; exact E|exact C].
  - intros k s e f k' s' e' f' F F' K K'. rewrite Sk in F by (destruct K; subst; discriminate). rewrite Sk in F' by (destruct K'; subst; discriminate).
    apply (i_lam _ _ _ I _ _ _ _ _ _ _ _ F F' K K').
  - split; [exact Ng|]. intros x Hx. destruct (G2 x Hx) as [K|(i & id & j & E & _)]; [apply (i_g _ _ _ I); exact K|].
    apply (own_range _ _ _ I i id). rewrite E. reflexivity.
  - intros x Hx. destruct (G2 x Hx) as [K|(i & id & j & _ & K)]; [|right; exists i; exact K].
    destruct (i_dur _ _ _ I x K) as [A|(i & A)]; [left; exact A|]. destruct (Hl2 i x A) as [B|B]; [right; exists i; exact B|left; exact B].
  - intros i id x A B y Hy E. pose proof (Hl3 _ _ _ A B) as B'. pose proof A as A'. rewrite Ho in A'. destruct (G2 y Hy) as [K|(i' & id' & j & E' & K)].
    + apply (i_fresh _ _ _ I i id x A' B' y K E).
    + assert (O' : owner (m_clones m i') = Some (id', y)) by (rewrite E'; reflexivity).
      assert (i' = i) by (apply (own_same _ _ _ I _ _ _ _ _ _ O' A' E)). subst i'. congruence.
Qed.
Lemma members_spec m is : forall xs, members m is = Some xs ->
  (forall i, In i is -> exists id x, m_clones m i = Ready id x None /\ In x xs) /\ (forall x, In x xs -> exists i id, In i is /\ m_clones m i = Ready id x None).
Proof.
  unfold members. induction is as [|a is IH]; cbn; intros xs H.
  - injection H as <-. split; [intros i []|intros x []].
  - destruct (m_clones m a) as [| |id x|id x p|id x [j|]|id x|id x j] eqn:E; try discriminate.
    destruct (fold_right _ _ is) as [l|]; [|discriminate]. injection H as <-. destruct (IH l eq_refl) as [A B]. split.
    + intros i [<-|Hi]; [exists id, x; split; [exact E|left; reflexivity]|]. destruct (A i Hi) as (id' & y & K1 & K2). exists id', y. split; [exact K1|right; exact K2].
    + intros y [<-|Hy]; [exists a, id; split; [left; reflexivity|exact E]|]. destruct (B y Hy) as (i & id' & K1 & K2). exists i, id'. split; [right; exact K1|exact K2].
Qed.
Lemma existsb_nat i l : existsb (Nat.eqb i) l = true <-> In i l.
Proof. rewrite existsb_exists. split; [intros (j & A & B); apply Nat.eqb_eq in B; subst; exact A|intros H; exists i; split; [exact H|apply Nat.eqb_refl]]. Qed.
Lemma script_write_inv m d g k is s : Inv m d g -> NoDup is -> script_write m d g k is = Some s ->
  match s with Up m' d' g' => Inv m' d' g' /\ g' = g | Down d' g' => d' = d /\ g' = g end.
Proof.
  intros I Nis H. unfold script_write in H. destruct (m_jobs m k) eqn:Jk; [|discriminate]. destruct (members m is) as [xs|] eqn:Ms; [|discriminate].
  destruct (members_spec _ _ _ Ms) as [M1 M2]. destruct (forallb _ xs) eqn:Fa; [|injection H as <-; split; reflexivity]. injection H as <-. split; [|reflexivity].
  rewrite forallb_forall in Fa. set (mark := fun i => _). set (tmp := temp_name (m_temp m)).
  assert (Mk : forall i, mark i = m_clones m i \/ (In i is /\ exists id x, m_clones m i = Ready id x None /\ mark i = Ready id x (Some k) /\ In x xs)).
  { intros i. unfold mark. destruct (m_clones m i) as [| |id x|id x p|id x [j|]|id x|id x j] eqn:E; auto.
    destruct (existsb (Nat.eqb i) is) eqn:X; [|left; reflexivity]. apply existsb_nat in X. right. split; [exact X|]. exists id, x. repeat split.
    destruct (M1 i X) as (id' & y & K1 & K2). rewrite E in K1. injection K1 as _ <-. exact K2. }
  assert (Mi : forall i, In i is -> exists id x, m_clones m i = Ready id x None /\ mark i = Ready id x (Some k) /\ In x xs).
  { intros i Hi. destruct (M1 i Hi) as (id & x & K1 & K2). exists id, x. repeat split; auto. unfold mark. rewrite K1. apply existsb_nat in Hi. rewrite Hi. reflexivity. }
  assert (Nk : forall i id x, m_clones m i <> Ready id x (Some k)).
  { intros i id x E. pose proof (proj2 (i_cl _ _ _ I i)) as K. rewrite E in K. destruct K as (_ & a & b & c & e & K & _). congruence. }
  assert (Nc : forall i id x, m_clones m i <> Committing id x (Some k)).
  { intros i id x E. pose proof (proj2 (i_cl _ _ _ I i)) as K. rewrite E in K. destruct K as (_ & _ & _ & K). destruct (K k eq_refl) as (a & b & c & K' & _). congruence. }
  assert (Dx : forall i id x, m_clones m i = Ready id x None -> In x xs -> t_data x <> []).
  { intros i id x E Hx. specialize (Fa x Hx). destruct (find d (kitten_name x)) as [f|] eqn:F; [|discriminate].
    apply (i_kit _ _ _ I) in F. destruct F as (j' & y & A & B & _). destruct (kit_owner _ _ A) as [id' A'].
    assert (Oi : owner (m_clones m i) = Some (id, x)) by (rewrite E; reflexivity).
    assert (j' = i) by (apply (own_same _ _ _ I _ _ _ _ _ _ A' Oi B)). subst j'. rewrite E in A. cbn in A. destruct (t_data x); [discriminate|discriminate]. }
  change (Inv (rejob m (S (m_temp m)) mark (upd (m_jobs m) k (Job is tmp (map t_seq xs) JTemp))) (put tmp (Script (map t_seq xs)) d) g).
  assert (Le : forall i, lead (rejob m (S (m_temp m)) mark (upd (m_jobs m) k (Job is tmp (map t_seq xs) JTemp))) (mark i) = lead m (m_clones m i)).
  { intros i. destruct (Mk i) as [->|(_ & id & x & -> & -> & _)]; [|cbn; rewrite upd_same; reflexivity].
    specialize (Nk i). destruct (m_clones m i) as [| |id x|id x p|id x [j|]|id x|id x j]; try reflexivity. cbn. case_upd j; [exfalso; apply (Nk id x); reflexivity|reflexivity]. }
  assert (Nt : forall a, src m a <> Some tmp) by (intros a; apply (new_temp m d g a I)).
  assert (Ns : forall a n, src m a = Some n -> find (put tmp (Script (map t_seq xs)) d) n = find d n).
  { intros a n A. apply find_put_other. intros <-. apply (Nt a A). }
  assert (Sf : forall n, first n <> 116 -> find (put tmp (Script (map t_seq xs)) d) n = find d n).
  { intros n Hn. apply find_put_other. intros <-. apply Hn. reflexivity. }
  assert (Tsrc : forall a n, src (rejob m (S (m_temp m)) mark (upd (m_jobs m) k (Job is tmp (map t_seq xs) JTemp))) a = Some n -> src m a = Some n \/ (a = Jb k /\ n = tmp)).
  { intros [i|w|c] n; cbn; auto.
    - destruct (Mk i) as [->|(_ & id & x & -> & -> & _)]; [auto|discriminate].
    - case_upd c; [|auto]. cbn. intros A. injection A as <-. right. auto. }
  apply (job_frame m d g); auto.
  - apply nodup_put, I.
  - intros w n A. apply (Ns (Wk w)). exact A.
  - intros i. destruct (Mk i) as [->|(_ & id & x & -> & -> & _)]; reflexivity.
  - intros i. destruct (Mk i) as [->|(_ & id & x & -> & -> & _)]; reflexivity.
  - intros i id x j E. destruct (Mk i) as [->|(_ & id' & x' & E' & _ & _)]; [exact E|congruence].
  - intros i. destruct (Mk i) as [Em|(Hi & id & x & E & -> & Hx)].
    + rewrite Em. pose proof (i_cl _ _ _ I i) as [A B]. split; [exact A|]. pose proof (Ns (Cl i)) as Sj. cbn in Sj. pose proof (Nk i) as Nki. pose proof (Nc i) as Nci.
      destruct (m_clones m i) as [| |id x|id x q|id x [c|]|id x|id x c]; try exact B.
      * destruct B as (B1 & B2 & B3 & B4). repeat split; try assumption. intros Hq. rewrite Sj by reflexivity. apply B4, Hq.
      * destruct B as (B1 & B2). split; [exact B1|]. cbn. case_upd c; [exfalso; apply (Nki id x); reflexivity|exact B2].
      * destruct B as (B1 & B2 & B3 & B4). repeat split; try assumption; [rewrite Sf by discriminate; exact B3|]. intros c' ->. cbn. case_upd c'; [exfalso; apply (Nci id x); reflexivity|apply B4; reflexivity].
    + split; [cbn; intros a b K; injection K as <- <-; apply (own_in _ _ _ I i); rewrite E; reflexivity|]. cbn. split; [apply (Dx i id x E Hx)|].
      rewrite upd_same. exists is, tmp, (map t_seq xs), JTemp. repeat split; [exact Hi|]. apply in_map. exact Hx.
  - intros c. case_upd c.
    + split; [exact Nis|]. split; [intros _; apply find_put_same|]. split; [discriminate|]. split.
      * intros s Hs. apply in_map_iff in Hs. destruct Hs as (x & <- & Hx). destruct (M2 x Hx) as (i & id & _ & E). apply (own_range _ _ _ I i id). rewrite E. reflexivity.
      * cbn. intros i id x A Hs. apply in_map_iff in Hs. destruct Hs as (y & Es & Hy). destruct (M2 y Hy) as (i' & id' & Hi & E').
        assert (O' : owner (m_clones m i') = Some (id', y)) by (rewrite E'; reflexivity).
        assert (A' : owner (m_clones m i) = Some (id, x)) by (rewrite <- A; destruct (Mk i) as [->|(_ & a & b & -> & -> & _)]; reflexivity).
        assert (i' = i) by (apply (own_same _ _ _ I _ _ _ _ _ _ O' A' Es)). subst i'. destruct (Mi i Hi) as (a & b & _ & -> & _). reflexivity.
    + pose proof (i_jb _ _ _ I c) as J. pose proof (Ns (Jb c)) as Sj. cbn in Sj. destruct (m_jobs m c) as [|is' tmp' seqs st]; [exact J|]. destruct J as (Nd & A & B & C & D).
      split; [exact Nd|]. split; [intros ->; rewrite Sj by reflexivity; apply A; reflexivity|]. split; [intros K; rewrite Sf by discriminate; apply B, K|]. split; [exact C|]. cbn.
      intros i id x K Hs. specialize (D i id x). destruct (Mk i) as [Em|(_ & a & b & E & Em & _)]; rewrite Em in *; [apply D; assumption|]. rewrite E in D. specialize (D K Hs). discriminate.
  - intros a b n A B. destruct (Tsrc a n A) as [A'|[-> Ea]], (Tsrc b n B) as [B'|[-> Eb]]; auto.
    + apply (i_src _ _ _ I _ _ _ A' B').
    + subst n. exfalso. apply (Nt a A').
    + subst n. exfalso. apply (Nt b B').
  - intros a n A. destruct (Tsrc a n A) as [A'|[-> ->]]; [left; exact A'|]. right. exists (m_temp m). split; [lia|reflexivity].
  - intros n f F K. rewrite Sf in F by (rewrite K; discriminate). destruct (i_scr _ _ _ I n f F K) as (c & is' & tmp' & seqs & st & A & B & C).
    exists c, is', tmp', seqs, st. rewrite upd_other; [auto|]. intros ->. congruence.
  - apply I.
  - intros i x A. rewrite Le in A. apply (i_lead _ _ _ I i). exact A.
  - intros i x A. left. rewrite Le. exact A.
  - intros i id x A B. rewrite <- Le. exact B.
Qed.

Lemma in_job_txns m k is x : In x (job_txns m k is) <-> exists i id, In i is /\ m_clones m i = Ready id x (Some k).
Proof.
  unfold job_txns. rewrite in_flat_map. split.
  - intros (i & Hi & H). cbn beta in H. exists i. destruct (m_clones m i) as [| |id y|id y p|id y [j|]|id y|id y j]; try contradiction.
    destruct (Nat.eqb_spec j k) as [Ej|]; [|contradiction]. subst j. destruct H as [<-|[]]. exists id. auto.
  - intros (i & id & Hi & E). exists i. split; [exact Hi|]. rewrite E, Nat.eqb_refl. left. reflexivity.
Qed.
Lemma job_txns_nodup m d g k is : Inv m d g -> NoDup is -> NoDup (map t_seq (job_txns m k is)).
Proof.
  intros I. induction is as [|a is IH]; intros N; [constructor|]. inversion N as [|? ? N1 N2]; subst. specialize (IH N2).
  unfold job_txns in *. cbn. destruct (m_clones m a) as [| |id y|id y p|id y [j|]|id y|id y j] eqn:E; try exact IH.
  destruct (Nat.eqb_spec j k) as [->|]; [|exact IH]. cbn. constructor; [|exact IH]. intros K. apply in_map_iff in K. destruct K as (x & Es & Hx).
  apply (proj1 (in_job_txns m k is x)) in Hx. destruct Hx as (i & id' & Hi & E'). apply N1.
  replace a with i; [exact Hi|]. apply (own_same _ _ _ I _ _ id' id x y); [rewrite E'; reflexivity|rewrite E; reflexivity|exact Es].
Qed.
Lemma nodup_app {A} (a b : list A) : NoDup a -> NoDup b -> (forall x, In x a -> In x b -> False) -> NoDup (a ++ b).
Proof.
  induction 1 as [|x a N Na IH]; intros Nb D; cbn; [exact Nb|]. constructor.
  - intros K. apply in_app_iff in K. destruct K as [K|K]; [contradiction|]. apply (D x); [left; reflexivity|exact K].
  - apply IH; [exact Nb|]. intros y Hy. apply D. right. exact Hy.
Qed.
Lemma script_link_inv m d g k s : Inv m d g -> script_link m d g k = Some s -> exists m' d' g', s = Up m' d' g' /\ Inv m' d' g'.
Proof.
  intros I H. unfold script_link in H. destruct (m_jobs m k) as [|is tmp seqs st] eqn:Jk; [discriminate|]. destruct st; try discriminate.
  pose proof (i_jb _ _ _ I k) as J. rewrite Jk in J. destruct J as (Nd & Ft & _ & Sq & Ow). specialize (Ft eq_refl).
  assert (Nc : forall i id x, m_clones m i <> Committing id x (Some k)).
  { intros i id x E. pose proof (proj2 (i_cl _ _ _ I i)) as K. rewrite E in K. destruct K as (_ & _ & _ & K). destruct (K k eq_refl) as (a & b & c & K' & _). congruence. }
  assert (Nl : forall i id x, m_clones m i = Ready id x (Some k) -> lead m (m_clones m i) = None) by (intros i id x E; rewrite E; cbn; rewrite Jk; reflexivity).
  assert (Ht : src m (Jb k) = Some tmp) by (cbn; rewrite Jk; reflexivity).
  destruct (link tmp (script_name k) d) as [d'|] eqn:L; injection H as <-.
  - apply link_some in L. destruct L as (f & L1 & L2 & ->). rewrite Ft in L1. injection L1 as <-. eexists _, _, _. split; [reflexivity|].
    assert (Sf : forall n, first n <> 99 -> find (put (script_name k) (Script seqs) d) n = find d n).
    { intros n Hn. apply find_put_other. intros <-. apply Hn. reflexivity. }
    assert (Ns : forall a n, src m a = Some n -> find (put (script_name k) (Script seqs) d) n = find d n).
    { intros a n A. apply Sf. destruct (not_tmp _ _ _ I _ _ A) as [T|T]; rewrite T; discriminate. }
    assert (Mo : forall n h, find d n = Some h -> find (put (script_name k) (Script seqs) d) n = Some h).
    { intros n h F. rewrite find_put_other; [exact F|]. intros <-. congruence. }
    set (js := upd (m_jobs m) k (Job is tmp seqs JLinked)).
    replace (set_job m k (Job is tmp seqs JLinked)) with (rejob m (m_temp m) (m_clones m) js) by (destruct m; reflexivity).
    assert (Le : forall i, lead (rejob m (m_temp m) (m_clones m) js) (m_clones m i) = lead m (m_clones m i) \/ exists id x, m_clones m i = Ready id x (Some k) /\ lead (rejob m (m_temp m) (m_clones m) js) (m_clones m i) = Some x).
    { intros i. destruct (m_clones m i) as [| |id y|id y p|id y [j|]|id y|id y j] eqn:E; auto. cbn. unfold js. case_upd j; [right; exists id, y; auto|left; reflexivity]. }
    assert (Ts : forall a, src (rejob m (m_temp m) (m_clones m) js) a = src m a).
    { intros [i|w|c]; auto. cbn. unfold js. case_upd c; [rewrite Jk; reflexivity|reflexivity]. }
    apply (job_frame m d g); auto.
    + apply nodup_put, I.
    + intros w n A. apply (Ns (Wk w)). exact A.
    + intros i. pose proof (i_cl _ _ _ I i) as [A B]. split; [exact A|]. pose proof (Nc i) as Nci.
      destruct (m_clones m i) as [| |id x|id x q|id x [c|]|id x|id x c] eqn:E; try exact B.
      * destruct B as (B1 & B2 & B3 & B4). repeat split; try assumption. intros Hq. apply Mo, B4, Hq.
      * destruct B as (B1 & a & b & c' & e & B2 & B3). split; [exact B1|]. cbn. unfold js. case_upd c; [|exists a, b, c', e; auto].
        rewrite Jk in B2. injection B2 as <- <- <- <-. exists is, tmp, seqs, JLinked. auto.
      * destruct B as (B1 & B2 & B3 & B4). repeat split; try assumption; [apply Mo; exact B3|]. intros c' ->. cbn. unfold js. case_upd c'; [exfalso; apply (Nci id x); reflexivity|apply B4; reflexivity].
    + intros c. unfold js. case_upd c.
      * split; [exact Nd|]. split; [discriminate|]. split; [intros _; apply find_put_same|]. split; [exact Sq|exact Ow].
      * pose proof (i_jb _ _ _ I c) as J. destruct (m_jobs m c) as [|is' tmp' seqs' st]; [exact J|]. destruct J as (Nd' & A & B & C & D).
        split; [exact Nd'|]. split; [intros K; apply Mo, A, K|]. split; [intros K; apply Mo, B, K|]. split; [exact C|exact D].
    + intros a b n A B. rewrite Ts in A, B. apply (i_src _ _ _ I _ _ _ A B).
    + intros a n A. rewrite Ts in A. auto.
    + intros n f F K. unfold js. rewrite find_put in F. destruct (bytes_eq_dec (script_name k) n) as [<-|Nn].
      * injection F as <-. exists k, is, tmp, seqs, JLinked. rewrite upd_same. auto.
      * destruct (i_scr _ _ _ I n f F K) as (c & is' & tmp' & seqs' & st & A & B & C). exists c, is', tmp', seqs', st. rewrite upd_other; [auto|]. intros ->. destruct C as [-> _]. apply Nn. reflexivity.
    + rewrite map_app. apply nodup_app; [apply I|apply (job_txns_nodup m d g); assumption|]. intros s H1 H2. apply in_map_iff in H1, H2.
      destruct H1 as (y & <- & Hy), H2 as (z & Ez & Hz). apply in_job_txns in Hz. destruct Hz as (i & id & Hi & E).
      assert (Oi : owner (m_clones m i) = Some (id, z)) by (rewrite E; reflexivity). apply (i_fresh _ _ _ I i id z Oi (Nl i id z E) y Hy). congruence.
    + intros y Hy. apply in_app_iff. left. exact Hy.
    + intros y Hy. apply in_app_iff in Hy. destruct Hy as [Hy|Hy]; [left; exact Hy|]. apply in_job_txns in Hy. destruct Hy as (i & id & Hi & E). right. exists i, id, (Some k).
      split; [exact E|]. rewrite E. cbn. unfold js. rewrite upd_same. reflexivity.
    + intros i x A. apply in_app_iff. destruct (Le i) as [K|(id & y & E & K)]; [left; apply (i_lead _ _ _ I i); congruence|]. right. apply in_job_txns. rewrite K in A. injection A as <-.
      exists i, id. split; [|exact E]. pose proof (proj2 (i_cl _ _ _ I i)) as B. rewrite E in B. destruct B as (_ & a & b & c' & e & B2 & B3 & _). rewrite Jk in B2. injection B2 as <- <- <- <-. exact B3.
    + intros i x A. left. destruct (Le i) as [K|(id & y & E & K)]; [congruence|]. rewrite (Nl i id y E) in A. discriminate.
    + intros i id x A B. destruct (Le i) as [K|(id' & y & E & K)]; congruence.
  - eexists _, _, _. split; [reflexivity|]. set (js := upd (m_jobs m) k JNone).
    change (Inv (rejob m (m_temp m) (unmark m k) js) (erase tmp d) g).
    assert (Uk : forall i, unmark m k i = m_clones m i /\ (forall id x, m_clones m i <> Ready id x (Some k)) \/ exists id x, m_clones m i = Ready id x (Some k) /\ unmark m k i = Ready id x None).
    { intros i. unfold unmark. destruct (m_clones m i) as [| |id y|id y p|id y [j|]|id y|id y j]; try (left; split; [reflexivity|discriminate]).
      destruct (Nat.eqb_spec j k) as [->|N]; [right; exists id, y; auto|]. left. split; [reflexivity|]. congruence. }
    assert (Le : forall i, lead (rejob m (m_temp m) (unmark m k) js) (unmark m k i) = lead m (m_clones m i)).
    { intros i. destruct (Uk i) as [[-> N]|(id & x & E & ->)]; [|rewrite (Nl i id x E); reflexivity].
      destruct (m_clones m i) as [| |id y|id y p|id y [j|]|id y|id y j]; auto. cbn. unfold js. case_upd j; [exfalso; apply (N id y); reflexivity|reflexivity]. }
    assert (Ts : forall a n, src (rejob m (m_temp m) (unmark m k) js) a = Some n -> src m a = Some n /\ a <> Jb k).
    { intros [i|w|c] n; cbn; [|split; [assumption|discriminate]|].
      - destruct (Uk i) as [[-> N]|(id & x & E & ->)]; [split; [assumption|discriminate]|discriminate].
      - unfold js. case_upd c; [discriminate|]. split; [assumption|congruence]. }
    assert (Sf : forall n, first n <> 116 -> find (erase tmp d) n = find d n).
    { intros n Hn. apply find_erase_other. intros <-. destruct (i_tmp _ _ _ I _ _ Ht) as [(c & _ & ->)|(w & _ & _ & K & _)]; [apply Hn; reflexivity|discriminate]. }
    assert (Ns : forall a n, src (rejob m (m_temp m) (unmark m k) js) a = Some n -> find (erase tmp d) n = find d n).
    { intros a n A. apply Ts in A. destruct A as [A N]. apply find_erase_other. intros <-. apply N. apply (i_src _ _ _ I _ _ _ A Ht). }
    apply (job_frame m d g); auto.
    + apply nodup_erase, I.
    + intros w n A. apply (Ns (Wk w)). exact A.
    + intros i. destruct (Uk i) as [[-> N]|(id & x & -> & ->)]; reflexivity.
    + intros i. destruct (Uk i) as [[-> N]|(id & x & -> & ->)]; reflexivity.
    + intros i id x j E. destruct (Uk i) as [[-> N]|(id' & x' & E' & _)]; [exact E|congruence].
    + intros i. pose proof (i_cl _ _ _ I i) as [A B]. pose proof (Ns (Cl i)) as Sj. cbn in Sj. pose proof (Nc i) as Nci. destruct (Uk i) as [[Em N]|(id & x & E & Em)]; rewrite Em in *.
      * split; [exact A|]. destruct (m_clones m i) as [| |id x|id x q|id x [c|]|id x|id x c]; try exact B.
        -- destruct B as (B1 & B2 & B3 & B4). repeat split; try assumption. intros Hq. rewrite Sj by reflexivity. apply B4, Hq.
        -- destruct B as (B1 & B2). split; [exact B1|]. cbn. unfold js. case_upd c; [exfalso; apply (N id x); reflexivity|exact B2].
        -- destruct B as (B1 & B2 & B3 & B4). repeat split; try assumption; [rewrite Sf by discriminate; exact B3|]. intros c' ->. cbn. unfold js. case_upd c'; [exfalso; apply (Nci id x); reflexivity|apply B4; reflexivity].
      * rewrite E in A. split; [exact A|exact Logic.I].
    + intros c. unfold js. case_upd c; [exact Logic.I|]. pose proof (i_jb _ _ _ I c) as J. pose proof (Ns (Jb c)) as Sj. cbn in Sj. unfold js in Sj. rewrite Eu in Sj.
      destruct (m_jobs m c) as [|is' tmp' seqs' st]; [exact J|]. destruct J as (Nd' & A & B & C & D).
      split; [exact Nd'|]. split; [intros ->; rewrite Sj by reflexivity; apply A; reflexivity|]. split; [intros K; rewrite Sf by discriminate; apply B, K|]. split; [exact C|]. cbn.
      intros i id x K Hs. specialize (D i id x). destruct (Uk i) as [[Em N]|(id' & y & E & Em)]; rewrite Em in *; [apply D; assumption|]. rewrite E in D. specialize (D K Hs). cbn in D. congruence.
    + intros a b n A B. apply Ts in A, B. apply (i_src _ _ _ I _ _ n); tauto.
    + intros a n A. apply Ts in A. tauto.
    + intros n f F K. rewrite Sf in F by (rewrite K; discriminate). destruct (i_scr _ _ _ I n f F K) as (c & is' & tmp' & seqs' & st & A & B & C).
      exists c, is', tmp', seqs', st. unfold js. rewrite upd_other; [auto|]. intros ->. rewrite Jk in B. discriminate.
    + apply I.
    + intros i x A. rewrite Le in A. apply (i_lead _ _ _ I i). exact A.
    + intros i x A. left. rewrite Le. exact A.
    + intros i id x A B. rewrite <- Le. exact B.
Qed.
Lemma script_tidy_inv m d g k m' d' : Inv m d g -> script_tidy m d k = Some (m', d') -> Inv m' d' g.
Proof.
  intros I H. unfold script_tidy in H. destruct (m_jobs m k) as [|is tmp seqs st] eqn:Jk; [discriminate|]. destruct st; try discriminate. injection H as <- <-.
  pose proof (i_jb _ _ _ I k) as J. rewrite Jk in J. destruct J as (Nd & _ & Fs & Sq & Ow). specialize (Fs eq_refl).
  assert (Ht : src m (Jb k) = Some tmp) by (cbn; rewrite Jk; reflexivity).
  set (js := upd (m_jobs m) k (Job is tmp seqs JClean)).
  replace (set_job m k (Job is tmp seqs JClean)) with (rejob m (m_temp m) (m_clones m) js) by (destruct m; reflexivity).
  assert (Sf : forall n, first n <> 116 -> find (erase tmp d) n = find d n).
  { intros n Hn. apply find_erase_other. intros <-. destruct (i_tmp _ _ _ I _ _ Ht) as [(c & _ & ->)|(w & _ & _ & K & _)]; [apply Hn; reflexivity|discriminate]. }
  assert (Ts : forall a n, src (rejob m (m_temp m) (m_clones m) js) a = Some n -> src m a = Some n /\ a <> Jb k).
  { intros [i|w|c] n; cbn; [split; [assumption|discriminate]|split; [assumption|discriminate]|]. unfold js. case_upd c; [discriminate|]. split; [assumption|congruence]. }
  assert (Ns : forall a n, src (rejob m (m_temp m) (m_clones m) js) a = Some n -> find (erase tmp d) n = find d n).
  { intros a n A. apply Ts in A. destruct A as [A N]. apply find_erase_other. intros <-. apply N. apply (i_src _ _ _ I _ _ _ A Ht). }
  assert (Le : forall i, lead (rejob m (m_temp m) (m_clones m) js) (m_clones m i) = lead m (m_clones m i)).
  { intros i. destruct (m_clones m i) as [| |id y|id y p|id y [j|]|id y|id y j] eqn:E; auto. cbn. unfold js. case_upd j; [rewrite Jk; reflexivity|reflexivity]. }
  apply (job_frame m d g); auto.
  - apply nodup_erase, I.
  - intros w n A. apply (Ns (Wk w)). exact A.
  - intros i. pose proof (i_cl _ _ _ I i) as [A B]. split; [exact A|]. pose proof (Ns (Cl i)) as Sj. cbn in Sj.
    destruct (m_clones m i) as [| |id x|id x q|id x [c|]|id x|id x c] eqn:E; try exact B.
    + destruct B as (B1 & B2 & B3 & B4). repeat split; try assumption. intros Hq. rewrite Sj by reflexivity. apply B4, Hq.
    + destruct B as (B1 & a & b & c' & e & B2 & B3). split; [exact B1|]. cbn. unfold js. case_upd c; [|exists a, b, c', e; auto].
      rewrite Jk in B2. injection B2 as <- <- <- <-. exists is, tmp, seqs, JClean. auto.
    + destruct B as (B1 & B2 & B3 & B4). repeat split; try assumption; [rewrite Sf by discriminate; exact B3|]. intros c' ->. cbn. unfold js. case_upd c'; [|apply B4; reflexivity].
      destruct (B4 k eq_refl) as (a & b & c' & B5 & _). congruence.
  - intros c. unfold js. case_upd c.
    + split; [exact Nd|]. split; [discriminate|]. split; [intros _; rewrite Sf by discriminate; exact Fs|]. split; [exact Sq|exact Ow].
    + pose proof (i_jb _ _ _ I c) as J. pose proof (Ns (Jb c)) as Sj. cbn in Sj. unfold js in Sj. rewrite Eu in Sj.
      destruct (m_jobs m c) as [|is' tmp' seqs' st]; [exact J|]. destruct J as (Nd' & A & B & C & D).
      split; [exact Nd'|]. split; [intros ->; rewrite Sj by reflexivity; apply A; reflexivity|]. split; [intros K; rewrite Sf by discriminate; apply B, K|]. split; [exact C|exact D].
  - intros a b n A B. apply Ts in A, B. apply (i_src _ _ _ I _ _ n); tauto.
  - intros a n A. apply Ts in A. tauto.
  - intros n f F K. rewrite Sf in F by (rewrite K; discriminate). destruct (i_scr _ _ _ I n f F K) as (c & is' & tmp' & seqs' & st & A & B & C & D).
    unfold js. destruct (Nat.eq_dec c k) as [->|Nk].
    + rewrite Jk in A. injection A as <- <- <- <-. exists k, is, tmp, seqs, JClean. rewrite upd_same. auto.
    + exists c, is', tmp', seqs', st. rewrite upd_other by exact Nk. auto.
  - apply I.
  - intros i x A. rewrite Le in A. apply (i_lead _ _ _ I i). exact A.
  - intros i x A. left. rewrite Le. exact A.
  - intros i id x A B. rewrite <- Le. exact B.
Qed.
Lemma script_done_inv m d g k m' d' : Inv m d g -> script_done m d k = Some (m', d') -> Inv m' d' g.
Proof.
  intros I H. unfold script_done in H. destruct (m_jobs m k) as [|is tmp seqs st] eqn:Jk; [discriminate|]. destruct st; try discriminate.
  destruct (forallb _ is) eqn:Fa; [|discriminate]. injection H as <- <-. rewrite forallb_forall in Fa.
  assert (Nj : forall i, cjob (m_clones m i) <> Some k).
  { intros i K. pose proof (proj2 (i_cl _ _ _ I i)) as B. specialize (Fa i). destruct (m_clones m i) as [| |id x|id x q|id x [c|]|id x|id x [c|]]; try discriminate; cbn in K; injection K as ->.
    - destruct B as (_ & a & b & c & e & B2 & B3 & _). rewrite Jk in B2. injection B2 as <- <- <- <-. specialize (Fa B3). rewrite Nat.eqb_refl in Fa. discriminate.
    - destruct B as (_ & _ & _ & B). destruct (B k eq_refl) as (a & b & c & B2 & B3 & _). rewrite Jk in B2. injection B2 as <- <- <-. specialize (Fa B3). rewrite Nat.eqb_refl in Fa. discriminate. }
  set (js := upd (m_jobs m) k JNone).
  replace (set_job m k JNone) with (rejob m (m_temp m) (m_clones m) js) by (destruct m; reflexivity).
  assert (Sf : forall n, n <> script_name k -> find (erase (script_name k) d) n = find d n) by (intros n Hn; apply find_erase_other; congruence).
  assert (Se : forall n, first n <> 99 -> find (erase (script_name k) d) n = find d n) by (intros n Hn; apply Sf; intros ->; apply Hn; reflexivity).
  assert (Ns : forall a n, src m a = Some n -> find (erase (script_name k) d) n = find d n).
  { intros a n A. apply Se. destruct (not_tmp _ _ _ I _ _ A) as [T|T]; rewrite T; discriminate. }
  assert (Ts : forall a n, src (rejob m (m_temp m) (m_clones m) js) a = Some n -> src m a = Some n).
  { intros [i|w|c] n; cbn; auto. unfold js. case_upd c; [discriminate|]. auto. }
  assert (Le : forall i, lead (rejob m (m_temp m) (m_clones m) js) (m_clones m i) = lead m (m_clones m i)).
  { intros i. specialize (Nj i). destruct (m_clones m i) as [| |id y|id y p|id y [j|]|id y|id y j] eqn:E; auto. cbn. unfold js. case_upd j; [exfalso; apply Nj; reflexivity|reflexivity]. }
  apply (job_frame m d g); auto.
  - apply nodup_erase, I.
  - intros w n A. apply (Ns (Wk w)). exact A.
  - intros i. pose proof (i_cl _ _ _ I i) as [A B]. split; [exact A|]. pose proof (Ns (Cl i)) as Sj. cbn in Sj. specialize (Nj i).
    destruct (m_clones m i) as [| |id x|id x q|id x [c|]|id x|id x c] eqn:E; try exact B.
    + destruct B as (B1 & B2 & B3 & B4). repeat split; try assumption. intros Hq. rewrite Sj by reflexivity. apply B4, Hq.
    + destruct B as (B1 & B2). split; [exact B1|]. cbn. unfold js. case_upd c; [exfalso; apply Nj; reflexivity|exact B2].
    + destruct B as (B1 & B2 & B3 & B4). repeat split; try assumption; [rewrite Se by discriminate; exact B3|]. intros c' ->. cbn. unfold js. case_upd c'; [exfalso; apply Nj; reflexivity|apply B4; reflexivity].
  - intros c. unfold js. case_upd c; [exact Logic.I|].
    pose proof (i_jb _ _ _ I c) as J. pose proof (Ns (Jb c)) as Sj. cbn in Sj. destruct (m_jobs m c) as [|is' tmp' seqs' st]; [exact J|]. destruct J as (Nd' & A & B & C & D).
    split; [exact Nd'|]. split; [intros ->; rewrite Sj by reflexivity; apply A; reflexivity|].
    split; [intros K; rewrite Sf by (intros X; apply script_inj in X; contradiction); apply B, K|]. split; [exact C|exact D].
  - intros a b n A B. apply Ts in A, B. apply (i_src _ _ _ I _ _ n); assumption.
  - intros n f F K. rewrite find_erase in F. destruct (bytes_eq_dec (script_name k) n) as [|Nn]; [discriminate|]. destruct (i_scr _ _ _ I n f F K) as (c & is' & tmp' & seqs' & st & A & B & C & D).
    exists c, is', tmp', seqs', st. unfold js. rewrite upd_other; [auto|]. intros ->. congruence.
  - apply I.
  - intros i x A. rewrite Le in A. apply (i_lead _ _ _ I i). exact A.
  - intros i x A. left. rewrite Le. exact A.
  - intros i id x A B. rewrite <- Le. exact B.
Qed.
