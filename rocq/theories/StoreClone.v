(** Steps of clones keep the invariant. *)
From Verif Require Import Base Bytes NameModel NameSpec NameProofs RecoverAll StoreModel StoreSpec StoreDir StoreInv StoreFacts.
From Coq Require Import Sorting.Sorted.

Lemma upd_same {A} (f : nat -> A) i a : upd f i a i = a.
Proof. unfold upd. rewrite Nat.eqb_refl. reflexivity. Qed.
Lemma upd_other {A} (f : nat -> A) i a j : j <> i -> upd f i a j = f j.
Proof. intros N. unfold upd. apply Nat.eqb_neq in N. rewrite N. reflexivity. Qed.
Lemma upd_case {A} (f : nat -> A) i a j : j = i /\ upd f i a j = a \/ j <> i /\ upd f i a j = f j.
Proof. destruct (Nat.eq_dec j i) as [->|N]; [left; split; [reflexivity|apply upd_same]|right; split; [exact N|apply upd_other; exact N]]. Qed.
Ltac case_upd j := let E := fresh "Eu" in let N := fresh "Nu" in
  match goal with |- context [upd ?f ?i ?a j] => destruct (upd_case f i a j) as [[N E]|[N E]]; [subst j|]; rewrite E in *
                | H : context [upd ?f ?i ?a j] |- _ => destruct (upd_case f i a j) as [[N E]|[N E]]; [subst j|]; rewrite E in * end.

Definition with_temp (m : mem) (t : nat) : mem :=
  Mem (m_address m) (m_sequence m) (m_entries m) (m_merging m) (m_gen m) (m_next m) t (m_lock m) (m_clones m) (m_workers m) (m_jobs m) (m_readers m).
Lemma with_same m : m = with_temp m (m_temp m).
Proof. destruct m; reflexivity. Qed.

(** A change of one clone that keeps its transaction and its part in a commit. *)
Lemma clone_frame m d g i c' t d' : Inv m d g -> (m_temp m <= t)%nat -> NoDup (names d') -> (forall n, first n <> 107 -> find d' n = find d n) ->
  owner c' = owner (m_clones m i) -> cjob c' = cjob (m_clones m i) ->
  (forall m', m_jobs m' = m_jobs m -> lead m' c' = lead m (m_clones m i)) ->
  (forall id x j, m_clones m i <> Committing id x j) -> clone_ok m d' i c' ->
  (csrc c' = None \/ csrc c' = csrc (m_clones m i) \/ exists k, (m_temp m <= k < t)%nat /\ csrc c' = Some (temp_name k)) ->
  (forall s f, find d' (shard_name (lit "kitten") s s) = Some f <-> exists j x, kit (upd (m_clones m) i c' j) = Some x /\ t_seq x = s /\ f = xfile x) ->
  Inv (set_clone (with_temp m t) i c') d' g.
Proof.
  intros I Ht ND Sd Ho Hj Hl Nc Hc Hs Hk. pose proof (Hl m eq_refl) as Hl'.
  assert (Sk : forall k s e, k = FiverK \/ k = HazelK -> find d' (shard_name (kname k) s e) = find d (shard_name (kname k) s e)).
  { intros k s e [-> | ->]; apply Sd; discriminate. }
  assert (Ns : forall a n, src m a = Some n -> find d' n = find d n).
  { intros a n A. apply Sd. destruct (not_tmp _ _ _ I _ _ A) as [T|T]; rewrite T; discriminate. }
  constructor; try apply I; try exact ND; cbn.
  - intros v Hv V. destruct (i_vis _ _ _ I v Hv V) as [A B]. split; [exact A|]. unfold ename in *. rewrite Sk; [exact B|]. apply visible_kind. exact V.
  - intros j. case_upd j; [exact Hc|]. pose proof (i_cl _ _ _ I j) as [A B]. split; [exact A|]. pose proof (Ns (Cl j)) as Sj. cbn in Sj.
    destruct (m_clones m j) as [| |id' y|id' y q|id' y [k|]|id' y|id' y k]; try exact B.
    + destruct B as (B1 & B2 & B3 & B4). repeat split; try assumption. intros Hq. rewrite Sj by reflexivity. apply B4. exact Hq.
    + destruct B as (B1 & B2 & B3 & B4). repeat split; try assumption. rewrite Sd by discriminate. exact B3.
  - intros a b id x y A B. assert (K : forall j, owner (upd (m_clones m) i c' j) = owner (m_clones m j)) by (intros j; case_upd j; [exact Ho|reflexivity]).
    rewrite K in A, B. apply (i_own _ _ _ I a b id x y A B).
  - exact Hk.
  - intros w. pose proof (i_wk _ _ _ I w) as (A & B & C). split; [exact A|]. split.
    + intros a sel L. unfold out_name in *. rewrite Sk by (destruct a; auto). apply B. exact L.
    + pose proof (Ns (Wk w)) as Sj. cbn in Sj. destruct (m_workers m w) as [| |a sel q| |]; try exact C. destruct C as (D1 & D2 & D3). repeat split; try assumption.
      intros Hq. rewrite Sj by reflexivity. apply D3. exact Hq.
  - intros k. pose proof (i_jb _ _ _ I k) as J. pose proof (Ns (Jb k)) as Sj. cbn in Sj. destruct (m_jobs m k) as [|is tmp seqs st]; [exact J|]. destruct J as (Nd & A & B & C & D).
    split; [exact Nd|]. split; [|split; [|split; [exact C|]]].
    + intros ->. rewrite Sj by reflexivity. apply A. reflexivity.
    + intros Lk. rewrite Sd by discriminate. apply B. exact Lk.
    + cbn. intros j id x. case_upd j; [rewrite Ho, Hj; apply D|apply D].
  - assert (T : forall a n, src (set_clone (with_temp m t) i c') a = Some n -> src m a = Some n \/ (a = Cl i /\ exists k, (m_temp m <= k < t)%nat /\ n = temp_name k)).
    { intros [j|w|k] n; cbn; auto. case_upd j; [|auto]. intros A. destruct Hs as [Hs|[Hs|(k & Hk1 & Hs)]]; [congruence|left; congruence|].
      right. split; [reflexivity|]. exists k. split; [lia|congruence]. }
    assert (F : forall a k, (m_temp m <= k)%nat -> src m a = Some (temp_name k) -> False).
    { intros a k Hk1 A. destruct (i_tmp _ _ _ I _ _ A) as [(k' & L & E)|(w & sel & p & _ & _ & E)].
      - apply temp_inj in E. lia.
      - apply (f_equal first) in E. discriminate. }
    intros a b n A B. destruct (T _ _ A) as [A'|(-> & k & Hk1 & ->)], (T _ _ B) as [B'|(-> & k' & Hk2 & E)].
    + apply (i_src _ _ _ I _ _ _ A' B').
    + subst n. exfalso. apply (F a k' (proj1 Hk2) A').
    + exfalso. apply (F b k (proj1 Hk1) B').
    + reflexivity.
  - assert (L : forall a n, src m a = Some n -> (exists k, (k < t)%nat /\ n = temp_name k) \/
            (exists w sel p, a = Wk w /\ m_workers m w = WPickling HMerge sel p /\ n = hazel_sidecar_name (out_name HMerge sel) (lit "mrg"))).
    { intros a n A. destruct (i_tmp _ _ _ I a n A) as [(k & L & E)|K]; [left; exists k; split; [lia|exact E]|right; exact K]. }
    intros [j|w|k] n A; cbn in A; [|apply (L (Wk w)); exact A|apply (L (Jb k)); exact A].
    case_upd j; [|apply (L (Cl j)); exact A]. destruct Hs as [Hs|[Hs|(k & Hk1 & Hs)]]; [congruence| |].
    + apply (L (Cl i)). cbn. congruence.
    + left. exists k. split; [lia|congruence].
  - intros n f F K. rewrite Sd in F by (intros X; rewrite X in K; destruct K; discriminate).
    destruct (i_sh _ _ _ I n f F K) as (k & s & e & l & A1 & A2 & A3 & A4 & A5 & A6 & C). exists k, s, e, l. do 6 (split; [assumption|]).
    destruct C as [C|[C|(j & id & x & b & E & C)]]; [left; exact C|right; left; exact C|]. right. right. exists j, id, x, b.
    split; [|exact C]. cbn. rewrite upd_other; [exact E|]. intros ->. apply (Nc _ _ _ E).
  - intros k s e f k' s' e' f' F F' K K'. rewrite Sk in F, F' by assumption. apply (i_lam _ _ _ I _ _ _ _ _ _ _ _ F F' K K').
  - intros n f F K. rewrite Sd in F by (rewrite K; discriminate). apply (i_scr _ _ _ I n f F K).
  - intros x Hx. destruct (i_dur _ _ _ I x Hx) as [A|(j & A)]; [left; exact A|right]. exists j. case_upd j; [rewrite (Hl (set_clone (with_temp m t) i c') eq_refl); exact A|exact A].
  - intros j x A. case_upd j; [rewrite (Hl (set_clone (with_temp m t) i c') eq_refl) in A; apply (i_lead _ _ _ I i); exact A|apply (i_lead _ _ _ I j); exact A].
  - intros j id x A B. case_upd j; [rewrite (Hl (set_clone (with_temp m t) i c') eq_refl) in B; rewrite Ho in A; apply (i_fresh _ _ _ I i id x A B)|apply (i_fresh _ _ _ I j id x A B)].
Qed.
Lemma same_kit m d g i c' : Inv m d g -> kit c' = kit (m_clones m i) ->
  forall s f, find d (shard_name (lit "kitten") s s) = Some f <-> exists j x, kit (upd (m_clones m) i c' j) = Some x /\ t_seq x = s /\ f = xfile x.
Proof.
  intros I Hk s f. rewrite (i_kit _ _ _ I). assert (K : forall j, kit (upd (m_clones m) i c' j) = kit (m_clones m j)) by (intros j; case_upd j; [exact Hk|reflexivity]).
  split; intros (j & x & A & B & C); exists j, x; [rewrite K|rewrite K in A]; auto.
Qed.
Lemma clone_frame0 m d g i c' : Inv m d g ->
  owner c' = owner (m_clones m i) -> kit c' = kit (m_clones m i) -> cjob c' = cjob (m_clones m i) ->
  (forall m', m_jobs m' = m_jobs m -> lead m' c' = lead m (m_clones m i)) ->
  (forall id x j, m_clones m i <> Committing id x j) -> clone_ok m d i c' ->
  (csrc c' = None \/ csrc c' = csrc (m_clones m i)) -> Inv (set_clone m i c') d g.
Proof.
  intros I A B C D E F G. replace (set_clone m i c') with (set_clone (with_temp m (m_temp m)) i c') by (destruct m; reflexivity).
  apply (clone_frame m d g); auto; [apply I|tauto|]. apply (same_kit m d g); assumption.
Qed.

(** fiver.cc: pickle *)
Lemma needs_own m d g a n : Inv m d g -> src m a = Some n -> forall b h, needs m b n h -> b = a.
Proof. intros I A b h N. apply needs_src in N. apply (i_src _ _ _ I _ _ _ N A). Qed.
Lemma src_plain m d g a n : Inv m d g -> src m a = Some n -> plain n.
Proof. intros I A. destruct (not_tmp _ _ _ I _ _ A) as [E|E]; unfold plain; rewrite E; repeat split; discriminate. Qed.
Lemma new_temp m d g a : Inv m d g -> src m a <> Some (temp_name (m_temp m)).
Proof.
  intros I A. destruct (i_tmp _ _ _ I _ _ A) as [(k' & L & E)|(w & sel & p & _ & _ & E)]; [apply temp_inj in E; lia|apply (f_equal first) in E; discriminate].
Qed.
Lemma temp_plain k : plain (temp_name k).
Proof. unfold plain. rewrite first_temp. repeat split; discriminate. Qed.
Lemma pickle_inv m d g i m' d' : Inv m d g -> pickle_step m d i = Some (m', d') -> Inv m' d' g.
Proof.
  intros I H. unfold pickle_step in H. pose proof (i_cl _ _ _ I i) as [Co Ck].
  destruct (m_clones m i) as [| |id x|id x p|id x j|id x|id x j] eqn:E; try discriminate.
  - destruct (t_data x) as [|c r] eqn:D.
    + injection H as <- <-. apply clone_frame0; rewrite ?E; cbn; auto; try discriminate.
      * rewrite D. reflexivity.
      * split; [exact Co|exact Logic.I].
    + injection H as <- <-. cbn. apply dir_put.
      * apply (clone_frame m d g i _ (S (m_temp m))); rewrite ?E; cbn; auto; try discriminate; [apply I| | |].
        -- split; [exact Co|]. cbn. rewrite D. repeat split; discriminate.
        -- right. right. exists (m_temp m). split; [lia|reflexivity].
        -- apply (same_kit m d g); [exact I|]. rewrite E. reflexivity.
      * apply temp_plain.
      * intros a h N. pose proof (needs_src _ _ _ _ N) as Sx. destruct a as [j|w|k]; cbn in Sx.
        -- case_upd j; [|exfalso; apply (new_temp m d g (Cl j) I Sx)]. cbn in N. rewrite upd_same in N. cbn in N. destruct N as [N _]. discriminate.
        -- exfalso. apply (new_temp m d g (Wk w) I Sx).
        -- exfalso. apply (new_temp m d g (Jb k) I Sx).
  - destruct Ck as (C1 & C2 & C3 & C4). assert (Sp : src m (Cl i) = Some (p_src p)) by (cbn; rewrite E; reflexivity).
    destruct (p_stage p) eqn:P.
    + injection H as <- <-. apply clone_frame0; rewrite ?E; cbn; rewrite ?P; auto; try discriminate.
      * apply dir_put; [exact I|apply (src_plain _ _ _ _ _ I Sp)|]. intros a h N. rewrite (needs_own _ _ _ _ _ I Sp _ _ N) in N. cbn in N. rewrite E in N. destruct N; congruence.
      * split; [exact Co|]. cbn. repeat split; try assumption. intros _. apply find_put_same.
    + destruct (link (p_src p) (p_dst p) d) as [dl|] eqn:L.
      * injection H as <- <-. apply link_some in L. destruct L as (f & L1 & L2 & ->). rewrite C4 in L1 by reflexivity. injection L1 as <-.
        rewrite C2, C3 in *. set (c' := Pickling id x _) in *.
        assert (Oi : owner (m_clones m i) = Some (id, x)) by (rewrite E; reflexivity).
        replace (set_clone m i c') with (set_clone (with_temp m (m_temp m)) i c') by (destruct m; reflexivity).
        apply (clone_frame m d g); rewrite ?E; cbn; auto; try discriminate.
        -- apply nodup_put, I.
        -- intros n Hn. apply find_put_other. intros <-. apply Hn. reflexivity.
        -- split; [exact Co|]. cbn. repeat split; try assumption. discriminate.
        -- intros s f. destruct (Z.eq_dec (t_seq x) s) as [<-|Ne].
           ++ change (shard_name (lit "kitten") (t_seq x) (t_seq x)) with (kitten_name x). rewrite find_put_same. split.
              ** intros A. injection A as <-. exists i, x. rewrite upd_same. split; [reflexivity|split; reflexivity].
              ** intros (j & y & A & B & ->). case_upd j; [cbn in A; injection A as <-; reflexivity|].
                 apply kit_owner in A. destruct A as [id' A]. exfalso. apply Nu. apply (own_same _ _ _ I _ _ _ _ _ _ A Oi B).
           ++ rewrite find_put_other; [|intros A; apply (shard_name_inj (lit "kitten")) in A; lia]. rewrite (i_kit _ _ _ I).
              split; intros (j & y & A & B & C); exists j, y.
              ** case_upd j; [rewrite E in A; cbn in A; rewrite P in A; discriminate|auto].
              ** case_upd j; [cbn in A; injection A as <-; contradiction|auto].
      * injection H as <- <-. apply clone_frame0; rewrite ?E; cbn; rewrite ?P; auto; try discriminate. split; [exact Co|exact Logic.I].
    + injection H as <- <-. apply dir_erase.
      * apply clone_frame0; rewrite ?E; cbn; rewrite ?P; auto; try discriminate.
        -- destruct (t_data x); [contradiction|reflexivity].
        -- split; [exact Co|exact Logic.I].
      * apply (src_plain _ _ _ _ _ I Sp).
      * intros a h N. assert (K : needs m a (p_src p) h).
        { destruct a as [j|w|k]; cbn in N |- *; try exact N. case_upd j; [contradiction|exact N]. }
        rewrite (needs_own _ _ _ _ _ I Sp _ _ K) in N. cbn in N. rewrite upd_same in N. contradiction.
Qed.
Lemma pickle_fail_inv m d g i m' : Inv m d g -> pickle_fail m i = Some m' -> Inv m' d g.
Proof.
  intros I H. unfold pickle_fail in H. pose proof (i_cl _ _ _ I i) as [Co Ck].
  destruct (m_clones m i) as [| |id x|id x p|id x j|id x|id x j] eqn:E; try discriminate.
  - injection H as <-. apply clone_frame0; rewrite ?E; cbn; auto; try discriminate. split; [exact Co|exact Logic.I].
  - destruct (p_stage p) eqn:P; try discriminate; injection H as <-; apply clone_frame0; rewrite ?E; cbn; rewrite ?P; auto; try discriminate; split; try exact Co; exact Logic.I.
Qed.
Lemma begin_inv m d g i : Inv m d g -> m_clones m i = Idle -> Inv (set_clone m i (Open 0 [])) d g.
Proof. intros I E. apply clone_frame0; rewrite ?E; cbn; auto; try discriminate. split; [discriminate|cbn; lia]. Qed.
Lemma write_inv m d g i n b k c : Inv m d g -> m_clones m i = Open n b -> 0 <= k -> Inv (set_clone m i (Open (n + k) c)) d g.
Proof.
  intros I E Hk. pose proof (proj2 (i_cl _ _ _ I i)) as K. rewrite E in K. apply clone_frame0; rewrite ?E; cbn; auto; try discriminate. split; [discriminate|cbn; lia].
Qed.
Lemma drop_inv m d g i n b : Inv m d g -> m_clones m i = Open n b -> Inv (set_clone m i Idle) d g.
Proof. intros I E. apply clone_frame0; rewrite ?E; cbn; auto; try discriminate. split; [discriminate|exact Logic.I]. Qed.
