(** Opening a directory always succeeds, and shows what is durable. *)
From Verif Require Import Base Bytes NameModel NameSpec NameProofs RecoverProofs RecoverAll StoreModel StoreSpec StoreDir StoreInv StoreFacts StoreClone StoreCommit StoreInstall StoreDown.
From Coq Require Import Sorting.Sorted Sorting.Permutation.

Lemma script_listed k : has_prefix (lit "commit") (script_name k) = true /\ is_commit_script (script_name k) = true.
Proof.
  split; [apply (has_prefix_app (lit "commit") ([46] ++ dec (Z.of_nat k) ++ lit ".sh"))|]. unfold is_commit_script. apply andb_true_intro. split; [apply andb_true_intro; split|].
  - apply Nat.ltb_lt. unfold script_name. rewrite !app_length. rewrite dec_pos by lia. destruct (dec_nat_ok (Z.of_nat k)) as (_ & _ & N & _); [lia|].
    assert (L : (0 < length (dec_nat (Z.of_nat k)))%nat) by (destruct (dec_nat (Z.of_nat k)); [contradiction|cbn; lia]).
    change (length (lit "commit.")) with 7%nat. change (length (lit ".sh")) with 3%nat. lia.
  - apply (has_prefix_app (lit "commit.")).
  - unfold has_suffix, script_name. rewrite app_assoc, rev_app_distr. apply has_prefix_app.
Qed.

(** * Names and files *)
Section Names.
Variables (d : dir) (g : list txn).
Hypothesis D : DI d g.
Lemma file_of x : shard_file (names d) x -> exists k l, (k = FiverK \/ k = HazelK) /\ names_range (kname k) (s_name x) (s_start x) (s_end x) /\
  s_name x = shard_name (kname k) (s_start x) (s_end x) /\ 0 <= s_start x <= s_end x /\ s_end x < maxf /\
  find d (s_name x) = Some (Shard_ (s_start x) (s_end x) l) /\ holds g (s_start x) (s_end x) l.
Proof.
  intros [Hn Hr]. destruct (in_find _ _ Hn) as [f F].
  assert (Fb : first (s_name x) = 102 \/ first (s_name x) = 104).
  { destruct Hr as [Hr|Hr]; apply names_range_prefix, first_prefix in Hr; try discriminate; rewrite Hr; auto. }
  destruct (d_sh _ _ D _ _ F Fb) as (k & s & e & l & E & K & A & B & C & Hh).
  assert (R : names_range (kname k) (s_name x) s e) by (rewrite E; apply shard_name_range; lia).
  assert (R' : names_range (kname k) (s_name x) (s_start x) (s_end x)).
  { destruct Hr as [Hr|Hr], K as [-> | ->]; try exact Hr; exfalso; apply names_range_prefix, first_prefix in Hr; try discriminate; rewrite E, first_shard in Hr; discriminate. }
  destruct (range_unique _ _ _ _ _ _ R R') as [-> ->]. exists k, l. subst f. do 6 (split; [assumption || lia|]). exact Hh.
Qed.
Lemma of_file k s e f : (k = FiverK \/ k = HazelK) -> find d (shard_name (kname k) s e) = Some f ->
  shard_file (names d) (Shard s e (shard_name (kname k) s e)) /\ 0 <= s <= e /\ e < maxf.
Proof.
  intros K F. destruct (d_sh _ _ D _ _ F) as (k' & s' & e' & l & E & _ & A & B & _); [rewrite first_shard; destruct K; subst; auto|].
  apply shard_inj in E. destruct E as (<- & <- & <-). split; [|lia]. split; [apply (find_in _ _ _ F)|]. cbn.
  destruct K as [-> | ->]; [left|right]; apply shard_name_range; lia.
Qed.
Lemma named_file p n : In p [lit "fiver"; lit "hazel"] -> In n (names d) -> has_prefix p n = true -> exists s e, names_range p n s e.
Proof.
  intros Hp Hn Hx. destruct (in_find _ _ Hn) as [f F]. assert (Fb : first n = first p) by (apply first_prefix; [destruct Hp as [<-|[<-|[]]]; discriminate|exact Hx]).
  destruct (d_sh _ _ D _ _ F) as (k & s & e & l & E & K & A & B & _); [rewrite Fb; destruct Hp as [<-|[<-|[]]]; auto|]. exists s, e.
  rewrite E, first_shard in Fb. rewrite E. destruct Hp as [<-|[<-|[]]], K as [-> | ->]; try discriminate; apply shard_name_range; lia.
Qed.
Lemma files_fit x y k k' : shard_file (names d) x -> shard_file (names d) y -> names_range (kname k) (s_name x) (s_start x) (s_end x) ->
  names_range (kname k') (s_name y) (s_start y) (s_end y) -> (k = FiverK \/ k = HazelK) -> (k' = FiverK \/ k' = HazelK) -> fits k (s_start x) (s_end x) k' (s_start y) (s_end y).
Proof.
  intros Hx Hy Rx Ry K K'. destruct (file_of x Hx) as (c & l & C & Rc & Ec & _ & _ & Fx & _). destruct (file_of y Hy) as (c' & l' & C' & Rc' & Ec' & _ & _ & Fy & _).
  assert (c = k) by (destruct C as [-> | ->], K as [-> | ->]; auto; exfalso; [apply (both_kinds _ _ _ _ _ Rc Rx)|apply (both_kinds _ _ _ _ _ Rx Rc)]).
  assert (c' = k') by (destruct C' as [-> | ->], K' as [-> | ->]; auto; exfalso; [apply (both_kinds _ _ _ _ _ Rc' Ry)|apply (both_kinds _ _ _ _ _ Ry Rc')]). subst c c'.
  rewrite Ec in Fx. rewrite Ec' in Fy. apply (d_lam _ _ D _ _ _ _ _ _ _ _ Fx Fy K K').
Qed.
End Names.

Section Open.
Variables (sort merge : list shard -> list shard).
Hypothesis Hs : sorts shard_lt sort.
Hypothesis Hm : sorts owsla_lt merge.
(** A hazel stays, or a hazel around it does; kittens go. *)
Lemma recover_hazel names shards merges removed x : recover sort merge names = Some (shards, merges, removed) -> In (s_name x) names ->
  names_range (lit "hazel") (s_name x) (s_start x) (s_end x) -> exists y, In y shards /\ within x y /\ names_range (lit "hazel") (s_name y) (s_start y) (s_end y).
Proof.
  intros H Hn Hx. unfold recover in H.
  destruct (sanitize_names sort (lit "fiver") (ls names (lit "fiver"))) as [[fivers dead]|] eqn:Ef; [|discriminate].
  destruct (hazel_sanitize sort names) as [[[hazels ms] gone]|] eqn:Eh; [|discriminate].
  destruct (combine merge fivers hazels) as [[sh cov]|] eqn:Ec; [|discriminate]. injection H as <- <- <-.
  destruct (hazel_sanitize_some _ _ _ _ _ Hs Eh) as (hdead & Eh' & Fh & Gh & Rh & Mh).
  destruct (sanitize_some _ _ _ _ _ Hs Eh') as (Ph & Ah & Bh & Ch & Dh).
  destruct (combine_some _ _ _ _ _ Hm Ec) as (A & O & (kept & Pk & Psh) & G).
  destruct (Dh x (proj2 (hazel_named names x) (conj Hn Hx))) as (y & Hy & W). exists y.
  split; [apply (Permutation_in _ Psh), in_or_app; left; exact Hy|]. split; [exact W|]. apply (proj1 (hazel_named names y)). apply Bh. exact Hy.
Qed.
Lemma recover_kittens names shards merges removed n : recover sort merge names = Some (shards, merges, removed) -> In n names -> has_prefix (lit "kitten") n = true -> In n removed.
Proof.
  intros H Hn Hp. unfold recover in H. destruct (sanitize_names _ _ _) as [[fivers dead]|]; [|discriminate]. destruct (hazel_sanitize sort names) as [[[hazels ms] gone]|]; [|discriminate].
  destruct (combine merge fivers hazels) as [[sh cov]|]; [|discriminate]. injection H as _ _ <-. apply in_app_iff. left. apply ls_in. auto.
Qed.
Lemma recover_dir d g : DI d g -> exists shards merges removed, recover sort merge (names d) = Some (shards, merges, removed).
Proof.
  intros D. apply (recover_total sort merge Hs).
  - intros r H. apply (named_file d g D); [left; reflexivity|exact H|apply has_prefix_app].
  - intros r H. left. apply (named_file d g D); [right; left; reflexivity|exact H|apply has_prefix_app].
  - intros x y p Hx Hy Hp Rx Ry. assert (K : exists k, (k = FiverK \/ k = HazelK) /\ p = kname k) by (destruct Hp as [<-|[<-|[]]]; [exists FiverK|exists HazelK]; auto).
    destruct K as (k & K & ->).
    assert (F : fits k (s_start x) (s_end x) k (s_start y) (s_end y)).
    { apply (files_fit d g D x y k k); auto; (split; [assumption|]); destruct K as [-> | ->]; auto. }
    unfold within, separate, covers. destruct F as [F|[F|[F|F]]]; [right; right; intros n; lia|right; right; intros n; lia|left; lia|right; left; lia].
  - intros f h Hf Hh Rf Rh. assert (F : fits FiverK (s_start f) (s_end f) HazelK (s_start h) (s_end h)).
    { apply (files_fit d g D f h FiverK HazelK); auto; split; auto. }
    unfold within, separate, covers. destruct F as [F|[F|[F|F]]]; [right; intros n; lia|right; intros n; lia|left; lia|]. destruct F as (_ & _ & F). specialize (F eq_refl). discriminate.
Qed.

(** * Removing what recovery removes *)
Definition no_scripts (d : dir) : Prop := forall n, first n = 99 -> find d n = None.
Lemma removed_di d g shards merges removed l : DI d g -> no_scripts d -> recover sort merge (names d) = Some (shards, merges, removed) ->
  (forall n, In n l -> In n removed) -> DI (run (map Remove l) d) g.
Proof.
  intros D Ns R Hl. destruct (recover_some sort merge Hs Hm _ _ _ _ R) as (R1 & R2 & R3 & R4 & R5 & _). specialize (R5 (d_nd _ _ D)).
  assert (Le : forall n f, find (run (map Remove l) d) n = Some f -> find d n = Some f) by (intros n f F; rewrite run_remove in F; destruct (in_dec _ n l); [discriminate|exact F]).
  constructor; try apply D.
  - apply run_remove_nodup, D.
  - intros n f F K. apply (d_sh _ _ D n f (Le _ _ F) K).
  - intros k s e f k' s' e' f' F F' K K'. apply (d_lam _ _ D _ _ _ _ _ _ _ _ (Le _ _ F) (Le _ _ F') K K').
  - intros n f F K. apply Le in F. rewrite (Ns n K) in F. discriminate.
  - intros x Hx. left. destruct (d_dur _ _ D x Hx) as [(k & s & e & f & S1 & S2 & S3)|(k & seqs & A & _)]; [|rewrite (Ns (script_name k) eq_refl) in A; discriminate].
    destruct (of_file d g D k s e f S1 S2) as [Sf _]. destruct (R3 _ Sf) as (y & Hy & W). destruct (file_of d g D y (R2 y Hy)) as (c & l' & C & _ & Ec & _ & _ & Fy & _).
    exists c, (s_start y), (s_end y). eexists. split; [exact C|]. rewrite <- Ec, run_remove. destruct (in_dec _ (s_name y) l) as [H|_]; [exfalso; apply (R5 y Hy), Hl, H|].
    split; [exact Fy|]. unfold within in W. cbn in W. lia.
Qed.

(** * Loading *)
Definition loads (d : dir) (s : shard) (e : entry) : Prop :=
  e_start e = s_start s /\ e_end e = s_end s /\ (e_kind e = FiverK \/ e_kind e = HazelK) /\ names_range (kname (e_kind e)) (s_name s) (s_start s) (s_end s) /\
  ename e = s_name s /\ find d (ename e) = Some (Shard_ (e_start e) (e_end e) (e_txns e)).
Lemma load_all_ok d : forall shards i, (forall x, In x shards -> exists k l, (k = FiverK \/ k = HazelK) /\ names_range (kname k) (s_name x) (s_start x) (s_end x) /\
    s_name x = shard_name (kname k) (s_start x) (s_end x) /\ find d (s_name x) = Some (Shard_ (s_start x) (s_end x) l)) ->
  exists es, load_all d i shards = Some es /\ Forall2 (loads d) shards es /\ map e_id es = seq i (length shards).
Proof.
  induction shards as [|x r IH]; intros i H; cbn [load_all].
  - exists []. split; [reflexivity|]. split; [constructor|reflexivity].
  - destruct (IH (S i)) as (es & E1 & E2 & E3); [intros y Hy; apply H; right; exact Hy|]. destruct (H x (or_introl eq_refl)) as (k & l & K & R & En & F).
    unfold load. rewrite F, E1. assert (Kx : (if has_prefix (lit "hazel.") (s_name x) then HazelK else FiverK) = k).
    { destruct K as [-> | ->].
      - destruct (has_prefix _ _) eqn:P; [|reflexivity]. apply first_prefix in P; [|discriminate]. rewrite En, first_shard in P. discriminate.
      - rewrite En. unfold shard_name. rewrite (app_assoc (kname HazelK)). rewrite (has_prefix_app (lit "hazel.")). reflexivity. }
    rewrite Kx. eexists. split; [reflexivity|]. split; [|cbn; f_equal; exact E3]. constructor; [|exact E2]. unfold loads, ename. cbn. rewrite <- En. auto 10.
Qed.
Lemma forall2_in {A B} (P : A -> B -> Prop) l r : Forall2 P l r -> (forall a, In a l -> exists b, In b r /\ P a b) /\ (forall b, In b r -> exists a, In a l /\ P a b).
Proof.
  induction 1 as [|a b l r H _ [IH1 IH2]]; [split; intros ? []|]. split.
  - intros x [<-|Hx]; [exists b; split; [left; reflexivity|exact H]|]. destruct (IH1 x Hx) as (y & Hy & K). exists y. split; [right; exact Hy|exact K].
  - intros x [<-|Hx]; [exists a; split; [left; reflexivity|exact H]|]. destruct (IH2 x Hx) as (y & Hy & K). exists y. split; [right; exact Hy|exact K].
Qed.
Lemma loads_apart d shards es : Forall2 (loads d) shards es -> apart shards -> StronglySorted (fun a b => e_end a < e_start b) es.
Proof.
  induction 1 as [|a b l r H F IH]; intros A; [constructor|]. inversion A as [|? ? A1 A2]; subst. constructor; [apply IH; exact A1|].
  rewrite Forall_forall in A2 |- *. intros e He. destruct (proj2 (forall2_in _ _ _ F) e He) as (s & Hs' & L). destruct L as (L1 & _), H as (_ & H & _). rewrite L1, H. apply A2. exact Hs'.
Qed.
Lemma next_sequence_ok es : StronglySorted (fun a b => e_end a < e_start b) es -> (forall e, In e es -> e_start e <= e_end e) -> forall e, In e es -> e_end e < next_sequence es.
Proof.
  intros H W e He. unfold next_sequence. destruct es as [|a es] using rev_ind; [contradiction|]. rewrite rev_app_distr. cbn. clear IHes. apply sorted_app in H. destruct H as (_ & _ & H).
  apply in_app_iff in He. destruct He as [He|[<-|[]]]; [|lia]. specialize (H e a He (or_introl eq_refl)). assert (e_start a <= e_end a) by (apply W, in_app_iff; right; left; reflexivity). lia.
Qed.
Lemma next_sequence_range es : (forall e, In e es -> 0 <= e_start e <= e_end e /\ e_end e < maxf) -> 0 <= next_sequence es <= maxf.
Proof.
  intros W. unfold next_sequence. destruct (rev es) as [|a r] eqn:E; [unfold maxf; lia|]. assert (K : In a es) by (apply in_rev; rewrite E; left; reflexivity). apply W in K. lia.
Qed.
Lemma fresh_inv d g shards merges removed : DI d g -> no_scripts d -> recover sort merge (names d) = Some (shards, merges, removed) ->
  exists es, load_all (run (map Remove removed) d) 0 shards = Some es /\ Inv (fresh es) (run (map Remove removed) d) g /\ (forall e, In e es -> visible e = true).
Proof.
  intros D Ns R. pose proof (removed_di d g shards merges removed removed D Ns R (fun n H => H)) as D3. set (d3 := run (map Remove removed) d) in *.
  destruct (recover_some sort merge Hs Hm _ _ _ _ R) as (R1 & R2 & R3 & R4 & R5 & _). specialize (R5 (d_nd _ _ D)).
  assert (Le : forall n f, find d3 n = Some f -> find d n = Some f) by (intros n f F; unfold d3 in F; rewrite run_remove in F; destruct (in_dec _ n removed); [discriminate|exact F]).
  assert (K3 : forall x, In x shards -> shard_file (names d3) x).
  { intros x Hx. destruct (R2 x Hx) as [A B]. split; [|exact B]. destruct (in_find _ _ A) as [f F]. apply (find_in _ _ f). unfold d3. rewrite run_remove.
    destruct (in_dec _ (s_name x) removed) as [H|_]; [exfalso; apply (R5 x Hx H)|exact F]. }
  destruct (load_all_ok d3 shards 0) as (es & E1 & E2 & E3).
  { intros x Hx. destruct (file_of d3 g D3 x (K3 x Hx)) as (k & l & A & B & C & _ & _ & F & _). exists k, l. auto. }
  exists es. split; [exact E1|]. destruct (forall2_in _ _ _ E2) as [F1 F2].
  assert (Vis : forall e, In e es -> visible e = true). { intros e He. apply visible_kind. destruct (F2 e He) as (s & _ & L). apply L. }
  split; [|exact Vis].
  assert (So : StronglySorted (fun a b => e_end a < e_start b) es) by (apply (loads_apart d3 shards); assumption).
  assert (Ent : forall e, In e es -> 0 <= e_start e <= e_end e /\ e_end e < maxf).
  { intros e He. destruct (F2 e He) as (s & Hs' & L1 & L2 & _). destruct (file_of d3 g D3 s (K3 s Hs')) as (k & l & _ & _ & _ & A & B & _). lia. }
  assert (Nx : forall e, In e es -> e_end e < next_sequence es) by (apply next_sequence_ok; [exact So|intros e He; apply Ent in He; lia]).
  assert (Cov : forall k s e f, (k = FiverK \/ k = HazelK) -> find d3 (shard_name (kname k) s e) = Some f -> exists v, In v es /\ e_start v <= s /\ e <= e_end v /\ (k = HazelK -> e_kind v = HazelK)).
  { intros k s e f K F. destruct (of_file d3 g D3 k s e f K F) as [Sf Rg]. apply Le in F. destruct (of_file d g D k s e f K F) as [Sf' _].
    assert (Q : exists y, In y shards /\ within (Shard s e (shard_name (kname k) s e)) y /\ (k = HazelK -> names_range (lit "hazel") (s_name y) (s_start y) (s_end y))).
    { destruct K as [-> | ->].
      - destruct (R3 _ Sf') as (y & Hy & W). exists y. split; [exact Hy|]. split; [exact W|discriminate].
      - destruct (recover_hazel _ _ _ _ (Shard s e (shard_name (kname HazelK) s e)) R) as (y & Hy & W & Ry); [apply Sf'|apply shard_name_range; cbn; lia|]. exists y. auto. }
    destruct Q as (y & Hy & W & Ry). destruct (F1 y Hy) as (v & Hv & L1 & L2 & L3 & L4 & _). exists v. unfold within in W. cbn in W. split; [exact Hv|]. split; [lia|]. split; [lia|].
    intros Hk. destruct L3 as [L3|L3]; [|exact L3]. exfalso. rewrite L3 in L4. apply (both_kinds _ _ _ _ _ L4 (Ry Hk)). }
  assert (Ns3 : no_scripts d3). { intros n Hn. destruct (find d3 n) eqn:F; [|reflexivity]. apply Le in F. rewrite (Ns n Hn) in F. discriminate. }
  assert (Nk : forall s e, find d3 (shard_name (lit "kitten") s e) = None).
  { intros s e. destruct (find d3 (shard_name (lit "kitten") s e)) as [f|] eqn:F; [|reflexivity]. exfalso. pose proof (Le _ _ F) as F'.
    assert (K : In (shard_name (lit "kitten") s e) removed) by (apply (recover_kittens _ _ _ _ _ R); [apply (find_in _ _ _ F')|apply has_prefix_app]).
    unfold d3 in F. rewrite run_remove in F. destruct (in_dec _ _ removed); [discriminate|contradiction]. }
  assert (Dur : forall x, In x g -> exists v, In v es /\ visible v = true /\ e_start v <= t_seq x <= e_end v).
  { intros x Hx. destruct (d_dur _ _ D3 x Hx) as [(k & s & e & f & S1 & S2 & S3)|(k & seqs & A & _)]; [|rewrite (Ns3 (script_name k) eq_refl) in A; discriminate].
    destruct (Cov k s e f S1 S2) as (v & Hv & A & B & _). exists v. split; [exact Hv|]. split; [apply Vis; exact Hv|lia]. }
  constructor; cbn.
  - apply next_sequence_range. exact Ent.
  - apply D3.
  - exact So.
  - rewrite E3. apply seq_NoDup.
  - intros v Hv. destruct (Ent v Hv). split; [lia|]. split; [apply Nx; exact Hv|].
    assert (K : In (e_id v) (map e_id es)) by (apply in_map; exact Hv). rewrite E3 in K. apply in_seq in K. assert (Ln : length es = length shards) by (rewrite <- (map_length e_id es), E3, seq_length; reflexivity). lia.
  - intros v Hv V. destruct (F2 v Hv) as (s & Hs' & L). destruct L as (L1 & L2 & L3 & _ & L5 & L6). split; [|exact L6].
    destruct (d_sh _ _ D3 _ _ L6) as (k & s' & e' & l & A1 & A2 & A3 & A4 & A5 & A6); [unfold ename; rewrite first_shard; destruct L3 as [-> | ->]; auto|].
    unfold ename in A1. apply shard_inj in A1. destruct A1 as (_ & <- & <-). injection A5 as <-. exact A6.
  - intros i. split; [discriminate|exact Logic.I].
  - discriminate.
  - intros s f. rewrite Nk. split; [discriminate|]. intros (i & x & K & _). discriminate.
  - intros w. split; [discriminate|]. split; [discriminate|exact Logic.I].
  - discriminate.
  - intros k. exact Logic.I.
  - intros [i|w|k] b n; discriminate.
  - intros [i|w|k] n; discriminate.
  - intros n f F K. destruct (d_sh _ _ D3 n f F K) as (k & s & e & l & A1 & A2 & A3 & A4 & A5 & A6). exists k, s, e, l. do 6 (split; [assumption|]). left.
    rewrite A1 in F. destruct (Cov k s e f A2 F) as (v & Hv & B). exists v. split; [exact Hv|]. split; [apply Vis; exact Hv|exact B].
  - apply D3.
  - intros n f F K. rewrite (Ns3 n K) in F. discriminate.
  - split; [apply D3|]. intros x Hx. destruct (Dur x Hx) as (v & Hv & _ & B). apply Nx in Hv. pose proof (proj2 (d_g _ _ D3) x Hx). lia.
  - intros x Hx. left. apply Dur. exact Hx.
  - discriminate.
  - discriminate.
Qed.

(** * All of it *)
Theorem opening_ok d g : DI d g -> exists acts m, opening sort merge d = Some (acts, m) /\ Inv m (run acts d) g /\ (forall k, DI (run (firstn k acts) d) g) /\
  (forall e, In e (m_entries m) -> visible e = true).
Proof.
  intros D. unfold opening. set (a1 := open_temps d). set (d1 := run a1 d).
  assert (T : forall k, DI (run (firstn k a1) d) g).
  { intros k. unfold a1, open_temps. rewrite firstn_map. apply temps_di; [exact D|]. intros n Hn. apply in_firstn in Hn. apply ls_in in Hn. destruct Hn as [_ Hn]. apply first_prefix in Hn; [exact Hn|discriminate]. }
  assert (D1 : DI d1 g) by (specialize (T (length a1)); rewrite firstn_all in T; exact T).
  set (a2 := open_scripts d1). set (d2 := run a2 d1). unfold open_scripts in a2.
  set (ns := filter is_commit_script (ls (names d1) (lit "commit"))) in a2.
  assert (Hns : forall n, In n ns -> first n = 99 /\ find d1 n <> None /\ find d1 n = find d1 n).
  { intros n Hn. apply filter_In in Hn. destruct Hn as [Hn _]. apply ls_in in Hn. destruct Hn as [Hn Hp]. apply first_prefix in Hp; [|discriminate]. split; [exact Hp|]. split; [|reflexivity].
    destruct (in_find _ _ Hn) as [f ->]. discriminate. }
  destruct (scripts_di g d1 ns d1 D1) as (S1 & S2 & S3); [apply NoDup_filter, NoDup_filter, D1|exact Hns|]. fold a2 in S1, S2, S3. fold d2 in S2, S3.
  assert (D2 : DI d2 g) by (specialize (S1 (length a2)); rewrite firstn_all in S1; exact S1).
  assert (N2 : no_scripts d2).
  { intros n Hn. destruct (in_dec bytes_eq_dec n ns) as [H|H]; [apply S2; exact H|]. rewrite S3 by assumption. destruct (find d1 n) as [f|] eqn:F; [|reflexivity]. exfalso. apply H.
    destruct (d_scr _ _ D1 n f F Hn) as (k & seqs & -> & _). apply filter_In. destruct (script_listed k) as [A B]. split; [|exact B]. apply ls_in. split; [apply (find_in _ _ _ F)|exact A]. }
  destruct (recover_dir d2 g D2) as (shards & merges & removed & R). rewrite R. destruct (fresh_inv d2 g shards merges removed D2 N2 R) as (es & E1 & E2 & E3). rewrite E1.
  exists (a1 ++ a2 ++ map Remove removed), (fresh es). split; [reflexivity|]. split; [rewrite !run_app; exact E2|]. split; [|exact E3].
  intros k. rewrite firstn_app, run_app. destruct (Nat.le_gt_cases k (length a1)) as [L|L].
  - replace (k - length a1)%nat with 0%nat by lia. apply T.
  - rewrite (firstn_all2 a1) by lia. fold d1. generalize (k - length a1)%nat. clear k L. intros k. rewrite firstn_app, run_app. destruct (Nat.le_gt_cases k (length a2)) as [L|L].
    + replace (k - length a2)%nat with 0%nat by lia. apply S1.
    + rewrite (firstn_all2 a2) by lia. fold d2. rewrite firstn_map. apply (removed_di d2 g shards merges removed); [exact D2|exact N2|exact R|]. intros n Hn. apply in_firstn in Hn. exact Hn.
Qed.
End Open.
