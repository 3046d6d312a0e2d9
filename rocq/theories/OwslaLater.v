(** What the indexes of shards keep when shards are replaced. *)
From Verif Require Import Base HopperModel ArrayDefs GclSpec HopperProofs UnaryProofs AnswerProofs VectorModel Bytes CodecModel CodecSpec CodecProofs PostingModel PostingSpec PostingProofs ShardModel ShardSpec
  ShardProofs TokenModel TextModel TextSpec HazelModel HazelSpec HazelProofs HazelSources HazelMerge FileModel FileSpec FileProofs OwslaModel OwslaSpec.

Lemma rows_lst ix f : rows_ok ix -> exists l, lst_of f ix l /\ Forall clean_at l.
Proof.
  intros R. destruct (find_posting ix f) as [p|] eqn:F; [|exists []; split; [constructor; exact F|constructor]].
  destruct (R f p F) as (_ & (Ff & l & H & N & G & V) & C). cbn [fst snd] in *. exists l. split; [econstructor; eassumption|].
  rewrite Forall_forall. intros x Hx. apply (holds_In p l x H) in Hx. destruct Hx as (i & Hi). exact (C i x Hi).
Qed.
Lemma rows_sound chunk ix : rows_ok ix -> sound chunk ix.
Proof. intros R f p _ F. apply (R f p F). Qed.
Lemma rows_of_lst ix f l : lst_of f ix l -> 0 <= f < maxf -> Forall clean_at l -> forall p, find_posting ix f = Some p -> row_ok (f, p).
Proof.
  intros H Rg C p F. destruct H as [E|q l E Ff H N G V]; [congruence|]. assert (q = p) as -> by congruence.
  split; [exact Rg|]. cbn [fst snd]. split; [split; [exact Ff|exists l; auto]|]. intros i x Hi.
  rewrite Forall_forall in C. apply C. apply (holds_In p l x H). exists i. exact Hi.
Qed.
Lemma rows_read ix : rows_ok ix -> rows_ok (read_ix ix).
Proof.
  intros R f p F. destruct (rows_lst ix f R) as (l & Hl & C). rewrite find_read in F. destruct (find_posting ix f) as [q|] eqn:E; [|discriminate].
  apply (rows_of_lst (read_ix ix) f l (lst_read f ix l Hl)); [apply (R f q E)|exact C|]. rewrite find_read, E. exact F.
Qed.
Lemma in_order_find ix r : In r (in_order ix) -> find_posting ix (fst r) = Some (snd r).
Proof.
  intros H. rewrite <- find_in_order. pose proof (in_order_sorted ix) as S. destruct r as [f p]. cbn [fst snd].
  induction (in_order ix) as [|[g q] m IH]; [destruct H|]. cbn [find_posting]. cbn in S. destruct S as [A S]. destruct H as [E|H].
  - injection E as -> ->. rewrite Z.eqb_refl. reflexivity.
  - rewrite Forall_forall in A. specialize (A _ H). cbn in A. replace (g =? f) with false by lia. exact (IH H S).
Qed.
Lemma sorted_order ix : sorted_rows ix -> map_order (map fst ix).
Proof.
  induction ix as [|[f p] r IH]; [exact (fun _ => Logic.I)|]. cbn [sorted_rows map]. intros [A S]. specialize (IH S).
  destruct r as [|[g q] t]; [exact Logic.I|]. cbn. cbn in IH. split; [|exact IH]. inversion A; assumption.
Qed.
Lemma order_index ix : rows_ok ix -> index_ok (in_order ix).
Proof.
  intros R. split; [apply sorted_order, in_order_sorted|]. rewrite Forall_forall. intros [f p] H. apply (R f p). exact (in_order_find ix _ H).
Qed.
Lemma index_rows ix : index_ok ix -> rows_ok ix.
Proof.
  intros [_ R] f p F. rewrite Forall_forall in R. apply (R (f, p)). revert F. clear. induction ix as [|[g q] r IH]; [discriminate|].
  cbn [find_posting]. destruct (Z.eqb_spec g f) as [->|]; [intros E; injection E as ->; left; reflexivity|intros E; right; auto].
Qed.

(** The same lists. *)
Definition same_ix (W M : index) : Prop := (forall f x, stored_in M f x <-> stored_in W f x) /\ forall f, fiver_count M f = fiver_count W f.
Lemma same_find W M : (forall f, find_posting M f = find_posting W f) -> same_ix W M.
Proof. intros E. split; intros f; unfold stored_in, fiver_count; rewrite E; tauto. Qed.
Lemma same_read W : rows_ok W -> same_ix W (read_ix W).
Proof.
  intros R. split.
  - intros f x. destruct (rows_lst W f R) as (l & Hl & _). rewrite (lst_stored _ _ _ Hl x), (lst_stored _ _ _ (lst_read _ _ _ Hl) x). tauto.
  - intros f. destruct (rows_lst W f R) as (l & Hl & _). rewrite (lst_count _ _ _ Hl), (lst_count _ _ _ (lst_read _ _ _ Hl)). reflexivity.
Qed.
Lemma same_trans A B C : same_ix A B -> same_ix B C -> same_ix A C.
Proof. intros [H1 H2] [K1 K2]. split; [intros f x; rewrite K1; apply H1|intros f; rewrite K2; apply H2]. Qed.
Lemma same_sym A B : same_ix A B -> same_ix B A.
Proof. intros [H1 H2]. split; [intros f x; symmetry; apply H1|intros f; symmetry; apply H2]. Qed.
Lemma same_refl A : same_ix A A.
Proof. split; intros; reflexivity. Qed.

Section Later.
Variable chunk : Z.
(** Shards [ys] in place of the shards [xs]. *)
Definition later (xs ys : list index) : Prop :=
  (forall f, bigwig_count ys f <= bigwig_count xs f) /\
  (erasures_apart xs -> erasures_apart ys /\ forall f, f <> chunk -> f <> null_feature ->
     (forall x, ShardSpec.visible xs f x -> ShardSpec.visible ys f x) /\
     (no_straddle xs f -> no_straddle ys f /\ forall x, ShardSpec.visible ys f x <-> ShardSpec.visible xs f x)).
Lemma later_refl xs : later xs xs.
Proof. split; [intros; lia|]. intros Ap. split; [exact Ap|]. intros f _ _. split; [tauto|]. intros Ns. split; [exact Ns|tauto]. Qed.
Lemma later_trans xs ys zs : later xs ys -> later ys zs -> later xs zs.
Proof.
  intros [A1 A2] [B1 B2]. split; [intros f; specialize (A1 f); specialize (B1 f); lia|]. intros Ap. destruct (A2 Ap) as [Ap2 A3]. destruct (B2 Ap2) as [Ap3 B3].
  split; [exact Ap3|]. intros f Nf Nn. destruct (A3 f Nf Nn) as [A4 A5]. destruct (B3 f Nf Nn) as [B4 B5]. split; [auto|].
  intros Ns. destruct (A5 Ns) as [Ns2 A6]. destruct (B5 Ns2) as [Ns3 B6]. split; [exact Ns3|]. intros x. rewrite B6. apply A6.
Qed.
Lemma inner_same xs ys f : Forall2 same_ix xs ys -> forall x, innermost_of ys f x <-> innermost_of xs f x.
Proof.
  intros H. unfold innermost_of. assert (K : Forall2 eqs (map (fun w => stored_in w f) xs) (map (fun w => stored_in w f) ys)).
  { induction H as [|a b xs ys [S _] _ IH]; cbn [map]; constructor; [|exact IH]. intros x. symmetry. apply S. }
  intros x. symmetry. exact (sem_inner_ext _ _ K x).
Qed.
Lemma stored_same xs ys f x : Forall2 same_ix xs ys -> (stored_by ys f x <-> stored_by xs f x).
Proof.
  induction 1 as [|a b xs ys [S _] _ IH]; [reflexivity|]. rewrite !stored_cons, IH, S. tauto.
Qed.
Lemma later_same xs ys : Forall2 same_ix xs ys -> later xs ys.
Proof.
  intros H. assert (Er : forall x, erased ys x <-> erased xs x).
  { intros x. unfold erased. split; intros (e & He & Ne); exists e; (split; [apply (stored_same xs ys _ _ H), He|exact Ne]). }
  assert (V : forall f x, ShardSpec.visible ys f x <-> ShardSpec.visible xs f x).
  { intros f x. unfold ShardSpec.visible. rewrite (inner_same xs ys f H x), Er. tauto. }
  split.
  - intros f. clear Er V. induction H as [|a b xs ys [_ S] _ IH]; [lia|]. rewrite !count_cons, S. lia.
  - intros Ap. split; [intros d e Hd He; apply Ap; apply (stored_same xs ys _ _ H); assumption|].
    intros f _ _. split; [intros x; apply V|]. intros Ns. split; [|apply V]. intros x y Hx Hy N K. apply Er. apply (Ns x y); [apply (stored_same xs ys _ _ H); assumption..|exact N|]. apply Er, K.
Qed.
Lemma same_all xs : Forall2 same_ix xs xs.
Proof. induction xs; constructor; [apply same_refl|assumption]. Qed.
Lemma later_one A W M D : same_ix W M -> later (A ++ W :: D) (A ++ M :: D).
Proof. intros S. apply later_same. apply Forall2_app; [apply same_all|]. constructor; [exact S|apply same_all]. Qed.
Lemma later_replaces A R M D : null_feature <> chunk -> Forall (sound chunk) (A ++ R ++ D) -> replaces chunk R M ->
  fiver_count M chunk <= bigwig_count R chunk -> later (A ++ R ++ D) (A ++ M :: D).
Proof.
  intros N S Mc Ck. split.
  - intros f. rewrite !count_app, count_cons. destruct (Z.eq_dec f chunk) as [->|Nf]; [lia|].
    destruct Mc as [->|(_ & _ & _ & L)]; [rewrite count_cons; cbn; lia|]. specialize (L f Nf). lia.
  - intros Ap. split; [exact (step_apart chunk N _ _ _ _ Mc Ap)|]. intros f Nf Nn.
    split; [exact (step_keeps chunk N _ _ _ _ Mc S f Nf Nn Ap)|]. intros Ns.
    split; [exact (step_straddle chunk N _ _ _ _ Mc S f Nf Ap Ns)|exact (step_visible chunk N _ _ _ _ Mc S f Nf Nn Ap Ns)].
Qed.
(** What is stored after a merge was stored before. *)
Lemma replaces_from R M f x : f <> chunk -> replaces chunk R M -> stored_in M f x -> stored_by R f x.
Proof.
  intros Nf Mc H. pose proof (step_stored chunk [] R [] M Mc f x Nf) as K. cbn [app] in K. rewrite app_nil_r in K. apply K, stored_cons. auto.
Qed.
Lemma replaces_rows R M l : null_feature <> chunk -> 0 <= chunk < maxf -> Forall rows_ok R -> replaces chunk R M ->
  lst_of chunk M l -> Forall clean_at l -> rows_ok M.
Proof.
  intros N Rc Rr Mc Hl C f p F. destruct (Z.eq_dec f chunk) as [->|Nf]; [exact (rows_of_lst M chunk l Hl Rc C p F)|].
  pose proof (step_sound chunk [] R [] M Mc) as S. cbn [app] in S. rewrite app_nil_r in S.
  assert (Sm : sound chunk M). { assert (K : Forall (sound chunk) [M]) by (apply S; eapply Forall_impl; [|exact Rr]; intros w; apply rows_sound). inversion K; assumption. }
  pose proof (Sm f p Nf F) as (Ff & l' & H & Nl & G & V).
  assert (Src : forall x, In x l' -> exists w q, In w R /\ find_posting w f = Some q /\ exists i, get q i = Ok (Some x)).
  { intros x Hx. apply (holds_In p l' x H) in Hx. destruct Hx as (i & Hi).
    destruct (replaces_from R M f x Nf Mc) as (w & Hw & q & j & Fq & Gq); [exists p, i; auto|]. exists w, q. eauto. }
  rewrite Forall_forall in Rr. apply (rows_of_lst M f l'); [econstructor; eassumption| | |exact F].
  - destruct l' as [|x r]; [contradiction|]. destruct (Src x (or_introl eq_refl)) as (w & q & Hw & Fq & _). apply (Rr w Hw f q Fq).
  - rewrite Forall_forall. intros x Hx. destruct (Src x Hx) as (w & q & Hw & Fq & i & Gi). exact (proj2 (proj2 (Rr w Hw f q Fq)) i x Gi).
Qed.
End Later.
