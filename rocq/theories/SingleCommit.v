(** Transactions on a single-file index: what they leave, whatever crashes. *)
From Verif Require Import Base HopperModel ArrayDefs GclSpec ArrayProofs UnaryProofs Bytes CodecModel CodecSpec CodecProofs PostingModel PostingSpec PostingProofs PostingIO AnnProofs
  ShardModel ShardSpec ShardProofs HazelSpec HazelProofs SingleModel SingleSpec SingleLookup SingleMerge SingleBatch.
From Coq Require Import Permutation Sorted.

(** * Files that are left alone *)
Definition touches (o : op) (a : name) : bool :=
  match o with
  | Put b _ | Delete b | Link _ b => name_eqb b a
  | Move b c => name_eqb b a || name_eqb c a
  end.
Lemma exec1_frame d o a : touches o a = false -> exec1 d o a = d a.
Proof.
  destruct o as [b c|b c|b|b c]; cbn; intros H.
  - unfold set. rewrite H. reflexivity.
  - apply orb_false_iff in H. destruct H as [H1 H2]. destruct (d b); [|reflexivity]. unfold set. rewrite H1, H2. reflexivity.
  - unfold set. rewrite H. reflexivity.
  - destruct (d b); [|reflexivity]. destruct (d c); [reflexivity|]. unfold set. rewrite H. reflexivity.
Qed.
Lemma exec_frame l : forall d a, Forall (fun o => touches o a = false) l -> exec d l a = d a.
Proof. induction l as [|o l IH]; intros d a H; [reflexivity|]. inversion H; subst. change (exec d (o :: l) a) with (exec (exec1 d o) l a). rewrite IH by assumption. apply exec1_frame. assumption. Qed.
(** Nothing before commit touches the index. *)
Definition inert (o : op) : Prop := touches o Idx = false /\ touches o Pst = false /\ touches o Idx_NEW = false /\ touches o Pst_NEW = false.
Lemma exec_inert l d : Forall inert l -> exec d l Idx = d Idx /\ exec d l Pst = d Pst /\ exec d l Idx_NEW = d Idx_NEW /\ exec d l Pst_NEW = d Pst_NEW.
Proof. intros H. repeat split; apply exec_frame; (eapply Forall_impl; [|exact H]); intros o (A & B & C & D); assumption. Qed.
Lemma crashed_inert d l d' : Forall inert l -> crashed d l d' -> exists l', Forall inert l' /\ d' = exec d l'.
Proof.
  intros H C. destruct C as [done rest|done a b c rest]; apply Forall_app in H; destruct H as [H1 H2].
  - exists done. auto.
  - exists (done ++ [Put a b]). split; [|reflexivity]. apply Forall_app. split; [exact H1|]. constructor; [|constructor]. inversion H2 as [|? ? K _]; subst. exact K.
Qed.
(** Only temporary files from [n] on are written. *)
Definition scratch (n : nat) (o : op) : Prop := match o with Put (Temp m) _ => (n <= m)%nat | _ => False end.
Lemma scratch_inert n o : scratch n o -> inert o.
Proof. destruct o as [[]| | |]; cbn; intros H; try contradiction. repeat split. Qed.
Lemma scratch_frame n l d a : Forall (scratch n) l -> (forall m, a = Temp m -> (m < n)%nat) -> exec d l a = d a.
Proof.
  intros H K. apply exec_frame. eapply Forall_impl; [|exact H]. intros o Ho. destruct o as [[]| | |]; try contradiction. cbn in *. destruct a as [| | | | | | |m]; try reflexivity.
  specialize (K m eq_refl). apply Nat.eqb_neq. lia.
Qed.

Section Commit.
Variables cp cf : compressor.
Hypothesis stores : stores_lists cp cf.
Variables (sort : list annotation -> list annotation) (limit : nat).
Hypothesis sorts : forall l, start_sorted l (sort l).

(** The annotations an annotator takes. *)
Definition takes (a : annotation) : bool := negb (afeat a <=? null_feature) && (0 <=? ip (aiv a)) && (ip (aiv a) <=? iq (aiv a)).
Definition held_file (d : dir) (n : nat) (B : list annotation) : Prop :=
  exists ix b, d (Temp n) = Some b /\ (forall o, exists m, filed cp cf o ix m b) /\ batch_file B ix.
Definition held (d : dir) (a : annotator) (Bs : list (list annotation)) : Prop :=
  adding a = true /\ isready a = false /\ Forall (fun n => (n < temps a)%nat) (files a) /\ Forall2 (held_file d) (files a) Bs.
Lemma held_frame d d' a Bs : (forall n, (n < temps a)%nat -> d' (Temp n) = d (Temp n)) -> held d a Bs -> held d' a Bs.
Proof.
  intros E (A & B & C & D). split; [exact A|]. split; [exact B|]. split; [exact C|]. clear -E C D. induction D as [|n x ns Bs (ix & b & H) _ IH]; [constructor|]. inversion C; subst.
  constructor; [|apply IH; assumption]. exists ix, b. rewrite E by assumption. exact H.
Qed.
Lemma apart_incl A B : incl A B -> apart B -> apart A.
Proof. intros I H f x y (Hx & Hx') (Hy & Hy'). apply (H f); split; auto. Qed.
Lemma taken_perm A B f x : Permutation A B -> taken A f x -> taken B f x.
Proof. intros P (H & K). split; [exact (Permutation_in _ P H)|exact K]. Qed.
Lemma flush_ok force d a Bs : held d a Bs -> Forall fine (added a) -> apart (added a) -> Z.of_nat (length (added a)) <= 288230376151711743 ->
  exists ops a' Bs', flush cp cf sort limit force a = Ok (ops, a') /\ held (exec d ops) a' Bs' /\ concat Bs' ++ added a' = concat Bs ++ added a /\
    Forall (scratch (temps a)) ops /\ (temps a <= temps a')%nat /\ (force = true -> added a' = []).
Proof.
  intros H F A L. unfold flush. destruct (_ || _) eqn:E.
  - destruct (sorts (added a)) as [P S].
    assert (F' : Forall fine (sort (added a))) by (rewrite Forall_forall in *; intros x Hx; apply F; exact (Permutation_in _ (Permutation_sym P) Hx)).
    assert (A' : apart (sort (added a))) by (apply (apart_incl _ (added a)); [intros x Hx; exact (Permutation_in _ (Permutation_sym P) Hx)|exact A]).
    pose proof (Permutation_length P) as Lp.
    destruct (write_batch_ok cp cf stores (length (sort (added a))) (sort (added a))) as (ix & b & W & Fd & O & Ff & Lf); [apply start_ann; assumption|lia|assumption|assumption|rewrite <- Lp; exact L|].
    rewrite W. cbn [bind]. exists [Put (Temp (temps a)) b]. eexists. exists (Bs ++ [added a]). split; [reflexivity|]. cbn [added adding isready files temps].
    split; [|split; [|split; [|split]]].
    + destruct H as (H1 & H2 & H3 & H4). split; [exact H1|]. split; [exact H2|]. cbn [files temps]. split; [apply Forall_app; split; [eapply Forall_impl; [|exact H3]; cbn; intros; lia|constructor; [lia|constructor]]|].
      apply Forall2_app.
      * clear -H3 H4. induction H4 as [|n x ns Bs (ix & b' & H) _ IH]; [constructor|]. inversion H3; subst. constructor; [|apply IH; assumption]. exists ix, b'.
        cbn. unfold set. cbn [name_eqb]. replace (Nat.eqb (temps a) n) with false by (symmetry; apply Nat.eqb_neq; lia). exact H.
      * constructor; [|constructor]. exists ix, b. split; [cbn; unfold set; cbn; rewrite Nat.eqb_refl; reflexivity|]. split; [exact Fd|]. split; [exact O|]. split.
        -- intros f Hf. destruct (Ff f Hf) as (x & Hx & Ex). exists x. split; [exact (Permutation_in _ (Permutation_sym P) Hx)|exact Ex].
        -- intros f. destruct (Lf f) as (l & Ll & El & Nl). exists l. split; [exact Ll|]. split; [|lia]. intros x. rewrite (El x). split; apply taken_perm; [symmetry|]; exact P.
    + rewrite concat_app. cbn. rewrite !app_nil_r. reflexivity.
    + constructor; [cbn; lia|constructor].
    + lia.
    + reflexivity.
  - exists [], a, Bs. split; [reflexivity|]. split; [exact H|]. split; [reflexivity|]. split; [constructor|]. split; [lia|]. intros ->. apply orb_false_iff in E. destruct E as [E _]. cbn in E. destruct (added a); [reflexivity|discriminate].
Qed.
Lemma annotate_all_ok anns : forall d a Bs, held d a Bs -> Forall fine (added a) -> Forall in_range anns -> apart (added a ++ anns) -> Z.of_nat (length (added a ++ anns)) <= 288230376151711743 ->
  exists ops a' Bs', annotate_all cp cf sort limit anns a = Ok (ops, a') /\ held (exec d ops) a' Bs' /\ concat Bs' ++ added a' = concat Bs ++ added a ++ filter takes anns /\
    Forall (scratch (temps a)) ops /\ (temps a <= temps a')%nat /\ Forall fine (added a') /\ incl (added a') (added a ++ anns) /\ (length (added a') <= length (added a ++ anns))%nat.
Proof.
  induction anns as [|x anns IH]; intros d a Bs H F R A L.
  - exists [], a, Bs. rewrite !app_nil_r. split; [reflexivity|]. split; [exact H|]. split; [reflexivity|]. split; [constructor|]. split; [lia|]. split; [exact F|]. split; [apply incl_refl|lia].
  - inversion R as [|? ? R1 R2]; subst. cbn [annotate_all]. unfold annotate. cbn [filter].
    assert (Ad : adding a = true) by apply H. rewrite Ad. cbn [negb].
    assert (Skip : takes x = false -> exists ops a' Bs', annotate_all cp cf sort limit anns a = Ok (ops, a') /\ held (exec d ops) a' Bs' /\ concat Bs' ++ added a' = concat Bs ++ added a ++ filter takes anns /\
      Forall (scratch (temps a)) ops /\ (temps a <= temps a')%nat /\ Forall fine (added a') /\ incl (added a') (added a ++ x :: anns) /\ (length (added a') <= length (added a ++ x :: anns))%nat).
    { intros _. destruct (IH d a Bs H F R2) as (ops & a' & Bs' & E1 & E2 & E3 & E4 & E5 & E6 & E7 & E8).
      - apply (apart_incl _ (added a ++ x :: anns)); [|exact A]. intros y Hy. apply in_app_or in Hy. apply in_or_app. destruct Hy; [left|right; right]; assumption.
      - rewrite app_length in *. cbn [length] in L. lia.
      - exists ops, a', Bs'. repeat (split; [assumption|]). split; [|rewrite app_length in *; cbn [length]; lia]. intros y Hy. specialize (E7 y Hy). apply in_app_or in E7. apply in_or_app. destruct E7; [left|right; right]; assumption. }
    destruct (afeat x <=? null_feature) eqn:E0.
    { cbn [bind]. assert (T : takes x = false) by (unfold takes; rewrite E0; reflexivity). rewrite T. destruct (Skip T) as (ops & a' & Bs' & E1 & E2). rewrite E1. cbn [bind snd app]. exists ops, a', Bs'. split; [reflexivity|exact E2]. }
    destruct ((0 <=? ip (aiv x)) && (ip (aiv x) <=? iq (aiv x))) eqn:E1.
    2:{ cbn [bind]. assert (T : takes x = false) by (unfold takes; rewrite <- andb_assoc, E1, andb_false_r; reflexivity). rewrite T. destruct (Skip T) as (ops & a' & Bs' & E2 & E3). rewrite E2. cbn [bind snd app]. exists ops, a', Bs'. split; [reflexivity|exact E3]. }
    assert (T : takes x = true) by (unfold takes; rewrite E0, <- andb_assoc, E1; reflexivity). rewrite T. clear Skip.
    assert (Fx : fine x) by (unfold null_feature in E0; split; [lia|]; split; [lia|exact R1]).
    set (a1 := Annotator true (isready a) (added a ++ [x]) (files a) (temps a)).
    assert (H1 : held d a1 Bs) by (destruct H as (_ & H2 & H3 & H4); split; [reflexivity|]; split; [exact H2|]; split; assumption).
    destruct (flush_ok false d a1 Bs H1) as (o1 & a2 & B2 & G1 & G2 & G3 & G4 & G5 & _).
    { apply Forall_app. split; [exact F|]. constructor; [exact Fx|constructor]. }
    { apply (apart_incl _ (added a ++ x :: anns)); [|exact A]. cbn. intros y Hy. apply in_app_or in Hy. apply in_or_app. destruct Hy as [Hy|[<-|[]]]; [left; exact Hy|right; left; reflexivity]. }
    { cbn. rewrite app_length in *. cbn [length] in *. lia. }
    rewrite G1. cbn [bind snd].
    assert (Inc : incl (added a2) (added a ++ [x]) /\ (length (added a2) <= length (added a ++ [x]))%nat).
    { unfold flush in G1. destruct (_ || _); [destruct (write_batch _ _ _ _); cbn [bind] in G1; [injection G1 as <- <-|discriminate|discriminate]; cbn; split; [intros y []|lia]|]. injection G1 as <- <-. cbn. split; [apply incl_refl|lia]. }
    destruct Inc as [Inc Ln].
    assert (Inc' : incl (added a2 ++ anns) (added a ++ x :: anns)).
    { intros y Hy. apply in_app_or in Hy. destruct Hy as [Hy|Hy]; [|apply in_or_app; right; right; exact Hy]. specialize (Inc y Hy). apply in_app_or in Inc. apply in_or_app. destruct Inc as [Inc|[<-|[]]]; [left; exact Inc|right; left; reflexivity]. }
    destruct (IH (exec d o1) a2 B2 G2) as (ops & a' & Bs' & K1 & K2 & K3 & K4 & K5 & K6 & K7 & K8).
    + rewrite Forall_forall in *. intros y Hy. specialize (Inc y Hy). apply in_app_or in Inc. destruct Inc as [Inc|[<-|[]]]; [apply F; exact Inc|exact Fx].
    + exact R2.
    + apply (apart_incl _ _ Inc' A).
    + rewrite app_length in *. cbn [length] in *. lia.
    + rewrite K1. cbn [bind]. exists (o1 ++ ops), a', Bs'. split; [reflexivity|]. split; [rewrite exec_app; exact K2|].
      split; [rewrite K3, app_assoc, G3; cbn [added a1]; rewrite <- !app_assoc; reflexivity|].
      split; [apply Forall_app; split; [exact G4|]; eapply Forall_impl; [|exact K4]; intros o Ho; destruct o as [[]| | |]; try contradiction; cbn in *; lia|].
      split; [cbn in G5; lia|]. split; [exact K6|]. split; [intros y Hy; apply Inc', K7, Hy|]. rewrite app_length in *. cbn [length] in *. lia.
Qed.
Lemma takes_taken anns f x : taken (filter takes anns) f x <-> taken anns f x.
Proof.
  unfold taken. rewrite filter_In. unfold takes, null_feature. cbn [afeat aiv]. split; [intros ((A & B) & C & D); auto|]. intros (A & B & C). split; [|auto]. split; [exact A|]. lia.
Qed.
Lemma read_files_ok d a Bs : Forall2 (held_file d) (files a) Bs -> exists ixs bs, read_files d (map Temp (files a)) = Some bs /\
  Forall2 (fun R b => exists o m, filed cp cf o R m b) ixs bs /\ Forall2 batch_file Bs ixs.
Proof.
  induction 1 as [|n B ns Bs (ix & b & E & Fd & Bf) _ (ixs & bs & IH1 & IH2 & IH3)]; [exists [], []; repeat split; constructor|].
  exists (ix :: ixs), (b :: bs). cbn. rewrite E, IH1. split; [reflexivity|]. split; constructor; try assumption. exists 0. apply Fd.
Qed.
(** The last list with [x] in it. *)
Lemma last_in (x : iv) ls : In x (concat ls) -> exists i l, nth_error ls i = Some l /\ In x l /\ forall j k, (i < j)%nat -> nth_error ls j = Some k -> ~ In x k.
Proof.
  induction ls as [|l ls IH]; [intros []|]. cbn. intros H. destruct (in_dec iv_dec x (concat ls)) as [K|K].
  - destruct (IH K) as (i & k & E & Hx & Hj). exists (S i), k. split; [exact E|]. split; [exact Hx|]. intros [|j] k' Lt E'; [lia|]. apply (Hj j k'); [lia|exact E'].
  - exists 0%nat, l. split; [reflexivity|]. split; [apply in_app_or in H; tauto|]. intros [|j] k Lt E Hx; [lia|]. cbn in E. apply K. apply in_concat. exists k. split; [exact (nth_error_In _ _ E)|exact Hx].
Qed.
Lemma inner_union S ls T : (forall x, In x (concat ls) <-> T x) -> (forall x y : iv, T x -> T y -> nests x y -> x = y) ->
  eqs (sem_inner (S :: map set_of ls)) (sem_inner [S; T]).
Proof.
  intros E A x. assert (E' : forall U y, In U (map set_of ls) -> U y -> T y).
  { intros U y HU Hy. apply in_map_iff in HU. destruct HU as (l & <- & Hl). apply E. apply in_concat. exists l. split; assumption. }
  assert (Nn : forall i U, nth_error (map set_of ls) i = Some U -> In U (map set_of ls)) by (intros i U K; exact (nth_error_In _ _ K)).
  split; intros [(i & U & Ei & Hx & Hl) Hn]; split.
  - destruct i as [|i].
    + cbn in Ei. injection Ei as <-. exists 0%nat, S. split; [reflexivity|]. split; [exact Hx|]. intros [|[|j]] V y Lt Ej Hy; [lia| |destruct j; discriminate]. cbn in Ej. injection Ej as <-.
      apply E in Hy. apply in_concat in Hy. destruct Hy as (l & Hl' & Hy). apply (In_nth_error ls) in Hl'. destruct Hl' as [k Hk]. apply (Hl (Datatypes.S k) (set_of l) y); [lia| |exact Hy]. cbn. rewrite nth_error_map, Hk. reflexivity.
    + exists 1%nat, T. split; [reflexivity|]. split; [apply (E' U); [exact (Nn i U Ei)|exact Hx]|]. intros [|[|j]] V y Lt Ej; [lia|lia|destruct j; discriminate].
  - intros V y [<-|[<-|[]]] Hy N; [apply (Hn S); [left; reflexivity|exact Hy|exact N]|]. apply E in Hy. apply in_concat in Hy. destruct Hy as (l & Hl' & Hy). apply (Hn (set_of l)); [right; apply in_map; exact Hl'|exact Hy|exact N].
  - destruct i as [|[|i]]; [| |destruct i; discriminate].
    + cbn in Ei. injection Ei as <-. exists 0%nat, S. split; [reflexivity|]. split; [exact Hx|]. intros [|j] V y Lt Ej Hy; [lia|]. apply (Hl 1%nat T y); [lia|reflexivity|]. apply (E' V); [exact (Nn j V Ej)|exact Hy].
    + cbn in Ei. injection Ei as <-. apply E in Hx as Hx'. destruct (last_in x ls Hx') as (i & l & E1 & E2 & E3). exists (Datatypes.S i), (set_of l).
      split; [cbn; rewrite nth_error_map, E1; reflexivity|]. split; [exact E2|]. intros [|j] V y Lt Ej Hy [P Q]; [lia|]. cbn in Ej. rewrite nth_error_map in Ej. destruct (nth_error ls j) as [k|] eqn:Ek; [|discriminate]. injection Ej as <-.
      assert (y = x); [|subst y; apply (E3 j k); [lia|exact Ek|exact Hy]]. apply A; [|exact Hx|unfold nests; lia]. apply E. apply in_concat. exists k. split; [exact (nth_error_In _ _ Ek)|exact Hy].
  - intros V y [<-|HV] Hy N; [apply (Hn S); [left; reflexivity|exact Hy|exact N]|]. apply (Hn T); [right; left; reflexivity|apply (E' V y HV Hy)|exact N].
Qed.
Lemma files_lists f Bs ixs : Forall2 batch_file Bs ixs -> exists ls, Forall2 (lst_of f) ixs ls /\ (forall x, In x (concat ls) <-> taken (concat Bs) f x) /\ bigwig_count ixs f <= Z.of_nat (length (concat Bs)).
Proof.
  induction 1 as [|B ix Bs ixs (O & _ & L) _ (ls & IH1 & IH2 & IH3)].
  - exists []. split; [constructor|]. split; [|cbn; lia]. intros x. split; [intros []|intros ([] & _)].
  - destruct (L f) as (l & Ll & El & Nl). exists (l :: ls). split; [constructor; assumption|]. split.
    + intros x. cbn [concat]. rewrite in_app_iff, IH2, (El x : In x l <-> _). unfold taken. rewrite in_app_iff. tauto.
    + rewrite count_cons, (lst_count f ix l Ll). cbn [concat]. rewrite app_length. lia.
Qed.
Lemma merge_all d a Bs ix m0 out0 anns : held d a Bs -> concat Bs = filter takes anns -> Forall in_range anns -> apart anns ->
  d Pst = Some out0 -> filed cp cf 0 ix m0 out0 -> index_ok ix -> (forall f, fiver_count ix f + Z.of_nat (length anns) <= 288230376151711743) ->
  exists bs ix' m out, read_files d (Pst :: map Temp (files a)) = Some bs /\ merge_updates cp cf bs = Ok (Some (map_bytes m, out)) /\ filed cp cf 0 ix' m out /\ updated ix anns ix'.
Proof.
  intros (_ & _ & _ & H) E R A Ep F O Sm. destruct (read_files_ok d a Bs H) as (ixs & bs & Er & Fb & Bf).
  assert (Oi : Forall index_ok ixs) by (clear -Bf; induction Bf as [|B ix Bs ixs (O & _) _ IH]; constructor; assumption).
  pose proof (filter_len takes anns) as Lf.
  assert (Cn : forall f, bigwig_count (ix :: ixs) f <= fiver_count ix f + Z.of_nat (length anns)).
  { intros f. destruct (files_lists f Bs ixs Bf) as (ls & _ & _ & K). rewrite count_cons, E in *. lia. }
  destruct (merge_updates_ok cp cf stores (ix :: ixs) (out0 :: bs)) as (ix' & m & out & Em & Fd & Mo & Mc & Mf & Ms).
  - constructor; assumption.
  - intros f. specialize (Cn f). specialize (Sm f). lia.
  - constructor; [eauto|exact Fb].
  - exists (out0 :: bs), ix', m, out. cbn [read_files]. rewrite Ep, Er. split; [reflexivity|]. split; [exact Em|]. split; [exact Fd|]. split; [exact Mo|]. split; [intros f; specialize (Cn f); specialize (Mc f); lia|].
    intros f. destruct (files_lists f Bs ixs Bf) as (ls & Ls & Hi & _). destruct (rows_lst [ix] f) as (l0' & Hl0); [constructor; [exact O|constructor]|]. inversion Hl0 as [|? l0 ? ? L0 N0]; subst. inversion N0; subst.
    destruct (Ms f (l0 :: ls)) as (l & Gl & El); [constructor; assumption|]. intros x. rewrite (lst_stored f ix' l (good_lst f ix' l Gl) x), (El x). cbn [map].
    etransitivity; [apply (inner_union (set_of l0) ls (taken anns f)); [intros y; rewrite Hi, E; apply takes_taken|intros y z; apply (A f)]|].
    apply sem_inner_ext. constructor; [|constructor; [intros y; reflexivity|constructor]]. intros y. symmetry. apply (lst_stored f ix l0 L0 y).
Qed.
Lemma moves d ti tp i p : ti <> tp -> d (Temp ti) = Some i -> d (Temp tp) = Some p ->
  exec d [Move (Temp ti) Idx_new; Move (Temp tp) Pst_new] Idx_new = Some i /\ exec d [Move (Temp ti) Idx_new; Move (Temp tp) Pst_new] Pst_new = Some p.
Proof.
  intros N E1 E2. cbn [exec fold_left exec1]. rewrite E1. set (d1 := set (set d Idx_new (Some i)) (Temp ti) None).
  assert (K : d1 (Temp tp) = Some p) by (unfold d1, set; cbn; replace (Nat.eqb ti tp) with false by (symmetry; apply Nat.eqb_neq; exact N); exact E2). rewrite K. split; reflexivity.
Qed.
Lemma cleanup_frame a d x : (forall n, x = Temp n -> (temps a <= n)%nat) -> Forall (fun n => (n < temps a)%nat) (files a) -> exec d (cleanup a) x = d x.
Proof.
  intros K F. apply exec_frame. unfold cleanup. rewrite Forall_map. eapply Forall_impl; [|exact F]. cbn. intros n L. destruct x as [| | | | | | |m]; try reflexivity. specialize (K m eq_refl). apply Nat.eqb_neq. lia.
Qed.
Lemma cleanup_inert a : Forall inert (cleanup a).
Proof. unfold cleanup. rewrite Forall_map. apply Forall_forall. intros n _. repeat split. Qed.
(** A transaction that reached commit. *)
Record poised (d : dir) (ix : index) (anns : list annotation) (ops : list op) (a : annotator) : Prop := {
  po_inert : Forall inert ops;
  po_state : adding a = false /\ isready a = true /\ added a = [] /\ files a = [];
  po_new : exists ix' m out, filed cp cf 0 ix' m out /\ updated ix anns ix' /\ exec d ops Idx_new = Some (map_bytes m) /\ exec d ops Pst_new = Some out /\ (fits ops -> len out <= maxf) }.
Theorem prepare_ok d a ix anns : kept_in cp cf ix d -> index_ok ix -> tidy d -> quiet a -> Forall in_range anns -> apart anns ->
  (forall f, fiver_count ix f + Z.of_nat (length anns) <= 288230376151711743) ->
  exists ops a', prepare cp cf sort limit d a anns = Ok (true, ops, a') /\ poised d ix anns ops a'.
Proof.
  intros (m0 & out0 & F0 & L0 & Ei & Ep) O (T1 & T2 & T3 & T4 & T5) (Q1 & Q2 & Q3 & Q4) R A Sm. unfold prepare, transaction, here. rewrite Q1, Ei, T3. cbn [negb orb].
  set (a1 := Annotator true (isready a) (added a) (files a) (temps a)). set (o1 := [Link Idx Lock]).
  assert (H1 : held (exec d o1) a1 []) by (split; [reflexivity|]; split; [exact Q2|]; cbn; rewrite Q4; split; constructor).
  assert (Len : Z.of_nat (length anns) <= 288230376151711743).
  { specialize (Sm 0). assert (0 <= fiver_count ix 0) by (unfold fiver_count; destruct (find_posting ix 0); unfold psize, len; lia). lia. }
  destruct (annotate_all_ok anns (exec d o1) a1 [] H1) as (o2 & a2 & Bs & E1 & E2 & E3 & E4 & E5 & E6 & E7 & E8); cbn [added a1]; rewrite ?Q3; try assumption; [constructor|].
  rewrite E1. cbn [bind]. cbn [added a1] in *. rewrite Q3 in *. cbn [app concat] in *.
  unfold ready. destruct E2 as (G1 & G2 & G3 & G4). rewrite G1, G2. cbn [negb].
  assert (H2 : held (exec d (o1 ++ o2)) a2 Bs) by (rewrite exec_app; split; [exact G1|]; split; [exact G2|]; split; assumption).
  destruct (flush_ok true (exec d (o1 ++ o2)) a2 Bs H2 E6) as (o3 & a3 & Bs' & E9 & E10 & E11 & E12 & E13 & E14); [exact (apart_incl _ _ E7 A)|lia|].
  rewrite E9. cbn [bind]. specialize (E14 eq_refl). rewrite E14, app_nil_r in E11. rewrite E3 in E11.
  assert (Pst3 : exec (exec d (o1 ++ o2)) o3 Pst = Some out0).
  { rewrite (scratch_frame (temps a2) o3 _ Pst E12) by discriminate. rewrite exec_app, (scratch_frame (temps a1) o2 _ Pst E4) by discriminate. unfold o1. rewrite (exec_frame [Link Idx Lock] d Pst) by (constructor; [reflexivity|constructor]). exact Ep. }
  destruct (merge_all (exec (exec d (o1 ++ o2)) o3) a3 Bs' ix m0 out0 anns E10 E11 R A Pst3 F0 O Sm) as (bs & ix' & m & out & Er & Em & Fd & U).
  rewrite Er, Em. cbn [bind fst snd]. eexists. eexists. split; [reflexivity|].
  set (ti := temps a3). set (tp := S (temps a3)). destruct E10 as (K1 & K2 & K3 & K4).
  constructor.
  - constructor; [repeat split|]. apply Forall_app. split; [eapply Forall_impl; [|exact E4]; apply scratch_inert|]. apply Forall_app. split; [eapply Forall_impl; [|exact E12]; apply scratch_inert|].
    constructor; [repeat split|]. constructor; [repeat split|]. apply Forall_app. split; [apply cleanup_inert|]. constructor; [repeat split|]. constructor; [repeat split|constructor].
  - repeat split.
  - exists ix', m, out. split; [exact Fd|]. split; [exact U|].
    set (dz := exec d ([Link Idx Lock] ++ o2 ++ o3 ++ [Put (Temp tp) out; Put (Temp ti) (map_bytes m)] ++ cleanup a3)).
    assert (Z1 : dz (Temp ti) = Some (map_bytes m) /\ dz (Temp tp) = Some out).
    { unfold dz. rewrite !exec_app. rewrite !(cleanup_frame a3) by (try assumption; intros n K; injection K as <-; unfold ti, tp; lia). cbn [exec fold_left exec1]. unfold set. cbn [name_eqb]. rewrite !Nat.eqb_refl.
      replace (Nat.eqb ti tp) with false by (symmetry; apply Nat.eqb_neq; unfold ti, tp; lia). split; reflexivity. }
    match goal with |- exec d ?l _ = _ /\ _ => replace l
      with (([Link Idx Lock] ++ o2 ++ o3 ++ [Put (Temp tp) out; Put (Temp ti) (map_bytes m)] ++ cleanup a3) ++ [Move (Temp ti) Idx_new; Move (Temp tp) Pst_new]) by (rewrite <- !app_assoc; reflexivity) end.
    rewrite exec_app. destruct (moves dz ti tp (map_bytes m) out) as [Y1 Y2]; [unfold ti, tp; lia|apply Z1|apply Z1|].
    split; [exact Y1|]. split; [exact Y2|]. intros Ft. apply (Ft (Temp tp)). rewrite !in_app_iff. left. right. right. right. left. left. reflexivity.
Qed.
End Commit.
