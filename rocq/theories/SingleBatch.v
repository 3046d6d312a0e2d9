(** Batches of annotations in temporary files. *)
From Verif Require Import Base HopperModel ArrayDefs GclSpec ArrayProofs UnaryProofs Bytes CodecModel CodecSpec CodecProofs PostingModel PostingSpec PostingProofs PostingIO AnnProofs
  ShardModel ShardSpec ShardProofs HazelSpec HazelProofs SingleModel SingleSpec SingleLookup SingleMerge.
From Coq Require Import Permutation Sorted.

Section Batch.
Variables cp cf : compressor.
Hypothesis stores : stores_lists cp cf.

(** An annotation that is taken, and in range. *)
Definition fine (a : annotation) : Prop := 0 < afeat a /\ 0 <= ip (aiv a) <= iq (aiv a) /\ in_range a.
Lemma fine_taken l f x : Forall fine l -> (taken l f x <-> In (Ann f x) l).
Proof.
  intros F. rewrite Forall_forall in F. unfold taken. split; [intros (H & _); exact H|]. intros H. destruct (F _ H) as (A & B & _). cbn in *. auto.
Qed.
Lemma start_ann l : Forall fine l -> apart l -> StronglySorted (fun a b => start_lt b a = false) l -> ann_sorted l.
Proof.
  intros F A S. assert (K : forall l', incl l' l -> StronglySorted (fun a b => start_lt b a = false) l' -> ann_sorted l'); [|exact (K l (incl_refl _) S)].
  clear S. induction l' as [|a l' IH]; intros Hi S; [constructor|]. apply StronglySorted_inv in S. destruct S as [S Sa]. constructor; [apply IH; [intros x Hx; apply Hi; right; exact Hx|exact S]|].
  rewrite Forall_forall in *. intros b Hb. specialize (Sa b Hb). destruct a as [f x], b as [g y]. unfold start_lt, ann_lt in *. cbn [afeat aiv] in *.
  destruct (Z.eq_dec f g) as [->|]; [|lia]. destruct (Z_le_gt_dec (iq y) (iq x)) as [L|L]; [|lia].
  assert (E : x = y); [|subst; lia]. apply (A g); [| |unfold nests; lia]; apply fine_taken; rewrite ?Forall_forall; auto; apply Hi; cbn; auto.
Qed.
(** The file of a batch. *)
Definition batch_file (B : list annotation) (ix : index) : Prop :=
  index_ok ix /\ (forall f, In f (map fst ix) -> exists a, In a B /\ afeat a = f) /\
  forall f, exists l, lst_of f ix l /\ eqs (set_of l) (taken B f) /\ (length l <= length B)%nat.
Lemma keep_length l : forall b, (length (keep b l) <= length l)%nat.
Proof.
  induction l as [|x l IH]; intros b; [cbn; lia|]. cbn [keep length]. destruct (valid x); [|specialize (IH b); lia].
  destruct b as [y|]; [destruct ((ip y <=? ip x) && (iq y <=? iq x)); [cbn [length]; specialize (IH (Some x)); lia|specialize (IH (Some y)); lia]|cbn [length]; specialize (IH (Some x)); lia].
Qed.
Lemma filter_len {A} (t : A -> bool) l : (length (filter t l) <= length l)%nat.
Proof. induction l as [|x l IH]; [cbn; lia|]. cbn. destruct (t x); cbn; lia. Qed.
Lemma group_row l f : ann_sorted l -> Forall fine l -> apart l -> group f l <> [] -> Z.of_nat (length l) <= 288230376151711743 ->
  let xs := keep None (group f l) in let p := group_posting f (group f l) in
  feature p = f /\ holds p xs /\ xs <> [] /\ gcdup xs /\ Forall value_ok xs /\ (forall x, In x xs <-> taken l f x) /\ (length xs <= length l)%nat /\ storable cp cf p /\ row_ok (f, p).
Proof.
  intros S F A N L xs p. pose proof (group_sorted f l S) as Sg. pose proof F as F'. rewrite Forall_forall in F'.
  assert (Fi : forall x, In x (group f l) -> fine (Ann f x)) by (intros x Hx; apply in_group in Hx; apply (F' _ Hx)).
  assert (V : Forall value_ok (group f l)) by (rewrite Forall_forall; intros x Hx; destruct (Fi x Hx) as (_ & _ & _ & _ & _ & K); exact K).
  pose proof (group_holds f (group f l) V) as H. fold xs p in H.
  assert (Ap : forall x y, In x (group f l) -> In y (group f l) -> nests x y -> x = y) by (intros x y Hx Hy; apply in_group in Hx, Hy; apply (A f); apply fine_taken; assumption).
  assert (Hin : forall x, In x xs <-> taken l f x).
  { intros x. rewrite (fine_taken l f x F), <- in_group. unfold xs. rewrite (keep_kept _ Sg). split; [intros [[K _] _]; exact K|]. intros K. destruct (Fi x K) as (_ & B & _). cbn in B.
    split; [split; [exact K|lia]|]. intros y [Hy _] Ny. rewrite (Ap x y K Hy Ny). reflexivity. }
  assert (Hv : forall x, In x xs -> In x (group f l)) by (intros x K; apply keep_sub in K; apply K).
  assert (Fin : forall x, In x xs -> fine (Ann f x)) by auto.
  assert (Nx : xs <> []).
  { destruct (group f l) as [|x r] eqn:Eg; [congruence|]. intros K. specialize (Hin x). rewrite K in Hin. destruct Hin as [_ Hin]. destruct Hin. apply fine_taken; [exact F|]. apply in_group. rewrite Eg. left. reflexivity. }
  assert (G : gcdup xs).
  { apply sorted_gcdup; [apply keep_sorted; [exact Sg|exact Logic.I]| |].
    - intros x Hx. destruct (Fin x Hx) as (_ & B & _ & C & _). cbn in *. unfold finite, minf, maxf in *. lia.
    - intros x y Hx Hy E. destruct (Z_le_gt_dec (iq y) (iq x)); [apply Ap; auto; unfold nests; lia|symmetry; apply Ap; auto; unfold nests; lia]. }
  assert (Lx : (length xs <= length l)%nat).
  { pose proof (keep_length (group f l) None). unfold xs, group in *. rewrite map_length in H0. pose proof (filter_len (fun a => afeat a =? f) l). lia. }
  assert (Hf : 0 < f < maxf) by (destruct xs as [|x r]; [congruence|]; destruct (Fin x (or_introl eq_refl)) as (B & _ & C & _); cbn in *; lia).
  assert (Ad : forall x, In x xs -> 0 <= ip x /\ is_addr (ivl x)) by (intros x Hx; destruct (Fin x Hx) as (_ & B & _ & _ & C & _); cbn in *; split; [lia|exact C]).
  assert (Vx : Forall value_ok xs) by (rewrite Forall_forall in *; intros x Hx; apply V, Hv, Hx).
  split; [reflexivity|]. split; [exact H|]. split; [exact Nx|]. split; [exact G|]. split; [exact Vx|]. split; [exact Hin|]. split; [exact Lx|]. split.
  - apply (stores p xs H G); [rewrite Forall_forall; exact Ad|cbn; unfold is_addr, minf, maxf in *; lia|lia].
  - split; [cbn; lia|]. split; [split; [reflexivity|exists xs; auto]|]. cbn [snd]. intros i x Hx. destruct H as (_ & _ & H). rewrite H in Hx. injection Hx as Hx. apply Ad. exact (nth_error_In _ _ Hx).
Qed.
Lemma write_batch_ok n : forall l, ann_sorted l -> (length l <= n)%nat -> Forall fine l -> apart l -> Z.of_nat (length l) <= 288230376151711743 ->
  exists ix b, write_batch cp cf n l = Ok b /\ (forall o, exists m, filed cp cf o ix m b) /\ batch_file l ix.
Proof.
  induction n as [|n IH]; intros l S L F A C.
  - destruct l as [|a l]; [|cbn in L; lia]. exists [], []. split; [reflexivity|]. split; [intros o; exists []; constructor|]. split; [split; constructor|]. split; [intros f []|].
    intros f. exists []. split; [constructor; reflexivity|]. split; [|cbn; lia]. intros x. split; [intros []|intros ([] & _)].
  - destruct l as [|a l].
    { exists [], []. split; [reflexivity|]. split; [intros o; exists []; constructor|]. split; [split; constructor|]. split; [intros f []|].
      intros f. exists []. split; [constructor; reflexivity|]. split; [|cbn; lia]. intros x. split; [intros []|intros ([] & _)]. }
    set (f := afeat a). set (la := a :: l) in *.
    assert (Hf : forall b, In b la -> f <= afeat b).
    { apply StronglySorted_inv in S. destruct S as [_ Sa]. rewrite Forall_forall in Sa. intros b [<-|Hb]; [unfold f; lia|]. apply ann_sorted_le. apply Sa. exact Hb. }
    destruct (split_group la f S Hf) as (rest & E & Hr & Sr). set (pre := filter (fun a => afeat a =? f) la) in *.
    assert (Fp : Forall (fun a => afeat a = f) pre) by (rewrite Forall_forall; intros b Hb; apply filter_In in Hb; lia).
    assert (Rr : match rest with [] => True | b :: _ => afeat b <> f end) by (destruct rest as [|b r]; [trivial|]; specialize (Hr b (or_introl eq_refl)); lia).
    assert (Pn : pre <> []) by (unfold pre, la, f; cbn [filter]; rewrite Z.eqb_refl; discriminate).
    assert (EP : posting_from_annotations la = Some (group_posting f (group f la), rest)).
    { unfold posting_from_annotations. unfold la at 1. fold f. rewrite E, (ann_loop_eq f pre rest Fp Rr [] true true). rewrite app_nil_r, rev_involutive. cbn [andb hd_error]. rewrite <- E. reflexivity. }
    cbn [write_batch]. rewrite EP. assert (Gn : group f la <> []) by (unfold group; fold pre; destruct pre; [congruence|discriminate]).
    destruct (group_row la f S F A Gn C) as (Ff & H & Nx & G & V & Hin & Lx & St & Rw). set (xs := keep None (group f la)) in *. set (p := group_posting f (group f la)) in *.
    destruct (write_read cp cf p xs H St) as (b & Wb & _). rewrite Wb. cbn [bind].
    assert (Ir : incl rest la) by (intros c Hc; rewrite E; apply in_or_app; right; exact Hc).
    assert (Lr : (length rest < length la)%nat).
    { assert (length la = (length pre + length rest)%nat) by (rewrite E at 1; apply app_length). destruct pre; [contradiction|]. cbn [length] in *. lia. }
    destruct (IH rest Sr) as (ix & br & Wr & Fd & (Ox & Fx & Lx')); [lia|rewrite Forall_forall in *; intros c Hc; apply F, Ir, Hc| |lia|].
    { intros g x y (Hx & Hx') (Hy & Hy'). apply (A g); split; auto. }
    rewrite Wr. cbn [bind]. exists ((f, p) :: ix), (b ++ br). split; [reflexivity|]. split; [|split; [|split]].
    + intros o. destruct (Fd (o + len b)) as (m & Fm). eexists. constructor; [exact Wb|exact Fm].
    + destruct Ox as [M R]. split; [apply order_cons; [exact M|]|constructor; [exact Rw|exact R]]. intros g Hg. destruct (Fx g Hg) as (c & Hc & <-). apply Hr. exact Hc.
    + intros g [<-|Hg]; [exists a; split; [left; reflexivity|reflexivity]|]. destruct (Fx g Hg) as (c & Hc & Ec). exists c. split; [apply Ir, Hc|exact Ec].
    + intros g. destruct (Z.eq_dec f g) as [Efg|Ne].
      * rewrite <- Efg. exists xs. split; [apply (Lst_some f _ p xs (find_head f p ix)); assumption|]. split; [exact Hin|exact Lx].
      * destruct (Lx' g) as (k & Lk & Ek & Nk). exists k. split; [apply (lst_find g ix); [cbn; replace (f =? g) with false by lia; reflexivity|exact Lk]|]. split; [|lia].
        intros x. rewrite (Ek x). unfold taken. split; intros (K & K'); (split; [|exact K']); [apply Ir, K|]. rewrite E in K. apply in_app_or in K. destruct K as [K|K]; [|exact K].
        rewrite Forall_forall in Fp. specialize (Fp _ K). cbn in Fp. congruence.
Qed.
End Batch.
