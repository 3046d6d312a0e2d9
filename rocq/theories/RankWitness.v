(** Concrete rankings for the examples beside the property theorems. *)
From Verif Require Import Base HopperModel ArrayDefs GclSpec HopperProofs GclProofs ArrayProofs UnaryProofs VectorModel UnaryModel AnswerProofs
  RankModel RankSpec RankProofs RankSsr RankTop.

(** A sorting function, for every comparison. *)
Fixpoint insert {A} (lt : A -> A -> bool) (x : A) (l : list A) : list A :=
  match l with
  | [] => [x]
  | y :: r => if lt y x then y :: insert lt x r else x :: l
  end.
Definition isrt : sorter := fun A lt l => fold_right (insert lt) [] l.

Lemma insert_perm {A} (lt : A -> A -> bool) x l : Permutation (x :: l) (insert lt x l).
Proof.
  induction l as [|y l IH]; [reflexivity|]. cbn. destruct (lt y x); [|reflexivity].
  eapply perm_trans; [apply perm_swap|]. apply perm_skip, IH.
Qed.
Lemma insert_ordered {A} (lt : A -> A -> bool) x l : weak_order lt -> ordered lt l -> ordered lt (insert lt x l).
Proof.
  intros W. unfold ordered. induction l as [|y l IH]; intros H; cbn [insert].
  - constructor; [constructor|constructor].
  - inversion H as [|? ? H1 H2]; subst. destruct (lt y x) eqn:E.
    + constructor; [apply IH, H1|]. rewrite Forall_forall in *. intros z Hz.
      eapply Permutation_in in Hz; [|apply Permutation_sym, insert_perm]. destruct Hz as [<-|Hz]; [|exact (H2 z Hz)].
      destruct (lt x y) eqn:E2; [|reflexivity]. destruct W as (W1 & W2 & _).
      pose proof (W2 _ _ _ E E2) as K. rewrite W1 in K. discriminate.
    + constructor; [exact H|]. rewrite Forall_forall in *. intros z [<-|Hz]; [exact E|].
      eapply (lt_neg lt W); [exact (H2 z Hz)|exact E].
Qed.
Lemma isrt_sorts : sorts isrt.
Proof.
  intros A lt l W. unfold isrt. induction l as [|x l [IH1 IH2]]; cbn [fold_right].
  - split; [reflexivity|constructor].
  - split; [|apply insert_ordered; assumption].
    eapply perm_trans; [apply perm_skip, IH1|apply insert_perm].
Qed.
Lemma isrt_stable : sorts_stably isrt.
Proof.
  split; [exact isrt_sorts|]. intros A lt l a W tie. unfold isrt.
  assert (K : forall x l, filter tie (insert lt x l) = if tie x then x :: filter tie l else filter tie l).
  { clear l. intros x l. induction l as [|y l IH]; cbn [insert filter].
    - destruct (tie x); reflexivity.
    - destruct (lt y x) eqn:E; cbn [filter]; [|destruct (tie x); reflexivity].
      rewrite IH. destruct (tie y) eqn:Ey, (tie x) eqn:Ex; try reflexivity. exfalso.
      unfold tie in Ex, Ey. apply andb_true_iff in Ex, Ey. destruct Ex as [Ex1 Ex2], Ey as [Ey1 Ey2].
      apply negb_true_iff in Ex1, Ex2, Ey1, Ey2. destruct W as (_ & _ & W3).
      destruct (W3 y a x E); congruence. }
  induction l as [|x l IH]; [reflexivity|]. cbn [fold_right filter]. rewrite K, IH. reflexivity.
Qed.

(** Whole numbers as scores. *)
Lemma z_order : weak_order Z.ltb.
Proof.
  split; [|split].
  - intros a. apply Z.ltb_irrefl.
  - intros a b c H1 H2. apply Z.ltb_lt in H1, H2. apply Z.ltb_lt. lia.
  - intros a b c H. apply Z.ltb_lt in H. rewrite !Z.ltb_lt. lia.
Qed.
Lemma z_exact : exact 0 Z.add Z.ltb.
Proof.
  split; [intros; lia|]. split; [intros; lia|]. split; [intros; lia|].
  intros a b c H. apply Z.ltb_ge in H. apply Z.ltb_ge. lia.
Qed.
Lemma z_positive g : 0 < g -> positive 0 Z.add Z.ltb g.
Proof. intros Hg s [->|Hs]; [|apply Z.ltb_lt in Hs]; apply Z.ltb_lt; lia. Qed.

(** Solutions, containers and the weight of a solution. *)
Definition rsols := [Iv 1 2 0; Iv 3 3 0; Iv 12 15 0; Iv 22 23 0; Iv 25 25 0; Iv 27 31 0].
Definition rconts := [Iv 0 9 0; Iv 10 19 0; Iv 20 29 0; Iv 30 39 0].
Definition rweight (p q : Z) : Z := 60 / (q - p + 1).
Definition st (l : list iv) : St (stored_cls false l) := stored_start false l.
Ltac gcl := cbn; unfold finite, minf, maxf; cbn; lia.
Lemma st_answers l : gclist l -> Z.of_nat (length l) <= 1000 -> Forall (fun x => ivl x = 0) l ->
  answers _ (st l) (set_of l) /\ listed (set_of l) l.
Proof.
  intros G L H. split; [apply stored_answers; [exact G|lia|intros _; exact H]|]. split; [exact G|reflexivity].
Qed.
Lemma rsols_ok : answers _ (st rsols) (set_of rsols) /\ listed (set_of rsols) rsols.
Proof. apply st_answers; [gcl|cbn; lia|repeat constructor]. Qed.
Lemma rconts_ok : answers _ (st rconts) (set_of rconts) /\ listed (set_of rconts) rconts.
Proof. apply st_answers; [gcl|cbn; lia|repeat constructor]. Qed.
Ltac cases H := cbn in H; repeat (destruct H as [<-|H]; [|]); try contradiction.
Lemma rconts_apart : apart (set_of rconts).
Proof. intros c d Hc Hd. cases Hc; cases Hd; cbn; lia. Qed.
Lemma rsols_weighty : weighty 0 Z.add Z.ltb rweight rsols.
Proof. intros x Hx. cases Hx; (split; [cbn; unfold maxf; lia|apply z_positive; vm_compute; reflexivity]). Qed.
Definition zssr (xs cs : list iv) (depth : nat) := ssr_ranking 0 Z.add Z.ltb isrt _ _ rweight (st xs) (st cs) depth minf maxf.
Lemma rsols_run : zssr rsols rconts 2 = Ok [Res 3 3 0 9 90; Res 25 25 20 29 90] /\
  zssr rsols rconts 5 = Ok [Res 3 3 0 9 90; Res 25 25 20 29 90; Res 12 15 10 19 15].
Proof. split; vm_compute; reflexivity. Qed.

(** Three ranges, each with a worker. *)
Definition fconts := [Iv 0 9 0; Iv 1500000 1500019 0; Iv 3000000 3000009 0].
Definition fsols := [Iv 1 2 0; Iv 1500001 1500001 0; Iv 3000002 3000003 0; Iv 3000005 3000005 0].
Lemma fsols_ok : answers _ (st fsols) (set_of fsols) /\ listed (set_of fsols) fsols.
Proof. apply st_answers; [gcl|cbn; lia|repeat constructor]. Qed.
Lemma fconts_ok : answers _ (st fconts) (set_of fconts) /\ listed (set_of fconts) fconts.
Proof. apply st_answers; [gcl|cbn; lia|repeat constructor]. Qed.
Lemma fconts_apart : apart (set_of fconts) /\ (forall c d, set_of fconts c -> set_of fconts d -> iq d - ip c < maxf).
Proof.
  split; intros c d Hc Hd; cases Hc; cases Hd; cbn; unfold maxf; lia.
Qed.
Lemma fsols_weighty : weighty 0 Z.add Z.ltb rweight fsols.
Proof. intros x Hx. cases Hx; (split; [cbn; unfold maxf; lia|apply z_positive; vm_compute; reflexivity]). Qed.
Lemma fsols_run : parallel_ssr 0 Z.add Z.ltb isrt _ _ rweight 8 0 (st fsols) (st fconts) 2 =
  Ok [Res 3000005 3000005 3000000 3000009 90; Res 1500001 1500001 1500000 1500019 60].
Proof. vm_compute. reflexivity. Qed.

(** Containers that overlap: a solution in two of them counts for the first. *)
Definition oconts := [Iv 0 10 0; Iv 5 15 0].
Definition osols := [Iv 6 7 0; Iv 14 15 0].
Lemma overlap_refuted : exists xs cs top,
  (answers _ (st xs) (set_of xs) /\ listed (set_of xs) xs) /\ (answers _ (st cs) (set_of cs) /\ listed (set_of cs) cs) /\
  weighty 0 Z.add Z.ltb rweight xs /\ zssr xs cs 5 = Ok top /\
  top = [Res 6 7 0 10 30; Res 14 15 5 15 30] /\ ~ ssr_answer 0 Z.add Z.ltb rweight xs cs minf maxf 5 top.
Proof.
  exists osols, oconts, [Res 6 7 0 10 30; Res 14 15 5 15 30].
  split; [apply st_answers; [gcl|cbn; lia|repeat constructor]|].
  split; [apply st_answers; [gcl|cbn; lia|repeat constructor]|].
  split; [intros x Hx; cases Hx; (split; [cbn; unfold maxf; lia|apply z_positive; vm_compute; reflexivity])|].
  split; [vm_compute; reflexivity|]. split; [reflexivity|].
  intros (all & HF & rest & P & _).
  assert (M : matching osols oconts minf maxf = oconts) by (vm_compute; reflexivity). rewrite M in HF.
  assert (H : In (Res 14 15 5 15 30) all).
  { eapply Permutation_in; [apply Permutation_sym, P|]. right. left. reflexivity. }
  inversion HF as [|c1 r1 ? rs H1 HF1]; subst. inversion HF1 as [|c2 r2 ? rs2 H2 HF2]; subst. inversion HF2; subst.
  destruct H1 as (E1 & _). destruct H2 as (_ & _ & E2 & _).
  destruct H as [->|[->|[]]]; [discriminate E1|]. vm_compute in E2. discriminate E2.
Qed.

(** Documents and the terms in them. *)
Definition rdocs := [Iv 0 9 0; Iv 10 29 0; Iv 30 39 0; Iv 40 44 0].
Definition rl1 := [Iv 0 9 2; Iv 30 39 1].
Definition rl2 := [Iv 10 29 1; Iv 30 39 5; Iv 40 44 3].
Definition tm (l : list iv) : term := Term (stored_cls true l) (stored_start true l) maxr.
Lemma tm_over l : gclist l -> Z.of_nat (length l) <= 1000 -> term_over l (tm l).
Proof.
  intros G L. exists (set_of l). split; [apply stored_answers; [exact G|lia|discriminate]|].
  split; [exact G|reflexivity].
Qed.
Lemma rdocs_ok : gclist rdocs /\ Forall (of_docs rdocs) [rl1; rl2] /\ Forall2 term_over [rl1; rl2] [tm rl1; tm rl2].
Proof.
  split; [gcl|]. split.
  - constructor; [|constructor; [|constructor]]; intros x Hx; cases Hx;
      [exists (Iv 0 9 0)|exists (Iv 30 39 0)|exists (Iv 10 29 0)|exists (Iv 30 39 0)|exists (Iv 40 44 0)]; cbn; auto 10.
  - constructor; [|constructor; [|constructor]]; apply tm_over; [gcl|cbn; lia|gcl|cbn; lia].
Qed.
Definition rgain (i : nat) (v p q : Z) : Z := (if Nat.eqb i 0 then 10 else 4) * v - (q - p).
Lemma rdocs_run : term_ranking 0 Z.add Z.ltb isrt rgain 3 [tm rl1; tm rl2] =
  Ok [res3 30 39 12; res3 0 9 11; res3 40 44 8].
Proof. vm_compute. reflexivity. Qed.

(** BM25: weights, and gains below them. *)
Definition wd (idf : Z) (l : list iv) : wand := Wand idf (fun tf len => tf * idf / (len + tf)) (tm l).
Definition rws := [wd 100 rl1; wd 60 rl2].
Lemma rws_ok : (forall d, In d rdocs -> iq d - ip d <= maxf) /\
  Forall2 (fun l w => term_over l (w_term w) /\ bounded 0 Z.ltb l w) [rl1; rl2] rws.
Proof.
  split; [intros d Hd; cases Hd; cbn; unfold maxf; lia|].
  constructor; [|constructor; [|constructor]]; (split; [apply tm_over; [gcl|cbn; lia]|split; [reflexivity|]]);
    intros x Hx; cases Hx; reflexivity.
Qed.
Lemma rws_run : bm25_ranking 0 Z.add Z.ltb isrt 2 rws = Ok [res3 30 39 29; res3 40 44 22].
Proof. vm_compute. reflexivity. Qed.

(** A term with a negative weight hides documents it does not occur in. *)
Definition nl1 := [Iv 0 9 1].
Definition nl2 := [Iv 10 29 40].
Definition nws := [wd (-50) nl1; wd 30 nl2].
Lemma negative_refuted : exists ws, Forall2 (fun l w => term_over l (w_term w)) [nl1; nl2] ws /\
  Forall (of_docs rdocs) [nl1; nl2] /\ bm25_ranking 0 Z.add Z.ltb isrt 10 ws = Ok [] /\
  doc_results 0 Z.add Z.ltb (wand_gain 0 ws) rdocs [nl1; nl2] = [res3 10 29 20].
Proof.
  exists nws. split.
  { constructor; [|constructor; [|constructor]]; apply tm_over; [gcl|cbn; lia|gcl|cbn; lia]. }
  split.
  { constructor; [|constructor; [|constructor]]; intros x Hx; cases Hx;
      [exists (Iv 0 9 0)|exists (Iv 10 29 0)]; cbn; auto 10. }
  split; vm_compute; reflexivity.
Qed.

(** Result lists. *)
Definition ra := [Res 3 3 0 9 90; Res 25 25 20 29 80].
Definition rb := [Res 26 27 20 29 85; Res 12 15 10 19 15].
Definition rrecip (i : nat) : Z := 1000 / (61 + Z.of_nat i).
Lemma fuse_run : rrf_fusion 0 Z.add Z.ltb isrt rrecip [ra; rb; [Res 12 15 10 19 1]] =
  [Res 12 15 10 19 32; Res 3 3 0 9 16; Res 25 25 20 29 16; Res 26 27 20 29 16].
Proof. vm_compute. reflexivity. Qed.
Lemma merge_run : merge_results Z.ltb isrt isrt ra rb 2 = [Res 3 3 0 9 90; Res 26 27 20 29 85].
Proof. vm_compute. reflexivity. Qed.
Lemma tiers_run :
  tiered_ranking (tier_rank 0 Z.add Z.ltb isrt rweight _ (st rconts) 5) Z.of_nat 5
    [existT St _ (st [Iv 12 15 0]); existT St _ (st rsols)] =
  Ok [Res 12 15 10 19 5; Res 3 3 0 9 4; Res 25 25 20 29 3].
Proof. vm_compute. reflexivity. Qed.
Lemma tiers_sols : Forall2 (fun t xs => weighty 0 Z.add Z.ltb rweight xs /\ exists S, answers (projT1 t) (projT2 t) S /\ listed S xs)
  [existT St _ (st [Iv 12 15 0]); existT St _ (st rsols)] [[Iv 12 15 0]; rsols].
Proof.
  constructor; [|constructor; [|constructor]]; split.
  - intros x Hx. cases Hx. split; [cbn; unfold maxf; lia|apply z_positive; vm_compute; reflexivity].
  - exists (set_of [Iv 12 15 0]). apply st_answers; [gcl|cbn; lia|repeat constructor].
  - exact rsols_weighty.
  - exists (set_of rsols). exact rsols_ok.
Qed.
Lemma contain_run : add_container _ (st rconts) [res3 3 3 90; res3 27 31 7; res3 12 15 15] =
  Ok [Res 3 3 0 9 90; Res 27 31 27 31 7; Res 12 15 10 19 15].
Proof. vm_compute. reflexivity. Qed.
