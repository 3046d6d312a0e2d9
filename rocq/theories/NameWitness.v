(** Sorting functions, and directories, that meet the hypotheses of the theorems about
    shard names and recovery. *)
From Verif Require Import Base Bytes NameModel NameSpec NameProofs RecoverProofs RecoverAll.
From Coq Require Import Sorting.Permutation Sorting.Sorted.

Section Sort.
Variable le : shard -> shard -> bool.
Hypothesis total : forall a b, le a b = false -> le b a = true.
Hypothesis trans : forall a b c, le a b = true -> le b c = true -> le a c = true.
Fixpoint insert (x : shard) (l : list shard) : list shard :=
  match l with [] => [x] | y :: r => if le x y then x :: l else y :: insert x r end.
Fixpoint isort (l : list shard) : list shard := match l with [] => [] | x :: r => insert x (isort r) end.
Lemma insert_perm x l : Permutation (x :: l) (insert x l).
Proof. induction l as [|y l IH]; cbn; [reflexivity|]. destruct (le x y); [reflexivity|]. rewrite <- IH. apply perm_swap. Qed.
Lemma isort_perm l : Permutation l (isort l).
Proof. induction l as [|x l IH]; cbn; [constructor|]. rewrite <- insert_perm. constructor. exact IH. Qed.
Lemma insert_sorted x l : StronglySorted (fun a b => le a b = true) l -> StronglySorted (fun a b => le a b = true) (insert x l).
Proof.
  induction 1 as [|y l H IH F]; cbn; [repeat constructor|]. destruct (le x y) eqn:E.
  - constructor; [constructor; assumption|]. constructor; [exact E|]. eapply Forall_impl; [|exact F]. intros a. apply trans. exact E.
  - constructor; [exact IH|]. rewrite Forall_forall in *. intros a Ha. apply (Permutation_in _ (Permutation_sym (insert_perm x l))) in Ha.
    destruct Ha as [<-|Ha]; [apply total; exact E|apply F; exact Ha].
Qed.
Lemma isort_sorted l : StronglySorted (fun a b => le a b = true) (isort l).
Proof. induction l as [|x l IH]; cbn; [constructor|]. apply insert_sorted. exact IH. Qed.
End Sort.
Lemma sorted_weak {A} (P Q : A -> A -> Prop) l : (forall a b, P a b -> Q a b) -> StronglySorted P l -> StronglySorted Q l.
Proof. intros H. induction 1 as [|x l S IH F]; constructor; [exact IH|]. eapply Forall_impl; [|exact F]. intros a. apply H. Qed.

(** The order of sanitize. *)
Definition shard_le (a b : shard) : bool := (s_start a <? s_start b) || ((s_start a =? s_start b) && (s_end b <=? s_end a)).
Lemma shard_le_spec a b : shard_le a b = true <-> (s_start a < s_start b \/ (s_start a = s_start b /\ s_end b <= s_end a)).
Proof. unfold shard_le. rewrite orb_true_iff, andb_true_iff, Z.ltb_lt, Z.eqb_eq, Z.leb_le. reflexivity. Qed.
Definition sort_shards : list shard -> list shard := isort shard_le.
Lemma sort_shards_ok : sorts shard_lt sort_shards.
Proof.
  intros l. split; [apply isort_perm|]. eapply sorted_weak; [|apply isort_sorted].
  - intros a b H. apply shard_le_spec in H. unfold shard_lt. lia.
  - intros a b H. apply shard_le_spec. apply not_true_iff_false in H. rewrite shard_le_spec in H. lia.
  - intros a b c H1 H2. apply shard_le_spec in H1, H2. apply shard_le_spec. lia.
Qed.
(** The order of the final list. *)
Fixpoint bytes_le (a b : bytes) : bool :=
  match a, b with
  | [], _ => true
  | _ :: _, [] => false
  | c :: s, d :: t => if c <? d then true else if c =? d then bytes_le s t else false
  end.
Lemma bytes_le_not a b : bytes_le a b = true -> ~ before b a.
Proof.
  revert b. induction a as [|c a IH]; intros b H K; [inversion K|]. destruct b as [|d b]; [discriminate|]. cbn in H.
  destruct (Z.ltb_spec c d); [inversion K; subst; lia|]. destruct (Z.eqb_spec c d); [|discriminate]. inversion K; subst; [lia|]. eapply IH; eassumption.
Qed.
Lemma bytes_le_total a b : bytes_le a b = false -> bytes_le b a = true.
Proof.
  revert b. induction a as [|c a IH]; intros [|d b] H; cbn in *; try discriminate; try reflexivity. destruct (Z.ltb_spec c d); [discriminate|].
  destruct (Z.ltb_spec d c); [reflexivity|]. destruct (Z.eqb_spec c d); [|lia]. subst. rewrite Z.eqb_refl. apply IH. exact H.
Qed.
Lemma bytes_le_trans a b c : bytes_le a b = true -> bytes_le b c = true -> bytes_le a c = true.
Proof.
  revert b c. induction a as [|x a IH]; intros [|y b] [|z c] H K; cbn in *; try discriminate; try reflexivity.
  destruct (Z.ltb_spec x y), (Z.ltb_spec y z), (Z.ltb_spec x z); try reflexivity; try lia;
    destruct (Z.eqb_spec x y); try discriminate; destruct (Z.eqb_spec y z); try discriminate; try lia. destruct (Z.eqb_spec x z); [|lia]. eapply IH; eassumption.
Qed.
Definition owsla_le (a b : shard) : bool :=
  if s_start a <? s_start b then true else if s_start a =? s_start b then
    if s_end a <? s_end b then true else if s_end a =? s_end b then bytes_le (s_name a) (s_name b) else false else false.
Definition merge_shards : list shard -> list shard := isort owsla_le.
Lemma merge_shards_ok : sorts owsla_lt merge_shards.
Proof.
  intros l. split; [apply isort_perm|]. eapply sorted_weak; [|apply isort_sorted].
  - intros a b H K. unfold owsla_le in H. unfold owsla_lt in K. destruct (Z.ltb_spec (s_start a) (s_start b)); [lia|]. destruct (Z.eqb_spec (s_start a) (s_start b)); [|discriminate].
    destruct (Z.ltb_spec (s_end a) (s_end b)); [lia|]. destruct (Z.eqb_spec (s_end a) (s_end b)); [|discriminate]. apply bytes_le_not in H. destruct K as [K|[_ [K|[_ K]]]]; try lia. exact (H K).
  - intros a b H. unfold owsla_le in *. destruct (Z.ltb_spec (s_start a) (s_start b)); [discriminate|]. destruct (Z.ltb_spec (s_start b) (s_start a)); [reflexivity|].
    destruct (Z.eqb_spec (s_start b) (s_start a)); [|lia]. destruct (Z.eqb_spec (s_start a) (s_start b)); [|lia].
    destruct (Z.ltb_spec (s_end a) (s_end b)); [discriminate|]. destruct (Z.ltb_spec (s_end b) (s_end a)); [reflexivity|].
    destruct (Z.eqb_spec (s_end b) (s_end a)); [|lia]. destruct (Z.eqb_spec (s_end a) (s_end b)); [|lia]. apply bytes_le_total. exact H.
  - intros a b c H K. unfold owsla_le in *.
    destruct (Z.ltb_spec (s_start a) (s_start b)), (Z.ltb_spec (s_start b) (s_start c)), (Z.ltb_spec (s_start a) (s_start c)); try reflexivity; try lia;
    destruct (Z.eqb_spec (s_start a) (s_start b)); try discriminate; destruct (Z.eqb_spec (s_start b) (s_start c)); try discriminate; try lia;
    destruct (Z.eqb_spec (s_start a) (s_start c)); try lia.
    destruct (Z.ltb_spec (s_end a) (s_end b)), (Z.ltb_spec (s_end b) (s_end c)), (Z.ltb_spec (s_end a) (s_end c)); try reflexivity; try lia;
    destruct (Z.eqb_spec (s_end a) (s_end b)); try discriminate; destruct (Z.eqb_spec (s_end b) (s_end c)); try discriminate; try lia;
    destruct (Z.eqb_spec (s_end a) (s_end c)); try lia. eapply bytes_le_trans; eassumption.
Qed.

(** A directory in the middle of everything: two hazels that are being merged, an input of
    an earlier merge, fivers merged into a hazel, a transaction that was ready but not
    committed, and a file of another kind. *)
Definition dir : list bytes :=
  [lit "dna"; lit "kitten.6.6"; lit "fiver.4.4"; lit "fiver.2.3"; lit "fiver.2.2"; lit "fiver.5.5"; lit "hazel.0.1"; lit "hazel.2.3"; lit "hazel.0.0";
   lit "mrg.hazel.0.3"; lit "pst.hazel.0.3"; lit "dct.hazel.0.3"; lit "pst.hazel.0.1"; lit "hazel.0.1.tmp"].
Lemma dir_recover : recover sort_shards merge_shards dir =
  Some ([Shard 0 1 (lit "hazel.0.1"); Shard 2 3 (lit "hazel.2.3"); Shard 4 4 (lit "fiver.4.4"); Shard 5 5 (lit "fiver.5.5")],
        [((0, 3), [Shard 0 1 (lit "hazel.0.1"); Shard 2 3 (lit "hazel.2.3")])],
        [lit "kitten.6.6"; lit "fiver.2.2"; lit "pst.hazel.0.1"; lit "mrg.hazel.0.3"; lit "hazel.0.0"; lit "hazel.0.1.tmp"; lit "fiver.2.3"]).
Proof. vm_compute. reflexivity. Qed.
Lemma dir_nodup : NoDup dir.
Proof. unfold dir. repeat (apply NoDup_cons; [cbn; intuition discriminate|]). constructor. Qed.
Lemma alias : exists a b s e, a <> b /\ parse_shard_name a (lit "fiver") = Some (s, e) /\ parse_shard_name b (lit "fiver") = Some (s, e).
Proof. exists (lit "fiver.0.1"), (shard_name (lit "fiver") 0 1), 0, 1. split; [discriminate|]. split; vm_compute; reflexivity. Qed.
(** Stopping elsewhere: with the files removed in another order recovery can fail. *)
Definition knot : list bytes := [lit "fiver.0.4"; lit "fiver.0.2"; lit "fiver.1.4"; lit "hazel.0.9"].
Lemma knot_order : exists shards merges removed, recover sort_shards merge_shards knot = Some (shards, merges, removed) /\
  In (lit "fiver.0.4") removed /\ recover sort_shards merge_shards (without knot [lit "fiver.0.4"]) = None.
Proof.
  exists [Shard 0 9 (lit "hazel.0.9")], [], [lit "fiver.0.2"; lit "fiver.1.4"; lit "fiver.0.4"]. split; [vm_compute; reflexivity|].
  split; [right; right; left; reflexivity|]. vm_compute. reflexivity.
Qed.
(** A directory that meets the hypotheses of recovery. *)
Definition tidy : list bytes := [lit "dna"; lit "fiver.0.1"; lit "fiver.0.0"; lit "fiver.3.3"; lit "hazel.0.2"; lit "hazel.0.2.tmp"].
Ltac known R := apply parse_exact in R; vm_compute in R; try discriminate; injection R as ? ?.
Lemma tidy_ok :
  (forall r, In (lit "fiver" ++ r) tidy -> exists s e, names_range (lit "fiver") (lit "fiver" ++ r) s e) /\
  (forall r, In (lit "hazel" ++ r) tidy -> (exists s e, names_range (lit "hazel") (lit "hazel" ++ r) s e) \/ old_working (lit "hazel" ++ r)) /\
  (forall x y p, In (s_name x) tidy -> In (s_name y) tidy -> In p [lit "fiver"; lit "hazel"] ->
     names_range p (s_name x) (s_start x) (s_end x) -> names_range p (s_name y) (s_start y) (s_end y) -> within x y \/ within y x \/ separate x y) /\
  (forall f h, In (s_name f) tidy -> In (s_name h) tidy -> names_range (lit "fiver") (s_name f) (s_start f) (s_end f) ->
     names_range (lit "hazel") (s_name h) (s_start h) (s_end h) -> within f h \/ separate f h).
Proof.
  split; [|split; [|split]].
  - intros r [H|[H|[H|[H|[H|[H|[]]]]]]]; rewrite <- H; try discriminate; eexists; eexists; apply parse_exact; vm_compute; reflexivity.
  - intros r [H|[H|[H|[H|[H|[H|[]]]]]]]; rewrite <- H; try discriminate.
    + left. eexists; eexists; apply parse_exact; vm_compute; reflexivity.
    + right. exists (lit "hazel.0.2"), (lit ".tmp"), 0, 2. split; [reflexivity|]. split; [left; reflexivity|]. apply parse_exact; vm_compute; reflexivity.
  - intros [a b n] [c d m] p; cbn [s_name s_start s_end]. intros Hn Hm Hp R1 R2. unfold within, separate, covers; cbn [s_start s_end].
    destruct Hp as [<-|[<-|[]]]; destruct Hn as [<-|[<-|[<-|[<-|[<-|[<-|[]]]]]]]; known R1; destruct Hm as [<-|[<-|[<-|[<-|[<-|[<-|[]]]]]]]; known R2; subst;
      ((left; lia) || (right; left; lia) || (right; right; lia)).
  - intros [a b n] [c d m]; cbn [s_name s_start s_end]. intros Hn Hm R1 R2. unfold within, separate, covers; cbn [s_start s_end].
    destruct Hn as [<-|[<-|[<-|[<-|[<-|[<-|[]]]]]]]; known R1; destruct Hm as [<-|[<-|[<-|[<-|[<-|[<-|[]]]]]]]; known R2; subst; ((left; lia) || (right; lia)).
Qed.
