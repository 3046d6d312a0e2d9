(** Concrete posting lists used by the examples and refutations of PropsPosting.v. *)
From Verif Require Import Base HopperModel ArrayDefs GclSpec HopperProofs ArrayProofs UnaryModel AnswerProofs
  Bytes CodecModel CodecSpec PostingModel PostingSpec PostingProofs PostingIO AnnProofs.
From Coq Require Import Permutation Sorted.

Ltac concrete := unfold gcdup, gclist, finite, value_ok, is_addr, minf, maxf in *; cbn in *; intuition (try lia; try discriminate).

Definition p1 := Posting 42 [1; 4; 8] [3; 5; 8] [7; 9; 0].
Definition l1 := [Iv 1 3 7; Iv 4 5 9; Iv 8 8 0].
Definition p2 := Posting 42 [2; 4; 20] [] [].
Definition l2 := [Iv 2 2 0; Iv 4 4 0; Iv 20 20 0].
Definition p3 := Posting 42 [1; 7] [3; 20] [5; 0].
Definition l3 := [Iv 1 3 5; Iv 7 20 0].
Lemma p1_holds : holds p1 l1. Proof. apply rep_holds. constructor; cbn; auto. Qed.
Lemma p2_holds : holds p2 l2. Proof. apply rep_holds. constructor; cbn; auto. Qed.
Lemma p3_holds : holds p3 l3. Proof. apply rep_holds. constructor; cbn; auto. Qed.
Lemma g1 : gcdup l1. Proof. concrete. Qed.
Lemma g2 : gcdup l2. Proof. concrete. Qed.
Lemma g3 : gcdup l3. Proof. concrete. Qed.

Lemma posting_ex : holds p1 l1 /\ storable post_compressor (tfdf_compressor false) p1 /\
  write post_compressor (tfdf_compressor false) p1 = Ok (word_bytes [42; 3; 3; 3; 24] ++ [1; 3; 4] ++ [3; 2; 3] ++ word_bytes [7; 9; 0]).
Proof.
  split; [exact p1_holds|]. split; [|vm_compute; reflexivity].
  apply (standard_storable p1 l1 p1_holds g1); [|concrete|cbn; lia].
  repeat constructor; concrete.
Qed.

Lemma merge_ex : Forall2 holds [p1; p2; p3] [l1; l2; l3] /\ Forall gcdup [l1; l2; l3] /\
  posting_from_merge [p1; p2; p3] = Ok (Some (Posting 42 [2; 4; 8; 20] [] [])) /\
  posting_from_merge [p1; p3] = Ok (Some (Posting 42 [1; 4; 8] [3; 5; 8] [5; 9; 0])) /\
  posting_from_merge_exclude [p1; p3] (Some (Posting 0 [0; 8] [4; 30] [])) = Ok (Some (Posting 42 [4] [5] [9])) /\
  posting_from_merge_exclude [p1; p3] (Some (Posting 0 [0] [30] [])) = Ok None.
Proof.
  split; [exact (Forall2_cons _ _ p1_holds (Forall2_cons _ _ p2_holds (Forall2_cons _ _ p3_holds (Forall2_nil _))))|].
  split; [exact (Forall_cons _ g1 (Forall_cons _ g2 (Forall_cons _ g3 (Forall_nil _))))|].
  vm_compute. repeat split; reflexivity.
Qed.

(** simple_posting.cc:402-414: the lists on both sides of an empty one are not compared. *)
Definition e0 := Posting 42 [] [] [].
Lemma e0_holds : holds e0 []. Proof. apply rep_holds. constructor; cbn; auto. Qed.
Lemma merge_empty_refuted : exists ps ls m l, Forall2 holds ps ls /\ Forall gcdup ls /\
  posting_from_merge ps = Ok (Some m) /\ holds m l /\
  (exists x y, In x l /\ In y l /\ nests x y /\ x <> y) /\ (exists x, In x l /\ ~ sem_inner (map set_of ls) x).
Proof.
  exists [p3; e0; p1], [l3; []; l1]. exists (Posting 42 [1; 7; 1; 4; 8] [3; 20; 3; 5; 8] [5; 0; 7; 9; 0]).
  exists (l3 ++ l1). split; [exact (Forall2_cons _ _ p3_holds (Forall2_cons _ _ e0_holds (Forall2_cons _ _ p1_holds (Forall2_nil _))))|].
  split; [exact (Forall_cons _ g3 (Forall_cons _ (Logic.I : gcdup []) (Forall_cons _ g1 (Forall_nil _))))|]. split; [vm_compute; reflexivity|].
  split; [apply rep_holds; constructor; cbn; auto|]. split.
  - exists (Iv 7 20 0), (Iv 8 8 0). cbn. unfold nests; cbn. repeat split; try lia; auto 10. discriminate.
  - exists (Iv 7 20 0). split; [cbn; auto|]. intros [_ H].
    specialize (H (set_of l1) (Iv 8 8 0)). cbn in H. unfold nests, set_of in H; cbn in H.
    assert (K : 8 <= 7 /\ 20 <= 8) by (apply H; [auto|auto|lia]). lia.
Qed.

(** A batch with two annotations that start together. *)
Definition b1 := [Ann 42 (Iv 5 8 2); Ann 42 (Iv 5 6 1); Ann 7 (Iv 1 1 0); Ann 42 (Iv 1 2 0)].
Definition b1s := [Ann 7 (Iv 1 1 0); Ann 42 (Iv 1 2 0); Ann 42 (Iv 5 6 1); Ann 42 (Iv 5 8 2)].
Lemma b1_sort : sort_result b1 b1s.
Proof.
  split; [|repeat constructor].
  unfold b1, b1s.
  eapply perm_trans; [apply perm_swap|]. eapply perm_trans; [apply (Permutation_app_comm [Ann 42 (Iv 5 6 1); Ann 42 (Iv 5 8 2)])|]. reflexivity.
Qed.
Definition s1 := Posting 42 [1; 5; 5] [2; 6; 8] [0; 1; 2].
Lemma same_start_refuted : exists batch sorted index s l, sort_result batch sorted /\
  Forall (fun a => value_ok (aiv a) /\ finite (aiv a)) batch /\
  build_index (length sorted) sorted [] = Ok index /\ find_posting index 42 = Some s /\ holds s l /\
  (exists x y, In x l /\ In y l /\ nests x y /\ ~ nests y x) /\
  run (array_hopper (arr_of_posting s)) (array_init (arr_of_posting s)) [(Mtau, 5)] = Ok [Iv 5 6 1] /\
  run (array_hopper (arr_of_posting s)) (array_init (arr_of_posting s)) [(Muat, 10); (Mtau, 5)] = Ok [Iv 5 8 2; Iv 5 8 2].
Proof.
  exists b1, b1s. eexists. exists s1, [Iv 1 2 0; Iv 5 6 1; Iv 5 8 2]. split; [exact b1_sort|].
  split; [repeat constructor; concrete|]. split; [vm_compute; reflexivity|]. split; [reflexivity|].
  split; [apply rep_holds; constructor; cbn; auto|]. split; [|vm_compute; split; reflexivity].
  exists (Iv 5 8 2), (Iv 5 6 1). unfold nests; cbn. repeat split; auto; lia.
Qed.

Definition b2 := [Ann 42 (Iv 5 8 2); Ann 42 (Iv 6 7 1); Ann 7 (Iv 1 1 0); Ann 42 (Iv 1 2 0); Ann 7 (Iv 3 2 0)].
Definition b2s := [Ann 7 (Iv 1 1 0); Ann 7 (Iv 3 2 0); Ann 42 (Iv 1 2 0); Ann 42 (Iv 6 7 1); Ann 42 (Iv 5 8 2)].
Lemma ann_ex : sort_result b2 b2s /\ Forall (fun a => value_ok (aiv a)) b2 /\ starts_distinct b2 42 /\
  build_index 5 b2s [] = Ok [(42, Posting 42 [1; 6] [2; 7] [0; 1]); (7, Posting 7 [1] [] [])].
Proof.
  split; [split|].
  - unfold b2, b2s. apply NoDup_Permutation; [repeat constructor; cbn; intuition discriminate|repeat constructor; cbn; intuition discriminate|].
    intros a. cbn. tauto.
  - repeat constructor.
  - split; [repeat constructor; concrete|]. split; [|vm_compute; reflexivity].
    intros x y [Hx _] [Hy _] E. cbn in Hx, Hy.
    repeat (destruct Hx as [Hx|Hx]; [injection Hx as <- || discriminate Hx|]);
    repeat (destruct Hy as [Hy|Hy]; [injection Hy as <- || discriminate Hy|]); try contradiction; try reflexivity; cbn in E; lia.
Qed.

(** simple_posting.cc:508: -0.0 is stored as 0.0 by push (merges), and dropped by
    posting_from_annotations when it is the only value. *)
Lemma neg_zero_refuted : exists s l x, holds s l /\ ip x <= iq x /\ ~ holds (push s x) (l ++ [x]).
Proof.
  exists p1, l1, (Iv 9 9 minf). split; [exact p1_holds|]. split; [cbn; lia|]. intros (_ & _ & H). specialize (H 3%nat).
  vm_compute in H. discriminate.
Qed.
