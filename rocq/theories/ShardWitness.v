(** Concrete shards used by the examples and refutations of PropsShard.v. *)
From Verif Require Import Base HopperModel ArrayDefs GclSpec VectorModel Bytes PostingModel PostingSpec PostingProofs
  QueryModel QuerySpec ShardModel ShardSpec ShardProofs ShardQuery PostingWitness.

Lemma sound_of chunk (w : index) :
  Forall (fun fp => exists l, feature (snd fp) = fst fp /\ holds (snd fp) l /\ l <> [] /\ gcdup l /\ Forall value_ok l) w ->
  sound chunk w.
Proof.
  intros H f p _. induction H as [|[g q] w (l & A & B) _ IH]; [discriminate|]. cbn [find_posting fst snd] in *.
  destruct (Z.eqb_spec g f) as [->|]; [|exact IH]. intros [= <-]. split; [exact A|]. exists l. exact B.
Qed.
Ltac held l := apply rep_holds; constructor; cbn; auto.
Ltac rows ls :=
  lazymatch ls with
  | ?l :: ?r => apply Forall_cons; [exists l; split; [reflexivity|]; split; [held l|]; split; [discriminate|]; split;
                  [concrete|repeat constructor; concrete]|rows r]
  | _ => apply Forall_nil
  end.
Ltac lst := lazymatch goal with
  | |- lst_of _ _ [] => apply Lst_none; reflexivity
  | |- lst_of _ _ ?l => eapply Lst_some; [reflexivity|reflexivity|held l|discriminate|concrete|repeat constructor; concrete]
  end.

Ltac pairs := repeat (apply Forall_cons; [repeat (apply Forall_cons; [|]); try apply Forall_nil|]); try apply Forall_nil.

(** Text and three features; an erased range; more text. *)
Definition wa : fiver := Fiver (lit "a b c d e f g h i j") [(99, Posting 99 [0] [9] []); (42, p1); (7, Posting 7 [3; 9] [] [])] 0 0.
Definition wb : fiver := Fiver [] [(0, Posting 0 [4; 20] [9; 30] [])] 1 1.
Definition wc : fiver := Fiver (lit "k l m n o") [(99, Posting 99 [10] [14] []); (42, Posting 42 [12] [13] [6])] 2 2.
Definition wm : fiver :=
  Fiver (lit "a b c d e f g h i j" ++ [10] ++ lit "k l m n o")
    [(99, Posting 99 [0; 10] [9; 14] [0; 20]); (0, Posting 0 [4; 20] [9; 30] []); (7, Posting 7 [3] [] []); (42, Posting 42 [1; 12] [3; 13] [7; 6])] 0 2.
Definition ab : fiver :=
  Fiver (lit "a b c d e f g h i j") [(99, Posting 99 [0] [9] []); (0, Posting 0 [4; 20] [9; 30] []); (42, Posting 42 [1] [3] [7]); (7, Posting 7 [3] [] [])] 0 1.

Lemma wa_sound : sound 99 (f_index wa).
Proof. apply sound_of. rows [[Iv 0 9 0]; l1; [Iv 3 3 0; Iv 9 9 0]]. Qed.
Lemma wb_sound : sound 99 (f_index wb).
Proof. apply sound_of. rows [[Iv 4 9 0; Iv 20 30 0]]. Qed.
Lemma wc_sound : sound 99 (f_index wc).
Proof. apply sound_of. rows [[Iv 10 14 0]; [Iv 12 13 6]]. Qed.
Lemma ws_sound : Forall (sound 99) (ixs [wa; wb; wc]).
Proof. apply Forall_cons; [exact wa_sound|]. apply Forall_cons; [exact wb_sound|]. apply Forall_cons; [exact wc_sound|]. apply Forall_nil. Qed.

Lemma merge_all : fiver_merge (fun l => l) 99 [wa; wb; wc] = Ok (Some wm).
Proof. vm_compute. reflexivity. Qed.
Lemma merge_ab : fiver_merge (fun l => l) 99 [wa; wb] = Ok (Some ab).
Proof. vm_compute. reflexivity. Qed.
Lemma ws_steps : merge_steps (fun l => l) 99 [wa; wb; wc] [ab; wc].
Proof. eapply Merge_more; [|apply Merge_none]. exact (Merge_run (fun l => l) 99 [] [wa; wb] [wc] ab merge_ab). Qed.

Lemma ws_null : Forall2 (lst_of 0) (ixs [wa; wb; wc]) [[]; [Iv 4 9 0; Iv 20 30 0]; []].
Proof. constructor; [lst|]. constructor; [lst|]. constructor; [lst|]. constructor. Qed.
Lemma ws_42 : Forall2 (lst_of 42) (ixs [wa; wb; wc]) [l1; []; [Iv 12 13 6]].
Proof. constructor; [lst|]. constructor; [lst|]. constructor; [lst|]. constructor. Qed.
Lemma apart_of ws ls : Forall2 (lst_of null_feature) ws ls ->
  Forall (fun d => Forall (fun e => nests d e -> nests e d) (concat ls)) (concat ls) -> erasures_apart ws.
Proof.
  intros H F d e Hd He. apply (lsts_stored _ _ _ _ H) in Hd, He. rewrite Forall_forall in F.
  specialize (F d Hd). rewrite Forall_forall in F. exact (F e He).
Qed.
Lemma straddle_of ws f ls : Forall2 (lst_of f) ws ls ->
  Forall (fun x => Forall (fun y => nests x y -> x = y) (concat ls)) (concat ls) -> no_straddle ws f.
Proof.
  intros H F x y Hx Hy Nx He. apply (lsts_stored _ _ _ _ H) in Hx, Hy. rewrite Forall_forall in F.
  specialize (F x Hx). rewrite Forall_forall in F. rewrite (F y Hy Nx). exact He.
Qed.
Lemma erased_in ws ls x : Forall2 (lst_of null_feature) ws ls -> (erased ws x <-> exists e, In e (concat ls) /\ nests e x).
Proof. intros H. unfold erased. setoid_rewrite (lsts_stored _ _ _ _ H). reflexivity. Qed.

(** Calls on the hopper of a feature over several shards. *)
Definition look (ws : list fiver) (f : Z) (h : list (meth * Z)) : res (list iv) :=
  let* o := bigwig_hopper (map f_index ws) f in run (projT1 o) (projT2 o) h.

(** Everything C16 and C17 ask for, and what is seen: (1,3) and (12,13). *)
Lemma ws_apart : erasures_apart (ixs [wa; wb; wc]).
Proof. apply (apart_of _ _ ws_null); cbn; pairs; unfold nests; cbn; lia. Qed.
Lemma ws_straddle : no_straddle (ixs [wa; wb; wc]) 42.
Proof. apply (straddle_of _ _ _ ws_42); cbn; pairs; unfold nests; cbn; (reflexivity || lia). Qed.
Lemma shards_ex : Forall (sound 99) (ixs [wa; wb; wc]) /\ room (ixs [wa; wb; wc]) 42 /\ room (ixs [wa; wb; wc]) null_feature /\
  erasures_apart (ixs [wa; wb; wc]) /\ no_straddle (ixs [wa; wb; wc]) 42 /\
  merge_steps (fun l => l) 99 [wa; wb; wc] [ab; wc] /\ fiver_merge (fun l => l) 99 [wa; wb; wc] = Ok (Some wm) /\
  (stored_by (ixs [wa; wb; wc]) 42 (Iv 4 5 9) /\ erased (ixs [wa; wb; wc]) (Iv 4 5 9)) /\
  look [wa; wb; wc] 42 [(Mtau, 0); (Mtau, 2); (Mtau, 13)] = Ok [Iv 1 3 7; Iv 12 13 6; Iv maxf maxf 0] /\
  look [ab; wc] 42 [(Mtau, 0); (Mtau, 2); (Mtau, 13)] = Ok [Iv 1 3 7; Iv 12 13 6; Iv maxf maxf 0] /\
  look [wm] 42 [(Mtau, 0); (Mtau, 2); (Mtau, 13)] = Ok [Iv 1 3 7; Iv 12 13 6; Iv maxf maxf 0].
Proof.
  split; [exact ws_sound|]. split; [vm_compute; discriminate|]. split; [vm_compute; discriminate|].
  split; [exact ws_apart|]. split; [exact ws_straddle|].
  split; [exact ws_steps|]. split; [exact merge_all|]. split; [|vm_compute; auto].
  split; [apply (lsts_stored _ _ _ _ ws_42); cbn; auto|]. apply (erased_in _ _ _ ws_null).
  exists (Iv 4 9 0). split; [cbn; auto|unfold nests; cbn; lia].
Qed.

(** An erased range inside another: the larger one no longer erases. *)
Definition we1 : fiver := Fiver [] [(0, Posting 0 [5] [6] [])] 1 1.
Definition we2 : fiver := Fiver [] [(0, Posting 0 [0] [10] [])] 2 2.
Lemma nested_erase : exists ws f x, Forall (sound 99) (ixs ws) /\ room (ixs ws) f /\ room (ixs ws) null_feature /\
  f <> 99 /\ f <> null_feature /\ stored_by (ixs ws) f x /\ erased (ixs ws) x /\
  look ws f [(Mtau, ip x)] = Ok [x].
Proof.
  exists [wa; we1; we2], 42, (Iv 1 3 7).
  split. { apply Forall_cons; [exact wa_sound|]. apply Forall_cons; [apply sound_of; rows [[Iv 5 6 0]]|].
    apply Forall_cons; [apply sound_of; rows [[Iv 0 10 0]]|]. apply Forall_nil. }
  split; [vm_compute; discriminate|]. split; [vm_compute; discriminate|]. split; [lia|]. split; [unfold null_feature; lia|].
  assert (H : Forall2 (lst_of 42) (ixs [wa; we1; we2]) [l1; []; []]).
  { constructor; [lst|]. constructor; [lst|]. constructor; [lst|]. constructor. }
  assert (N : Forall2 (lst_of null_feature) (ixs [wa; we1; we2]) [[]; [Iv 5 6 0]; [Iv 0 10 0]]).
  { constructor; [lst|]. constructor; [lst|]. constructor; [lst|]. constructor. }
  split; [apply (lsts_stored _ _ _ _ H); cbn; auto|].
  split; [apply (erased_in _ _ _ N); exists (Iv 0 10 0); split; [cbn; auto|unfold nests; cbn; lia]|].
  vm_compute. reflexivity.
Qed.

(** An annotation that contains an erased one of its feature: seen only after a merge. *)
Definition ws1 : fiver := Fiver [] [(42, Posting 42 [5] [6] [])] 0 0.
Definition ws3 : fiver := Fiver [] [(42, Posting 42 [4] [7] [])] 2 2.
Definition wm1 : fiver := Fiver [] [(0, Posting 0 [5] [6] [])] 0 1.
Lemma straddle_seen : exists ws ws' f x, merge_steps (fun l => l) 99 ws ws' /\
  Forall (sound 99) (ixs ws) /\ room (ixs ws) f /\ room (ixs ws) null_feature /\ erasures_apart (ixs ws) /\
  f <> 99 /\ f <> null_feature /\
  look ws f [(Mtau, 0)] = Ok [Iv maxf maxf 0] /\ look ws' f [(Mtau, 0)] = Ok [x] /\ finite x.
Proof.
  exists [ws1; we1; ws3], [wm1; ws3], 42, (Iv 4 7 0).
  split. { eapply Merge_more; [|apply Merge_none]. refine (Merge_run (fun l => l) 99 [] [ws1; we1] [ws3] wm1 _). vm_compute. reflexivity. }
  split. { apply Forall_cons; [apply sound_of; rows [[Iv 5 6 0]]|]. apply Forall_cons; [apply sound_of; rows [[Iv 5 6 0]]|].
    apply Forall_cons; [apply sound_of; rows [[Iv 4 7 0]]|]. apply Forall_nil. }
  split; [vm_compute; discriminate|]. split; [vm_compute; discriminate|].
  assert (N : Forall2 (lst_of null_feature) (ixs [ws1; we1; ws3]) [[]; [Iv 5 6 0]; []]).
  { constructor; [lst|]. constructor; [lst|]. constructor; [lst|]. constructor. }
  split; [apply (apart_of _ _ N); cbn; pairs; unfold nests; cbn; lia|].
  split; [lia|]. split; [unfold null_feature; lia|].
  split; [vm_compute; reflexivity|]. split; [vm_compute; reflexivity|]. concrete.
Qed.

(** A query of two terms over the shards. *)
Definition feat2 (t : bytes) : Z := 42.
Lemma query_ex : let e := SX ALL_OF [] 0 [SX TERM (lit "x") 0 []; SX TERM (lit "y") 0 []] in
  (forall t, In t (terms e) -> feat2 t <> 99 /\ feat2 t <> null_feature /\ room (ixs [wa; wb; wc]) (feat2 t) /\
     no_straddle (ixs [wa; wb; wc]) (feat2 t)) /\
  valid (fun t => visible (ixs [wa; wb; wc]) (feat2 t)) e.
Proof.
  cbv zeta. split.
  - intros t _. unfold feat2. split; [lia|]. split; [unfold null_feature; lia|]. split; [vm_compute; discriminate|exact ws_straddle].
  - apply valid_comb; [auto|discriminate|]. repeat constructor.
Qed.
