(** Concrete single-file indexes. *)
From Verif Require Import Base HopperModel ArrayDefs GclSpec ArrayProofs UnaryProofs Bytes CodecModel CodecSpec CodecProofs PostingModel PostingSpec PostingProofs PostingIO
  ShardModel ShardSpec ShardProofs HazelSpec HazelProofs HazelWitness.
From Verif Require Import SingleModel SingleSpec SingleLookup SingleMerge SingleBatch SingleCommit SingleLife.
From Coq Require Import Permutation Sorted.

(** An insertion sort in the order of start_lt. *)
Fixpoint insert (x : annotation) (l : list annotation) : list annotation :=
  match l with [] => [x] | y :: r => if start_lt y x then y :: insert x r else x :: l end.
Definition isort (l : list annotation) : list annotation := fold_right insert [] l.
Lemma insert_perm x l : Permutation (x :: l) (insert x l).
Proof. induction l as [|y l IH]; [reflexivity|]. cbn. destruct (start_lt y x); [|reflexivity]. rewrite perm_swap, IH. reflexivity. Qed.
Lemma insert_sorted x l : StronglySorted (fun a b => start_lt b a = false) l -> StronglySorted (fun a b => start_lt b a = false) (insert x l).
Proof.
  induction l as [|y l IH]; intros S; [constructor; constructor|]. pose proof S as S0. apply StronglySorted_inv in S. destruct S as [S Sy]. rewrite Forall_forall in Sy. cbn. destruct (start_lt y x) eqn:E.
  - constructor; [exact (IH S)|]. rewrite Forall_forall. intros z Hz. apply (Permutation_in _ (Permutation_sym (insert_perm x l))) in Hz. destruct Hz as [<-|Hz]; [|exact (Sy z Hz)]. unfold start_lt in *. lia.
  - constructor; [exact S0|]. rewrite Forall_forall. intros z [<-|Hz]; [exact E|]. specialize (Sy z Hz). unfold start_lt in *. lia.
Qed.
Lemma isorts l : start_sorted l (isort l).
Proof.
  induction l as [|x l [P S]]; [split; constructor|]. cbn. split; [|apply insert_sorted; exact S]. rewrite <- insert_perm. constructor. exact P.
Qed.

(** A burrow with nothing in its index. *)
Definition d0 : dir := fun n => match n with Idx | Pst => Some [] | _ => None end.
Lemma d0_kept : kept_in wcp wcf [] d0 /\ index_ok [] /\ tidy d0.
Proof. split; [exists [], []; split; [constructor|]; repeat split; vm_compute; discriminate|]. split; [split; constructor|repeat split]. Qed.

Definition anns1 : list annotation := [Ann 5 (Iv 10 20 0); Ann 5 (Iv 3 4 0)].
Definition anns2 : list annotation := [Ann 5 (Iv 12 13 0); Ann 3 (Iv 7 7 0); Ann 3 (Iv 1 2 0); Ann 3 (Iv 4 5 0); Ann 0 (Iv 1 1 0)].
Lemma in_range_dec a : afeat a < maxf -> iq (aiv a) < maxf -> ivl (aiv a) = 0 -> in_range a.
Proof. intros A B C. split; [exact A|]. split; [exact B|]. rewrite C. split; [unfold is_addr; vm_compute; split; discriminate|]. unfold value_ok. rewrite C. vm_compute. discriminate. Qed.
Lemma anns1_decent : decent anns1.
Proof.
  split; [repeat constructor; apply in_range_dec; reflexivity|]. intros f x y (Hx & _) (Hy & _) N. unfold nests in N.
  destruct Hx as [K|[K|[]]]; injection K as <- <-; destruct Hy as [K|[K|[]]]; try discriminate K; injection K as <-; cbn in N; try lia; reflexivity.
Qed.
Lemma anns2_decent : decent anns2.
Proof.
  split; [repeat constructor; apply in_range_dec; reflexivity|]. intros f x y (Hx & Hf & _) (Hy & _) N. unfold nests in N.
  destruct Hx as [K|[K|[K|[K|[K|[]]]]]]; injection K as <- <-; destruct Hy as [K|[K|[K|[K|[K|[]]]]]]; try discriminate K; injection K as <-; cbn in N; try lia; reflexivity.
Qed.
Definition fitsb (l : list op) : bool := forallb (fun o => match o with Put _ b => len b <=? maxf | _ => true end) l.
Lemma fitsb_ok l : fitsb l = true -> fits l.
Proof. intros H a b Hi. unfold fitsb in H. rewrite forallb_forall in H. specialize (H _ Hi). cbn in H. lia. Qed.

Definition prep (d : dir) (a : annotator) (anns : list annotation) := prepare wcp wcf isort 0 d a anns.
Definition okd {A} (d : A) (r : res A) : A := match r with Ok x => x | _ => d end.
Definition p1 := okd (false, [], annotator_init) (prep d0 annotator_init anns1).
Definition ops1 := Eval vm_compute in snd (fst p1).
Definition a1 := Eval vm_compute in snd p1.
Lemma p1_eq : prep d0 annotator_init anns1 = Ok (true, ops1, a1).
Proof. vm_compute. reflexivity. Qed.
Definition c1 := Eval vm_compute in fst (okd ([], annotator_init) (commit a1)).
Definition b1 := Eval vm_compute in snd (okd ([], annotator_init) (commit a1)).
Lemma c1_eq : commit a1 = Ok (c1, b1).
Proof. reflexivity. Qed.
Definition d1 : dir := exec d0 (ops1 ++ c1).
Definition p2 := okd (false, [], annotator_init) (prep d1 b1 anns2).
Definition ops2 := Eval vm_compute in snd (fst p2).
Definition a2 := Eval vm_compute in snd p2.
Lemma p2_eq : prep d1 b1 anns2 = Ok (true, ops2, a2).
Proof. vm_compute. reflexivity. Qed.
Definition c2 := Eval vm_compute in fst (okd ([], annotator_init) (commit a2)).
Definition b2 := Eval vm_compute in snd (okd ([], annotator_init) (commit a2)).
Lemma c2_eq : commit a2 = Ok (c2, b2).
Proof. reflexivity. Qed.
Lemma life1 : life wcp wcf isort 0 d0 [anns1] d1 b1.
Proof. apply (Life_commit wcp wcf isort 0 d0 [] d0 annotator_init anns1 ops1 a1 c1 b1); [constructor|exact p1_eq|apply fitsb_ok; reflexivity|exact c1_eq]. Qed.
Lemma d1_kept : exists ix, kept_in wcp wcf ix d1 /\ index_ok ix /\ tidy d1 /\ quiet b1 /\
  forall f, fiver_count ix f + Z.of_nat (length anns2) <= 288230376151711743.
Proof.
  destruct d0_kept as (K & O & T).
  destruct (crash_safe wcp wcf isort 0 wstores isorts d0 annotator_init [] anns1 K O T) as (ops & a' & c & a'' & E1 & E2 & _ & H);
    [repeat split|exact anns1_decent|intros f; vm_compute; discriminate|].
  change (prep d0 annotator_init anns1 = Ok (true, ops, a')) in E1. rewrite p1_eq in E1. injection E1 as <- <-. rewrite c1_eq in E2. injection E2 as <- <-.
  destruct H as (ix & (O' & N & _) & (K' & T' & Q & _) & _); [apply fitsb_ok; reflexivity|]. exists ix.
  split; [exact K'|]. split; [exact O'|]. split; [exact T'|]. split; [exact Q|]. intros f. specialize (N f). cbn in N |- *. lia.
Qed.
(** A crash between the two renames of the second commit, and recovery. *)
Definition d2 : dir := exec (exec d1 ops2) [Move Idx_new Idx].
Lemma d2_crashed : crashed (exec d1 ops2) c2 d2.
Proof. exact (Crash_between (exec d1 ops2) [Move Idx_new Idx] [Move Pst_new Pst; Delete Lock]). Qed.
Definition d3 : dir := exec d2 (recover true).
Lemma life2 : life wcp wcf isort 0 d0 [anns1; anns2] d3 annotator_init.
Proof.
  apply (Life_saved wcp wcf isort 0 d0 [anns1] d1 b1 anns2 ops2 a2 c2 b2 d2 d3); [exact life1|exact p2_eq|apply fitsb_ok; reflexivity|exact c2_eq|exact d2_crashed|constructor].
Qed.
Lemma d3_found : exists x, open d3 = Some x /\ single_vocab x = 2 /\ single_count x 5 = Ok 2 /\ single_count x 3 = Ok 3.
Proof. destruct (open d3) as [x|] eqn:E; [|vm_compute in E; discriminate]. exists x. split; [reflexivity|]. vm_compute in E. injection E as <-. vm_compute. repeat split. Qed.

(** * A mixture *)
(** The new idx with the old pst. *)
Definition mixed (d : dir) : Prop := d Idx = d3 Idx /\ d Pst = d1 Pst /\ d Idx_NEW = None /\ d Pst_NEW = None.
Lemma mixed_open d : mixed d -> exists x, open d = Some x /\ single_vocab x = 2 /\ single_count x 3 = Ok 2.
Proof.
  intros (E1 & E2 & N1 & N2). unfold open, open_ops, here. rewrite N1, N2. cbn [exec fold_left]. rewrite E1, E2.
  destruct (d3 Idx) as [i|] eqn:Ei; [|vm_compute in Ei; discriminate]. destruct (d1 Pst) as [p|] eqn:Ep; [|vm_compute in Ep; discriminate].
  vm_compute in Ei, Ep. injection Ei as <-. injection Ep as <-. eexists. split; [vm_compute; reflexivity|]. vm_compute. split; reflexivity.
Qed.
(** The index before the second transaction. *)
Lemma before : exists ix, standing wcp wcf d1 ix b1 /\ len ix = 1 /\ history [] [anns1] ix.
Proof.
  destruct d0_kept as (K & O & T). destruct (life_ok wcp wcf isort 0 wstores isorts d0 [] [anns1] d1 b1 life1 K O T) as (ix & S & H); [constructor; [exact anns1_decent|constructor]|intros f; cbn; lia|].
  exists ix. split; [exact S|]. split; [|exact H]. destruct (standing_serves wcp wcf wstores d1 ix b1 S) as (x & Ex & V & _); [intros f; destruct H as [H _]; specialize (H f); cbn in H; lia|].
  vm_compute in Ex. injection Ex as <-. exact (eq_sym V).
Qed.
Lemma before_none ix : history [] [anns1] ix -> forall x, ~ stored_in ix 3 x.
Proof.
  intros [_ H] x Hx. apply (H 3) in Hx. destruct Hx as [([|[|i]] & S & E & K & _) _]; cbn in E; [| |destruct i; discriminate]; injection E as <-.
  - destruct K as (p & i & K & _). discriminate.
  - destruct K as ([K|[K|[]]] & _); discriminate.
Qed.
Lemma mixed_neither ix d : len ix = 1 -> (forall x, ~ stored_in ix 3 x) -> mixed d -> ~ serves wcp wcf d ix /\ forall ix', updated ix anns2 ix' -> ~ serves wcp wcf d ix'.
Proof.
  intros Li No M. destruct (mixed_open d M) as (x & Ex & V & C). split.
  - intros (y & Ey & Vy & _). rewrite Ex in Ey. injection Ey as <-. lia.
  - intros ix' (O & _ & U) (y & Ey & _ & Cy). rewrite Ex in Ey. injection Ey as <-. destruct (Cy 3) as [Cy3 _]. rewrite C in Cy3. injection Cy3 as Cy3.
    destruct (rows_lst [ix'] 3) as (l0' & Hl0); [constructor; [exact O|constructor]|]. inversion Hl0 as [|? l ? ? L0 N0]; subst. rewrite (lst_count 3 ix' l L0) in Cy3.
    assert (K : forall z, taken anns2 3 z -> In z l).
    { intros z Hz. apply (lst_stored 3 ix' l L0 z), (U 3 z). split.
      - exists 1%nat, (taken anns2 3). split; [reflexivity|]. split; [exact Hz|]. intros [|[|j]] T w Lt E; [lia|lia|destruct j; discriminate].
      - intros T w [<-|[<-|[]]] Hw N; [destruct (No w Hw)|]. destruct anns2_decent as [_ A]. rewrite (A 3 z w Hz Hw N). split; lia. }
    assert (I3 : incl [Iv 7 7 0; Iv 1 2 0; Iv 4 5 0] l) by (intros z [<-|[<-|[<-|[]]]]; apply K; (split; [cbn; tauto|cbn; lia])).
    apply NoDup_incl_length in I3; [cbn in I3; lia|]. repeat constructor; cbn; intuition discriminate.
Qed.

(** A life that ends after the crash and recovery above. *)
Definition d4 : dir := exec (exec d1 (removelast ops2)) (recover true).
Definition d5 : dir := exec d2 (recover false).
Lemma d2_mixed : mixed d2. Proof. repeat split; vm_compute; reflexivity. Qed.
Lemma d4_mixed : mixed d4. Proof. repeat split; vm_compute; reflexivity. Qed.
Lemma d5_mixed : mixed d5. Proof. repeat split; vm_compute; reflexivity. Qed.
Lemma mixtures : exists d ix a anns ops a' c a'',
  kept_in wcp wcf ix d /\ index_ok ix /\ tidy d /\ quiet a /\ decent anns /\
  prepare wcp wcf isort 0 d a anns = Ok (true, ops, a') /\ commit a' = Ok (c, a'') /\
  (exists d', crashed (exec d ops) c d' /\ ~ serves wcp wcf d' ix /\ forall ix', updated ix anns ix' -> ~ serves wcp wcf d' ix') /\
  (exists d' d'', crashed d ops d' /\ recovers true d' d'' /\ ~ serves wcp wcf d'' ix /\ forall ix', updated ix anns ix' -> ~ serves wcp wcf d'' ix') /\
  (exists d' d'', crashed (exec d ops) c d' /\ recovers false d' d'' /\ ~ serves wcp wcf d'' ix /\ forall ix', updated ix anns ix' -> ~ serves wcp wcf d'' ix').
Proof.
  destruct before as (ix & [K O T Q] & Li & H). pose proof (before_none ix H) as No. exists d1, ix, b1, anns2, ops2, a2, c2, b2.
  split; [exact K|]. split; [exact O|]. split; [exact T|]. split; [exact Q|]. split; [exact anns2_decent|]. split; [exact p2_eq|]. split; [exact c2_eq|]. split; [|split].
  - exists d2. split; [exact d2_crashed|]. exact (mixed_neither ix d2 Li No d2_mixed).
  - exists (exec d1 (removelast ops2)), d4. split; [exact (Crash_between d1 (removelast ops2) [last ops2 (Delete Lock)])|]. split; [constructor|]. exact (mixed_neither ix d4 Li No d4_mixed).
  - exists d2, d5. split; [exact d2_crashed|]. split; [constructor|]. exact (mixed_neither ix d5 Li No d5_mixed).
Qed.

(** Nested annotations. *)
Lemma nested_lost : exists cp cf sort d anns, stores_lists cp cf /\ (forall l, start_sorted l (sort l)) /\
  kept_in cp cf [] d /\ tidy d /\ anns = [Ann 5 (Iv 1 9 0); Ann 5 (Iv 3 4 0)] /\
  (exists ops a c a' x p, prepare cp cf sort 10 d annotator_init anns = Ok (true, ops, a) /\ commit a = Ok (c, a') /\
     open (exec d (ops ++ c)) = Some x /\ load_list cp cf x 5 = Ok (Some p) /\ psize p = 1 /\ get p 0 = Ok (Some (Iv 1 9 0))) /\
  (exists ops a c a' x p, prepare cp cf sort 0 d annotator_init anns = Ok (true, ops, a) /\ commit a = Ok (c, a') /\
     open (exec d (ops ++ c)) = Some x /\ load_list cp cf x 5 = Ok (Some p) /\ psize p = 1 /\ get p 0 = Ok (Some (Iv 3 4 0))).
Proof.
  exists wcp, wcf, isort, d0, [Ann 5 (Iv 1 9 0); Ann 5 (Iv 3 4 0)]. split; [exact wstores|]. split; [exact isorts|]. split; [apply d0_kept|]. split; [apply d0_kept|]. split; [reflexivity|]. split.
  - do 6 eexists. split; [vm_compute; reflexivity|]. split; [vm_compute; reflexivity|]. split; [vm_compute; reflexivity|]. split; [vm_compute; reflexivity|]. split; vm_compute; reflexivity.
  - do 6 eexists. split; [vm_compute; reflexivity|]. split; [vm_compute; reflexivity|]. split; [vm_compute; reflexivity|]. split; [vm_compute; reflexivity|]. split; vm_compute; reflexivity.
Qed.
