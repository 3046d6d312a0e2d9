(** Concrete indexes that are built. *)
From Verif Require Import Base HopperModel ArrayDefs GclSpec ArrayProofs UnaryProofs Bytes CodecModel CodecSpec CodecProofs PostingModel PostingSpec PostingProofs PostingIO
  ShardModel ShardSpec ShardProofs HazelSpec HazelProofs HazelWitness SingleModel SingleSpec SingleLookup SingleMerge SingleBatch SingleCommit SingleLife SingleWitness BuildModel BuildSpec BuildTop.
From Verif Require TokenModel TokenSpec TextSpec TextBack FileSpec ChunkModel ChunkSpec ChunkWitness PlainModel PlainSpec PlainWitness.
From Coq Require Import Permutation Sorted.

(** An insertion sort in the order of tok_lt. *)
Fixpoint tinsert (x : Z * Z) (l : list (Z * Z)) : list (Z * Z) :=
  match l with [] => [x] | y :: r => if tok_lt y x then y :: tinsert x r else x :: l end.
Definition tisort (l : list (Z * Z)) : list (Z * Z) := fold_right tinsert [] l.
Lemma tinsert_perm x l : Permutation (x :: l) (tinsert x l).
Proof. induction l as [|y l IH]; [reflexivity|]. cbn. destruct (tok_lt y x); [|reflexivity]. rewrite perm_swap, IH. reflexivity. Qed.
Lemma tinsert_sorted x l : StronglySorted (fun a b => tok_lt b a = false) l -> StronglySorted (fun a b => tok_lt b a = false) (tinsert x l).
Proof.
  induction l as [|y l IH]; intros S; [constructor; constructor|]. pose proof S as S0. apply StronglySorted_inv in S. destruct S as [S Sy]. rewrite Forall_forall in Sy. cbn. destruct (tok_lt y x) eqn:E.
  - constructor; [exact (IH S)|]. rewrite Forall_forall. intros z Hz. apply (Permutation_in _ (Permutation_sym (tinsert_perm x l))) in Hz. destruct Hz as [<-|Hz]; [|exact (Sy z Hz)]. unfold tok_lt in *. lia.
  - constructor; [exact S0|]. rewrite Forall_forall. intros z [<-|Hz]; [exact E|]. specialize (Sy z Hz). unfold tok_lt in *. lia.
Qed.
Lemma tisorts l : tok_sorted l (tisort l).
Proof.
  induction l as [|x l [P S]]; [split; constructor|]. cbn. split; [|apply tinsert_sorted; exact S]. rewrite <- tinsert_perm. constructor. exact P.
Qed.

Notation stop := (TokenSpec.ascii_ends false).
Notation starts := (TextBack.ascii_starts false).
Notation feat := PlainWitness.feat.
Notation tok := (TokenModel.tokenize feat false).
(** At most [tl] tokens and [al] annotations are held back. *)
Definition make (tl al : nat) (l : list call) : res (list answer * files) :=
  build wcp wcf tisort isort tl al ChunkWitness.backwards 100 ChunkWitness.never tok l.
Definition work : list call :=
  [Note (Ann 5 (Iv 0 1 0)); Say (lit "Hello, McWorld "); Note (Ann 5 (Iv 1 3 8)); Say (lit "one (two) hello"); Note (Ann 6 (Iv 3 3 7)); Note (Ann 0 (Iv 1 1 0)); Note (Ann 5 (Iv 2 4 0)); Note (Ann 7 (Iv 4 2 0))].
Definition work_words := PlainSpec.all_words tok starts [] (texts work).
Ltac texts_ok := repeat (apply Forall_cons; [apply PlainWitness.text_check; [vm_compute; reflexivity|intros _; vm_compute; reflexivity]|]); apply Forall_nil.
Lemma work_texts : Forall (PlainSpec.text_ok stop) (texts work) /\ len (PlainSpec.whole (texts work)) <= maxf.
Proof. split; [|vm_compute; discriminate]. unfold work. cbn [texts flat_map app]. texts_ok. Qed.
Definition words_okb (l : list (Z * Z)) : bool := forallb (fun w => (0 <? fst w) && (fst w <? maxf)) l.
Lemma words_check l : words_okb l = true -> Forall word_ok l.
Proof. intros H. apply Forall_forall. intros w Hw. unfold words_okb in H. rewrite forallb_forall in H. specialize (H w Hw). unfold word_ok. lia. Qed.
Definition apartb (l : list annotation) : bool :=
  forallb (fun a => forallb (fun b => negb (afeat a =? afeat b) || negb ((ip (aiv a) <=? ip (aiv b)) && (iq (aiv b) <=? iq (aiv a))) ||
    ((ip (aiv a) =? ip (aiv b)) && (iq (aiv a) =? iq (aiv b)) && (ivl (aiv a) =? ivl (aiv b)))) l) l.
Lemma apart_check l : apartb l = true -> apart l.
Proof.
  intros H f x y (Hx & _) (Hy & _) N. unfold apartb in H. rewrite forallb_forall in H. specialize (H _ Hx). rewrite forallb_forall in H. specialize (H _ Hy). cbn in H. unfold nests in N.
  destruct x as [a b v], y as [a' b' v']. cbn in *. f_equal; lia.
Qed.
Definition separateb (w : list (Z * Z)) (n : list annotation) : bool := forallb (fun x => forallb (fun y => negb (fst x =? afeat y)) n) w.
Lemma separate_check w n : separateb w n = true -> separate w n.
Proof. intros H f a x Hw (Hx & _). unfold separateb in H. rewrite forallb_forall in H. specialize (H _ Hw). rewrite forallb_forall in H. specialize (H _ Hx). cbn in H. lia. Qed.
Fixpoint in_orderb (l : list annotation) : bool :=
  match l with [] => true | x :: r => forallb (fun y => negb (afeat x =? afeat y) || (ip (aiv x) <=? ip (aiv y))) r && in_orderb r end.
Lemma in_order_check l : in_orderb l = true -> in_order l.
Proof.
  induction l as [|z l IH]; intros H i j f x y L E1 E2 A B; [destruct i; discriminate|]. cbn in H. apply andb_true_iff in H. destruct H as [H1 H2]. destruct j as [|j]; [lia|]. cbn in E2. destruct i as [|i]; cbn in E1.
  - injection E1 as ->. apply nth_error_In in E2. rewrite forallb_forall in H1. specialize (H1 _ E2). cbn in H1. lia.
  - apply (IH H2 i j f x y); try assumption; lia.
Qed.

Lemma work_ok : Forall (PlainSpec.text_ok stop) (texts work) /\ len (PlainSpec.whole (texts work)) <= maxf /\ Forall word_ok work_words /\ Forall note_ok (notes_of work) /\ decent (notes_of work) /\
  separate work_words (notes_of work) /\ in_order (notes_of work) /\ work_words <> [].
Proof.
  destruct work_texts as [A B]. split; [exact A|]. split; [exact B|]. split; [apply words_check; vm_compute; reflexivity|]. split; [repeat constructor; vm_compute; discriminate|]. split; [split|split; [|split]].
  - repeat constructor; vm_compute; discriminate.
  - apply apart_check. vm_compute. reflexivity.
  - apply separate_check. vm_compute. reflexivity.
  - apply in_order_check. vm_compute. reflexivity.
  - vm_compute. discriminate.
Qed.
Definition none : list answer * files := ([], Files (ChunkModel.Disk [] [] None None false) [] [] []).
Definition work_files : list answer * files := Eval vm_compute in okd none (make 1 1 work).
Lemma work_made : make 1 1 work = Ok work_files /\ ranges (fst work_files) = [(0, 1); (2, 4)].
Proof. split; vm_compute; reflexivity. Qed.
Definition work_dir : dir := fun n => match n with Idx => Some (f_idx (snd work_files)) | Pst => Some (f_pst (snd work_files)) | _ => None end.
Lemma work_found : tidy work_dir /\ len (f_pst (snd work_files)) <= maxf /\ exists x, open work_dir = Some x /\
  single_vocab x = 7 /\ map (single_count x) [feat (lit "hello"); 5; 6; feat (lit "mcworld"); feat (lit "two"); 7] = [Ok 2; Ok 3; Ok 1; Ok 1; Ok 1; Ok 0].
Proof. split; [repeat split|]. split; [vm_compute; discriminate|]. destruct (open work_dir) as [x|] eqn:E; [|vm_compute in E; discriminate]. exists x. split; [reflexivity|]. vm_compute in E. injection E as <-. split; vm_compute; reflexivity. Qed.
Definition extra : list annotation := [Ann 5 (Iv 2 2 0); Ann 9 (Iv 0 4 1)].
Definition extra_p := okd (false, [], annotator_init) (prepare wcp wcf isort 0 work_dir annotator_init extra).
Definition extra_c := okd ([], annotator_init) (commit (snd extra_p)).
Lemma extra_life : decent extra /\ life wcp wcf isort 0 work_dir [extra] (exec work_dir (snd (fst extra_p) ++ fst extra_c)) (snd extra_c).
Proof.
  split; [split; [repeat constructor; vm_compute; discriminate|apply apart_check; vm_compute; reflexivity]|].
  apply (Life_commit wcp wcf isort 0 work_dir [] work_dir annotator_init extra (snd (fst extra_p)) (snd extra_p) (fst extra_c) (snd extra_c)); [constructor| | |].
  - vm_compute. reflexivity.
  - apply fitsb_ok. vm_compute. reflexivity.
  - vm_compute. reflexivity.
Qed.

(** * What goes wrong *)
(** Annotations without any word. *)
Definition lone : list call := [Say (lit "--"); Note (Ann 5 (Iv 0 0 0))].
Lemma lone_lost : Forall (PlainSpec.text_ok stop) (texts lone) /\ decent (notes_of lone) /\ Forall note_ok (notes_of lone) /\ in_order (notes_of lone) /\
  taken (notes_of lone) 5 (Iv 0 0 0) /\ exists r fs, make 1 1 lone = Ok (r, fs) /\ f_idx fs = [] /\ f_pst fs = [].
Proof.
  split; [unfold lone; cbn [texts flat_map app]; texts_ok|]. split; [split; [repeat constructor; vm_compute; discriminate|apply apart_check; vm_compute; reflexivity]|]. split; [repeat constructor; vm_compute; discriminate|].
  split; [apply in_order_check; vm_compute; reflexivity|]. split; [split; [left; reflexivity|vm_compute; intuition discriminate]|]. eexists. eexists. split; [vm_compute; reflexivity|]. split; reflexivity.
Qed.
(** Annotations of a feature out of order, in one batch and in two. *)
Definition mixed : list call := [Say (lit "a b c d"); Note (Ann 5 (Iv 2 2 0)); Note (Ann 5 (Iv 3 3 0)); Note (Ann 5 (Iv 0 0 0))].
Lemma mixed_fails : Forall (PlainSpec.text_ok stop) (texts mixed) /\ decent (notes_of mixed) /\ separate (PlainSpec.all_words tok starts [] (texts mixed)) (notes_of mixed) /\
  (exists r fs, make 3 3 mixed = Ok (r, fs)) /\ make 3 1 mixed = UB.
Proof.
  split; [unfold mixed; cbn [texts flat_map app]; texts_ok|]. split; [split; [repeat constructor; vm_compute; discriminate|apply apart_check; vm_compute; reflexivity]|]. split; [apply separate_check; vm_compute; reflexivity|].
  split; [eexists; eexists; vm_compute; reflexivity|]. vm_compute. reflexivity.
Qed.
(** An annotation with the feature of a word. *)
Definition shared : list call := [Say (lit "a b a"); Note (Ann (feat (lit "a")) (Iv 1 1 0))].
Lemma shared_fails : Forall (PlainSpec.text_ok stop) (texts shared) /\ decent (notes_of shared) /\ in_order (notes_of shared) /\ make 3 3 shared = UB.
Proof.
  split; [unfold shared; cbn [texts flat_map app]; texts_ok|]. split; [split; [repeat constructor; vm_compute; discriminate|apply apart_check; vm_compute; reflexivity]|]. split; [apply in_order_check; vm_compute; reflexivity|].
  vm_compute. reflexivity.
Qed.
