(** Concrete texts used by the examples and refutations of PropsToken.v and PropsText.v. *)
From Coq Require Import Sorting.Permutation Sorting.Sorted.
From Verif Require Import Base Bytes HopperModel ArrayDefs GclSpec VectorModel CodecModel
  PostingModel PostingSpec PostingProofs AnnProofs PostingWitness ShardModel ShardSpec ShardProofs ShardQuery ShardWitness TokenModel TokenSpec
  TextModel TextSpec TextBack.

(** * A sort *)
Fixpoint insert_ann (a : annotation) (l : list annotation) : list annotation :=
  match l with [] => [a] | c :: r => if ann_lt c a then c :: insert_ann a r else a :: l end.
Fixpoint isort (l : list annotation) : list annotation := match l with [] => [] | a :: r => insert_ann a (isort r) end.
Lemma insert_perm a l : Permutation (a :: l) (insert_ann a l).
Proof. induction l as [|c l IH]; [reflexivity|]. cbn. destruct (ann_lt c a); [|reflexivity]. rewrite perm_swap, IH. reflexivity. Qed.
Lemma insert_sorted a l : ann_sorted l -> ann_sorted (insert_ann a l).
Proof.
  induction l as [|c l IH]; intros S; [constructor; [constructor|constructor]|]. cbn. apply StronglySorted_inv in S as S'. destruct S' as [S1 Sc].
  rewrite Forall_forall in Sc. destruct (ann_lt c a) eqn:E.
  - constructor; [exact (IH S1)|]. rewrite Forall_forall. intros x Hx. apply (Permutation_in x (Permutation_sym (insert_perm a l))) in Hx.
    destruct Hx as [<-|Hx]; [|exact (Sc x Hx)]. unfold ann_lt in *. lia.
  - constructor; [exact S|]. rewrite Forall_forall. intros x [<-|Hx]; [exact E|]. specialize (Sc x Hx). unfold ann_lt in *. lia.
Qed.
Lemma isort_ok l : sort_result l (isort l).
Proof.
  induction l as [|a l (P & S)]; [split; [reflexivity|constructor]|]. split; [|apply insert_sorted, S].
  cbn. rewrite <- insert_perm, <- P. reflexivity.
Qed.

(** * A transaction *)
Definition nl : bytes := [10].
Definition feat1 (t : bytes) : Z := 1000 + fold_left (fun a c => 256 * a + c) t 0.
Definition tok1 := tokenize feat1 false.
Definition long : bytes := concat (repeat (lit "ab cd-") 300).
Definition es1 : list edit := [Append (lit "Hello, McWorld "); Annotate 7 staging (staging + 1) 3; Append []; Erase 0 5; Append (lit "one (two) hello")].
Definition es2 : list edit := [Append long; Annotate 7 20 25 4; Append (lit "the end" ++ nl)].
Ltac edits := repeat (apply Forall_cons; [cbn [edit_ok]; try (split; [intros _; vm_compute; reflexivity|]);
   first [apply Forall_forall; intros k Hk; vm_compute in Hk; repeat (destruct Hk as [<-|Hk]; [vm_compute; discriminate|]); destruct Hk
         |unfold minf, maxf, staging; lia]|]); try apply Forall_nil.
Lemma es1_ok : Forall (edit_ok tok1 (ascii_ends false) 99) es1.
Proof. edits. Qed.
Lemma tok_checked (s : bytes) : forallb (fun k => negb (t_feature k =? 99)) (tok1 s) = true -> Forall (fun k => t_feature k <> 99) (tok1 s).
Proof. intros H. rewrite forallb_forall in H. apply Forall_forall. intros k Hk. specialize (H k Hk). lia. Qed.
Lemma es2_ok : Forall (edit_ok tok1 (ascii_ends false) 99) es2.
Proof.
  apply Forall_cons; [|apply Forall_cons; [|apply Forall_cons; [|apply Forall_nil]]].
  - split; [intros _; vm_compute; reflexivity|]. apply tok_checked. vm_compute. reflexivity.
  - cbn [edit_ok]. unfold minf, maxf. lia.
  - split; [intros _; vm_compute; reflexivity|]. apply tok_checked. vm_compute. reflexivity.
Qed.
(** Commit one transaction at [w] and translate ranges. *)
Definition read_back (tokenize : bytes -> list token) (skip : bytes -> Z -> Z) (es : list edit) (w : Z) (l : list (Z * Z)) : res (list bytes) :=
  let* m := ready 99 98 isort w 0 (draft_after tokenize 99 es) in
  let* x := fiver_txt 99 m in translate_all skip x l.
Lemma es1_back : read_back tok1 (skip false) es1 100 [(100, 104); (100, 100); (101, 102); (103, 103); (104, 200); (0, 99)] =
  Ok [lit "Hello, McWorld one (two) hello" ++ nl; lit "Hello, "; lit "McWorld one ("; lit "two) "; lit "hello" ++ nl; []].
Proof. vm_compute. reflexivity. Qed.
Lemma es2_back : read_back tok1 (skip false) es2 0 [(510, 514); (600, 600); (601, 700)] =
  Ok [lit "ab cd-ab cd-ab "; lit "the "; lit "end" ++ nl].
Proof. vm_compute. reflexivity. Qed.
Lemma es1_room : 100 + Z.of_nat (length (ascii_starts false (full_text (texts es1)))) <= staging /\ edits_fit tok1 99 98 es1.
Proof. split; vm_compute; discriminate. Qed.
Lemma es2_room : 0 + Z.of_nat (length (ascii_starts false (full_text (texts es2)))) <= staging /\ edits_fit tok1 99 98 es2.
Proof. split; vm_compute; discriminate. Qed.
Lemma es1_returned : snd (append tok1 99 (lit "one (two) hello") (draft_after tok1 99 (firstn 4 es1))) = (staging + 2, staging + 4).
Proof. vm_compute. reflexivity. Qed.
(** Searching it. *)
Definition search (tokenize : bytes -> list token) (es : list edit) (w f : Z) (h : list (meth * Z)) : res (list iv) :=
  let* m := ready 99 98 isort w 0 (draft_after tokenize 99 es) in
  let* o := fiver_hopper (f_index m) f in run (projT1 o) (projT2 o) h.
Lemma es1_search : search tok1 es1 100 (feat1 (lit "hello")) [(Mtau, 0); (Mtau, 101); (Mtau, 105)] = Ok [Iv 100 100 0; Iv 104 104 0; Iv maxf maxf 0] /\
  search tok1 es1 100 (feat1 (lit "McWorld")) [(Mtau, 0)] = Ok [Iv 101 101 0] /\
  search tok1 es1 100 (feat1 (lit "mcworld")) [(Mtau, 0)] = Ok [Iv 101 101 0] /\
  search tok1 es1 100 7 [(Mtau, 0)] = Ok [Iv 100 101 3] /\ search tok1 es1 100 98 [(Mtau, 0)] = Ok [Iv 100 104 0].
Proof. repeat split; vm_compute; reflexivity. Qed.

(** * Where the text does not come back *)
Lemma to_the_end : exists es w, Forall (edit_ok tok1 (ascii_ends false) 99) es /\ 0 <= w /\
  read_back tok1 (skip false) es w [(0, maxf - 1); (0, maxf)] = Ok [full_text (texts es); lit "Hello, "] /\
  full_text (texts es) = lit "Hello, McWorld one (two) hello" ++ nl.
Proof. exists es1, 0. split; [exact es1_ok|]. split; [lia|]. split; vm_compute; reflexivity. Qed.
(** A tag begun at the end of one text swallows the next. *)
Definition tok_xml := tokenize feat1 true.
Definition es_tag : list edit := [Append (lit "x <a "); Append (lit "b>")].
Lemma tag_swallows : exists es t p q, es = [Append (lit "x <a "); Append t] /\
  snd (append tok_xml 99 t (draft_after tok_xml 99 [Append (lit "x <a ")])) = (p, q) /\ p <= q /\
  read_back tok_xml (skip true) es 0 [(p - staging, q - staging)] = Ok [[]] /\ t = lit "b>".
Proof. exists es_tag, (lit "b>"), (staging + 2), (staging + 2). split; [reflexivity|]. split; [vm_compute; reflexivity|]. split; [lia|]. split; vm_compute; reflexivity. Qed.

(** * Several transactions *)
Definition three : list (list edit) := [[Append (lit "alpha beta")]; [Annotate 7 0 1 5]; [Append (lit "gamma, delta"); Append (lit "epsilon")]].
Definition commit1 (tokenize : bytes -> list token) (starts : bytes -> list Z) : Z -> Z -> list (list edit) -> res (list fiver * Z) :=
  fix go a seq ess := match ess with
  | [] => Ok ([], a)
  | es :: r => let* m := ready 99 98 isort a seq (draft_after tokenize 99 es) in
               let* (ms, b) := go (a + Z.of_nat (length (starts (full_text (texts es))))) (seq + 1) r in Ok (m :: ms, b)
  end.
Lemma commit1_ok tokenize starts ess : forall a seq ws b, commit1 tokenize starts a seq ess = Ok (ws, b) -> committed tokenize starts 99 98 isort a ess ws b.
Proof.
  induction ess as [|es ess IH]; intros a seq ws b H; cbn in H; [injection H as <- <-; constructor|].
  destruct (ready 99 98 isort a seq (draft_after tokenize 99 es)) as [m| |] eqn:E; try discriminate. cbn [bind] in H.
  destruct (commit1 tokenize starts _ (seq + 1) ess) as [[ms b']| |] eqn:E2; try discriminate. cbn [bind] in H. injection H as <- <-.
  econstructor; [exact E|exact (IH _ _ _ _ E2)].
Qed.
Definition shards_of (ess : list (list edit)) : list fiver :=
  match commit1 tok1 (ascii_starts false) 0 0 ess with Ok (ws, _) => ws | _ => [] end.
Definition merged_of (ws : list fiver) : fiver := match fiver_merge isort 99 ws with Ok (Some m) => m | _ => Fiver [] [] 0 0 end.
Definition read_all (ws : list fiver) (l : list (Z * Z)) : res (list bytes) :=
  let* xs := open_all 99 ws in bigwig_translate_all (skip false) xs l.
Lemma three_committed : committed tok1 (ascii_starts false) 99 98 isort 0 three (shards_of three) 5.
Proof. apply commit1_ok with (seq := 0). vm_compute. reflexivity. Qed.
Lemma three_ok : Forall (fun es => Forall (edit_ok tok1 (ascii_ends false) 99) es /\ starts_well (ascii_starts false) es /\ edits_fit tok1 99 98 es) three.
Proof.
  repeat (apply Forall_cons; [split; [edits|split; [first [left; vm_compute; reflexivity|right; vm_compute; reflexivity]|vm_compute; discriminate]]|]). apply Forall_nil.
Qed.
Lemma merged_step ws before run after m : ws = before ++ run ++ after -> fiver_merge isort 99 run = Ok (Some m) -> merge_steps isort 99 ws (before ++ m :: after).
Proof. intros -> H. eapply Merge_more; [|apply Merge_none]. exact (Merge_run isort 99 before run after m H). Qed.
Lemma three_merged : merge_steps isort 99 (shards_of three) [merged_of (shards_of three)].
Proof. apply (merged_step _ [] (shards_of three) []); [rewrite app_nil_r; reflexivity|]. vm_compute. reflexivity. Qed.
Lemma three_read : read_all (shards_of three) [(0, 4); (1, 2)] = Ok [lit "alpha beta" ++ nl ++ lit "gamma, delta" ++ nl ++ lit "epsilon" ++ nl; lit "beta" ++ nl ++ lit "gamma, "] /\
  read_all [merged_of (shards_of three)] [(0, 4); (1, 2)] = Ok [lit "alpha beta" ++ nl ++ lit "gamma, delta" ++ nl ++ lit "epsilon" ++ nl; lit "beta" ++ nl ++ lit "gamma, "].
Proof. split; vm_compute; reflexivity. Qed.

(** A text that does not start with a token. *)
Definition leading : list (list edit) := [[Append (lit "alpha")]; [Append (lit "(beta)")]].
Lemma leading_ok : Forall (fun es => Forall (edit_ok tok1 (ascii_ends false) 99) es /\ edits_fit tok1 99 98 es) leading.
Proof. repeat (apply Forall_cons; [split; [edits|vm_compute; discriminate]|]). apply Forall_nil. Qed.
Lemma leading_seen : exists ess ws b ws', committed tok1 (ascii_starts false) 99 98 isort 0 ess ws b /\ b <= staging /\
  Forall (fun es => Forall (edit_ok tok1 (ascii_ends false) 99) es /\ edits_fit tok1 99 98 es) ess /\
  merge_steps isort 99 ws ws' /\
  read_all ws [(0, 0)] = Ok [lit "alpha" ++ nl] /\ read_all ws' [(0, 0)] = Ok [lit "alpha" ++ nl ++ lit "("].
Proof.
  exists leading, (shards_of leading), 2, [merged_of (shards_of leading)].
  split; [apply commit1_ok with (seq := 0); vm_compute; reflexivity|]. split; [unfold staging; lia|]. split; [exact leading_ok|].
  split; [apply (merged_step _ [] (shards_of leading) []); [rewrite app_nil_r; reflexivity|]; vm_compute; reflexivity|].
  split; vm_compute; reflexivity.
Qed.

(** * Tokens *)
Lemma tokens_ex : split false (lit "The McDonald's 2nd") = [lit "the"; lit "McDonald"; lit "s"; lit "2nd"] /\
  tok1 (lit "The McDonald's") = [Token (feat1 (lit "the")) 0 0 3; Token (feat1 (lit "McDonald")) 1 4 8; Token (feat1 (lit "mcdonald")) 1 4 8; Token (feat1 (lit "s")) 2 13 1] /\
  skip false (lit "The McDonald's 2nd") 3 = 15 /\
  split true (lit "<DOC id=4>R&amp;D <b x</DOC>") = [lit "<DOC>"; lit "r"; lit "d"; lit "<b>"] /\
  skip true (lit "<DOC id=4>R&amp;D <b x</DOC>") 3 = 18.
Proof. repeat split; vm_compute; reflexivity. Qed.
