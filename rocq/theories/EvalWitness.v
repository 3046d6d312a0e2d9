(** Concrete cases for C59 to C61. *)
From Coq Require Import Reals Lra Permutation Sorted.
From Verif Require Import Base Bytes RecipeModel RankerSpec JsonlSpec EvalModel EvalSpec EvalProofs EvalGain EvalFinal EvalMore EvalMed EvalLoad EvalQrels.
From Verif Require RankerProofs RankerText RankerModel.
Local Open Scope R_scope.

(** A sort by falling value. *)
Fixpoint down_insert (x : R) (l : list R) : list R := match l with [] => [x] | y :: r => if Rle_dec y x then x :: l else y :: down_insert x r end.
Definition down_sort (l : list R) : list R := fold_right down_insert [] l.
Lemma down_perm x l : Permutation (down_insert x l) (x :: l).
Proof. induction l as [|y l IH]; cbn; [reflexivity|]. destruct (Rle_dec y x); [reflexivity|]. rewrite IH. apply perm_swap. Qed.
Lemma down_falls x l : falls l -> falls (down_insert x l).
Proof.
  unfold falls. induction 1 as [|y l S IH F]; cbn; [repeat constructor|]. destruct (Rle_dec y x).
  - constructor; [now constructor|]. constructor; [lra|]. eapply Forall_impl; [|exact F]. cbn. intros; lra.
  - constructor; [exact IH|]. apply Forall_forall. intros z Z. apply (Permutation_in z (down_perm x l)) in Z. destruct Z as [<-|Z]; [lra|]. rewrite Forall_forall in F. now apply F.
Qed.
Lemma down_sorts : sorts_down down_sort.
Proof.
  intros v. induction v as [|x v [P F]]; [split; constructor|]. cbn. split; [rewrite down_perm; now constructor|now apply down_falls].
Qed.

Definition wg : list (Z * R) := [(1%Z, 1); (3%Z, 1 / 2); (5%Z, 0)].
Definition wr : list (Z * Z) := [(3, 4); (2, 2); (1, 1); (5, 9)]%Z.
Lemma wg_ok : graded wg /\ not_negative wg /\ grades_within 0 1 wg.
Proof. split; [|split]; [unfold graded; cbn; repeat (constructor; [cbn; lia|]); constructor|repeat (constructor; [cbn; lra|]); constructor|repeat (constructor; [cbn; lra|]); constructor]. Qed.
Lemma wr_ok : NoDup (map fst wr).
Proof. cbn. repeat (constructor; [cbn; lia|]); constructor. Qed.
Ltac by_grade := cbv [grade wg filter map fst snd Z.eqb Pos.eqb Rsum fold_right]; lra.
Lemma wg1 : grade wg 1 = 1. Proof. by_grade. Qed.
Lemma wg2 : grade wg 2 = 0. Proof. by_grade. Qed.
Lemma wg3 : grade wg 3 = 1 / 2. Proof. by_grade. Qed.
Lemma wg5 : grade wg 5 = 0. Proof. by_grade. Qed.
Ltac grades := repeat (rewrite ?wg1, ?wg2, ?wg3, ?wg5; match goal with |- context [Rlt_dec ?a ?b] => destruct (Rlt_dec a b); try lra end).
Lemma w_counts : get (lit "p05") (eval down_sort wg wr []) = Some (Some (2 / 5)) /\ get (lit "ap") (eval down_sort wg wr []) = Some (Some (5 / 6)) /\
  get (lit "recall") (eval down_sort wg wr []) = Some (Some 1).
Proof.
  destruct (eval_counts down_sort wg wr [] (proj1 wg_ok)) as (H1 & H2 & _ & _ & _ & _ & _ & _ & H9).
  assert (E : relevants wg (map fst wg) = [1; 3]%Z). { change (map fst wg) with [1; 3; 5]%Z. unfold relevants. cbn [filter]. grades. reflexivity. }
  split; [|split].
  - rewrite H2. do 2 f_equal. unfold precision_at, relevants, many. change (map fst wr) with [3; 2; 1; 5]%Z. cbn [firstn filter]. grades. cbn. lra.
  - rewrite H1. do 2 f_equal. unfold average_precision. rewrite E. unfold precision_at, relevants, many, over. change (map fst wr) with [3; 2; 1; 5]%Z. cbn [map length seq nth Nat.sub firstn filter]. grades.
    cbn [length INR Rsum fold_right]. destruct (Req_EM_T (1 + 1) 0); [lra|]. lra.
  - rewrite H9. do 2 f_equal. rewrite E. unfold relevants, many, over. change (map fst wr) with [3; 2; 1; 5]%Z. cbn [filter]. grades. cbn [length INR]. destruct (Req_EM_T (1 + 1) 0); [lra|]. lra.
Qed.
Ltac by_g := cbv [grade filter map fst snd Z.eqb Pos.eqb Rsum fold_right]; lra.
Definition rr_g : list (Z * R) := [(1%Z, 1); (3%Z, 1)].
Lemma rr_refuted : graded rr_g /\ reciprocal_rank rr_g (map fst [(1, 1)]%Z) 1 /\ get (lit "rr") (eval down_sort rr_g [(1, 1)]%Z []) = Some (Some (1 / 2)).
Proof.
  assert (G : graded rr_g) by (unfold graded; cbn; repeat (constructor; [cbn; lia|]); constructor).
  assert (G1 : grade rr_g 1 = 1) by (unfold rr_g; by_g). assert (G3 : grade rr_g 3 = 1) by (unfold rr_g; by_g).
  split; [exact G|]. split.
  - right. exists [], 1%Z, []. split; [reflexivity|]. split; [reflexivity|]. split; [rewrite G1; lra|]. cbn. lra.
  - rewrite (eval_rr _ _ _ _ G). do 2 f_equal. unfold average_precision, precision_at, relevants, many, over. cbn [map fst rr_g length seq nth Nat.sub firstn filter].
    change (grade _ 1) with (grade rr_g 1). change (grade _ 3) with (grade rr_g 3).
    rewrite !G1, !G3. destruct (Rlt_dec 0 1); [|lra]. cbn [length INR Rsum fold_right]. destruct (Req_EM_T (1 + 1) 0); [lra|]. lra.
Qed.
Lemma repeats_recall : graded [(1%Z, 1)] /\ get (lit "recall") (eval down_sort [(1%Z, 1)] [(1, 1); (1, 1)]%Z []) = Some (Some 2).
Proof.
  assert (G : graded [(1%Z, 1)]) by (unfold graded; cbn; repeat (constructor; [cbn; lia|]); constructor). split; [exact G|].
  destruct (eval_counts down_sort [(1%Z, 1)] [(1, 1); (1, 1)]%Z [] G) as (_ & _ & _ & _ & _ & _ & _ & _ & H9). rewrite H9. do 2 f_equal.
  assert (G1 : grade [(1%Z, 1)] 1 = 1) by by_grade. unfold relevants, many, over. cbn [map fst filter]. rewrite !G1. destruct (Rlt_dec 0 1); [|lra].
  cbn [length INR]. destruct (Req_EM_T 1 0); lra.
Qed.
(** * Differences *)
Definition m_one : list (Z * Z) := [(1, 1); (2, 2)]%Z.
Definition m_two : list (Z * Z) := [(3, 3); (1, 1); (4, 4)]%Z.
Lemma m_ok : NoDup (map fst m_one) /\ NoDup (map fst m_two).
Proof. split; cbn; repeat (constructor; [cbn; lia|]); constructor. Qed.
Lemma m_value : get (lit "med-rbp50") (med down_sort m_one m_two []) = Some (Some (5 / 8)).
Proof.
  unfold med. rewrite !(gets_half down_sort _ _ down_sorts). cbn [lift]. keys. do 2 f_equal.
  unfold med_qrels, m_one, m_two. cbn [med_loop]. unfold unless_there. cbv [fst find zput Z.eqb Z.ltb Pos.eqb Pos.ltb Z.compare Pos.compare Pos.compare_cont].
  cbv [rbp grade map fst snd filter Z.eqb Pos.eqb Rsum fold_right persisting]. unfold Rmax. destruct (Rle_dec _ _); lra.
Qed.
Lemma med_empty : get (lit "med-ndcg") (med down_sort [] [] []) = Some None.
Proof.
  unfold med. rewrite !(gets_half down_sort _ _ down_sorts). cbn [lift]. keys. unfold med_fake_ideal_dcg. cbn [Nat.max length fake_loop]. unfold fdiv.
  replace (eqR (ln 2 * 0) 0) with true; [reflexivity|]. symmetry. apply eqR_iff. lra.
Qed.
Definition r_one : list (Z * Z) := [(1, 1)]%Z.
Definition r_two : list (Z * Z) := [(2, 2); (1, 1); (1, 1)]%Z.
Lemma med_repeats : exists x, get (lit "med-rbp95") (med down_sort r_one r_two []) = Some (Some x) /\
  graded [(1%Z, 1); (2%Z, 1)] /\ grades_within 0 1 [(1%Z, 1); (2%Z, 1)] /\
  x < Rabs (rbp (95 / 100) [(1%Z, 1); (2%Z, 1)] (map fst r_one) - rbp (95 / 100) [(1%Z, 1); (2%Z, 1)] (map fst r_two)).
Proof.
  unfold med. rewrite !(gets_half down_sort _ _ down_sorts). cbn [lift]. eexists. split; [keys; reflexivity|].
  split; [unfold graded; cbn; repeat (constructor; [cbn; lia|]); constructor|]. split; [repeat (constructor; [cbn; lra|]); constructor|].
  unfold med_qrels, r_one, r_two. cbn [med_loop]. unfold unless_there. cbv [fst find zput Z.eqb Z.ltb Pos.eqb Pos.ltb Z.compare Pos.compare Pos.compare_cont].
  cbv [rbp grade map fst snd filter Z.eqb Pos.eqb Rsum fold_right persisting]. unfold Rmax. rewrite Rabs_left by lra. destruct (Rle_dec _ _); lra.
Qed.
(** * Means *)
Definition mm1 : list (bytes * option R) := [(lit "ap", Some 1); (lit "p05", Some (1 / 5))].
Definition mm2 : list (bytes * option R) := [(lit "ap", Some 0); (lit "p05", Some (2 / 5)); (lit "x", Some 7)].
Lemma mm_ok : forall m k, In m [mm1; mm2] -> In k (map fst mm1) -> k <> lit "n" -> known k m.
Proof. intros m k I J _. cbn [In map fst mm1] in J. destruct I as [<-|[<-|[]]]; destruct J as [<-|[<-|[]]]; eexists; vm_compute; reflexivity. Qed.
Lemma mean_ub : means [mm2; mm1] [] = UB.
Proof.
  cbn [means mean bind]. change (mean mm2 []) with (Ok (set "n" (Some 1) mm2)). cbn [bind].
  rewrite (mean_missing mm1 (set "n" (Some 1) mm2) 1 (lit "x") (Some 7)); try reflexivity; [lra| |discriminate]. vm_compute. tauto.
Qed.
(** * Files *)
Definition w_atof (s : bytes) : R := match s with [c] => IZR (c - 48) | _ => 0 end.
Definition w_solve (q : bytes) : option (Z * Z) :=
  if eqb_bytes q (lit "(>> (.. <D> </D>) (>> id: ""a""))") then Some (10, 19)%Z else
  if eqb_bytes q (lit "(>> (.. <D> </D>) (>> id: ""b""))") then Some (20, 24)%Z else Some (maxf, maxf).
Definition w_text : bytes := lit "7 0 a 2" ++ [10%Z] ++ lit "7 0  b 1 " ++ [10%Z] ++ lit "8 0 a 4" ++ [10%Z].
Definition w_lines : list bytes := [lit "7 0 a 2"; lit "7 0  b 1 "; lit "8 0 a 4"].
Definition w_xs : list line_of := [Line (lit "7") (lit "a") 2; Line (lit "7") (lit "b") 1; Line (lit "8") (lit "a") 4].
Ltac nohit := cbn; let I := fresh in intros I; repeat (destruct I as [I|I]; [discriminate|]); exact I.
Lemma w_file : file_lines w_text w_lines.
Proof.
  unfold w_text, w_lines. apply (FL_more (lit "7 0 a 2")); [nohit|]. apply (FL_more (lit "7 0  b 1 ")); [nohit|]. apply (FL_more (lit "8 0 a 4") []); [nohit|constructor].
Qed.
Ltac word := split; [discriminate|repeat constructor].
Lemma w_reads : Forall2 (reads w_atof) w_lines w_xs.
Proof.
  assert (P : forall a b c d x y z e, stage_text a -> stage_text b -> stage_text c -> stage_text d -> white_run x -> white_run y -> white_run z -> (e = [] \/ white_run e) ->
    pipeline_of [a; b; c; d] (a ++ x ++ b ++ y ++ c ++ z ++ d ++ e)).
  { intros a b c d x y z e A B C D X Y Z [->|E]; repeat (apply P_more; auto); [rewrite app_nil_r; now apply P_last|now apply P_trail]. }
  assert (W : white_run [32%Z]) by word.
  repeat constructor.
  - exists (lit "0"), (lit "2"). split; [|change (w_atof (lit "2")) with 2; cbn [l_grade]; unfold Rmax; destruct (Rle_dec _ _); lra].
    apply (P (lit "7") (lit "0") (lit "a") (lit "2") [32%Z] [32%Z] [32%Z] []); auto; word.
  - exists (lit "0"), (lit "1"). split; [|change (w_atof (lit "1")) with 1; cbn [l_grade]; unfold Rmax; destruct (Rle_dec _ _); lra].
    apply (P (lit "7") (lit "0") (lit "b") (lit "1") [32%Z] [32; 32]%Z [32%Z] [32%Z]); auto; word.
  - exists (lit "0"), (lit "4"). split; [|change (w_atof (lit "4")) with 4; cbn [l_grade]; unfold Rmax; destruct (Rle_dec _ _); lra].
    apply (P (lit "8") (lit "0") (lit "a") (lit "4") [32%Z] [32%Z] [32%Z] []); auto; word.
Qed.
Definition w_place : bytes -> option (Z * Z) := translate_docno (lit "(.. <D> </D>)") (Some (lit "id:")) w_solve.
Lemma w_placed : Forall (fun x => w_place (l_item x) <> None) w_xs.
Proof. repeat constructor; vm_compute; discriminate. Qed.
Lemma w_high : highest w_xs = 4.
Proof. unfold highest, w_xs. cbn. unfold Rmax. repeat destruct (Rle_dec _ _); lra. Qed.
(** All grades 0: not numbers. *)
Lemma zero_refuted : load_trec_qrels (lit "(.. <D> </D>)") (Some (lit "id:")) w_solve w_atof (Some (lit "7 0 a 0")) false (Loaded (Some []) None None)
  = (true, Loaded (Some [(lit "7", [(10%Z, None)])]) None None).
Proof.
  unfold load_trec_qrels.
  assert (E : lines_of [] (lit "7 0 a 0") = [lit "7 0 a 0"]) by reflexivity. rewrite E. clear E.
  cbn [load_loop]. replace (RankerModel.pieces (Some []) (lit "7 0 a 0")) with [lit "7"; lit "0"; lit "a"; lit "0"] by reflexivity.
  replace (translate_docno (lit "(.. <D> </D>)") (Some (lit "id:")) w_solve (lit "a")) with (Some (10, 19)%Z) by reflexivity.
  replace (w_atof (lit "0")) with 0 by reflexivity. rewrite (Rmax_left 0 0) by lra. rewrite (Rmax_left 0 0) by lra.
  cbn [l_qrels l_lengths l_docnos option_map]. unfold put2. cbn [get put zput map fst snd scaled]. unfold fdiv. replace (eqR 0 0) with true; [reflexivity|]. symmetry. now apply eqR_iff.
Qed.
(** A second file changes the grades of the first. *)
Lemma twice_refuted : load_trec_qrels (lit "(.. <D> </D>)") (Some (lit "id:")) w_solve w_atof (Some (lit "8 0 b 2")) false
    (Loaded (Some [(lit "7", [(10%Z, Some 1)])]) None None)
  = (true, Loaded (Some [(lit "7", [(10%Z, Some (1 / 2))]); (lit "8", [(20%Z, Some (2 / 2))])]) None None).
Proof.
  unfold load_trec_qrels.
  assert (E : lines_of [] (lit "8 0 b 2") = [lit "8 0 b 2"]) by reflexivity. rewrite E. clear E.
  cbn [load_loop]. replace (RankerModel.pieces (Some []) (lit "8 0 b 2")) with [lit "8"; lit "0"; lit "b"; lit "2"] by reflexivity.
  replace (translate_docno (lit "(.. <D> </D>)") (Some (lit "id:")) w_solve (lit "b")) with (Some (20, 24)%Z) by reflexivity.
  replace (w_atof (lit "2")) with 2 by reflexivity. rewrite (Rmax_right 0 2) by lra. rewrite (Rmax_left 2 0) by lra.
  cbn [l_qrels l_lengths l_docnos option_map]. unfold put2. change (get (lit "8") [(lit "7", [(10%Z, Some 1)])]) with (@None (list (Z * option R))). cbn [zput].
  change (put (lit "8") [(20%Z, Some 2)] [(lit "7", [(10%Z, Some 1)])]) with [(lit "7", [(10%Z, Some 1)]); (lit "8", [(20%Z, Some 2)])].
  cbn [map fst snd scaled]. unfold fdiv. replace (eqR 2 0) with false; [reflexivity|]. symmetry. apply eqR_false. lra.
Qed.
(** A line that starts with white space has an empty topic. *)
Lemma leading_refuted : RankerModel.pieces (Some []) (lit " 0 a 1") = [[]; lit "0"; lit "a"; lit "1"] /\
  fst (load_trec_qrels (lit "(.. <D> </D>)") (Some (lit "id:")) w_solve w_atof (Some (lit " 0 a 1")) false (Loaded (Some []) None None)) = true.
Proof.
  split; [reflexivity|]. unfold load_trec_qrels. assert (E : lines_of [] (lit " 0 a 1") = [lit " 0 a 1"]) by reflexivity. rewrite E. clear E.
  cbn [load_loop]. replace (RankerModel.pieces (Some []) (lit " 0 a 1")) with [[]; lit "0"; lit "a"; lit "1"] by reflexivity.
  replace (translate_docno (lit "(.. <D> </D>)") (Some (lit "id:")) w_solve (lit "a")) with (Some (10, 19)%Z) by reflexivity. reflexivity.
Qed.
Lemma w_ids : trec_docno (lit " <DOCNO> FT911-3 </DOCNO> x") = lit "FT911-3" /\ trec_docno (lit "<DOCNO>FT911-3</DOCNO>") = lit "FT911-3" /\ plain_id (lit "FT911-3").
Proof. split; [reflexivity|]. split; [reflexivity|]. split; [discriminate|]. repeat (constructor; [split; [reflexivity|split; cbn; lia]|]). constructor. Qed.
