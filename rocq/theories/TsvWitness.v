(** Concrete files used by the examples and refutations of PropsTsv.v. *)
From Verif Require Import Base Bytes HopperModel ArrayDefs GclSpec VectorModel UnaryProofs CodecModel PostingModel PostingSpec ShardModel
  TokenModel TokenSpec TextBack TextModel TextSpec TextWitness TsvModel TsvSpec TsvSplit TsvProofs TsvMore.

Definition tab : bytes := [9].
Definition file1 : bytes := lit "id" ++ tab ++ lit "name" ++ [13; 10] ++ lit "1" ++ tab ++ lit "Ada Lovelace" ++ nl ++ lit "2" ++ tab ++ lit "Grace Hopper".
Definition lines1 : list bytes := [lit "id" ++ tab ++ lit "name"; lit "1" ++ tab ++ lit "Ada Lovelace"; lit "2" ++ tab ++ lit "Grace Hopper"].
Definition records1 : list (list bytes) := [[lit "id" ++ tab; lit "name"]; [lit "1" ++ tab; lit "Ada Lovelace"]; [lit "2" ++ tab; lit "Grace Hopper"]].
Definition pf1 : Z := feat1 (lit "./a.tsv").
Definition work1 (sep : bytes) (lines : list bytes) (n threads : Z) : draft := worker tok1 99 feat1 pf1 true sep lines n threads.
Definition find1 (d : draft) (w f : Z) (h : list (meth * Z)) : res (list iv) :=
  let* m := ready 99 98 isort w 0 d in let* o := fiver_hopper (f_index m) f in run (projT1 o) (projT2 o) h.
Definition text1 (d : draft) (w : Z) (l : list (Z * Z)) : res (list bytes) :=
  let* m := ready 99 98 isort w 0 d in let* x := fiver_txt 99 m in translate_all (skip false) x l.

Lemma file1_lines : text_lines file1 lines1. Proof. exact (split_lines_ok file1). Qed.
Lemma lines1_records : records_of tab (lines_of lines1 0 1) records1. Proof. exact (records_exist tab (lines_of lines1 0 1)). Qed.
Ltac one_of H := repeat match type of H with False => destruct H | ?a \/ ?b => destruct H as [H|H] end.
Lemma used1 name : name_used records1 name -> In name [lit ":"; lit "::"; field_name 0; field_name 1].
Proof.
  intros [->|[->|(r & j & R & J & ->)]]; [left; reflexivity|right; left; reflexivity|].
  assert (L : length r = 2%nat) by (cbn in R; one_of R; subst r; reflexivity). rewrite L in J. destruct j as [|[|j]]; [do 2 right; left; reflexivity|do 3 right; left; reflexivity|lia].
Qed.
Lemma records1_ok : acceptable tok1 (ascii_ends false) 99 feat1 pf1 records1.
Proof.
  split; [|split].
  - intros r t R T. cbn [records1 In] in R. one_of R; subst r; cbn [In] in T; one_of T; subst t; (split; [intros _; vm_compute; reflexivity|apply tok_checked; vm_compute; reflexivity]).
  - intros name U. apply used1 in U. cbn [In] in U. one_of U; subst name; vm_compute; discriminate.
  - vm_compute. discriminate.
Qed.
Lemma free_checked f : ((null_feature <? f) && negb (f =? 99) && negb (f =? 98) && forallb (forallb (fun t => forallb (fun k => negb (t_feature k =? f)) (tok1 t))) records1) = true ->
  free tok1 99 98 records1 f.
Proof.
  intros H. apply andb_prop in H as [H H4]. apply andb_prop in H as [H H3]. apply andb_prop in H as [H1 H2]. split; [lia|]. split; [lia|]. split; [lia|].
  intros r t tok R T K. rewrite forallb_forall in H4. specialize (H4 r R). rewrite forallb_forall in H4. specialize (H4 t T). rewrite forallb_forall in H4. specialize (H4 tok K). lia.
Qed.
Lemma own_checked name : forallb (fun n => implb (feat1 n =? feat1 name) (if list_eq_dec Z.eq_dec n name then true else false)) [lit ":"; lit "::"; field_name 0; field_name 1] = true ->
  own_feature feat1 records1 name.
Proof.
  intros H n U E. apply used1 in U. rewrite forallb_forall in H. specialize (H n U). rewrite E, Z.eqb_refl in H. cbn [implb] in H. destruct (list_eq_dec Z.eq_dec n name) as [e|]; [exact e|discriminate].
Qed.
Lemma names1 : Forall (fun name => free tok1 99 98 records1 (feat1 name) /\ own_feature feat1 records1 name /\ feat1 name <> pf1) [lit ":"; lit "::"; field_name 0; field_name 1].
Proof. repeat (apply Forall_cons; [split; [apply free_checked; vm_compute; reflexivity|split; [apply own_checked; vm_compute; reflexivity|vm_compute; discriminate]]|]). constructor. Qed.
Lemma pf1_free : free tok1 99 98 records1 pf1 /\ (forall name, name_used records1 name -> feat1 name <> pf1).
Proof. split; [apply free_checked; vm_compute; reflexivity|]. intros name U. apply used1 in U. cbn [In] in U. one_of U; subst name; vm_compute; discriminate. Qed.
Lemma ends1 : Forall (ends_in_token (ascii_starts false)) records1 /\ ends_in_token (ascii_starts false) (last records1 []).
Proof. split; [repeat (apply Forall_cons; [vm_compute; reflexivity|]); constructor|vm_compute; reflexivity]. Qed.
Lemma room1 : 100 + tokens_before (ascii_starts false) records1 <= staging /\ draft_fits 99 98 (work1 tab lines1 0 1).
Proof. split; vm_compute; discriminate. Qed.
Lemma found1 : let f name := find1 (work1 tab lines1 0 1) 100 (feat1 name) in
  f (lit "::") [(Mtau, 0); (Mtau, 101)] = Ok [Iv 100 101 0; Iv maxf maxf 0] /\
  f (lit ":") [(Mtau, 0); (Mtau, 103); (Mtau, 106)] = Ok [Iv 102 104 0; Iv 105 107 0; Iv maxf maxf 0] /\
  f (lit ":1:") [(Mtau, 0); (Mtau, 102); (Mtau, 104)] = Ok [Iv 101 101 0; Iv 103 104 0; Iv 106 107 0] /\
  f (lit "./a.tsv") [(Mtau, 0)] = Ok [Iv 100 107 0] /\
  text1 (work1 tab lines1 0 1) 100 [(102, 104); (106, 107); (0, 200)] =
    Ok [lit "1" ++ tab ++ lit "Ada Lovelace" ++ nl; lit "Grace Hopper" ++ nl; concat (map (fun l => l ++ nl) lines1)].
Proof. vm_compute. auto. Qed.

(** The last field is empty. *)
Definition lines2 : list bytes := [lit "1" ++ tab ++ lit "Ada" ++ tab; lit "2" ++ tab ++ lit "Grace" ++ tab ++ lit "x"].
Lemma next_token : exists lines rs, rs = map (record tab) lines /\ records_of tab (lines_of lines 0 1) rs /\
  map (tokens_in_all (ascii_starts false)) rs = [2; 3] /\
  find1 (work1 tab ([] :: lines) 0 1) 0 (feat1 (lit ":")) [(Mtau, 0); (Mtau, 1)] = Ok [Iv 0 2 0; Iv 2 4 0] /\
  text1 (work1 tab ([] :: lines) 0 1) 0 [(0, 1); (0, 2)] = Ok [lit "1" ++ tab ++ lit "Ada" ++ tab; lit "1" ++ tab ++ lit "Ada" ++ tab ++ lit "2" ++ tab].
Proof. exists lines2, (map (record tab) lines2). split; [reflexivity|]. split; [exact (records_exist tab lines2)|]. vm_compute. auto. Qed.
Lemma past_the_end : exists lines, map (tokens_in_all (ascii_starts false)) (map (record tab) lines) = [1; 0] /\
  find1 (work1 tab lines 0 1) 0 pf1 [(Mtau, 0)] = Ok [Iv 0 1 0].
Proof. exists [lit "one"; []]. vm_compute. auto. Qed.
(** A comma. *)
Lemma commas : exists line, text1 (work1 (lit ",") [line] 0 1) 0 [(0, 1)] = Ok [lit "1," ++ nl ++ lit "Ada" ++ nl] /\ line = lit "1,Ada".
Proof. eexists. split; [|reflexivity]. vm_compute. reflexivity. Qed.
(** Only the path. *)
Lemma path_only : append_tsv true (fun _ => true) (fun n => negb (n =? 1)) 5 2 = (false, [Path]).
Proof. vm_compute. reflexivity. Qed.
Lemma longer_path : exists stored asked, stored <> asked /\ path_match (stored ++ nl) asked = true /\ asked = lit "./a.txt" /\ stored = lit "./a.txt b".
Proof. do 2 eexists. split; [|split; [|split; reflexivity]]; [discriminate|vm_compute; reflexivity]. Qed.
(** A path without tokens: "/" is annotated on a range that ends before it starts. *)
Lemma empty_path : exists name, In (Ann (feat1 (lit "/")) (Iv (staging + 1) staging 0)) (d_annotations (path_draft tok1 99 feat1 name)) /\ name = lit "_".
Proof. eexists. split; [|reflexivity]. vm_compute. auto. Qed.
