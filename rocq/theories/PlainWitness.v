(** Concrete texts of single-file indexes. *)
From Verif Require Import Base Bytes CodecModel CodecSpec ChunkModel ChunkSpec ChunkWitness TokenModel PlainModel PlainSpec PlainTop.
From Verif Require Import PlainWrite PlainLife.
From Verif Require ChunkStep LexCut TextSpec TextBack TextWitness FileSpec OwslaWitness TokenProofs Utf8Model Utf8Proofs Utf8Laws TokenSpec.

Notation stop := (TokenSpec.ascii_ends false).
Notation starts := (TextBack.ascii_starts false).
Definition feat (t : bytes) : Z := Z.abs (TextWitness.feat1 t).
Notation tok := (TokenModel.tokenize feat false).
Notation chop := (TokenModel.split false).
Notation jump := (TokenModel.skip false).
Notation build ts := (let* b := builder_make backwards 100 never in let* (r, b) := add_all backwards 100 never tok ts b in finalize backwards 100 never b).

(** * The laws *)
Lemma ascii_splits xml : split_law (TokenModel.split xml) (TextBack.ascii_starts xml).
Proof. intros s _. unfold TokenModel.split, TextBack.ascii_starts. rewrite (TokenProofs.split_from_lex xml s 0%nat 0), !map_length. reflexivity. Qed.
Lemma utf8_splits : split_law Utf8Model.usplit Utf8Laws.utf8_starts.
Proof.
  intros s H. unfold Utf8Laws.utf8_starts. rewrite map_length.
  pose proof (Utf8Proofs.usplit_lex s 0 0 None) as (rest & E & R). rewrite (R H), app_nil_r in E. cbn [option_map] in E.
  unfold Utf8Model.usplit. rewrite <- E, map_length. reflexivity.
Qed.
Lemma ascii_features_from f xml : (forall t, 0 <= f t) -> forall s k off a x, In x (tokenize_from f xml s k off a) -> 0 <= t_feature x.
Proof.
  intros Hf. induction s as [|c r IH]; intros k off a x H; [destruct H|]. cbn [tokenize_from] in H. destruct k as [|k]; [|eapply IH; exact H].
  destruct (alphanumeric c).
  - apply in_app_or in H. destruct H as [H|H]; [|eapply IH; exact H].
    destruct (0 <? _)%nat; repeat (destruct H as [<-|H]; [apply Hf|]); destruct H.
  - destruct (xml && (c =? 60)).
    + destruct (tokenize_tag _) as [[q e]|]; [|eapply IH; exact H]. destruct H as [<-|H]; [apply Hf|eapply IH; exact H].
    + destruct (xml && (c =? 38)); [|eapply IH; exact H]. destruct (tokenize_entity _); eapply IH; exact H.
Qed.
Lemma ascii_features f xml : (forall t, 0 <= f t) -> features_ok (TokenModel.tokenize f xml).
Proof. intros Hf t x H. eapply ascii_features_from; eauto. Qed.
Lemma tok_features : features_ok tok.
Proof. apply ascii_features. intros t. apply Z.abs_nonneg. Qed.
(** The UTF-8 tokenizer has one feature for each token. *)
Lemma utf8_ok f s : forall k off a st, (forall t, 0 <= f t) ->
  map t_address (Utf8Model.utokenize_from f s k off a st) = map (fun i => a + Z.of_nat i) (seq 0 (length (Utf8Model.utokenize_from f s k off a st))) /\
  forall x, In x (Utf8Model.utokenize_from f s k off a st) -> 0 <= t_feature x.
Proof.
  assert (Sh : forall a n, map (fun i => a + 1 + Z.of_nat i) (seq 0 n) = map (fun i => a + Z.of_nat i) (seq 1 n)).
  { intros a n. rewrite <- seq_shift, map_map. apply map_ext. intros i. lia. }
  assert (C' : forall x l a, 0 <= t_feature x -> t_address x = a -> (map t_address l = map (fun i => a + 1 + Z.of_nat i) (seq 0 (length l)) /\ forall y, In y l -> 0 <= t_feature y) ->
    map t_address (x :: l) = map (fun i => a + Z.of_nat i) (seq 0 (length (x :: l))) /\ forall y, In y (x :: l) -> 0 <= t_feature y).
  { intros x l a Hx Ha [H1 H2]. split; [cbn [map length seq]; rewrite H1, Sh, Ha; f_equal; lia|]. intros y [<-|H]; auto. }
  intros k off a st Hf. revert k off a st. induction s as [|b r IH]; intros k off a st.
  - cbn [Utf8Model.utokenize_from]. destruct st as [[u o]|]; [|split; [reflexivity|intros x []]]. apply C'; [apply Hf|reflexivity|split; [reflexivity|intros x []]].
  - cbn [Utf8Model.utokenize_from]. destruct k as [|k]; [|apply IH].
    destruct st as [[u o]|], (Utf8Model.actions _); try apply IH; repeat (apply C'; [apply Hf|reflexivity|]); apply IH.
Qed.
Lemma utf8_features f : (forall t, 0 <= f t) -> features_ok (Utf8Model.utokenize f).
Proof. intros Hf t x H. exact (proj2 (utf8_ok f t 0%nat 0 0 None Hf) x H). Qed.
(** * Checks *)
Definition byteb (x : Z) : bool := (0 <=? x) && (x <=? 255).
Definition text_okb (t : bytes) : bool := forallb byteb t && negb (existsb (fun x => x =? 0) t).
Lemma text_check t : text_okb t = true -> TextSpec.ends_well stop t -> text_ok stop t.
Proof.
  unfold text_okb. rewrite andb_true_iff. intros [A B] E. split; [|split; [|exact E]].
  - apply Forall_forall. intros x Hx. rewrite forallb_forall in A. specialize (A x Hx). unfold byteb in A. unfold is_byte. lia.
  - intros H. apply negb_true_iff in B. assert (existsb (fun x => x =? 0) t = true) by (apply existsb_exists; exists 0; auto). congruence.
Qed.
Lemma single_check tk t a : map t_address (tk (TextSpec.closed t)) = map Z.of_nat (seq 0 (length (tk (TextSpec.closed t)))) -> single tk t a.
Proof.
  intros H i j x y Hi Hj E _.
  assert (X : forall i x, nth_error (tk (TextSpec.closed t)) i = Some x -> t_address x = Z.of_nat i).
  { intros k z Hk. pose proof (f_equal (fun l => nth_error l k) H) as N. cbv beta in N. rewrite !nth_error_map, Hk in N.
    assert (k < length (tk (TextSpec.closed t)))%nat by (apply nth_error_Some; congruence).
    rewrite (nth_error_nth' _ 0%nat), seq_nth in N by (try rewrite seq_length; assumption). cbn in N. congruence. }
  rewrite (X _ _ Hi), (X _ _ Hj) in E. lia.
Qed.
Lemma utf8_single f t a : (forall t, 0 <= f t) -> single (Utf8Model.utokenize f) t a.
Proof.
  intros Hf. apply single_check. pose proof (proj1 (utf8_ok f (TextSpec.closed t) 0%nat 0 0 None Hf)) as H.
  unfold Utf8Model.utokenize. rewrite H at 1. apply map_ext. intros i. lia.
Qed.

(** * A life *)
Definition many : bytes := concat (repeat (lit "ab cd-") 600).
Definition first_texts : list bytes := [lit "Hello, McWorld "; []; many; lit "one (two) hello"].
Definition story : list call :=
  [Transaction; Text (lit "three four"); Ready; Commits; Restart; Transaction; Text (lit "gone"); Aborts;
   Transaction; Transaction; Text (lit "  five six"); Text (lit "- -"); Ready; Commits; Text (lit "late")].
Ltac okay := apply text_check; [vm_compute; reflexivity|intros _; vm_compute; reflexivity].
Lemma first_ok : Forall (text_ok stop) first_texts.
Proof. unfold first_texts. repeat (apply Forall_cons; [okay|]). apply Forall_nil. Qed.
Lemma story_ok : all_permitted backwards 100 tok stop starts story (Burrow first_texts None false).
Proof.
  unfold story. cbn [all_permitted permitted burrow1 snd open kept sure].
  repeat match goal with
  | |- _ /\ _ => split
  | |- True => exact Logic.I
  | |- text_ok _ _ => okay
  | |- single _ _ _ => apply single_check; vm_compute; reflexivity
  | |- _ <= _ => vm_compute; discriminate
  | |- _ -> _ => intros _
  | |- _ \/ _ => right; right; exact (backwards_grows 100)
  | |- _ = _ => reflexivity
  end; vm_compute; discriminate.
Qed.
Lemma story_told :
  burrow_run tok starts story (Burrow first_texts None false) =
    ([Yes true; Range (Some (1205, 1206)) [(feat (lit "three"), 1205); (feat (lit "four"), 1206)]; Yes true; Nothing; Nothing;
      Yes true; Range (Some (1207, 1207)) [(feat (lit "gone"), 1207)]; Nothing;
      Yes true; Yes false; Range (Some (1207, 1208)) [(feat (lit "five"), 1207); (feat (lit "six"), 1208)]; Range (Some (1210, 1209)) []; Yes true; Nothing; Range None []],
     Burrow (first_texts ++ [lit "three four"; lit "  five six"; lit "- -"]) None false) /\
  ranges_of starts [] first_texts = [(0, 1); (3, 2); (2, 1201); (1202, 1204)].
Proof. split; vm_compute; reflexivity. Qed.
Lemma story_answers :
  map (answers starts (whole (first_texts ++ [lit "three four"; lit "  five six"; lit "- -"]))) [Translate 1204 1207; Translate 1205 1206; Translate 1208 maxf; Tokens] =
    [Said (lit "hello" ++ [10] ++ lit "three four" ++ [10] ++ lit "  five "); Said (lit "three four" ++ [10] ++ lit "  "); Said (lit "six" ++ [10] ++ lit "- -" ++ [10]); Counted 1209].
Proof. vm_compute. reflexivity. Qed.

(** * What goes wrong *)
Definition after (ts : list bytes) (l : list call) : res (list reply * option (list told)) :=
  let* b := builder_make backwards 100 never in
  let* (r, b) := add_all backwards 100 never tok ts b in
  let* (d, txt) := finalize backwards 100 never b in
  let* (rs, a) := calls backwards 100 never tok chop l (appender_make d txt false) in
  let* x := txt_make backwards 100 never (disk_of a) (a_txt a) in
  match x with
  | None => Ok (rs, None)
  | Some x => let* t := asks backwards 100 never jump chop [Translate 0 maxf; Tokens] x in Ok (rs, Some t)
  end.
(** A NUL in the text: the next transaction counts the tokens before it only. *)
Definition with_nul : bytes := [120; 0; 121; 32; 122; 10].
Lemma nul_case : Forall is_byte with_nul /\ TextSpec.ends_well stop with_nul /\ range_of starts [with_nul] (lit "w") = (3, 3) /\
  exists t, after [with_nul] [Transaction; Text (lit "w"); Ready; Commits] =
    Ok ([Yes true; Range (Some (1, 1)) [(feat (lit "w"), 1)]; Yes true; Nothing], Some t).
Proof.
  split; [unfold with_nul; repeat (apply Forall_cons; [unfold is_byte; lia|]); apply Forall_nil|].
  split; [intros _; vm_compute; reflexivity|]. split; [vm_compute; reflexivity|].
  exists [Said (with_nul ++ lit "w" ++ [10]); Counted 4]. vm_compute. reflexivity.
Qed.
(** A word with two features at an address that is a multiple of 1024. *)
Definition lots : bytes := concat (repeat (lit "a ") 1024).
Lemma mixed_case : text_ok stop lots /\ text_ok stop (lit "McX") /\
  exists r, after [lots] [Transaction; Text (lit "McX"); Ready; Commits] = Ok (r, None).
Proof.
  split; [okay|]. split; [okay|].
  exists [Yes true; Range (Some (1024, 1024)) [(feat (lit "McX"), 1024); (feat (lit "mcx"), 1024)]; Yes true; Nothing]. vm_compute. reflexivity.
Qed.
Lemma zero_case : text_ok stop (lit "-") /\ text_ok stop (lit "McX") /\
  after [lit "-"] [Transaction; Text (lit "McX"); Ready; Commits] = UB.
Proof. split; [okay|]. split; [okay|]. vm_compute. reflexivity. Qed.
(** Files and records for the reader. *)
Definition sample : bytes := many ++ lit "the End" ++ [10].
Definition sample_files : disk * list record := Eval vm_compute in
  match (let* b := builder_make backwards 4000 never in let* (r, b) := add_all backwards 4000 never tok [sample] b in finalize backwards 4000 never b) with Ok x => x | _ => (blank, []) end.
Definition sample_asks : list ask := [Translate 1020 1023; Translate 1024 1026; Translate 1027 1027; Tokens; Translate (-5) 1; Translate 1100 maxf; Translate 7 5].
Lemma reader_laws : (forall xml, FileSpec.cut_law (TextBack.ascii_starts xml) /\ split_law (TokenModel.split xml) (TextBack.ascii_starts xml)) /\
  FileSpec.cut_law Utf8Laws.utf8_starts /\ split_law Utf8Model.usplit Utf8Laws.utf8_starts.
Proof. exact (conj (fun xml => conj (LexCut.ascii_cut xml) (ascii_splits xml)) (conj Utf8Laws.utf8_cut utf8_splits)). Qed.
Lemma range_case : Forall (text_ok stop) ([lit "one"; lit "- two Three"; lit " (four)"]) /\ starts (TextSpec.closed (lit "- two Three")) <> [] /\
  answers starts (whole [lit "one"; lit "- two Three"; lit " (four)"]) (Translate 1 2) = Said (lit "two Three" ++ [10] ++ lit " (").
Proof. split; [repeat (apply Forall_cons; [okay|]); apply Forall_nil|]. split; [vm_compute; discriminate|vm_compute; reflexivity]. Qed.
Lemma nul_found : exists t u, Forall is_byte t /\ TextSpec.ends_well stop t /\ text_ok stop u /\ range_of starts [t] u = (3, 3) /\
  exists x, after [t] [Transaction; Text u; Ready; Commits] = Ok ([Yes true; Range (Some (1, 1)) [(feat u, 1)]; Yes true; Nothing], Some x).
Proof. destruct nul_case as (A & B & C & D). exists with_nul, (lit "w"). split; [exact A|]. split; [exact B|]. split; [okay|]. split; [exact C|exact D]. Qed.
Lemma mixed_found : (exists t u, text_ok stop t /\ text_ok stop u /\ exists r, after [t] [Transaction; Text u; Ready; Commits] = Ok (r, None)) /\
  exists t u, text_ok stop t /\ text_ok stop u /\ after [t] [Transaction; Text u; Ready; Commits] = UB.
Proof. split; [exists lots, (lit "McX"); exact mixed_case|exists (lit "-"), (lit "McX"); exact zero_case]. Qed.
Lemma sample_case : serves backwards 4000 never (fst sample_files) sample /\ recorded starts sample (snd sample_files) /\
  length (snd sample_files) = 2%nat /\ ~ In 0 sample /\
  map (answers starts sample) sample_asks =
    [Said (lit "ab cd-ab cd-"); Said (lit "ab cd-ab "); Said (lit "cd-"); Counted 1202; Said (lit "ab cd-");
     Said (concat (repeat (lit "ab cd-") 50) ++ lit "the End" ++ [10]); Said []].
Proof.
  assert (Hok : text_ok stop sample) by okay.
  destruct (backwards_suitable 4000 eq_refl) as (H1 & H2 & H3).
  destruct (build_all backwards 4000 never H1 H2 H3 tok jump stop starts (TextBack.ascii_laws feat false) [sample]) as (b & b' & d & E1 & E2 & E3 & E4 & E5 & E6 & E7);
    [apply Forall_cons; [exact Hok|apply Forall_nil]|].
  assert (Ef : (d, b_txt b') = sample_files).
  { assert (X : Ok (d, b_txt b') = Ok sample_files); [|congruence].
    transitivity (let* b := builder_make backwards 4000 never in let* (r, b) := add_all backwards 4000 never tok [sample] b in finalize backwards 4000 never b).
    - rewrite E1. cbn [bind]. rewrite E2. cbn [bind]. rewrite E4. reflexivity.
    - vm_compute. reflexivity. }
  assert (Ew : whole [sample] = sample) by (vm_compute; reflexivity). rewrite Ew in E5, E7. rewrite <- Ef. cbn [fst snd].
  split; [apply (ChunkStep.resting_serves backwards 4000 never H1 H2 H3 d sample E5 E6)|].
  split; [apply marks_recorded; exact E7|]. split; [replace (b_txt b') with (snd sample_files) by (rewrite <- Ef; reflexivity); reflexivity|].
  split; [apply Hok|]. vm_compute. reflexivity.
Qed.
