(** append_tsv against its specification. *)
From Verif Require Import Base Bytes HopperModel ArrayDefs GclSpec HopperProofs AnswerProofs VectorModel UnaryProofs CodecModel PostingModel PostingSpec ShardModel
  TokenModel ShardProofs TextModel TextSpec TextProofs DraftProofs TextStore TextBack TextMerge TextIndex TsvModel TsvSpec TsvSplit TsvProofs TsvIndex TsvMore.

Section Final.
Context (tokenize : bytes -> list token) (skip : bytes -> Z -> Z) (stop : bytes -> Prop) (starts : bytes -> list Z).
Context (Laws : tokenizer_laws tokenize skip stop starts).
Context (chunk transaction : Z) (sort : list annotation -> list annotation).
Context (Hchunk : null_feature < chunk) (Htrans : transaction <> chunk) (Hsort : forall l, sort_result l (sort l)).
Context (featurize : bytes -> Z) (pf : Z) (header : bool) (sep : bytes) (lines : list bytes) (n threads : Z) (rs : list (list bytes)).
Notation work := (worker tokenize chunk featurize pf header sep lines n threads).
Context (Hrs : records_of sep (lines_of lines n threads) rs) (Hok : acceptable tokenize stop chunk featurize pf rs).
Context (w : Z) (Hw : 0 <= w) (Hw2 : w + tokens_before starts rs <= staging) (Hfit : draft_fits chunk transaction work).
Notation i := (first_line lines n threads).

Lemma work_eq : work = draft_after tokenize chunk (chunk_edits starts featurize header pf i rs).
Proof. rewrite (records_eq _ _ _ Hrs). apply (worker_edits tokenize skip stop starts Laws). Qed.
Lemma whole : forall r t, In r rs -> In t r -> ends_well stop t /\ Forall (fun k => t_feature k <> chunk) (tokenize t).
Proof. apply Hok. Qed.
Lemma tags : forall r j, In r rs -> (j < length r)%nat -> tag featurize (Z.of_nat j) <> chunk.
Proof. intros r j R J. apply Hok. right. right. exists r, j. auto. Qed.
Lemma colon : featurize (lit ":") <> chunk. Proof. apply Hok. left. reflexivity. Qed.
Lemma colons : featurize (lit "::") <> chunk. Proof. apply Hok. right. left. reflexivity. Qed.
Lemma pf_ok : pf <> chunk. Proof. apply Hok. Qed.
Lemma fits : edits_fit tokenize chunk transaction (chunk_edits starts featurize header pf i rs).
Proof. unfold edits_fit. rewrite <- work_eq. exact Hfit. Qed.

Theorem text_of_lines : sep <> [] -> white (last sep 0) = true -> forall seq,
  let T := end_line (concat (map closed (lines_of lines n threads))) in
  exists m x, ready chunk transaction sort w seq work = Ok m /\ fiver_txt chunk m = Ok x /\
    forall l, Forall (fun pq => minf <= fst pq <= maxf /\ minf <= snd pq < maxf) l ->
      translate_all skip x l = Ok (map (fun pq => expected T (starts T) w (one_start w) (fst pq) (snd pq)) l).
Proof.
  intros N W seq T. set (es := chunk_edits starts featurize header pf i rs).
  assert (ET : full_text (texts es) = T) by (unfold es, full_text, T; rewrite (texts_chunk starts), (records_text sep _ _ N W Hrs); reflexivity).
  pose proof (chunk_ok tokenize stop starts chunk transaction featurize header pf i rs whole tags colon colons pf_ok w Hw Hw2 fits) as Ok.
  pose proof (text_back tokenize skip stop starts Laws chunk transaction sort Hchunk Htrans Hsort es w seq Ok Hw) as B. cbv zeta in B. rewrite ET in B.
  rewrite work_eq. apply B; [|exact fits].
  pose proof (chunk_count tokenize skip stop starts Laws chunk featurize header pf i rs whole) as C. unfold token_count in C. fold es in C. rewrite ET in C. rewrite C. exact Hw2.
Qed.

Context (seq : Z) (m : fiver) (Hm : ready chunk transaction sort w seq work = Ok m).
Lemma ready_edits : ready chunk transaction sort w seq (draft_after tokenize chunk (chunk_edits starts featurize header pf i rs)) = Ok m.
Proof. rewrite <- work_eq. exact Hm. Qed.

Theorem fields_found j : free tokenize chunk transaction rs (featurize (field_name j)) -> own_feature featurize rs (field_name j) -> featurize (field_name j) <> pf ->
  exists o, fiver_hopper (f_index m) (featurize (field_name j)) = Ok o /\ answers (projT1 o) (projT2 o) (is_field starts w rs j).
Proof.
  intros F O P. change (featurize (field_name j)) with (tag featurize (Z.of_nat j)) in *. destruct (field_name_long j) as [L1 L2].
  apply (field_answers tokenize skip stop starts Laws chunk transaction Hchunk Htrans sort Hsort featurize header pf i rs whole tags colon colons pf_ok w Hw Hw2 fits seq m ready_edits j F).
  - intros r j' R J E. apply field_name_inj, O; [|exact E]. right. right. exists r, j'. auto.
  - intros E. apply L1. symmetry. apply O; [left; reflexivity|symmetry; exact E].
  - intros E. apply L2. symmetry. apply O; [right; left; reflexivity|symmetry; exact E].
  - exact P.
Qed.
Theorem records_found b : let name := if b : bool then lit "::" else lit ":" in
  free tokenize chunk transaction rs (featurize name) -> own_feature featurize rs name -> featurize name <> pf ->
  (forall r, In r rs -> ends_in_token starts r \/ tokens_in_all starts r = 0) ->
  exists o, fiver_hopper (f_index m) (featurize name) = Ok o /\
    answers (projT1 o) (projT2 o) (is_record starts (fun k => (header && (i + Z.of_nat k =? 0)) = b) w rs).
Proof.
  cbv zeta. intros F O P E.
  pose proof (record_answers tokenize skip stop starts Laws chunk transaction Hchunk Htrans sort Hsort featurize header pf i rs whole tags colon colons pf_ok w Hw Hw2 fits seq m ready_edits b) as R.
  cbv zeta in R. assert (X : featurize (if b then lit "::" else lit ":") = if b then featurize (lit "::") else featurize (lit ":")) by (destruct b; reflexivity). rewrite X in F, P |- *.
  apply (R F E); [| |exact P].
  - intros r j Rr J K. destruct (field_name_long j) as [L1 L2]. assert (K2 : field_name j = if b then lit "::" else lit ":").
    { apply O; [right; right; exists r, j; auto|]. rewrite X. exact K. }
    destruct b; contradiction.
  - intros K. destruct b.
    + assert (A : lit ":" = lit "::") by (apply O; [left; reflexivity|exact K]). discriminate.
    + assert (A : lit "::" = lit ":") by (apply O; [right; left; reflexivity|symmetry; exact K]). discriminate.
Qed.
Theorem path_found : free tokenize chunk transaction rs pf -> (forall name, name_used rs name -> featurize name <> pf) ->
  ends_in_token starts (last rs []) ->
  exists o, fiver_hopper (f_index m) pf = Ok o /\ answers (projT1 o) (projT2 o) (eq (Iv w (w + tokens_before starts rs - 1) 0)).
Proof.
  intros F O E.
  apply (path_answers tokenize skip stop starts Laws chunk transaction Hchunk Htrans sort Hsort featurize header pf i rs whole tags colon colons pf_ok w Hw Hw2 fits seq m ready_edits F E).
  - intros r j R J. apply O. right. right. exists r, j. auto.
  - apply O. left. reflexivity.
  - apply O. right. left. reflexivity.
Qed.
End Final.
