(** Cases for the choice of ranking statistics. *)
From Verif Require Import Base Bytes RecipeModel MakeModel JsonTxtModel OpenModel ChoiceModel ChoiceSpec ChoiceProofs.

Definition q_doc := lit ":doc:".
Definition q_body := lit ":body:".
(** Two queries are understood; the others give no hopper. *)
Definition gcl_sample (q : bytes) : option (list (Z * Z)) :=
  if eqb_bytes q q_doc then Some [(0, 9); (10, 19)] else if eqb_bytes q q_body then Some [(3, 8); (12, 18)]
  else if eqb_bytes q (lit ":") then Some [(0, 99)] else None.
Definition warren_with (ps : params) (meta : params) : warren :=
  {| w_param := fun k => Some (item k ps); w_default := []; w_stemmer := Some Porter; w_tokenizer := Some (Ascii true);
     w_gcl := gcl_sample; w_avgl := true; w_total := (2, 20); w_fields := true;
     w_meta := fun tag => Some (lit "tf-idf", tag, meta); w_tagged := fun _ => (2, 20) |}.
Definition idf_warren := warren_with [(lit "container", q_doc)] [].
Definition df_warren := warren_with [(lit "statistics", lit "df"); (lit "content", q_body); (lit "container", q_doc)] [].
Definition tag_meadow (meta : params) := warren_with [(lit "format", lit "meadowlark")] meta.
Definition meta_sample : params := [(lit "gcl", q_body); (lit "container", q_doc); (lit "tokenizer", lit "utf8")].

Lemma with_readable ps meta : readable (warren_with ps meta).
Proof. intros k. discriminate. Qed.
Lemma idf_no_meadow : ~ meadow idf_warren.
Proof. unfold meadow. vm_compute. discriminate. Qed.
Lemma df_no_meadow : ~ meadow df_warren.
Proof. unfold meadow. vm_compute. discriminate. Qed.
Lemma tag_is_meadow meta : meadow (tag_meadow meta).
Proof. reflexivity. Qed.
Lemma idf_case : declared idf_warren (lit "idf") /\ exists s, stats_make false [] [] idf_warren = Ok (Some s) /\ s_kind s = KIdf /\
  s_stemmer s = Some Porter /\ s_tokenizer s = Some (Ascii true) /\ container_hopper s idf_warren = Ok [(0, 9); (10, 19)].
Proof.
  split; [apply declared_container; [exact idf_no_meadow|reflexivity|vm_compute; discriminate]|].
  eexists. split; [vm_compute; reflexivity|]. repeat split.
Qed.
Lemma df_case : declared df_warren (lit "df") /\ exists s, stats_make false [] [] df_warren = Ok (Some s) /\ s_kind s = KDf /\
  tf_items s df_warren = Ok (Some [(3, 8); (12, 18)]) /\ container_hopper s df_warren = Ok [(0, 9); (10, 19)].
Proof.
  split; [exact (declared_name df_warren df_no_meadow ltac:(vm_compute; discriminate))|].
  eexists. split; [vm_compute; reflexivity|]. repeat split.
Qed.
Lemma df_holds : holds df_warren KDf /\ holds idf_warren KIdf /\ called KDf (lit "df") /\ w_tokenizer df_warren <> None.
Proof. split; [vm_compute; repeat split; discriminate|]. split; [reflexivity|]. split; [constructor|discriminate]. Qed.
Lemma meadow_case : exists s, stats_make true (lit "tf-idf") (lit "news") (tag_meadow meta_sample) = Ok (Some s) /\ s_kind s = KTfIdf /\
  s_recipe s = lit "news" /\ s_tokenizer s = Some Utf8 /\ s_stemmer s = Some Porter /\ tf_items s (tag_meadow meta_sample) = Ok (Some [(3, 8); (12, 18)]).
Proof. eexists. split; [vm_compute; reflexivity|]. repeat split. Qed.

Lemma fast_no_terms : exists s, stats_make true [] [] idf_warren = Ok (Some s) /\ forall split query, query_terms split s query = UB.
Proof.
  destruct (stats_make true [] [] idf_warren) as [[s|]| |] eqn:E; [|vm_compute in E; discriminate..].
  exists s. split; [reflexivity|]. exact (no_terms _ _ _ _ idf_no_meadow E).
Qed.
Definition meta_id : params := (lit "id", lit "(") :: meta_sample.
Lemma id_unchecked : exists s, stats_make false (lit "tf-idf") [] (tag_meadow meta_id) = Ok (Some s) /\ id_hopper s (tag_meadow meta_id) = UB.
Proof. eexists. split; vm_compute; reflexivity. Qed.
Lemma tag_ignored : exists s, stats_make false [] (lit "news") (tag_meadow meta_sample) = Ok (Some s) /\ s_recipe s = [] /\
  exists s', stats_make false (lit "tf-idf") (lit "news") (tag_meadow meta_sample) = Ok (Some s') /\ s_recipe s' = lit "news".
Proof. eexists. split; [vm_compute; reflexivity|]. split; [reflexivity|]. eexists. split; vm_compute; reflexivity. Qed.
Lemma check_only : forall r, stats_check (lit "tf-idf") r = true /\ forall nd w, ~ meadow w -> stats_make nd (lit "tf-idf") r w = Ok None.
Proof.
  intros r. split; [reflexivity|]. intros nd w M. apply meadow_not in M.
  change (stats_make nd (lit "tf-idf") r w) with (make_called nd (lit "tf-idf") r w). unfold make_called. rewrite M. reflexivity.
Qed.
