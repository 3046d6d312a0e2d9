(** Concrete bigwigs. *)
From Verif Require Import Base Bytes RecipeModel RecipeSpec RecipeProofs MakeModel MakeSpec MakeProofs JsonTxtModel OpenModel OpenSpec OpenProofs.

Definition c_zlib : compressor := {| c_method := Zlib; c_name := lit "zlib"; c_recipe := [] |}.
Definition c_post : compressor := {| c_method := Post; c_name := lit "post"; c_recipe := [] |}.
Definition c_tfdf : compressor := {| c_method := Tfdf true; c_name := lit "tfdf"; c_recipe := lit "component" |}.
Lemma c_named : named c_zlib /\ named c_post /\ named c_tfdf.
Proof. repeat (split; [split; [reflexivity|apply plain_by; reflexivity]|]). split; [reflexivity|apply plain_by; reflexivity]. Qed.
Definition o_sample : featurizer := Json (Tagging Hashing (lit "en")).
Definition o_events : list event :=
  [Set_container (lit "(... <DOC> </DOC>)"); Set_stemmer Porter; Reopen true; Set_parameter (lit "id") (lit "<DOCNO>"); Set_merge false; Reopen false; Set_parameter (lit "id") (lit ":id:")].
Lemma o_proper : plain_tags o_sample /\ Forall proper o_events.
Proof.
  split; [split; [apply plain_by; reflexivity|exact I]|]. unfold o_events.
  assert (A : forall k v, negb (eqb_bytes k []) && forallb identifier k = true -> plain_text v -> eqb_bytes k (lit "stemmer") = false -> proper (Set_parameter k v)).
  { intros k v N P E. split; [apply nm, N|]. split; [exact P|]. intros ->. discriminate. }
  constructor; [apply plain_by; reflexivity|]. constructor; [exact I|]. constructor; [exact I|]. constructor; [apply A; [reflexivity|apply plain_by; reflexivity|reflexivity]|].
  constructor; [exact I|]. constructor; [exact I|]. constructor; [apply A; [reflexivity|apply plain_by; reflexivity|reflexivity]|]. constructor.
Qed.
Lemma o_case : exists st, history (bigwig_make o_sample (Ascii true) c_post c_tfdf c_zlib) (o_events ++ [Reopen true]) = Ok (Some st) /\
  get_parameter st (lit "id") = lit ":id:" /\ get_parameter st (lit "merge") = lit "no" /\ b_merge (snd st) = false /\
  b_container (snd st) = lit "(... <DOC> </DOC>)" /\ b_stemmer (snd st) = Porter /\ b_tokenizer (snd st) = Ascii true.
Proof. eexists. split; [vm_compute; reflexivity|]. repeat split; vm_compute; reflexivity. Qed.
(** A quotation mark in the container: the burrow cannot be opened again. *)
Definition quoted_query : bytes := [34] ++ lit "hello world" ++ [34].
Lemma quoted_lost : exists st, set_container (bigwig_make Hashing (Ascii false) c_post c_zlib c_zlib) quoted_query = st /\ get_parameter st (lit "container") = quoted_query /\ bigwig_open true (fst st) = Ok None.
Proof. eexists. split; [reflexivity|]. split; vm_compute; reflexivity. Qed.
(** A stemmer that does not exist: the same. *)
Lemma stemmer_lost : exists st, set_parameter (bigwig_make Hashing (Ascii false) c_post c_zlib c_zlib) (lit "stemmer") (lit "Porter") = st /\ get_parameter st (lit "stemmer") = lit "Porter" /\ bigwig_open true (fst st) = Ok None.
Proof. eexists. split; [reflexivity|]. split; vm_compute; reflexivity. Qed.
(** Opening changes a parameter. *)
Lemma null_changed : exists st st', set_parameter (bigwig_make Hashing (Ascii false) c_post c_zlib c_zlib) (lit "stemmer") (lit "null") = st /\ get_parameter st (lit "stemmer") = lit "null" /\
  bigwig_open true (fst st) = Ok (Some st') /\ get_parameter st' (lit "stemmer") = [] /\ fst st' <> fst st.
Proof. eexists. eexists. split; [reflexivity|]. split; [vm_compute; reflexivity|]. split; [vm_compute; reflexivity|]. split; [vm_compute; reflexivity|]. vm_compute. discriminate. Qed.
(** A compressor without a name comes back as another. *)
Lemma nameless_changed : exists st st', bigwig_make Hashing (Ascii false) (comp_direct Post) c_zlib c_zlib = st /\ bigwig_open true (fst st) = Ok (Some st') /\
  c_method (b_posting (snd st)) = Post /\ c_method (b_posting (snd st')) = Zlib.
Proof. eexists. eexists. split; [reflexivity|]. split; [vm_compute; reflexivity|]. split; vm_compute; reflexivity. Qed.
Lemma tok_undefined : exists name recipe, tok_check name recipe = false /\ tok_make name recipe = UB.
Proof. exists (lit "utf8"), (lit "xml"). split; reflexivity. Qed.
