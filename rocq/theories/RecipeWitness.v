(** Cases for the theorems about configuration text. *)
From Verif Require Import Base Bytes RecipeModel RecipeSpec RecipeProofs RecipeDna.

Definition sample : params := [(lit "idx", lit "[name:'hazel', recipe:[fvalue_compressor:""bits"" , post:'post',]]"); (lit "txt", lit "a [b"); (lit "warren", lit "bigwig")].
Definition sample_conf : list (bytes * conf) :=
  [(lit "idx", Map [(lit "name", Str (lit "hazel")); (lit "recipe", Map [(lit "fvalue_compressor", Str (lit "bits")); (lit "post", Str (lit "post"))])]); (lit "txt", Str (lit "a [b")); (lit "warren", Str (lit "bigwig"))].
Lemma name_b k : (match k with [] => false | _ => forallb identifier k end) = true -> name k.
Proof. destruct k as [|c k]; [discriminate|]. intros H. split; [discriminate|]. intros x J. exact (proj1 (forallb_forall _ _) H x J). Qed.
Definition clean_b (v : bytes) : bool := forallb (fun c => negb (c =? 34) && negb (c =? 92) && negb (c =? 0)) v.
Lemma clean_of v : clean_b v = true -> clean v.
Proof. unfold clean_b. rewrite forallb_forall. intros H c J. specialize (H c J). lia. Qed.
Lemma line_of v : forallb (fun c => negb (c =? 10)) v = true -> one_line v.
Proof. rewrite forallb_forall. intros H J. specialize (H 10 J). discriminate. Qed.
Lemma sample_ordered : ordered sample.
Proof. repeat split; try reflexivity; try discriminate; intros c J; repeat (destruct J as [<-|J]; [reflexivity|]); destruct J. Qed.
Lemma sample_says : pairs says sample sample_conf.
Proof.
  cbn [sample sample_conf pairs]. repeat split; try reflexivity. eexists. split; [vm_compute; reflexivity|]. cbn [pairs]. repeat split; try reflexivity. eexists. split; [vm_compute; reflexivity|]. cbn [pairs]. repeat split; reflexivity.
Qed.
Lemma sample_clean : texts clean (Map sample_conf).
Proof. cbn [texts every sample_conf]. repeat match goal with |- _ /\ _ => split | |- True => exact Logic.I end; apply clean_of; reflexivity. Qed.
Lemma sample_lines : texts one_line (Map sample_conf).
Proof. cbn [texts every sample_conf]. repeat match goal with |- _ /\ _ => split | |- True => exact Logic.I end; apply line_of; reflexivity. Qed.
Lemma sample_met : forall k v t, In (k, v) sample -> says v t -> texts clean t.
Proof.
  intros k v t J S. pose proof sample_says as P. pose proof sample_clean as C. cbn [texts] in C. cbn [sample sample_conf pairs every] in *. destruct P as (_ & P1 & _ & P2 & _ & P3 & _). destruct C as (C1 & C2 & C3 & _).
  destruct J as [E|[E|[E|[]]]]; injection E as _ <-; [rewrite <- (says_unique _ _ t P1 S)|rewrite <- (says_unique _ _ t P2 S)|rewrite <- (says_unique _ _ t P3 S)]; assumption.
Qed.
Definition sample_file : bytes := write_dna (freeze sample).
Lemma sample_holds : holds_conf sample_file sample_conf.
Proof. apply dna_says; [exact sample_ordered|exact sample_says|exact sample_clean|exact sample_lines]. Qed.
Definition settings : list (bytes * bytes) := [(lit "container", lit ":file"); (lit "id", lit "docno"); (lit "container", lit ":")].
Lemma settings_ok : Forall (fun kv => name (fst kv) /\ cook (snd kv) = None /\ clean (snd kv) /\ one_line (snd kv)) settings.
Proof. unfold settings. repeat (apply Forall_cons; [cbn [fst snd]; split; [apply name_b; reflexivity|split; [reflexivity|split; [apply clean_of; reflexivity|apply line_of; reflexivity]]]|]). apply Forall_nil. Qed.
Lemma settings_read : match set_all sample_file settings with Some f => (get_parameter_from_dna f (lit "container"), get_parameter_from_dna f (lit "id"), get_parameter_from_dna f (lit "other")) | None => (None, None, None) end = (Some (lit ":"), Some (lit "docno"), Some []).
Proof. vm_compute. reflexivity. Qed.
