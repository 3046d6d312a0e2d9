(** C30: configuration text. *)
From Verif Require Import Base Bytes RecipeModel RecipeSpec RecipeProofs RecipeDna RecipeExact RecipeWitness.

(** C30: cooking what was frozen gives the map: the same names, texts byte for byte, and
    nested configurations that say the same, to any depth. *)
Theorem C30_freeze_cook : forall m, ordered m -> (forall k v t, In (k, v) m -> says v t -> texts clean t) ->
  exists m', cook (freeze m) = Some m' /\ pairs (fun v' v => (cook v = None -> v' = v) /\ forall t, says v' t <-> says v t) m' m.
Proof. exact freeze_cook. Qed.
Print Assumptions C30_freeze_cook.
(** C30: every text says exactly one thing, so the theorem above covers every value. *)
Theorem C30_says_exists : forall v, exists t, says v t.
Proof. intros v. exact (says_exists (S (length v)) v (Nat.lt_succ_diag_r _)). Qed.
Print Assumptions C30_says_exists.
Theorem C30_says_unique : forall t v t', says v t -> says v t' -> t = t'.
Proof. exact says_unique. Qed.
Print Assumptions C30_says_unique.
(** C30: a text survives exactly when it has no quotation mark, no backslash and no zero. *)
Theorem C30_exact : forall k v, name k -> cook v = None -> (cook (freeze [(k, v)]) = Some [(k, v)] <-> clean v).
Proof. exact exact. Qed.
Print Assumptions C30_exact.
(** C30: what cooks is a map with names in order, of values shorter than the text, and the
    parser goes round its loop at most once for each byte. *)
Theorem C30_cooked : forall v m, cook v = Some m -> ordered m /\ forall k v', In (k, v') m -> (length v' < length v)%nat.
Proof. exact cook_spec. Qed.
Print Assumptions C30_cooked.
Theorem C30_bounded : forall n n' s m, (length s < n)%nat -> (length s < n')%nat -> parse_items n s m = parse_items n' s m.
Proof. exact parse_enough. Qed.
Print Assumptions C30_bounded.
Example C30_case : ordered sample /\ (forall k v t, In (k, v) sample -> says v t -> texts clean t) /\ cook (freeze sample) <> None /\ freeze sample <> lit "[]".
Proof. split; [exact sample_ordered|split; [exact sample_met|split; vm_compute; discriminate]]. Qed.
(** C30: through the configuration file: whatever parameters are set one after the other,
    each reads back as it was last set, and the rest of the configuration says the same. *)
Theorem C30_parameters : forall kvs file l p k, holds_conf file l -> texts clean (Map l) -> texts one_line (Map l) -> extra l = Some p ->
  Forall (fun kv => name (fst kv) /\ cook (snd kv) = None /\ clean (snd kv) /\ one_line (snd kv)) kvs ->
  exists file', set_all file kvs = Some file' /\ (exists l', holds_conf file' l' /\ forall k', k' <> parameters -> get k' l' = get k' l) /\
    match last_set k kvs None with
    | Some v => get_parameter_from_dna file' k = Some v
    | None => exists v, get_parameter_from_dna file' k = Some v /\ match get k p with Some t => says v t | None => v = [] end
    end.
Proof. exact parameters_kept. Qed.
Print Assumptions C30_parameters.
(** C30: the file written from a map holds what the map says. *)
Theorem C30_file : forall m l, ordered m -> pairs says m l -> texts clean (Map l) -> texts one_line (Map l) -> holds_conf (write_dna (freeze m)) l.
Proof. exact dna_says. Qed.
Print Assumptions C30_file.
Example C30_parameters_case : holds_conf sample_file sample_conf /\ texts clean (Map sample_conf) /\ texts one_line (Map sample_conf) /\ extra sample_conf = Some [] /\
  match set_all sample_file settings with Some f => (get_parameter_from_dna f (lit "container"), get_parameter_from_dna f (lit "id"), get_parameter_from_dna f (lit "other")) | None => (None, None, None) end = (Some (lit ":"), Some (lit "docno"), Some []).
Proof. split; [exact sample_holds|split; [exact sample_clean|split; [exact sample_lines|split; [reflexivity|exact settings_read]]]]. Qed.
(** C30: a quotation mark makes text that does not cook, or two settings out of one; a
    backslash is lost without notice. *)
Theorem C30_quote_refuted : cook (freeze [(lit "a", lit "x""y")]) = None /\ cook (freeze [(lit "a", lit "x"",b:""y")]) = Some [(lit "a", lit "x"); (lit "b", lit "y")].
Proof. split; vm_compute; reflexivity. Qed.
Print Assumptions C30_quote_refuted.
Theorem C30_backslash_refuted : cook (freeze [(lit "a", lit "\\")]) = Some [(lit "a", lit "\")].
Proof. vm_compute. reflexivity. Qed.
Print Assumptions C30_backslash_refuted.
(** C30: a nested text loses its escapes when the outer one is cooked, and then does not cook;
    and a bad escape in a nested text is taken as the end of it, with its content lost. *)
Theorem C30_nested_escape_refuted : cook (lit "[r:[a:'it\'s']]") = Some [(lit "r", lit "[a:'it's']")] /\ cook (lit "[a:'it's']") = None /\ cook (lit "[a:[b:'x',c:'\]]") = Some [(lit "a", lit "[]")].
Proof. repeat split; vm_compute; reflexivity. Qed.
Print Assumptions C30_nested_escape_refuted.
(** C30: a newline in a text is a space after the file is read. *)
Theorem C30_newline_refuted : exists v, clean v /\ cook v = None /\ match set_parameter_in_dna sample_file (lit "k") v with Some f => get_parameter_from_dna f (lit "k") = Some (map (fun c => if c =? 10 then 32 else c) v) /\ In 10 v | None => False end.
Proof. exists [97; 10; 98]. split; [apply clean_of; reflexivity|]. split; [reflexivity|]. vm_compute. split; [reflexivity|auto]. Qed.
Print Assumptions C30_newline_refuted.
(** C30: freeze of a text, instead of a map, never gives a text that cooks. *)
Theorem C30_freeze_text_refuted : forall v t, says v t -> texts clean t -> cook (freeze_value v) = None.
Proof. exact freeze_value_never. Qed.
Print Assumptions C30_freeze_text_refuted.
