(** C64 and C65: builders, and reading the files they are given. *)
From Verif Require Import Base Bytes BuilderModel BuilderSpec BuilderProofs.

(** C64: as long as nothing is refused and it is not finalized, a builder is asked each call. *)
Theorem C64_open : forall answer before, Forall adds before -> granted answer [] before ->
  exists b, do_calls answer fresh before = (repeat true (length before), b) /\ reached b = before.
Proof. exact (fun answer before A G => ex_intro _ _ (conj (open_ok answer before A G) eq_refl)). Qed.
Print Assumptions C64_open.
(** C64: after the first refused call all answers are false and nothing is asked any more. *)
Theorem C64_refused : forall answer before x after, Forall adds before -> granted answer [] before -> answer before x = false ->
  exists b, do_calls answer fresh (before ++ x :: after) = (repeat true (length before) ++ repeat false (S (length after)), b) /\ reached b = before ++ [x].
Proof. exact refused_ok. Qed.
Print Assumptions C64_refused.
(** C64: after it is finalized nothing is added; finalizing again answers true and does nothing. *)
Theorem C64_finalized : forall answer before after, Forall adds before -> granted answer [] before -> answer before Finalize = true ->
  exists b, do_calls answer fresh (before ++ Finalize :: after) = (repeat true (S (length before)) ++ map finalizes after, b) /\ reached b = before ++ [Finalize].
Proof. exact finalized_ok. Qed.
Print Assumptions C64_finalized.
(** C64: there is no other case. *)
Theorem C64_cases : forall answer xs, (Forall adds xs /\ granted answer [] xs) \/
  (exists before x after, xs = before ++ x :: after /\ Forall adds before /\ granted answer [] before /\ answer before x = false) \/
  (exists before after, xs = before ++ Finalize :: after /\ Forall adds before /\ granted answer [] before /\ answer before Finalize = true).
Proof. exact calls_cases. Qed.
Print Assumptions C64_cases.
Example C64_ex : let answer := fun before x => match x with Tagged _ p q _ => p <=? q | _ => true end in
  fst (do_calls answer fresh [Text (lit "a"); Tagged (lit "t") 0 0 0; Finalize; Text (lit "b"); Finalize]) = [true; true; true; false; true] /\
  fst (do_calls answer fresh [Text (lit "a"); Tagged (lit "t") 1 0 0; Finalize; Text (lit "b"); Finalize]) = [true; false; false; false; false].
Proof. split; reflexivity. Qed.

(** C65: a file is taken to be zipped exactly if its name is something and one of the extensions. *)
Theorem C65_zipped : forall f, has_zcat_extension f = true <-> exists stem e, stem <> [] /\ In e zipped_extensions /\ f = stem ++ e.
Proof. exact zcat_extension_ok. Qed.
Print Assumptions C65_zipped.
Example C65_zipped_ex : has_zcat_extension (lit "a.gz") = true /\ has_zcat_extension (lit ".gz") = false.
Proof. split; reflexivity. Qed.
(** C65: other files are read as they are. *)
Theorem C65_plain : forall fopen popen filename, ~ In 0 filename -> has_zcat_extension filename = false ->
  maybe_zipped fopen popen filename = fopen filename.
Proof. exact plain_file. Qed.
Print Assumptions C65_plain.
(** C65: whatever the characters of its name, for a zipped file the shell is given a command that
    it reads only as zcat and the name of the file. *)
Theorem C65_command : forall fopen popen filename, has_zcat_extension filename = true -> ~ In 0 filename ->
  match fopen filename, zcat fopen with
  | Some _, Some path => exists command, (forall words, shell_words None command words <-> words = [path; filename]) /\ maybe_zipped fopen popen filename = popen command
  | _, _ => maybe_zipped fopen popen filename = None
  end.
Proof. exact zipped_ok. Qed.
Print Assumptions C65_command.
Example C65_command_ex : let f := lit "it's; rm -r $HOME.gz" in has_zcat_extension f = true /\
  zcat_command (lit "/bin/zcat") f = lit "/bin/zcat 'it'\''s; rm -r $HOME.gz'".
Proof. split; reflexivity. Qed.
(** C65: what is read is all that the file gives, in whatever pieces it gives it. *)
Theorem C65_inhale : forall fopen popen size filename pieces t, (0 < size)%nat ->
  maybe_zipped fopen popen filename = Some pieces -> gives pieces t -> inhale fopen popen size filename = Ok (Some t).
Proof. exact inhale_ok. Qed.
Print Assumptions C65_inhale.
Example C65_inhale_ex : gives [Bytes (lit "one "); Bytes (lit "two")] (lit "one two") /\
  inhale (fun _ => Some [Bytes (lit "one "); Bytes (lit "two")]) (fun _ => None) 3 (lit "f") = Ok (Some (lit "one two")).
Proof. split; [exact (gives_some (lit "one ") _ (lit "two") ltac:(discriminate) (gives_some (lit "two") [] [] ltac:(discriminate) gives_end))|reflexivity]. Qed.
(** C65: building from files adds the text of each, in order, and finalizes, and answers true
    exactly if the builder says yes to all of it.  Missing: files that cannot be read (C65_unreadable_refuted). *)
Theorem C65_build_partial : forall answer fopen popen filenames texts b,
  Forall2 (fun f t => exists pieces, maybe_zipped fopen popen f = Some pieces /\ gives pieces t) filenames texts ->
  failed b = false -> finalized b = false ->
  exists ok b', build_trec answer fopen popen filenames b = Ok (ok, b') /\
  (ok = true <-> granted answer (reached b) (map Text texts ++ [Finalize])) /\
  (ok = true -> reached b' = reached b ++ map Text texts ++ [Finalize]).
Proof. exact build_ok. Qed.
Print Assumptions C65_build_partial.
Example C65_build_ex : Forall2 (fun f t => exists pieces, maybe_zipped (fun f => Some [Bytes f]) (fun _ => None) f = Some pieces /\ gives pieces t) [lit "a"; lit "b"] [lit "a"; lit "b"].
Proof.
  exact (Forall2_cons (lit "a") (lit "a") (ex_intro _ _ (conj eq_refl (gives_some (lit "a") [] [] ltac:(discriminate) gives_end)))
    (Forall2_cons (lit "b") (lit "b") (ex_intro _ _ (conj eq_refl (gives_some (lit "b") [] [] ltac:(discriminate) gives_end))) (Forall2_nil _))).
Qed.
(** C65: a file that cannot be read is undefined behavior. *)
Theorem C65_unreadable_refuted : forall answer fopen popen f fs b, maybe_zipped fopen popen f = None -> build_trec answer fopen popen (f :: fs) b = UB.
Proof. exact unreadable_refuted. Qed.
Print Assumptions C65_unreadable_refuted.
Example C65_unreadable_ex : maybe_zipped (fun _ => None) (fun _ => None) (lit "a") = None.
Proof. reflexivity. Qed.
(** C65: an error while a file is read is taken for its end. *)
Theorem C65_error_refuted : forall popen size, (4 < size)%nat ->
  inhale (fun _ => Some [Bytes (lit "half"); Error; Bytes (lit " more")]) popen size (lit "f") = Ok (Some (lit "half")).
Proof. exact error_refuted. Qed.
Print Assumptions C65_error_refuted.
