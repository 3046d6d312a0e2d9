(** C49: infix queries. *)
From Verif Require Import Base Bytes HopperModel GclSpec QueryModel QuerySpec InfixModel InfixSpec InfixTop InfixWitness.

(** C49: in every session of queries, definitions, blank and wrong texts, each text is accepted
    or refused as the grammar says, and the s-expression offered afterwards reads back as the
    tree of the query last asked.  Of the wrong texts those with an equals sign are left out,
    and of the queries those of C49_some_refuted and C49_backslash_refuted. *)
Theorem C49_session_partial : forall es texts, session (fun _ => None) es texts ->
  exists outs, mt_run mt_new texts = Ok outs /\
    Forall2 (fun out r => fst out = fst r /\ spells (snd out) (snd r)) outs (reports (fun _ => None) None es).
Proof. exact session_new. Qed.
Print Assumptions C49_session_partial.
Example C49_session_ex : session (fun _ => None) ses sts. Proof. exact ses_ok. Qed.
Example C49_session_ex_run : mt_run mt_new sts = Ok
  [ (true, []); (true, lit "(>> (+ " ++ quote (lit "c") ++ lit " (^ " ++ quote (lit "a") ++ lit " " ++ quote (lit "b") ++ lit ")) (# 2))");
    (false, lit "(>> (+ " ++ quote (lit "c") ++ lit " (^ " ++ quote (lit "a") ++ lit " " ++ quote (lit "b") ++ lit ")) (# 2))");
    (true, []);
    (true, lit "(!< (... (^ " ++ quote (lit "a") ++ lit " " ++ quote (lit "b") ++ lit ") " ++ quote (lit "b") ++ lit ") (# 3))") ].
Proof. exact ses_run. Qed.

(** C49: a text is accepted exactly when it is blank or a line of the grammar over the words
    defined; every query the grammar has, without exception. *)
Theorem C49_accepted : forall m s, (exists m', infix_expression m s = Ok (true, m')) <->
  lexes [] (c_str s) \/ exists l ts, lexes ts (c_str s) /\ line_of (fun w => lookup (m_env m) w <> None) l ts.
Proof. exact accepted_iff. Qed.
Print Assumptions C49_accepted.
Example C49_accepted_ex : lexes t1 i1 /\ lexes t2 i2 /\ lexes t4 i4. Proof. exact (conj lx1 (conj lx2 lx4)). Qed.

(** C49: every text, of any length and any bytes, is answered. *)
Theorem C49_total : forall m s, exists b m', infix_expression m s = Ok (b, m').
Proof. exact total. Qed.
Print Assumptions C49_total.

(** C49: a refused text without an equals sign changes nothing. *)
Theorem C49_refused : forall m s m', ~ In 61 s -> infix_expression m s = Ok (false, m') -> m' = m.
Proof. exact refused. Qed.
Print Assumptions C49_refused.
Example C49_refused_ex : ~ In 61 i3 /\ infix_expression mt_new i3 = Ok (false, mt_new). Proof. exact refused_ex. Qed.

(** C49: the s-expressions of a session, given to the query engine, find what the queries
    asked mean. *)
Theorem C49_answers_partial : forall (E : bytes -> iv -> Prop) (split : bytes -> list bytes), tokens_indexed E split ->
  forall idx, index_for idx E -> forall count enabled es texts, session (fun _ => None) es texts ->
  exists outs, mt_run mt_new texts = Ok outs /\ length outs = length texts /\
    forall i b text r e, nth_error outs i = Some (b, text) -> nth_error (reports (fun _ => None) None es) i = Some (r, Some e) ->
      (forall e', enabled = true -> expand_phrases split e = Ok e' -> mats_fit E (optimize_ count e')) ->
      b = r /\ exists o, gcl_hopper idx count enabled split text = Ok (Some o) /\
        answers (projT1 o) (projT2 o) (meaning (phrased E split) e).
Proof. exact session_answers. Qed.
Print Assumptions C49_answers_partial.

(** C49: "2 of" three queries is accepted, and the s-expression offered is none. *)
Theorem C49_some_refuted : exists m', infix_expression mt_new i5 = Ok (true, m') /\
  m_text m' = lit "(2 " ++ quote (lit "c") ++ lit " " ++ quote (lit "b") ++ lit " " ++ quote (lit "a") ++ lit ")" /\
  from_string (m_text m') = Ok None.
Proof. exact some_refuted. Qed.
Print Assumptions C49_some_refuted.
(** C49: a query with a term that ends in a backslash is accepted, and the s-expression
    offered is not its tree. *)
Theorem C49_backslash_refuted : is_line (fun _ => None) (Ask q6) i6 /\
  exists m', infix_expression mt_new i6 = Ok (true, m') /\ from_string (m_text m') <> Ok (Some (tree (fun _ => None) q6)).
Proof. exact backslash_refuted. Qed.
Print Assumptions C49_backslash_refuted.
(** C49: a definition that is refused because of what follows it is made all the same. *)
Theorem C49_failed_definition_refuted :
  mt_run mt_new [lit "x"; i7; lit "x"] = Ok [(false, []); (false, []); (true, quote (lit "a"))].
Proof. exact failed_refuted. Qed.
Print Assumptions C49_failed_definition_refuted.
