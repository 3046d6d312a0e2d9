(** Property theorems C06 and C08-C10: queries. *)
From Verif Require Import Base Bytes HopperModel GclSpec VectorModel UnaryModel QueryModel QuerySpec QueryProofs OptProofs ParseProofs PhraseProofs QueryWitness.

(** C06: any operator tree over an index that answers its terms. *)
Theorem C06_query_tree : forall (idx : bytes -> hobj) (E : bytes -> iv -> Prop), index_for idx E ->
  forall e, valid E e ->
  exists o, to_hopper idx e = Some o /\ answers (projT1 o) (projT2 o) (meaning E e).
Proof. exact to_hopper_good. Qed.
Print Assumptions C06_query_tree.
(** C06, from the query text: phrases expanded, optimizer on or off. *)
Theorem C06_query_text : forall (E : bytes -> iv -> Prop) (split : bytes -> list bytes), tokens_indexed E split ->
  forall idx, index_for idx E -> forall (count : bytes -> Z) (enabled : bool) (s : bytes) (e : sexpr),
  from_string s = Ok (Some e) -> valid (phrased E split) e ->
  (forall e', enabled = true -> expand_phrases split e = Ok e' -> mats_fit E (optimize_ count e')) ->
  exists o, gcl_hopper idx count enabled split s = Ok (Some o) /\
            answers (projT1 o) (projT2 o) (meaning (phrased E split) e).
Proof. exact query_ok. Qed.
Print Assumptions C06_query_text.
Example C06_ex : index_for ix ix_set /\ tokens_indexed ix_set ix_split /\
  from_string q1 = Ok (Some q1_tree) /\ valid (phrased ix_set ix_split) q1_tree /\
  run_query false q1 = Ok (Some [Iv 1 3 0; Iv 5 8 0]) /\ run_query true q1 = Ok (Some [Iv 1 3 0; Iv 5 8 0]) /\
  run_query false q2 = Ok (Some [Iv 1 2 0; Iv 4 5 0]).
Proof. exact (conj ix_ok (conj ix_tokens q_ex)). Qed.

(** C08: a quoted text with at least two tokens answers the places where the tokens
    stand at consecutive positions. *)
Theorem C08_phrase : forall (E : bytes -> iv -> Prop) (split : bytes -> list bytes), tokens_indexed E split ->
  forall idx, index_for idx E -> forall (p : bytes), p <> [] -> (2 <= length (split p))%nat ->
  exists e o, expand_phrases split (SX TERM (34 :: p ++ [34]) 0 []) = Ok e /\ to_hopper idx e = Some o /\
    answers (projT1 o) (projT2 o) (phrase_at E (split p)).
Proof. exact phrase_ok. Qed.
Print Assumptions C08_phrase.
(** C08: wherever phrases stand in a query. *)
Theorem C08_phrases_inside : forall (E : bytes -> iv -> Prop) (split : bytes -> list bytes), tokens_indexed E split ->
  forall idx, index_for idx E -> forall e, valid (phrased E split) e ->
  exists e', expand_phrases split e = Ok e' /\ valid E e' /\ same (meaning (phrased E split) e) (meaning E e').
Proof. exact expand_ok. Qed.
Print Assumptions C08_phrases_inside.
Example C08_ex : tokens_indexed ix_set ix_split /\ (2 <= length (ix_split (lit "a b")))%nat /\
  run_query true q2 = Ok (Some [Iv 1 2 0; Iv 4 5 0]).
Proof. exact phrase_ex. Qed.

(** C09: the optimized query answers as the original query means, whatever the costs;
    the only condition is that the intermediate results the optimizer stores fit in
    memory. *)
Theorem C09_optimizer : forall (idx : bytes -> hobj) (E : bytes -> iv -> Prop), index_for idx E ->
  forall (count : bytes -> Z) (enabled : bool) (e : sexpr), valid E e ->
  (enabled = true -> mats_fit E (optimize_ count e)) ->
  exists o, to_hopper idx (optimize count enabled e) = Some o /\ answers (projT1 o) (projT2 o) (meaning E e).
Proof. exact optimize_answers. Qed.
Print Assumptions C09_optimizer.
Example C09_ex : optimize_ ix_count q1_tree =
  SX MATERIALIZE [] 0 [SX CONTAINED_IN [] 0 [SX ALL_OF [] 0
    [SX MATERIALIZE [] 0 [SX CONTAINED_IN [] 0 [SX ALL_OF [] 0 [raw (lit "b"); raw (lit "c")]; raw (lit "doc:")]];
     raw (lit "a")]; raw (lit "doc:")]] /\ mats_fit ix_set (optimize_ ix_count q1_tree).
Proof. exact (conj q1_opt q1_fits). Qed.

(** C10: a printed query reads back as itself: every tree that can be written down,
    and the parser builds no other. *)
Theorem C10_print_parse : forall e, printable e -> from_string (to_string e) = Ok (Some e).
Proof. exact print_parse. Qed.
Print Assumptions C10_print_parse.
Theorem C10_parsed_is_printable : forall s e, from_string s = Ok (Some e) -> printable e.
Proof. exact parse_printable. Qed.
Print Assumptions C10_parsed_is_printable.
(** C10: the parser ends on every text, without overflow when no run of digits is
    longer than 18. *)
Theorem C10_parser_total : forall s,
  (forall u d v, s = u ++ d ++ v -> forallb is_digit d = true -> (length d <= 18)%nat) ->
  exists x, from_string s = Ok x.
Proof. exact from_string_total. Qed.
Print Assumptions C10_parser_total.
(** Without that condition an overlong width overflows (undefined behaviour). *)
Theorem C10_parser_overflow_refuted : exists s, from_string s = UB.
Proof. exact q_overflow. Qed.
Print Assumptions C10_parser_overflow_refuted.
(** C10: n-ary operators are the left-nested binary ones. *)
Theorem C10_nary_left_nested : forall E e, valid E e -> same (meaning E (to_binary e)) (meaning E e).
Proof. exact to_binary_valid_meaning. Qed.
Print Assumptions C10_nary_left_nested.
Example C10_ex : match from_string q3 with
              | Ok (Some e) => from_string (to_string e) = Ok (Some e) /\ to_string e = lit "(<< (+ (# 2) (... a b)) (@ doc:))"
              | _ => False end /\
  match from_string q4 with
              | Ok (Some (SX ALL_OF _ _ [SX TERM t _ _; SX TERM u _ _])) => t = [34; 92; 34; 32; 41; 34] /\ u = [39; 97; 39]
              | _ => False end.
Proof. exact (conj q3_ex q4_ex). Qed.
