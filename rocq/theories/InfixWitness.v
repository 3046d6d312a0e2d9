(** Cases for the infix language. *)
From Verif Require Import Base Bytes HopperModel QueryModel QuerySpec QueryWitness InfixModel InfixSpec InfixProofs InfixParse InfixTop.
Local Arguments chr s%string_scope.

Definition quote (s : bytes) : bytes := 34 :: s ++ [34].
(** x = "a" ^ "b" *)
Definition i1 : bytes := lit "x = " ++ quote (lit "a") ++ lit " ^ " ++ quote (lit "b").
(** one of(x, "c") containing [2] *)
Definition i2 : bytes := lit "one of(x, " ++ quote (lit "c") ++ lit ") containing [2]".
(** "a" "b" *)
Definition i3 : bytes := quote (lit "a") ++ lit " " ++ quote (lit "b").
(** (x .. "b") not contained in 3 words, and a blank line *)
Definition i4 : bytes := lit "(x .. " ++ quote (lit "b") ++ lit ") not contained in 3 words".
Definition t1 := [Kw (lit "x"); Ks (chr "="); Kq (lit "a"); Ks (chr "^"); Kq (lit "b")].
Definition t2 := [Kw (lit "one"); Kw (lit "of"); Ks (chr "("); Kw (lit "x"); Ks (chr ","); Kq (lit "c"); Ks (chr ")"); Kw (lit "containing");
                  Ks (chr "["); Kn (lit "2"); Ks (chr "]")].
Definition t4 := [Ks (chr "("); Kw (lit "x"); Kp (lit ".."); Kq (lit "b"); Ks (chr ")"); Kw (lit "not"); Kw (lit "contained"); Kw (lit "in");
                  Kn (lit "3"); Kw (lit "words")].
Definition l1 := Let (lit "x") (IBin ALL_OF (ITerm (lit "a")) (ITerm (lit "b"))).
Definition l2 := Ask (IBin CONTAINING (IOf 1 [IName (lit "x"); ITerm (lit "c")]) (IWidth 2)).
Definition l4 := Ask (IBin NOT_CONTAINED_IN (IBin FOLLOWED_BY (IName (lit "x")) (ITerm (lit "b"))) (IWidth 3)).
Definition ses := [Line l1; Line l2; Wrong; Blank; Line l4].
Definition sts := [i1; i2; i3; lit "  "; i4].

Ltac tks := apply lexes_at; [unfold no_nul; vm_compute; intuition discriminate|];
  repeat (eapply at_tok; [vm_compute; intuition (try discriminate; try congruence)|vm_compute; repeat split; reflexivity|]);
  constructor; reflexivity.
Lemma eqb_sym a b : eqb_bytes a b = eqb_bytes b a.
Proof.
  destruct (eqb_bytes b a) eqn:B; [apply eqb_bytes_eq in B; subst; apply eqb_bytes_refl|].
  destruct (eqb_bytes a b) eqn:A; [|reflexivity]. apply eqb_bytes_eq in A. subst. rewrite eqb_bytes_refl in B. discriminate.
Qed.
Lemma line_mono (D D' : bytes -> Prop) l ts : (forall w, D w -> D' w) -> line_of D l ts -> line_of D' l ts.
Proof.
  intros H. assert (forall x t, query_of D x t -> query_of D' x t) as Q.
  { enough ((forall x t, atom_of D x t -> atom_of D' x t) /\ (forall x t, query_of D x t -> query_of D' x t) /\
      (forall xs t, list_of D xs t -> list_of D' xs t)) as (_ & G1 & _) by exact G1.
    apply (grammar_ind D (fun x t _ => atom_of D' x t) (fun x t _ => query_of D' x t) (fun xs t _ => list_of D' xs t));
      try (intros; econstructor; eassumption).
    intros w Nw Dw. constructor; auto. }
  intros G. inversion G; subst; constructor; auto.
Qed.
Lemma lx1 : lexes t1 i1. Proof. tks. Qed.
Lemma lx2 : lexes t2 i2. Proof. tks. Qed.
Lemma lx4 : lexes t4 i4. Proof. tks. Qed.
Lemma ses_ok : session (fun _ => None) ses sts.
Proof.
  cbn [ses sts session]. split; [|split; [|split; [|split; [|split; [|split; [|split; [|split; [|split; [|split; [|split; [|split]]]]]]]]]]].
  - exists t1. split; [exact lx1|]. apply n_let; [split; discriminate|].
    apply (q_bin _ _ _ _ [Kq (lit "a")] [Ks (chr "^")] [Kq (lit "b")]); [apply q_atom, a_term|cbn; auto|apply a_term].
  - cbn. split; intros u Z; destruct u as [|? [|? ?]]; discriminate.
  - exists t2. split; [exact lx2|]. apply n_ask.
    apply (q_bin _ _ _ _ [Kw (lit "one"); Kw (lit "of"); Ks (chr "("); Kw (lit "x"); Ks (chr ","); Kq (lit "c"); Ks (chr ")")]
             [Kw (lit "containing")] [Ks (chr "["); Kn (lit "2"); Ks (chr "]")]); [|cbn; auto|apply (a_width _ (lit "2")); vm_compute; discriminate].
    apply q_atom. apply (a_one _ (Kw (lit "of")) _ [Kw (lit "x"); Ks (chr ","); Kq (lit "c")]); [left; reflexivity|].
    apply (l_cons _ _ _ [Kw (lit "x")] [Kq (lit "c")]); [|apply l_one, q_atom, a_term].
    apply q_atom, a_name; [split; discriminate|vm_compute; discriminate].
  - cbn. split; [|exact I]. split; [auto|]. split; [vm_compute; discriminate|]. split; [exact I|]. split; [|exact I].
    intros u Z; destruct u as [|? [|? ?]]; discriminate.
  - vm_compute. intuition discriminate.
  - vm_compute. intuition discriminate.
  - intros L. pose proof (at_scan _ _ L) as A. inversion A as [s0 T1 _ _ R1|]; subst. discriminate T1.
  - intros l (ts & L & G). pose (m := Mt [(lit "x", MBin ALL_OF (MTerm (lit "a")) (MTerm (lit "b")))] []).
    assert (infix_expression m i3 = Ok (false, m)) as R by (vm_compute; reflexivity).
    assert (exists m', infix_expression m i3 = Ok (true, m')) as (m' & R'); [|congruence].
    apply accepted_iff. right. exists l, ts. split; [exact L|]. eapply line_mono; [|exact G].
    intros w. cbn [define l1 l2 m m_env lookup]. rewrite (eqb_sym w). destruct (eqb_bytes (lit "x") w); [discriminate|auto].
  - tks.
  - exists t4. split; [exact lx4|]. apply n_ask.
    apply (q_bin _ _ _ _ [Ks (chr "("); Kw (lit "x"); Kp (lit ".."); Kq (lit "b"); Ks (chr ")")]
      [Kw (lit "not"); Kw (lit "contained"); Kw (lit "in")] [Kn (lit "3"); Kw (lit "words")]);
      [|cbn; auto|apply (a_words _ (lit "3")); vm_compute; discriminate].
    apply q_atom. apply (a_par _ _ [Kw (lit "x"); Kp (lit ".."); Kq (lit "b")]).
    apply (q_bin _ _ _ _ [Kw (lit "x")] [Kp (lit "..")] [Kq (lit "b")]); [|cbn; auto|apply a_term].
    apply q_atom, a_name; [split; discriminate|vm_compute; discriminate].
  - cbn. split; [|exact I]. split; [exact I|]. intros u Z; destruct u as [|? [|? ?]]; discriminate.
Qed.
Lemma ses_run : mt_run mt_new sts = Ok
  [ (true, []); (true, lit "(>> (+ " ++ quote (lit "c") ++ lit " (^ " ++ quote (lit "a") ++ lit " " ++ quote (lit "b") ++ lit ")) (# 2))");
    (false, lit "(>> (+ " ++ quote (lit "c") ++ lit " (^ " ++ quote (lit "a") ++ lit " " ++ quote (lit "b") ++ lit ")) (# 2))");
    (true, []);
    (true, lit "(!< (... (^ " ++ quote (lit "a") ++ lit " " ++ quote (lit "b") ++ lit ") " ++ quote (lit "b") ++ lit ") (# 3))") ].
Proof. vm_compute. reflexivity. Qed.

(** 2 of ("a", "b", "c") *)
Definition i5 : bytes := lit "2 of (" ++ quote (lit "a") ++ lit ", " ++ quote (lit "b") ++ lit ", " ++ quote (lit "c") ++ lit ")".
Lemma some_refuted : exists m', infix_expression mt_new i5 = Ok (true, m') /\
  m_text m' = lit "(2 " ++ quote (lit "c") ++ lit " " ++ quote (lit "b") ++ lit " " ++ quote (lit "a") ++ lit ")" /\
  from_string (m_text m') = Ok None.
Proof. eexists. split; [vm_compute; reflexivity|]. split; vm_compute; reflexivity. Qed.
(** "a\" + "b" *)
Definition i6 : bytes := quote (lit "a\") ++ lit " + " ++ quote (lit "b").
Definition t6 := [Kq (lit "a\"); Ks (chr "+"); Kq (lit "b")].
Definition q6 := IBin ONE_OF (ITerm (lit "a\")) (ITerm (lit "b")).
Lemma backslash_refuted : is_line (fun _ => None) (Ask q6) i6 /\
  exists m', infix_expression mt_new i6 = Ok (true, m') /\ from_string (m_text m') <> Ok (Some (tree (fun _ => None) q6)).
Proof.
  split.
  - exists t6. split; [tks|]. apply n_ask. apply (q_bin _ _ _ _ [Kq (lit "a\")] [Ks (chr "+")] [Kq (lit "b")]); [apply q_atom, a_term|cbn; auto|apply a_term].
  - eexists. split; [vm_compute; reflexivity|]. vm_compute. discriminate.
Qed.
(** x = "a" "b", and then x *)
Definition i7 : bytes := lit "x = " ++ quote (lit "a") ++ lit " " ++ quote (lit "b").
Lemma failed_refuted : mt_run mt_new [lit "x"; i7; lit "x"] = Ok [(false, []); (false, []); (true, quote (lit "a"))].
Proof. vm_compute. reflexivity. Qed.
Lemma refused_ex : ~ In 61 i3 /\ infix_expression mt_new i3 = Ok (false, mt_new).
Proof. split; [vm_compute; intuition discriminate|vm_compute; reflexivity]. Qed.
