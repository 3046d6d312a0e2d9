(** The parser of the infix language accepts exactly the texts of the grammar. *)
From Verif Require Import Base Bytes QueryModel ParseProofs InfixModel InfixSpec InfixProofs.
Local Arguments chr s%string_scope.

Lemma look_tok s x t : tok s = x -> look s t = eqb_bytes x t. Proof. intros <-. reflexivity. Qed.
Ltac lk := repeat match goal with H : tok ?s = _ |- _ => progress rewrite !(look_tok s _ _ H) end;
  repeat match goal with |- context [eqb_bytes ?a ?b] =>
    let v := eval vm_compute in (eqb_bytes a b) in
    match v with true => idtac | false => idtac end; change (eqb_bytes a b) with v end; cbn [orb andb negb].

(** The tree the parser makes of a query. *)
Fixpoint mtree (e : env) (q : infix) : mq :=
  match q with
  | ITerm b => MTerm b
  | IWidth n => MFixed n
  | IOf n xs => MOf n (rev (map (mtree e) xs))
  | IBin k l r => MBin k (mtree e l) (mtree e r)
  | IName w => match lookup e w with Some q => q | None => MFixed 0 end
  end.

Lemma at_cons t ts s : at_ (t :: ts) s -> match t with Kq _ => False | _ => True end ->
  tok_ok t /\ tok s = written t /\ at_ ts (next s) /\ (sz (next s) < sz s)%nat /\
  is_int s = (match t with Kn _ => true | _ => false end) /\ is_id s = (match t with Kw _ => true | _ => false end) /\
  (forall ds, t = Kn ds -> as_int s = number ds).
Proof.
  intros H Q. inversion H as [|? ? ? w K S A]; subst. pose proof (sz_shows _ _ _ K S) as L.
  split; [exact K|]. unfold next. destruct t as [x|x|x|c|x]; try destruct Q; cbn [shows written] in *.
  - destruct S as (S1 & S2 & S3 & S4). rewrite S4. repeat split; auto. discriminate.
  - destruct S as (S1 & S2 & S3 & S4 & S5). rewrite S5. repeat split; auto. intros ds E. injection E as <-. exact S4.
  - destruct S as (S1 & S2 & S3 & S4). rewrite S4. repeat split; auto. discriminate.
  - destruct S as (S1 & S2 & S3 & S4). rewrite S4. repeat split; auto. discriminate.
Qed.
Ltac eat H T A L I J := apply at_cons in H; [|exact I]; cbn [written] in H;
  let X := fresh in destruct H as (_ & T & A & L & I & J & X).

Lemma operator_reads k t2 ts s : In t2 (spellings k) -> at_ (t2 ++ ts) s ->
  exists s1, operator s = Some (Some (k, s1)) /\ at_ ts (next s1) /\ (sz (next s1) < sz s)%nat.
Proof.
  intros H A. destruct k; cbn [spellings In] in H; repeat (destruct H as [<-|H]); try contradiction; cbn [app] in A;
    apply at_cons in A; [|exact I|idtac..]; try exact I; cbn [written] in A; destruct A as (_ & T1 & A & L1 & _);
    try (exists s; unfold operator; lk; split; [reflexivity|split; [exact A|exact L1]]; fail);
    apply at_cons in A; try exact I; cbn [written] in A; destruct A as (_ & T2 & A & L2 & _);
    try (exists (next s); unfold operator; lk; split; [reflexivity|split; [exact A|lia]]; fail);
    apply at_cons in A; try exact I; cbn [written] in A; destruct A as (_ & T3 & A & L3 & _);
    exists (next (next s)); unfold operator; lk; split; [reflexivity|split; [exact A|lia]].
Qed.
Lemma no_operator s : In (tok s) [lit ")"; lit ","; []; lit "="; lit "]"] -> operator s = None.
Proof.
  cbn [In]. intros H. unfold operator, look. repeat (destruct H as [<-|H]); try contradiction; reflexivity.
Qed.
Lemma ops_end n e l s : operator s = None -> (1 <= n)%nat -> operations n e l s = Ok (POk l e s).
Proof. intros H L. destruct n; [lia|]. cbn [operations]. rewrite H. reflexivity. Qed.

Scheme atom_of_m := Induction for atom_of Sort Prop with query_of_m := Induction for query_of Sort Prop
  with list_of_m := Induction for list_of Sort Prop.
Combined Scheme grammar_ind from atom_of_m, query_of_m, list_of_m.

Section Read.
Context (e : env).
Notation D := (fun w => lookup e w <> None).
Notation mtree := (mtree e).

Definition reads_atom (x : infix) (t : list itok) := forall top ts s n, at_ (t ++ ts) s ->
  (top = true -> hd_error ts <> Some (Ks (chr "="))) -> (4 * sz s + 1 <= n)%nat ->
  exists s', atom n e top s = Ok (POk (Some (mtree x)) e s') /\ at_ ts s' /\ (sz s' < sz s)%nat.
Definition reads_query (x : infix) (t : list itok) := forall top ts s n, at_ (t ++ ts) s ->
  (top = true -> hd_error ts <> Some (Ks (chr "="))) -> (4 * sz s + 3 <= n)%nat ->
  exists n' s', query n e top s = operations n' e (Some (mtree x)) s' /\ at_ ts s' /\ (sz s' < sz s)%nat /\ (4 * sz s' + 2 <= n')%nat.
Definition reads_list (xs : list infix) (t : list itok) := forall ts s n acc, at_ (t ++ rpar :: ts) (next s) ->
  (sz (next s) < sz s)%nat -> (4 * sz s + 1 <= n)%nat ->
  exists s', elements n e s acc = Ok (Some (rev (map mtree xs) ++ acc, s')) /\ at_ (rpar :: ts) s' /\ (sz s' < sz s)%nat.

Lemma of_reads o ts s : of_word o -> at_ (o :: ts) s ->
  look s (lit "^") || look s (lit "of") = true /\ at_ ts (next s) /\ (sz (next s) < sz s)%nat.
Proof.
  intros [->| ->] A; apply at_cons in A; try exact I; cbn [written] in A; destruct A as (_ & T1 & A & L1 & _);
    change [chr "^"] with (lit "^") in *; lk; auto.
Qed.
(** The list after "of". *)
Lemma list_part xs t : reads_list xs t -> forall o ts s m, of_word o -> at_ (o :: lpar :: (t ++ [rpar]) ++ ts) s ->
  (4 * sz s + 1 <= m)%nat ->
  look s (lit "^") || look s (lit "of") = true /\ look (next s) (lit "(") = true /\
  exists s3, elements m e (next s) [] = Ok (Some (rev (map mtree xs), s3)) /\ look s3 (lit ")") = true /\
    at_ ts (next s3) /\ (sz (next s3) < sz s)%nat.
Proof.
  intros R o ts s m O A L. destruct (of_reads _ _ _ O A) as (E & A1 & L1). split; [exact E|].
  apply at_cons in A1; [|exact I]. destruct A1 as (_ & T1 & A1 & L2 & _). cbn [written lpar] in T1. change [chr "("] with (lit "(") in T1.
  split; [lk; reflexivity|]. rewrite <- app_assoc in A1. cbn [app] in A1.
  destruct (R ts (next s) m [] A1 L2 ltac:(lia)) as (s3 & E3 & A3 & L3). rewrite app_nil_r in E3.
  exists s3. split; [exact E3|]. apply at_cons in A3; [|exact I]. destruct A3 as (_ & T3 & A3 & L4 & _).
  cbn [written rpar] in T3. change [chr ")"] with (lit ")") in T3. split; [lk; reflexivity|]. split; [exact A3|lia].
Qed.

Lemma grammar_reads : (forall x t, atom_of D x t -> reads_atom x t) /\ (forall x t, query_of D x t -> reads_query x t) /\
  (forall xs t, list_of D xs t -> reads_list xs t).
Proof.
  apply (grammar_ind D (fun x t _ => reads_atom x t) (fun x t _ => reads_query x t) (fun xs t _ => reads_list xs t)).
  - (* term *) intros b top ts s n A Top L. destruct n as [|m]; [lia|]. cbn [app] in A. inversion A as [|? ? ? w K S A']; subst.
    pose proof (sz_shows _ _ _ K S) as Lw. cbn [shows] in S. destruct S as (T & I1 & I2 & R). cbn [atom].
    rewrite I1, I2. lk. rewrite R. unfold inhale. rewrite stops_span; [|apply forallb_forall|reflexivity].
    + exists (scan w). cbn [mtree]. auto.
    + intros c Hc. cbn [tok_ok] in K. destruct (Z.eqb_spec c 34) as [->|]; [tauto|reflexivity].
  - (* n words *) intros ds Hd top ts s n A Top L. destruct n as [|m]; [lia|]. cbn [app] in A.
    apply at_cons in A; [|exact I]. destruct A as (_ & T & A & L1 & I1 & _ & V). specialize (V _ eq_refl).
    apply at_cons in A; [|exact I]. destruct A as (_ & T2 & A & L2 & _). cbn [written] in T2.
    cbn [atom]. rewrite I1, V. cbn [orb andb negb]. lk. replace (number ds =? 0) with false by lia. cbn [andb].
    exists (next (next s)). split; [reflexivity|]. split; [exact A|lia].
  - (* [n] *) intros ds Hd top ts s n A Top L. destruct n as [|m]; [lia|]. cbn [app] in A.
    apply at_cons in A; [|exact I]. destruct A as (_ & T & A & L1 & I1 & J1 & _). cbn [written] in T. change [chr "["] with (lit "[") in T.
    apply at_cons in A; [|exact I]. destruct A as (_ & _ & A & L2 & I2 & _ & V). specialize (V _ eq_refl).
    apply at_cons in A; [|exact I]. destruct A as (_ & T3 & A & L3 & _). cbn [written] in T3. change [chr "]"] with (lit "]") in T3.
    cbn [atom]. rewrite I1, J1. lk. rewrite I2, V. lk. replace (number ds =? 0) with false by lia.
    exists (next (next (next s))). split; [reflexivity|]. split; [exact A|lia].
  - (* n of *) intros ds o xs ts O _ IH Hn top ts0 s n A Top L. destruct n as [|m]; [lia|]. cbn [app] in A.
    apply at_cons in A; [|exact I]. destruct A as (_ & T & A & L1 & I1 & _ & V). specialize (V _ eq_refl).
    destruct (list_part _ _ IH o ts0 (next s) m O A ltac:(lia)) as (E1 & E2 & s3 & E3 & E4 & A3 & L3).
    cbn [atom]. rewrite I1, V. cbn [orb andb negb]. rewrite E1, E2. cbn [negb]. rewrite E3. cbn [bind]. rewrite E4.
    rewrite rev_length, map_length. replace (_ <? _) with false by lia.
    exists (next s3). split; [reflexivity|]. split; [exact A3|lia].
  - (* one of *) intros o xs ts O HL IH top ts0 s n A Top L. destruct n as [|m]; [lia|]. cbn [app] in A.
    apply at_cons in A; [|exact I]. destruct A as (_ & T & A & L1 & I1 & _). cbn [written] in T.
    destruct (list_part _ _ IH o ts0 (next s) m O A ltac:(lia)) as (E1 & E2 & s3 & E3 & E4 & A3 & L3).
    cbn [atom]. rewrite I1. lk. rewrite E1, E2. cbn [negb]. rewrite E3. cbn [bind]. rewrite E4.
    rewrite rev_length, map_length. assert (1 <= length xs)%nat by (inversion HL; cbn; lia).
    replace (_ <? _) with false by lia. exists (next s3). split; [reflexivity|]. split; [exact A3|lia].
  - (* all of *) intros o xs ts O HL IH top ts0 s n A Top L. destruct n as [|m]; [lia|]. cbn [app] in A.
    apply at_cons in A; [|exact I]. destruct A as (_ & T & A & L1 & I1 & _). cbn [written] in T.
    destruct (list_part _ _ IH o ts0 (next s) m O A ltac:(lia)) as (E1 & E2 & s3 & E3 & E4 & A3 & L3).
    cbn [atom]. rewrite I1. lk. rewrite E1, E2. cbn [negb]. rewrite E3. cbn [bind]. rewrite E4.
    rewrite rev_length, map_length. exists (next s3). split; [reflexivity|]. split; [exact A3|lia].
  - (* name *) intros w [N1 N2] Dw top ts s n A Top L. destruct n as [|m]; [lia|]. cbn [app] in A.
    apply at_cons in A; [|exact I]. destruct A as (_ & T & A & L1 & I1 & J1 & _). cbn [written] in T.
    cbn [atom]. rewrite I1, !(look_tok s _ _ T). rewrite (proj2 (eqb_bytes_neq w (lit "one")) N1), (proj2 (eqb_bytes_neq w (lit "all")) N2).
    cbn [orb]. rewrite J1, T. cbn [InfixParse.mtree]. destruct (lookup e w) as [q|]; [|congruence].
    assert (top && look (next s) (lit "=") = false) as ->.
    { destruct top; [|reflexivity]. cbn [andb]. specialize (Top eq_refl). destruct (look (next s) (lit "=")) eqn:K; [|reflexivity].
      exfalso. apply look_eq in K. destruct ts as [|t ts]; inversion A as [? T0|? ? ? w' Kt S A']; subst; [rewrite K in T0; discriminate|].
      cbn [hd_error] in Top. destruct t as [x|x|x|c|x]; cbn [shows tok_ok] in *.
      - destruct S as (S & _). rewrite K in S. subst x. destruct Kt. discriminate.
      - destruct S as (S & _). rewrite K in S. subst x. destruct Kt. discriminate.
      - destruct S as (S & _). rewrite K in S. subst x. destruct Kt. discriminate.
      - destruct S as (S & _). rewrite K in S. injection S as <-. apply Top. reflexivity.
      - destruct S as (S & _). rewrite K in S. discriminate. }
    exists (next s). auto.
  - (* parentheses *) intros q ts _ IH top ts0 s n A Top L. destruct n as [|m]; [lia|]. cbn [app] in A.
    apply at_cons in A; [|exact I]. destruct A as (_ & T & A & L1 & I1 & J1 & _). cbn [written lpar] in T. change [chr "("] with (lit "(") in T.
    rewrite <- app_assoc in A. cbn [app] in A.
    destruct (IH false (rpar :: ts0) (next s) m A ltac:(discriminate) ltac:(lia)) as (n' & s' & E & A' & L' & B').
    apply at_cons in A'; [|exact I]. destruct A' as (_ & T' & A' & L2 & _). cbn [written rpar] in T'. change [chr ")"] with (lit ")") in T'.
    cbn [atom]. rewrite I1, J1. lk. rewrite E. rewrite ops_end; [|apply no_operator; rewrite T'; cbn; auto|lia]. cbn [bind]. lk.
    exists (next s'). split; [reflexivity|]. split; [exact A'|lia].
  - (* query: atom *) intros q ts _ IH top ts0 s n A Top L. destruct n as [|m]; [lia|]. cbn [query].
    destruct (IH top ts0 s m A Top ltac:(lia)) as (s' & E & A' & L'). rewrite E. cbn [bind]. exists m, s'. split; [reflexivity|]. split; [exact A'|lia].
  - (* query: operator *) intros k l r t1 t2 t3 _ IHl Hk _ IHr top ts s n A Top L. rewrite <- !app_assoc in A.
    assert (hd_error (t2 ++ t3 ++ ts) <> Some (Ks (chr "="))) as Top'.
    { destruct k; cbn [spellings In] in Hk; repeat (destruct Hk as [<-|Hk]); try contradiction; discriminate. }
    destruct (IHl top (t2 ++ t3 ++ ts) s n A (fun _ => Top') L) as (n1 & s1 & E1 & A1 & L1 & B1).
    destruct (operator_reads _ _ _ _ Hk A1) as (s2 & E2 & A2 & L2).
    destruct n1 as [|m1]; [lia|]. rewrite E1. cbn [operations]. rewrite E2.
    destruct (IHr false ts (next s2) m1 A2 ltac:(discriminate) ltac:(lia)) as (s3 & E3 & A3 & L3). rewrite E3. cbn [bind].
    exists m1, s3. split; [reflexivity|]. split; [exact A3|lia].
  - (* list: last *) intros q ts _ IH ts0 s n acc A L0 L. destruct n as [|m]; [lia|]. cbn [elements].
    destruct (IH false (rpar :: ts0) (next s) m A ltac:(discriminate) ltac:(lia)) as (n' & s' & E & A' & L' & B').
    pose proof A' as A2. apply at_cons in A2; [|exact I]. destruct A2 as (_ & T' & _). cbn [written rpar] in T'. change [chr ")"] with (lit ")") in T'.
    rewrite E. rewrite ops_end; [|apply no_operator; rewrite T'; cbn; auto|lia]. cbn [bind]. lk.
    exists s'. split; [reflexivity|]. split; [exact A'|lia].
  - (* list: more *) intros q xs t1 t2 _ IH1 _ IH2 ts s n acc A L0 L. destruct n as [|m]; [lia|]. cbn [elements].
    rewrite <- app_assoc in A. cbn [app] in A.
    destruct (IH1 false (comma :: t2 ++ rpar :: ts) (next s) m A ltac:(discriminate) ltac:(lia)) as (n' & s' & E & A' & L' & B').
    apply at_cons in A'; [|exact I]. destruct A' as (_ & T' & A' & L2 & _). cbn [written comma] in T'. change [chr ","] with (lit ",") in T'.
    rewrite E. rewrite ops_end; [|apply no_operator; rewrite T'; cbn; auto|lia]. cbn [bind]. lk.
    destruct (IH2 ts s' m (mtree q :: acc) A' L2 ltac:(lia)) as (s3 & E3 & A3 & L3). rewrite E3.
    exists s3. split; [|split; [exact A3|lia]]. do 3 f_equal. cbn [map rev]. rewrite <- app_assoc. reflexivity.
Qed.
End Read.

(** ** The parser ends on every text. *)
Lemma look_tok_ne s t : t <> [] -> look s t = true -> tok s <> []. Proof. intros N H. apply look_eq in H. congruence. Qed.
Lemma operator_size s k s1 : operator s = Some (Some (k, s1)) -> (sz (next s1) < sz s)%nat.
Proof.
  assert (forall s t, look s t = true -> t <> [] -> (sz (next s) < sz s)%nat) as N
    by (intros ? ? H1 H2; apply sz_next; eapply look_tok_ne; eassumption).
  assert (forall s t u, look s t || look s u = true -> t <> [] -> u <> [] -> (sz (next s) < sz s)%nat) as N2
    by (intros ? ? ? H1 H2 H3; apply orb_prop in H1; destruct H1 as [H1|H1]; eapply N; eassumption).
  intros H. unfold operator in H.
  destruct (look s (lit ">>") || _) eqn:E; [injection H as <- <-; eapply N2; [exact E|discriminate|discriminate]|clear E].
  destruct (look s (lit "<<") || _) eqn:E; [injection H as <- <-; eapply N2; [exact E|discriminate|discriminate]|clear E].
  destruct (look s (lit "/>")) eqn:E; [injection H as <- <-; eapply N; [exact E|discriminate]|clear E].
  destruct (look s (lit "/<")) eqn:E; [injection H as <- <-; eapply N; [exact E|discriminate]|clear E].
  destruct (look s (lit "^") || _) eqn:E; [injection H as <- <-; eapply N2; [exact E|discriminate|discriminate]|clear E].
  destruct (look s (lit "+") || _) eqn:E; [injection H as <- <-; eapply N2; [exact E|discriminate|discriminate]|clear E].
  destruct (look s (lit "<>") || look s (lit "..") || look s (lit "...") || _) eqn:E.
  { injection H as <- <-. repeat (apply orb_prop in E; destruct E as [E|E]); (eapply N; [exact E|discriminate]). }
  clear E. destruct (look s (lit "containing")) eqn:E; [injection H as <- <-; eapply N; [exact E|discriminate]|clear E].
  destruct (look s (lit "contained")) eqn:E.
  { apply N in E; [|discriminate]. destruct (look (next s) (lit "in")) eqn:E2; [|discriminate]. injection H as <- <-.
    apply N in E2; [|discriminate]. lia. }
  clear E. destruct (look s (lit "not")) eqn:E; [|discriminate]. apply N in E; [|discriminate].
  destruct (look (next s) (lit "containing")) eqn:E2.
  { injection H as <- <-. apply N in E2; [|discriminate]. lia. }
  clear E2. destruct (look (next s) (lit "contained")) eqn:E2; [|discriminate]. apply N in E2; [|discriminate].
  destruct (look (next (next s)) (lit "in")) eqn:E3; [|discriminate]. injection H as <- <-. apply N in E3; [|discriminate]. lia.
Qed.
Definition post (top : bool) (s : scan_state) (r : parsed) : Prop :=
  match r with
  | PErr => True
  | POk q e' s' => scanned s' /\ (sz s' < sz s)%nat /\ (top = false -> q <> None) /\ (q = None -> operator s' = None)
  end.
Lemma parse_total : forall n,
  (forall e top s, scanned s -> (4 * sz s + 1 <= n)%nat -> exists r, atom n e top s = Ok r /\ post top s r) /\
  (forall e s xs, tok s <> [] -> (4 * sz s + 1 <= n)%nat -> exists r, elements n e s xs = Ok r /\
     match r with None => True | Some (_, s') => scanned s' /\ (sz s' < sz s)%nat end) /\
  (forall e top s, scanned s -> (4 * sz s + 3 <= n)%nat -> exists r, query n e top s = Ok r /\ post top s r /\
     match r with PErr => True | POk _ _ s' => operator s' = None end) /\
  (forall e l s, scanned s -> (l = None -> operator s = None) -> (4 * sz s + 2 <= n)%nat -> exists r, operations n e l s = Ok r /\
     match r with PErr => True | POk q _ s' => scanned s' /\ (sz s' <= sz s)%nat /\ (l <> None -> q <> None) /\ operator s' = None end).
Proof.
  induction n as [|m (IA & IE & IQ & IO)]; [repeat split; intros; lia|].
  assert (forall e top s, scanned s -> (4 * sz s + 1 <= S m)%nat -> exists r, atom (S m) e top s = Ok r /\ post top s r) as HA.
  { intros e top s Hs L. cbn [atom].
    destruct (is_int s || look s (lit "one") || look s (lit "all")) eqn:B1.
    - assert (tok s <> []) as N.
      { apply orb_prop in B1. destruct B1 as [B1|B1]; [apply orb_prop in B1; destruct B1 as [B1|B1]|].
        - apply scanned_int; assumption. - eapply look_tok_ne; [|exact B1]; discriminate. - eapply look_tok_ne; [|exact B1]; discriminate. }
      pose proof (sz_next _ N) as L1. destruct (look (next s) (lit "^") || look (next s) (lit "of")) eqn:B2.
      + assert (tok (next s) <> []) as N1 by (apply orb_prop in B2; destruct B2 as [B2|B2]; (eapply look_tok_ne; [|exact B2]; discriminate)).
        pose proof (sz_next _ N1) as L2. destruct (look (next (next s)) (lit "(")) eqn:B3; cbn [negb]; [|eexists; split; [reflexivity|exact I]].
        destruct (IE e (next (next s)) [] ltac:(eapply look_tok_ne; [|exact B3]; discriminate) ltac:(lia)) as (r & -> & P). cbn [bind].
        destruct r as [[xs s3]|]; [|eexists; split; [reflexivity|exact I]]. destruct P as [P1 P2].
        destruct (look s3 (lit ")")) eqn:B4; [|eexists; split; [reflexivity|exact I]].
        pose proof (sz_next _ (look_tok_ne s3 (lit ")") ltac:(discriminate) B4)) as L4.
        destruct (negb (is_int s) && look s (lit "all")).
        * eexists; split; [reflexivity|]. split; [apply scanned_next|]. split; [lia|]. split; [discriminate|discriminate].
        * destruct (_ <? _); eexists; (split; [reflexivity|]); [exact I|]. split; [apply scanned_next|]. split; [lia|]. split; [discriminate|discriminate].
      + destruct (look (next s) (lit "words")) eqn:B3; [|eexists; split; [reflexivity|exact I]].
        pose proof (sz_next _ (look_tok_ne (next s) (lit "words") ltac:(discriminate) B3)) as L4.
        destruct (_ && _); [eexists; split; [reflexivity|exact I]|].
        destruct (negb (is_int s)); eexists; (split; [reflexivity|]); [exact I|]. split; [apply scanned_next|]. split; [lia|]. split; [discriminate|discriminate].
    - clear B1. destruct (is_id s) eqn:B1.
      + pose proof (sz_next _ (scanned_id s Hs B1)) as L1. destruct (lookup e (tok s)) as [q|].
        * destruct (top && look (next s) (lit "=")) eqn:B2.
          -- apply andb_prop in B2. destruct B2 as [-> B2]. pose proof (sz_next _ (look_tok_ne (next s) (lit "=") ltac:(discriminate) B2)) as L2.
             destruct (IQ e false (next (next s)) (scanned_next _) ltac:(lia)) as (r & -> & P & P2). cbn [bind].
             destruct r as [|q' e' s']; [eexists; split; [reflexivity|exact I]|]. destruct P as (P3 & P4 & P5 & _).
             destruct q' as [q'|]; [|exfalso; apply P5; reflexivity]. eexists; split; [reflexivity|]. split; [exact P3|]. split; [lia|].
             split; [discriminate|intros _; exact P2].
          -- eexists; split; [reflexivity|]. split; [apply scanned_next|]. split; [lia|]. split; [discriminate|discriminate].
        * destruct top; [|eexists; split; [reflexivity|exact I]].
          destruct (look (next s) (lit "=")) eqn:B2; [|eexists; split; [reflexivity|exact I]].
          pose proof (sz_next _ (look_tok_ne (next s) (lit "=") ltac:(discriminate) B2)) as L2.
          destruct (IQ e false (next (next s)) (scanned_next _) ltac:(lia)) as (r & -> & P & P2). cbn [bind].
          destruct r as [|q' e' s']; [eexists; split; [reflexivity|exact I]|]. destruct P as (P3 & P4 & P5 & _).
          destruct q' as [q'|]; [|exfalso; apply P5; reflexivity]. eexists; split; [reflexivity|]. split; [exact P3|]. split; [lia|].
          split; [discriminate|intros _; exact P2].
      + destruct (look s (lit "(")) eqn:B2.
        * pose proof (sz_next _ (look_tok_ne s (lit "(") ltac:(discriminate) B2)) as L2.
          destruct (IQ e false (next s) (scanned_next _) ltac:(lia)) as (r & -> & P & P2). cbn [bind].
          destruct r as [|q' e' s']; [eexists; split; [reflexivity|exact I]|]. destruct P as (P3 & P4 & P5 & _).
          destruct (look s' (lit ")")) eqn:B3; [|eexists; split; [reflexivity|exact I]].
          pose proof (sz_next _ (look_tok_ne s' (lit ")") ltac:(discriminate) B3)) as L3.
          eexists; split; [reflexivity|]. split; [apply scanned_next|]. split; [lia|]. split; [intros _; exact (P5 eq_refl)|].
          intros ->. exfalso. apply P5; reflexivity.
        * destruct (look s (lit "[")) eqn:B3.
          -- pose proof (sz_next _ (look_tok_ne s (lit "[") ltac:(discriminate) B3)) as L3.
             destruct (is_int (next s)) eqn:B4; [|eexists; split; [reflexivity|exact I]].
             pose proof (sz_next _ (scanned_int _ (scanned_next s) B4)) as L4.
             destruct (look (next (next s)) (lit "]")) eqn:B5; [|eexists; split; [reflexivity|exact I]].
             pose proof (sz_next _ (look_tok_ne _ (lit "]") ltac:(discriminate) B5)) as L5.
             destruct (_ =? 0); eexists; (split; [reflexivity|]); [exact I|]. split; [apply scanned_next|]. split; [lia|]. split; [discriminate|discriminate].
          -- destruct (look s [34]) eqn:B4; [|eexists; split; [reflexivity|exact I]].
             destruct (inhale (rest s)) as [[t r]|] eqn:B5; [|eexists; split; [reflexivity|exact I]].
             eexists; split; [reflexivity|]. split; [apply scanned_scan|]. split; [|split; [discriminate|discriminate]].
             pose proof (sz_scan r) as L5. unfold inhale in B5. pose proof (span_split (fun c => negb (c =? 34)) (rest s)) as S.
             destruct (span _ (rest s)) as [a b]. destruct b as [|c b]; [discriminate|]. injection B5 as <- <-. destruct S as (S & _).
             unfold sz at 2. rewrite S, app_length. cbn [length]. lia. }
  assert (forall e l s, scanned s -> (l = None -> operator s = None) -> (4 * sz s + 2 <= S m)%nat -> exists r, operations (S m) e l s = Ok r /\
     match r with PErr => True | POk q _ s' => scanned s' /\ (sz s' <= sz s)%nat /\ (l <> None -> q <> None) /\ operator s' = None end) as HO.
  { intros e l s Hs Hl L. cbn [operations]. destruct (operator s) as [[[k s1]|]|] eqn:O.
    - pose proof (operator_size _ _ _ O) as L1. destruct l as [l|]; [|discriminate (Hl eq_refl)].
      destruct (IA e false (next s1) (scanned_next _) ltac:(lia)) as (r & -> & P). cbn [bind].
      destruct r as [|q e' s']; [eexists; split; [reflexivity|exact I]|]. destruct P as (P1 & P2 & P3 & _).
      destruct q as [q|]; [|exfalso; apply P3; reflexivity].
      destruct (IO e' (Some (MBin k l q)) s' P1 ltac:(discriminate) ltac:(lia)) as (r & -> & P). eexists. split; [reflexivity|].
      destruct r as [|q' e2 s2]; [exact I|]. destruct P as (Q1 & Q2 & Q3 & Q4). split; [exact Q1|]. split; [lia|].
      split; [intros _; apply Q3; discriminate|exact Q4].
    - eexists; split; [reflexivity|exact I].
    - eexists; split; [reflexivity|]. split; [exact Hs|]. split; [lia|]. split; [auto|exact O]. }
  assert (forall e top s, scanned s -> (4 * sz s + 3 <= S m)%nat -> exists r, query (S m) e top s = Ok r /\ post top s r /\
     match r with PErr => True | POk _ _ s' => operator s' = None end) as HQ.
  { intros e top s Hs L. cbn [query]. destruct (IA e top s Hs ltac:(lia)) as (r & -> & P). cbn [bind].
    destruct r as [|q e' s']; [eexists; split; [reflexivity|split; exact I]|]. destruct P as (P1 & P2 & P3 & P4).
    destruct (IO e' q s' P1 P4 ltac:(lia)) as (r & -> & P). eexists. split; [reflexivity|].
    destruct r as [|q2 e2 s2]; [split; exact I|]. destruct P as (Q1 & Q2 & Q3 & Q4). split; [|exact Q4].
    split; [exact Q1|]. split; [lia|]. split; [|intros _; exact Q4]. intros T. apply Q3, P3, T. }
  split; [exact HA|]. split; [|split; [exact HQ|exact HO]].
  intros e s xs N L. cbn [elements]. pose proof (sz_next _ N) as L1.
  destruct (IQ e false (next s) (scanned_next _) ltac:(lia)) as (r & -> & P & _). cbn [bind].
  destruct r as [|q e' s']; [eexists; split; [reflexivity|exact I]|]. destruct P as (P1 & P2 & P3 & _).
  destruct q as [q|]; [|exfalso; apply P3; reflexivity]. destruct (look s' (lit ",")) eqn:B.
  - destruct (IE e s' (q :: xs) ltac:(eapply look_tok_ne; [|exact B]; discriminate) ltac:(lia)) as (r & -> & P). eexists. split; [reflexivity|].
    destruct r as [[ys s2]|]; [|exact I]. destruct P. split; [assumption|lia].
  - eexists. split; [reflexivity|]. split; [exact P1|lia].
Qed.
