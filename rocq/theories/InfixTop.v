(** Accepted texts are those of the grammar; sessions. *)
From Verif Require Import Base Bytes HopperModel GclSpec VectorModel QueryModel QuerySpec ParseProofs PhraseProofs InfixModel InfixSpec InfixProofs InfixParse.
Local Arguments chr s%string_scope.

(** ** Accepted texts are written by the grammar *)
Definition clean (s : scan_state) : Prop := exists w, no_nul w /\ s = scan w.
Lemma rest_clean w : no_nul w -> no_nul (rest (scan w)).
Proof.
  intros N.
  destruct (scan_cases w) as (b & Hb & [[-> X]|[(t & r & E & Kt & Q & He & Hs)|[(r & E & X)|(r & E & X)]]]).
  - rewrite X. intros [].
  - assert (rest (scan w) = r) as ->.
    { destruct t as [x|x|x|c|x]; try destruct Q; cbn [shows] in Hs; tauto. }
    intros Z. apply N. rewrite E, !in_app_iff. auto.
  - rewrite X. cbn [rest]. intros Z. apply N. rewrite E, in_app_iff. right. right. exact Z.
  - exfalso. apply N. rewrite E, in_app_iff. right. left. reflexivity.
Qed.
Lemma clean_next s : clean s -> clean (next s).
Proof. intros (w & N & ->). exists (rest (scan w)). split; [apply rest_clean, N|reflexivity]. Qed.
#[local] Hint Resolve clean_next : core.

Definition leads (t : list itok) (s s' : scan_state) : Prop := forall ts, at_ ts s' -> at_ (t ++ ts) s.
Lemma leads_app t1 t2 s s1 s2 : leads t1 s s1 -> leads t2 s1 s2 -> leads (t1 ++ t2) s s2.
Proof. intros H1 H2 ts H. rewrite <- app_assoc. apply H1, H2, H. Qed.
Lemma leads_cons t ts s s1 s2 : leads [t] s s1 -> leads ts s1 s2 -> leads (t :: ts) s s2.
Proof. intros H1 H2. exact (leads_app [t] ts s s1 s2 H1 H2). Qed.

Lemma show_some w : no_nul w -> tok (scan w) <> [] -> tok (scan w) <> [34] -> exists t, tok_ok t /\
  (match t with Kq _ => False | _ => True end) /\ shows t (scan w) (rest (scan w)).
Proof.
  intros Nn N1 N2.
  destruct (scan_cases w) as (b & Hb & [[-> X]|[(t & r & E & Kt & Q & He & Hs)|[(r & E & X)|(r & E & X)]]]).
  - rewrite X in N1. cbn in N1. congruence.
  - exists t. split; [exact Kt|]. split; [exact Q|].
    assert (rest (scan w) = r) as ->; [|exact Hs]. destruct t as [x|x|x|c|x]; try destruct Q; cbn [shows] in Hs; tauto.
  - rewrite X in N2. cbn in N2. congruence.
  - exfalso. apply Nn. rewrite E, in_app_iff. right. left. reflexivity.
Qed.
(** A token is what its text is. *)
Definition plain_tok (t : itok) : Prop := tok_ok t /\ match t with Kq _ | Kn _ => False | _ => True end.
Lemma first_char t : tok_ok t ->
  match t with
  | Kw _ => is_alpha (peek (written t)) = true /\ is_multi (peek (written t)) = false /\ is_digit (peek (written t)) = false
  | Kp _ => is_alpha (peek (written t)) = false /\ is_multi (peek (written t)) = true /\ is_digit (peek (written t)) = false
  | Ks _ => is_alpha (peek (written t)) = false /\ is_multi (peek (written t)) = false /\ is_digit (peek (written t)) = false
  | Kn _ => is_digit (peek (written t)) = true /\ True
  | Kq _ => True /\ True
  end.
Proof.
  destruct t as [x|x|x|c|x]; cbn [tok_ok written]; intros H.
  - destruct H as [H _]. split; [exact H|]. unfold is_alpha, is_multi, is_digit in *. lia.
  - destruct H as [H1 H2]. destruct x as [|a x]; [congruence|]. cbn [forallb] in H2. apply andb_prop in H2. split; [apply H2|exact I].
  - destruct H as [H1 H2]. destruct x as [|a x]; [congruence|]. cbn [forallb] in H2. apply andb_prop in H2. destruct H2 as [H2 _].
    cbn [peek]. clear H1. split; [|split; [exact H2|]]; unfold is_alpha, is_multi, is_digit in *; lia.
  - cbn [peek]. tauto.
  - auto.
Qed.
Lemma lead_tok s t : clean s -> plain_tok t -> tok s = written t -> leads [t] s (next s).
Proof.
  intros (w & N & ->) [K Q] T ts A. cbn [app].
  assert (tok (scan w) <> [] /\ tok (scan w) <> [34]) as [N1 N2].
  { rewrite T. clear T A. destruct t as [x|x|x|c|x]; cbn [written tok_ok] in *; try destruct Q; split; intros Z;
      repeat match goal with H : _ /\ _ |- _ => destruct H end; subst; try discriminate; congruence. }
  destruct (show_some w N N1 N2) as (t' & K' & Q' & S').
  assert (t = t') as ->; [|econstructor; [exact K'|exact S'|exact A]].
  assert (tok (scan w) = written t') as T' by (destruct t'; try destruct Q'; cbn [shows written] in *; tauto).
  rewrite T in T'. clear T S' N1 N2 N A ts. revert K Q K' Q' T'.
  pose proof (first_char t) as F. pose proof (first_char t') as F'. intros K Q K' Q' T'. specialize (F K). specialize (F' K'). rewrite <- T' in F'.
  destruct t, t'; try destruct Q; try destruct Q'; cbn [written] in T'; cbv beta iota in F, F'; repeat match goal with H : _ /\ _ |- _ => destruct H end; congruence.
Qed.
Lemma lead_int s : clean s -> is_int s = true -> (leads [Kn (tok s)] s (next s) /\ 0 <= number (tok s)) /\ as_int s = number (tok s).
Proof.
  intros (w & N & ->) B.
  destruct (scan_cases w) as (b & Hb & [[-> X]|[(t & r & E & Kt & Q & He & Hs)|[(r & E & X)|(r & E & X)]]]);
    try (rewrite X in B; discriminate).
  destruct t as [x|x|x|c|x]; cbn [shows] in Hs; try destruct Q; destruct Hs as (S1 & S2 & S3 & S4); try congruence.
  destruct S4 as [S4 S5]. rewrite S1. split; [|exact S4]. split.
  2:{ unfold number. pose proof (dec_val_ge 0 x ltac:(lia) (proj2 Kt)). cbv zeta. destruct (_ <=? _); lia. }
  intros ts A. cbn [app].
  econstructor; [exact Kt|split; [exact S1|split; [exact S2|split; [exact S3|split; [exact S4|reflexivity]]]]|exact A].
Qed.
Lemma lead_id s : clean s -> is_id s = true -> leads [Kw (tok s)] s (next s).
Proof.
  intros (w & N & ->) B.
  destruct (scan_cases w) as (b & Hb & [[-> X]|[(t & r & E & Kt & Q & He & Hs)|[(r & E & X)|(r & E & X)]]]);
    try (rewrite X in B; discriminate).
  destruct t as [x|x|x|c|x]; cbn [shows] in Hs; try destruct Q; destruct Hs as (S1 & S2 & S3 & S4); try congruence.
  rewrite S1. intros ts A. cbn [app].
  econstructor; [exact Kt|split; [exact S1|split; [exact S2|split; [exact S3|reflexivity]]]|exact A].
Qed.
Ltac pl := split; [cbn; repeat split; try reflexivity; try discriminate|exact I].
Lemma lead_look s t : clean s -> plain_tok t -> look s (written t) = true -> leads [t] s (next s).
Proof. intros C P L. apply lead_tok; [exact C|exact P|]. apply look_eq, L. Qed.

Lemma operator_writes s k s1 : clean s -> operator s = Some (Some (k, s1)) ->
  clean s1 /\ exists t, In t (spellings k) /\ leads t s (next s1).
Proof.
  intros C H. unfold operator in H.
  assert (forall t k', plain_tok t -> look s (written t) = true -> In [t] (spellings k') -> Some (Some (k', s)) = Some (Some (k, s1)) ->
    clean s1 /\ exists t, In t (spellings k) /\ leads t s (next s1)) as G.
  { intros t k' P L J E. injection E as <- <-. split; [exact C|]. exists [t]. split; [exact J|]. apply lead_look; assumption. }
  destruct (look s (lit ">>") || _) eqn:E.
  { apply orb_prop in E. destruct E as [E|E]; [apply (G (Kp (lit ">>")) CONTAINING)|apply (G (Kp (lit ">")) CONTAINING)]; auto; try pl; cbn; auto. }
  clear E. destruct (look s (lit "<<") || _) eqn:E.
  { apply orb_prop in E. destruct E as [E|E]; [apply (G (Kp (lit "<<")) CONTAINED_IN)|apply (G (Kp (lit "<")) CONTAINED_IN)]; auto; try pl; cbn; auto. }
  clear E. destruct (look s (lit "/>")) eqn:E; [apply (G (Kp (lit "/>")) NOT_CONTAINING); auto; try pl; cbn; auto|].
  clear E. destruct (look s (lit "/<")) eqn:E; [apply (G (Kp (lit "/<")) NOT_CONTAINED_IN); auto; try pl; cbn; auto|].
  clear E. destruct (look s (lit "^") || _) eqn:E.
  { apply orb_prop in E. destruct E as [E|E]; [apply (G (Ks (chr "^")) ALL_OF)|apply (G (Kw (lit "and")) ALL_OF)]; auto; try pl; cbn; auto. }
  clear E. destruct (look s (lit "+") || _) eqn:E.
  { apply orb_prop in E. destruct E as [E|E]; [apply (G (Ks (chr "+")) ONE_OF)|apply (G (Kw (lit "or")) ONE_OF)]; auto; try pl; cbn; auto. }
  clear E. destruct (look s (lit "<>") || look s (lit "..") || look s (lit "...") || _) eqn:E.
  { repeat (apply orb_prop in E; destruct E as [E|E]);
      [apply (G (Kp (lit "<>")) FOLLOWED_BY)|apply (G (Kp (lit "..")) FOLLOWED_BY)|apply (G (Kp (lit "...")) FOLLOWED_BY)|
       apply (G (Kp (lit "....")) FOLLOWED_BY)]; auto; try pl; cbn; auto. }
  clear E. destruct (look s (lit "containing")) eqn:E; [apply (G (Kw (lit "containing")) CONTAINING); auto; try pl; cbn; auto|].
  clear E G. destruct (look s (lit "contained")) eqn:E.
  { destruct (look (next s) (lit "in")) eqn:E2; [|discriminate]. injection H as <- <-. split; [auto|].
    exists [Kw (lit "contained"); Kw (lit "in")]. split; [cbn; auto|].
    eapply leads_cons; apply lead_look; auto; pl. }
  clear E. destruct (look s (lit "not")) eqn:E; [|discriminate].
  destruct (look (next s) (lit "containing")) eqn:E2.
  { injection H as <- <-. split; [auto|]. exists [Kw (lit "not"); Kw (lit "containing")]. split; [cbn; auto|].
    eapply leads_cons; apply lead_look; auto; pl. }
  clear E2. destruct (look (next s) (lit "contained")) eqn:E2; [|discriminate].
  destruct (look (next (next s)) (lit "in")) eqn:E3; [|discriminate]. injection H as <- <-. split; [auto|].
  exists [Kw (lit "not"); Kw (lit "contained"); Kw (lit "in")]. split; [cbn; auto|].
  eapply leads_cons; [apply lead_look; [auto| |exact E]; pl|]. eapply leads_cons; apply lead_look; auto; pl.
Qed.

Section Write.
Context (e : env).
Notation D := (fun w => lookup e w <> None).
Notation mtree := (mtree e).

Definition an_atom (q : option mq) (s s' : scan_state) : Prop :=
  exists x t, atom_of D x t /\ q = Some (mtree x) /\ leads t s s' /\ clean s'.
Definition a_query (q : option mq) (s s' : scan_state) : Prop :=
  exists x t, query_of D x t /\ q = Some (mtree x) /\ leads t s s' /\ clean s'.

Lemma parsed_written : forall n,
  (forall s q e' s', clean s -> atom n e false s = Ok (POk q e' s') -> e' = e /\ an_atom q s s') /\
  (forall s xs ys s', clean s -> elements n e s xs = Ok (Some (ys, s')) ->
     exists zs t, list_of D zs t /\ ys = rev (map mtree zs) ++ xs /\ leads t (next s) s' /\ clean s') /\
  (forall s q e' s', clean s -> query n e false s = Ok (POk q e' s') -> e' = e /\ a_query q s s') /\
  (forall l s q e' s', clean s -> operations n e (Some l) s = Ok (POk q e' s') ->
     forall x t s0, query_of D x t -> l = mtree x -> leads t s0 s -> e' = e /\ a_query q s0 s').
Proof.
  induction n as [|m (IA & IE & IQ & IO)]; [repeat split; intros; discriminate|].
  assert (forall l s q e' s', clean s -> operations (S m) e (Some l) s = Ok (POk q e' s') ->
     forall x t s0, query_of D x t -> l = mtree x -> leads t s0 s -> e' = e /\ a_query q s0 s') as HO.
  { intros l s q e' s' C H x t s0 Q -> L. cbn [operations] in H. destruct (operator s) as [[[k s1]|]|] eqn:O; [| |].
    - destruct (operator_writes _ _ _ C O) as (C1 & t2 & T2 & L2).
      destruct (atom m e false (next s1)) as [r| |] eqn:E; try discriminate. cbn [bind] in H.
      destruct r as [|[r|] e2 s2]; try discriminate. destruct (IA _ _ _ _ (clean_next _ C1) E) as (-> & x3 & t3 & A3 & M3 & L3 & C3).
      injection M3 as ->.
      apply (IO _ _ _ _ _ C3 H (IBin k x x3) (t ++ t2 ++ t3) s0); [econstructor; eassumption|reflexivity|].
      eapply leads_app; [exact L|]. eapply leads_app; eassumption.
    - discriminate.
    - injection H as <- <- <-. split; [reflexivity|]. exists x, t. auto. }
  assert (forall s q e' s', clean s -> query (S m) e false s = Ok (POk q e' s') -> e' = e /\ a_query q s s') as HQ.
  { intros s q e' s' C H. cbn [query] in H. destruct (atom m e false s) as [r| |] eqn:E; try discriminate. cbn [bind] in H.
    destruct r as [|r e2 s2]; try discriminate. destruct (IA _ _ _ _ C E) as (-> & x & t & A & -> & L & C2).
    apply (IO _ _ _ _ _ C2 H x t s); [constructor; exact A|reflexivity|exact L]. }
  split; [|split; [|split; [exact HQ|exact HO]]].
  - intros s q e' s' C H. cbn [atom] in H.
    destruct (is_int s || look s (lit "one") || look s (lit "all")) eqn:B1.
    + assert (of_spec : look (next s) (lit "^") || look (next s) (lit "of") = true -> exists o, of_word o /\ leads [o] (next s) (next (next s))).
      { intros B. apply orb_prop in B. destruct B as [B|B].
        - exists (Ks (chr "^")). split; [right; reflexivity|]. apply lead_look; [auto|pl|exact B].
        - exists (Kw (lit "of")). split; [left; reflexivity|]. apply lead_look; [auto|pl|exact B]. }
      destruct (look (next s) (lit "^") || look (next s) (lit "of")).
      * destruct (of_spec eq_refl) as (o & Ho & Lo). clear of_spec.
        destruct (look (next (next s)) (lit "(")) eqn:B3; cbn [negb] in H; [|discriminate].
        destruct (elements m e (next (next s)) []) as [r| |] eqn:E; try discriminate. cbn [bind] in H.
        destruct r as [[xs s3]|]; [|discriminate].
        destruct (IE _ _ _ _ (clean_next _ (clean_next _ C)) E) as (zs & t & HL & -> & L3 & C3). rewrite app_nil_r in *.
        destruct (look s3 (lit ")")) eqn:B4; [|discriminate].
        assert (forall t0, leads [t0] s (next s) -> leads (t0 :: o :: lpar :: t ++ [rpar]) s (next s3)) as LL.
        { intros t0 L0. eapply leads_cons; [exact L0|]. eapply leads_cons; [exact Lo|].
          eapply leads_cons; [apply lead_look; [auto|pl|exact B3]|]. eapply leads_app; [exact L3|]. apply lead_look; [exact C3|pl|exact B4]. }
        rewrite rev_length, map_length in H.
        destruct (is_int s) eqn:BI; cbn [negb andb] in H.
        -- destruct (lead_int s C BI) as [[L0 V0] V]. destruct (_ <? _) eqn:Bn; [discriminate|]. injection H as <- <- <-. split; [reflexivity|].
           exists (IOf (number (tok s)) zs), (Kn (tok s) :: o :: lpar :: t ++ [rpar]). rewrite V in *.
           split; [apply a_some; [exact Ho|exact HL|lia]|]. split; [reflexivity|]. split; [apply LL, L0|auto].
        -- cbn [orb] in B1. destruct (look s (lit "all")) eqn:Ba.
           ++ injection H as <- <- <-. split; [reflexivity|].
              exists (IOf (Z.of_nat (length zs)) zs), (Kw (lit "all") :: o :: lpar :: t ++ [rpar]).
              split; [apply a_all; assumption|]. split; [reflexivity|]. split; [apply LL, lead_look; [exact C|pl|exact Ba]|auto].
           ++ rewrite orb_false_r in B1. rewrite B1 in H. destruct (_ <? _); [discriminate|]. injection H as <- <- <-. split; [reflexivity|].
              exists (IOf 1 zs), (Kw (lit "one") :: o :: lpar :: t ++ [rpar]).
              split; [apply a_one; assumption|]. split; [reflexivity|]. split; [apply LL, lead_look; [exact C|pl|exact B1]|auto].
      * clear of_spec. destruct (look (next s) (lit "words")) eqn:B3; [|discriminate].
        destruct (is_int s) eqn:BI; cbn [negb andb] in H.
        2:{ destruct (_ && _); discriminate. }
        destruct (lead_int s C BI) as [[L0 V0] V]. rewrite V, andb_true_r in H.
        destruct (number (tok s) =? 0) eqn:Bz; [discriminate|]. injection H as <- <- <-. split; [reflexivity|].
        exists (IWidth (number (tok s))), [Kn (tok s); Kw (lit "words")].
        split.
        { apply a_words. lia. }
        split; [reflexivity|]. split; [|auto]. eapply leads_cons; [exact L0|]. apply lead_look; [auto|pl|exact B3].
    + apply orb_false_elim in B1. destruct B1 as [B1 B1']. apply orb_false_elim in B1. destruct B1 as [_ B1].
      destruct (is_id s) eqn:BI.
      * destruct (lookup e (tok s)) as [q0|] eqn:K; [|discriminate]. cbn [andb] in H. injection H as <- <- <-. split; [reflexivity|].
        exists (IName (tok s)), [Kw (tok s)]. split; [|split; [cbn [InfixParse.mtree]; rewrite K; reflexivity|split; [apply lead_id; assumption|auto]]].
        apply a_name; [|congruence]. split; intros T; apply look_eq in T; congruence.
      * destruct (look s (lit "(")) eqn:B2.
        -- destruct (query m e false (next s)) as [r| |] eqn:E; try discriminate. cbn [bind] in H.
           destruct r as [|q1 e1 s1]; [discriminate|]. destruct (IQ _ _ _ _ (clean_next _ C) E) as (-> & x & t & A & -> & L & C1).
           destruct (look s1 (lit ")")) eqn:B3; [|discriminate]. injection H as <- <- <-. split; [reflexivity|].
           exists x, (lpar :: t ++ [rpar]). split; [apply a_par, A|]. split; [reflexivity|]. split; [|auto].
           eapply leads_cons; [apply lead_look; [exact C|pl|exact B2]|]. eapply leads_app; [exact L|]. apply lead_look; [exact C1|pl|exact B3].
        -- destruct (look s (lit "[")) eqn:B3.
           ++ destruct (is_int (next s)) eqn:B4; [|discriminate]. destruct (lead_int _ (clean_next _ C) B4) as [[L0 V0] V].
              destruct (look (next (next s)) (lit "]")) eqn:B5; [|discriminate]. rewrite V in H.
              destruct (number (tok (next s)) =? 0) eqn:Bz; [discriminate|]. injection H as <- <- <-. split; [reflexivity|].
              exists (IWidth (number (tok (next s)))), [Ks (chr "["); Kn (tok (next s)); Ks (chr "]")].
              split; [apply a_width; lia|]. split; [reflexivity|]. split; [|auto].
              eapply leads_cons; [apply lead_look; [exact C|pl|exact B3]|]. eapply leads_cons; [exact L0|]. apply lead_look; [auto|pl|exact B5].
           ++ destruct (look s [34]) eqn:B4; [|discriminate]. destruct (inhale (rest s)) as [[t r]|] eqn:B5; [|discriminate].
              injection H as <- <- <-. split; [reflexivity|]. exists (ITerm t), [Kq t]. split; [constructor|]. split; [reflexivity|].
              unfold inhale in B5. pose proof (span_split (fun c => negb (c =? 34)) (rest s)) as S.
              destruct (span _ (rest s)) as [a b]. destruct b as [|c b]; [discriminate|]. injection B5 as -> ->. destruct S as (S1 & S2 & S3).
              destruct S3 as [S3|S3]; [discriminate|]. cbn [peek] in S3. assert (c = 34) as -> by (destruct (Z.eqb_spec c 34); [assumption|discriminate]).
              destruct C as (w & Nw & ->). pose proof (rest_clean _ Nw) as Nr. rewrite S1 in Nr. unfold no_nul in Nr. rewrite in_app_iff in Nr.
              split; [|exists r; split; [|reflexivity]; intros Z; apply Nr; right; right; exact Z].
              intros ts A. cbn [app]. apply at_tok with (w := r); [|apply look_eq in B4|exact A].
              ** cbn [tok_ok]. split; [|intros Z; apply Nr; auto]. intros Z. rewrite forallb_forall in S2. specialize (S2 _ Z). discriminate.
              ** cbn [shows]. split; [exact B4|].
                 destruct (scan_cases w) as (b & Hb & [[-> X]|[(t' & r' & E & Kt & Q & He & Hs)|[(r' & E & X)|(r' & E & X)]]]).
                 --- rewrite X in B4. discriminate.
                 --- exfalso. destruct t' as [x|x|x|c|x]; cbn [shows tok_ok] in *; try destruct Q; destruct Hs as (Hs & _); rewrite B4 in Hs; subst;
                       repeat match goal with H : _ /\ _ |- _ => destruct H end; try discriminate. injection Hs as <-. congruence.
                 --- rewrite X in *. cbn [is_int is_id rest] in *. auto.
                 --- rewrite X in B4. discriminate.
  - intros s xs ys s' C H. cbn [elements] in H. destruct (query m e false (next s)) as [r| |] eqn:E; try discriminate. cbn [bind] in H.
    destruct r as [|[q1|] e1 s1]; try discriminate. destruct (IQ _ _ _ _ (clean_next _ C) E) as (-> & x & t & A & Q & L & C1).
    injection Q as ->. destruct (look s1 (lit ",")) eqn:B.
    + destruct (IE _ _ _ _ C1 H) as (zs & t2 & HL & -> & L2 & C2). exists (x :: zs), (t ++ comma :: t2).
      split; [constructor; assumption|]. split; [cbn [map rev]; rewrite <- app_assoc; reflexivity|]. split; [|exact C2].
      eapply leads_app; [exact L|]. eapply leads_cons; [apply lead_look; [exact C1|pl|exact B]|exact L2].
    + injection H as <- <-. exists [x], t. split; [constructor; exact A|]. split; [reflexivity|]. auto.
Qed.
End Write.

(** ** Whole texts *)
Definition bound (e : env) (w : bytes) (q : mq) : env := match lookup e w with None => (w, q) :: e | Some _ => replace e w q end.
Lemma lookup_bound e w q x : lookup (bound e w q) x = if eqb_bytes x w then Some q else lookup e x.
Proof.
  assert (forall a b, eqb_bytes a b = eqb_bytes b a) as Sy.
  { intros a b. destruct (eqb_bytes a b) eqn:E1; symmetry; [apply eqb_bytes_eq in E1; subst; apply eqb_bytes_eq; reflexivity|].
    destruct (eqb_bytes b a) eqn:E2; [|reflexivity]. apply eqb_bytes_eq in E2. subst. rewrite (proj2 (eqb_bytes_eq a a) eq_refl) in E1. discriminate. }
  unfold bound. destruct (lookup e w) as [o|] eqn:K.
  2:{ cbn [lookup]. rewrite (Sy w x). reflexivity. }
  revert K. induction e as [|[n p] e IH]; cbn [lookup replace]; [discriminate|].
  destruct (eqb_bytes n w) eqn:E.
  - apply eqb_bytes_eq in E. subst n. intros _. cbn [lookup]. rewrite (Sy w x). destruct (eqb_bytes x w); reflexivity.
  - intros K. cbn [lookup]. destruct (eqb_bytes n x) eqn:E2; [|exact (IH K)].
    apply eqb_bytes_eq in E2. subst n. rewrite E. reflexivity.
Qed.
Lemma atom_top m e s : atom (S m) e true s =
  if negb (is_int s || look s (lit "one") || look s (lit "all")) && is_id s && look (next s) (lit "=")
  then let* r := query m e false (next (next s)) in
       match r with
       | PErr => Ok PErr
       | POk (Some q) e' s2 => Ok (POk None (match lookup e (tok s) with None => (tok s, q) :: e' | Some _ => replace e' (tok s) q end) s2)
       | POk None _ _ => UB
       end
  else atom (S m) e false s.
Proof.
  cbn [atom]. destruct (is_int s || look s (lit "one") || look s (lit "all")); [reflexivity|]. cbn [negb andb].
  destruct (is_id s); [|reflexivity]. cbn [andb]. destruct (look (next s) (lit "=")); destruct (lookup e (tok s)); reflexivity.
Qed.
Lemma top_written n e s q e' s' : clean s -> query n e true s = Ok (POk q e' s') ->
  (a_query e q s s' /\ e' = e) \/
  (exists w x t, is_name w /\ query_of (fun w => lookup e w <> None) x t /\ q = None /\ e' = bound e w (mtree e x) /\
     leads (Kw w :: Ks (chr "=") :: t) s s' /\ clean s' /\ look (next s) (lit "=") = true).
Proof.
  intros C H. destruct n as [|[|m]]; [discriminate|discriminate|]. cbn [query] in H. rewrite atom_top in H.
  destruct (_ && _ && look (next s) (lit "=")) eqn:B.
  2:{ left. destruct (parsed_written e (S (S m))) as (_ & _ & HQ & _). destruct (HQ s q e' s' C) as [-> A]; [|auto]. exact H. }
  right. apply andb_prop in B. destruct B as [B B3]. apply andb_prop in B. destruct B as [B1 B2].
  destruct (query m e false (next (next s))) as [r| |] eqn:E; try discriminate. cbn [bind] in H.
  destruct r as [|[q1|] e1 s1]; try discriminate.
  destruct (parsed_written e m) as (_ & _ & HQ & _). destruct (HQ _ _ _ _ (clean_next _ (clean_next _ C)) E) as (-> & x & t & A & M & L & C1).
  injection M as ->. exists (tok s), x, t.
  assert (look s (lit "one") = false /\ look s (lit "all") = false) as [N1 N2].
  { destruct (is_int s), (look s (lit "one")), (look s (lit "all")); auto; discriminate. }
  assert (bind (Ok (POk None (bound e (tok s) (mtree e x)) s1)) (fun r => match r with PErr => Ok PErr | POk q e' s1 => operations (S m) e' q s1 end)
    = Ok (POk q e' s')) as H' by exact H. clear H. cbn [bind operations] in H'.
  assert (operator s1 = None) as ON.
  { destruct (operator s1) as [[[k s2]|]|]; [|discriminate|reflexivity]. destruct (atom m _ false (next s2)) as [[|[?|] ? ?]| |]; discriminate. }
  rewrite ON in H'. injection H' as <- <- <-.
  split; [split; intros T; apply look_eq in T; congruence|]. split; [exact A|]. split; [reflexivity|]. split; [reflexivity|]. split; [|auto].
  eapply leads_cons; [apply lead_id; assumption|]. eapply leads_cons; [apply lead_look; [auto|pl|exact B3]|exact L].
Qed.

Lemma c_str_id s : no_nul s -> c_str s = s.
Proof.
  intros N. unfold c_str. rewrite <- (app_nil_r s) at 1. rewrite stops_span; [reflexivity| |reflexivity]. apply forallb_forall. intros c Hc. destruct (Z.eqb_spec c 0); [subst; contradiction|reflexivity].
Qed.
Lemma c_str_clean s : no_nul (c_str s).
Proof.
  unfold c_str. pose proof (span_split (fun c => negb (c =? 0)) s) as S. destruct (span _ s) as [a b]. destruct S as (_ & S & _). cbn [fst].
  intros Z. rewrite forallb_forall in S. specialize (S _ Z). discriminate.
Qed.
Lemma c_str_len s : (length (c_str s) <= length s)%nat.
Proof.
  unfold c_str. pose proof (span_split (fun c => negb (c =? 0)) s) as P. destruct (span _ s) as [a b]. destruct P as (P & _). cbn [fst].
  apply (f_equal (@length _)) in P. rewrite app_length in P. lia.
Qed.
Lemma lexes_clean ts s : lexes ts s -> no_nul s /\ Forall tok_ok ts.
Proof.
  induction 1 as [b B|b t ts s B K E L [IH1 IH2]].
  - split; [|constructor]. intros Z. rewrite forallb_forall in B. specialize (B _ Z). discriminate.
  - split; [|constructor; assumption]. intros Z. rewrite !in_app_iff in Z. destruct Z as [Z|[Z|Z]]; [|clear E|exact (IH1 Z)].
    + rewrite forallb_forall in B. specialize (B _ Z). discriminate.
    + destruct t as [x|x|x|c|x]; cbn [written tok_ok] in *.
      * destruct K as [_ K]. rewrite forallb_forall in K. specialize (K _ Z). discriminate.
      * destruct K as [_ K]. rewrite forallb_forall in K. specialize (K _ Z). discriminate.
      * destruct K as [_ K]. rewrite forallb_forall in K. specialize (K _ Z). discriminate.
      * destruct Z as [Z|[]]. subst c. destruct K as (_ & _ & _ & _ & _ & K). congruence.
      * destruct Z as [Z|Z]; [discriminate|]. rewrite in_app_iff in Z. destruct Z as [Z|[Z|[]]]; [apply K, Z|discriminate].
Qed.
Lemma at_end s : clean s -> tok s = [] -> at_ [] s.
Proof.
  intros (w & N & ->) T. destruct (scan_cases w) as (b & Hb & [[-> X]|[(t & r & E & Kt & Q & He & Hs)|[(r & E & X)|(r & E & X)]]]).
  - rewrite X. constructor; reflexivity.
  - exfalso. destruct t as [x|x|x|c|x]; cbn [shows tok_ok] in *; try destruct Q; destruct Hs as [Hs _]; rewrite T in Hs; subst;
      repeat match goal with H : _ /\ _ |- _ => destruct H end; try discriminate; congruence.
  - rewrite X in T. discriminate.
  - rewrite X in T. discriminate.
Qed.
(** What is accepted is written by the grammar; what is not leaves the words as they
    were when it has no equals sign. *)
Lemma accepted m s m' : infix_expression m s = Ok (true, m') ->
  (lexes [] (c_str s) /\ m' = Mt (m_env m) []) \/
  exists l ts, lexes ts (c_str s) /\ line_of (fun w => lookup (m_env m) w <> None) l ts /\
    m' = match l with
         | Ask q => Mt (m_env m) (to_s (mtree (m_env m) q))
         | Let w q => Mt (bound (m_env m) w (mtree (m_env m) q)) []
         end.
Proof.
  intros H. unfold infix_expression in H. assert (clean (scan (c_str s))) as C by (exists (c_str s); split; [apply c_str_clean|reflexivity]).
  destruct (look (scan (c_str s)) []) eqn:B.
  { left. injection H as <-. split; [|reflexivity]. apply lexes_at; [apply c_str_clean|]. apply at_end; [exact C|]. apply look_eq, B. }
  right. destruct (query _ _ true _) as [r| |] eqn:E; try discriminate. cbn [bind] in H.
  destruct r as [|q e s1]; [discriminate|]. destruct (look s1 []) eqn:B1; [|discriminate]. injection H as <-. apply look_eq in B1.
  destruct (top_written _ _ _ _ _ _ C E) as [((x & t & A & -> & L & C1) & ->)|(w & x & t & N & A & -> & -> & L & C1 & _)].
  - exists (Ask x), t. split; [|split; [constructor; exact A|reflexivity]]. apply lexes_at; [apply c_str_clean|].
    rewrite <- (app_nil_r t). apply L. apply at_end; assumption.
  - exists (Let w x), (Kw w :: Ks (chr "=") :: t). split; [|split; [constructor; assumption|reflexivity]]. apply lexes_at; [apply c_str_clean|].
    rewrite <- (app_nil_r (_ :: _ :: t)). apply L. apply at_end; assumption.
Qed.
Lemma total m s : exists b m', infix_expression m s = Ok (b, m').
Proof.
  unfold infix_expression. destruct (look _ []); [eauto|].
  assert (sz (scan (c_str s)) <= length s)%nat as Z.
  { pose proof (sz_scan (c_str s)). enough (length (c_str s) <= length s)%nat by lia. unfold c_str.
    pose proof (span_split (fun c => negb (c =? 0)) s) as P. destruct (span _ s) as [a b]. destruct P as (P & _). cbn [fst].
    apply (f_equal (@length _)) in P. rewrite app_length in P. lia. }
  destruct (parse_total (4 * length s + 8)) as (_ & _ & HQ & _).
  destruct (HQ (m_env m) true (scan (c_str s))) as (r & E & _); [|lia|].
  { apply scanned_scan. }
  rewrite E. cbn [bind]. destruct r as [|q e s1]; [eauto|]. destruct (look s1 []); eauto.
Qed.

Lemma in_scan c w : In c (tok (scan w)) \/ In c (rest (scan w)) -> In c w.
Proof.
  destruct (scan_cases w) as (b & Hb & [[-> X]|[(t & r & E & Kt & Q & He & Hs)|[(r & E & X)|(r & E & X)]]]).
  - rewrite X. cbn. tauto.
  - assert (tok (scan w) = written t /\ rest (scan w) = r) as [-> ->].
    { destruct t; try destruct Q; cbn [shows written] in *; tauto. }
    rewrite E, !in_app_iff. tauto.
  - rewrite X. cbn [tok rest]. rewrite E, in_app_iff. cbn. tauto.
  - rewrite X. cbn [tok rest]. rewrite E, in_app_iff. cbn. tauto.
Qed.
Lemma refused m s m' : ~ In (chr "=") s -> infix_expression m s = Ok (false, m') -> m' = m.
Proof.
  intros N H. unfold infix_expression in H. assert (clean (scan (c_str s))) as C by (exists (c_str s); split; [apply c_str_clean|reflexivity]).
  destruct (look (scan (c_str s)) []); [discriminate|].
  destruct (query _ _ true _) as [r| |] eqn:E; try discriminate. cbn [bind] in H.
  destruct r as [|q e s1]; [injection H as <-; reflexivity|]. destruct (look s1 []); [discriminate|]. injection H as <-.
  destruct (top_written _ _ _ _ _ _ C E) as [(_ & ->)|(w & x & t & _ & _ & _ & _ & _ & _ & B)]; [destruct m; reflexivity|].
  exfalso. apply N. apply look_eq in B.
  assert (In (chr "=") (c_str s)) as J.
  { apply in_scan. right. apply in_scan. left. unfold next in B. rewrite B. left. reflexivity. }
  unfold c_str in J. pose proof (span_split (fun c => negb (c =? 0)) s) as P. destruct (span _ s) as [a b]. destruct P as (P & _).
  rewrite P, in_app_iff. auto.
Qed.

(** ** What queries stand for *)
Definition fits (q : mq) (e : sexpr) : Prop := to_s q = to_string e /\ printable e.
Definition knows (e : env) (defs : bytes -> option sexpr) : Prop :=
  forall w, match lookup e w, defs w with Some q, Some x => fits q x | None, None => True | _, _ => False end.
Lemma plain_list xs : (fix all l := match l with [] => True | x :: r => plain x /\ all r end) xs <-> Forall plain xs.
Proof. induction xs as [|x r IH]; [split; auto|]. rewrite IH. split; [intros [A B]; auto|intros H; inversion H; auto]. Qed.
Lemma fits_flat ms es : Forall2 fits ms es ->
  flat_map (fun x => lit " " ++ to_s x) ms = flat_map (fun x => 32 :: to_string x) es /\ Forall printable es.
Proof.
  induction 1 as [|x y ms es [E P] F [I1 I2]]; [split; [reflexivity|constructor]|]. cbn [flat_map]. rewrite E, I1. split; [reflexivity|constructor; assumption].
Qed.
Lemma Forall2_rev_map {A B C} (R : B -> C -> Prop) (f : A -> B) (g : A -> C) l :
  Forall (fun x => R (f x) (g x)) l -> Forall2 R (rev (map f l)) (rev (map g l)).
Proof.
  induction 1 as [|x l H F IH]; cbn [map rev]; [constructor|]. apply Forall2_app; [exact IH|]. constructor; [exact H|constructor].
Qed.
Lemma grammar_fits e defs : knows e defs -> let D := fun w => lookup e w <> None in
  (forall x t, atom_of D x t -> Forall tok_ok t -> plain x -> fits (mtree e x) (tree defs x)) /\
  (forall x t, query_of D x t -> Forall tok_ok t -> plain x -> fits (mtree e x) (tree defs x)) /\
  (forall xs t, list_of D xs t -> Forall tok_ok t -> Forall plain xs -> xs <> [] /\ Forall (fun x => fits (mtree e x) (tree defs x)) xs).
Proof.
  intros K D.
  assert (forall n xs t, (Forall tok_ok t -> Forall plain xs -> xs <> [] /\ Forall (fun x => fits (mtree e x) (tree defs x)) xs) ->
    Forall tok_ok (t ++ [rpar]) -> plain (IOf n xs) -> fits (mtree e (IOf n xs)) (tree defs (IOf n xs))) as OF.
  { intros n xs t IH T P. cbn [plain] in P. rewrite plain_list in P. destruct P as (P1 & P2 & P3). apply Forall_app in T. destruct T as [T _].
    destruct (IH T P3) as [Ne F]. apply Forall2_rev_map in F. destruct (fits_flat _ _ F) as [F1 F2].
    unfold fits. cbn [mtree to_s tree]. rewrite rev_length, map_length.
    assert (1 <= Z.of_nat (length xs)) as Len by (destruct xs; [congruence|cbn [length]; lia]).
    destruct (Z.eqb_spec n 0) as [->|N0].
    { split; [reflexivity|]. apply pr_fixed. unfold maxf. lia. }
    destruct (Z.eqb_spec n 1) as [->|N1].
    { split; [cbn [to_string operator_reverse]; rewrite F1; reflexivity|].
      apply pr_node; [discriminate|discriminate|cbn [operand_count]; rewrite rev_length, map_length; lia|exact F2]. }
    assert (n = Z.of_nat (length xs)) as -> by lia. rewrite Z.eqb_refl. split; [cbn [to_string operator_reverse]; rewrite F1; reflexivity|].
    apply pr_node; [discriminate|discriminate|cbn [operand_count]; rewrite rev_length, map_length; lia|exact F2]. }
  assert (forall ds, 1 <= number ds -> fits (mtree e (IWidth (number ds))) (tree defs (IWidth (number ds)))) as WD.
  { intros ds H. split; [reflexivity|]. apply pr_fixed. unfold number in *. cbv zeta in *. unfold maxf. destruct (_ <=? _) eqn:B; lia. }
  apply (grammar_ind D (fun x t _ => Forall tok_ok t -> plain x -> fits (mtree e x) (tree defs x))
    (fun x t _ => Forall tok_ok t -> plain x -> fits (mtree e x) (tree defs x))
    (fun xs t _ => Forall tok_ok t -> Forall plain xs -> xs <> [] /\ Forall (fun x => fits (mtree e x) (tree defs x)) xs)).
  - intros b T P. split; [reflexivity|]. apply pr_term. right. exists 34, b. inversion T as [|? ? Hb _]; subst. cbn [tok_ok plain] in *.
    split; [reflexivity|]. split; [|reflexivity]. split; [apply Hb|]. split; [|exact P].
    intros u v E. exfalso. apply (proj1 Hb). rewrite E, in_app_iff. right. left. reflexivity.
  - intros ds H _ _. apply WD, H.
  - intros ds H _ _. apply WD, H.
  - intros ds o xs ts O _ IH N T P. inversion T as [|? ? _ T1]; subst. inversion T1 as [|? ? _ T2]; subst. inversion T2 as [|? ? _ T3]; subst.
    eapply OF; eassumption.
  - intros o xs ts O _ IH T P. inversion T as [|? ? _ T1]; subst. inversion T1 as [|? ? _ T2]; subst. inversion T2 as [|? ? _ T3]; subst.
    eapply OF; eassumption.
  - intros o xs ts O _ IH T P. inversion T as [|? ? _ T1]; subst. inversion T1 as [|? ? _ T2]; subst. inversion T2 as [|? ? _ T3]; subst.
    eapply OF; eassumption.
  - intros w N Dw _ _. cbn [mtree tree]. specialize (K w). unfold D in Dw. destruct (lookup e w); [|congruence]. destruct (defs w); [exact K|contradiction].
  - intros q ts _ IH T P. inversion T as [|? ? _ T1]; subst. apply Forall_app in T1. apply IH; [apply T1|exact P].
  - intros q ts _ IH T P. auto.
  - intros k l r t1 t2 t3 _ IH1 Sp _ IH2 T P. apply Forall_app in T. destruct T as [T1 T]. apply Forall_app in T. destruct T as [_ T3].
    cbn [plain] in P. destruct P as [P1 P2]. destruct (IH1 T1 P1) as [E1 R1]. destruct (IH2 T3 P2) as [E2 R2].
    split.
    + cbn [mtree to_s tree]. rewrite E1, E2.
      destruct k; cbn [spellings In] in Sp; try contradiction; cbn [to_string mt_name operator_reverse flat_map app lit]; rewrite ?app_nil_r, <- ?app_assoc;
        cbn [app]; rewrite <- ?app_assoc; reflexivity.
    + cbn [tree]. destruct k; cbn [spellings In] in Sp; try contradiction; (apply pr_node; [discriminate|discriminate|cbn; lia|auto]).
  - intros q ts _ IH T P. inversion P; subst. split; [discriminate|]. constructor; [auto|constructor].
  - intros q xs t1 t2 _ IH1 _ IH2 T P. inversion P; subst. apply Forall_app in T. destruct T as [T1 T2]. inversion T2; subst.
    split; [discriminate|]. constructor; [auto|apply IH2; assumption].
Qed.

(** ** Lines and sessions *)
Lemma line_accepted m l ts s : lexes ts (c_str s) -> line_of (fun w => lookup (m_env m) w <> None) l ts ->
  infix_expression m s = Ok (true, match l with
    | Ask q => Mt (m_env m) (to_s (mtree (m_env m) q))
    | Let w q => Mt (bound (m_env m) w (mtree (m_env m) q)) []
    end).
Proof.
  intros L G. unfold infix_expression. pose proof (c_str_len s) as Zl. revert L Zl. generalize (length s). generalize (c_str s). clear s.
  intros s n L Zl. destruct (lexes_clean _ _ L) as [N T].
  pose proof (at_scan _ _ L) as A. destruct (grammar_reads (m_env m)) as (_ & RQ & _).
  pose proof (sz_scan s) as Z0. assert (sz (scan s) <= n)%nat as Z by lia.
  inversion G as [q ts' G1|w q ts' Nm G1]; subst; clear G.
  - rewrite <- (app_nil_r ts) in A. destruct (RQ q ts G1 true [] (scan s) (4 * n + 8)%nat A ltac:(discriminate) ltac:(lia)) as (n' & s' & E & A' & Ls & Ln).
    assert (look (scan s) [] = false) as B.
    { destruct (look (scan s) []) eqn:B; [|reflexivity]. apply look_eq in B. inversion A' as [s0 T1 _ _ R1|]; subst.
      exfalso. rewrite app_nil_r in A. pose proof (sz_scan (rest s')). inversion A as [s1 U1 U2 U3 U4|? ? ? w0 U1 U2 U3]; subst.
      - unfold sz in Ls. rewrite U1, U4 in Ls. cbn in Ls. lia.
      - destruct t as [x|x|x|c|x]; cbn [shows tok_ok] in *; destruct U2 as [U2 _]; rewrite B in U2; subst;
          repeat match goal with H : _ /\ _ |- _ => destruct H end; try discriminate; congruence. }
    rewrite B, E, ops_end; [|apply no_operator; inversion A'; cbn; auto|lia]. cbn [bind].
    assert (look s' [] = true) as -> by (inversion A' as [s0 T1 _ _ R1|]; subst; apply look_eq; exact T1).
    reflexivity.
  - pose proof A as A0. apply at_cons in A; [|exact I]. destruct A as (Kw' & T1 & A & L1 & I1 & J1 & _).
    apply at_cons in A; [|exact I]. destruct A as (_ & T2 & A & L2 & _). cbn [written] in T1, T2.
    rewrite <- (app_nil_r ts') in A.
    assert (forall n, (4 * sz (next (next (scan s))) + 3 <= n)%nat -> exists s', query n (m_env m) false (next (next (scan s))) =
      Ok (POk (Some (mtree (m_env m) q)) (m_env m) s') /\ at_ [] s') as R.
    { intros n0 Ln. destruct (RQ q ts' G1 false [] _ n0 A ltac:(discriminate) Ln) as (n' & s' & E & A' & Ls' & Ln').
      exists s'. split; [|exact A']. rewrite E, ops_end; [reflexivity|apply no_operator; inversion A'; cbn; auto|lia]. }
    assert (look (scan s) [] = false) as ->.
    { unfold look. rewrite T1. cbn [tok_ok] in Kw'. destruct w; [destruct Kw' as [Kw' _]; discriminate|reflexivity]. }
    destruct (4 * n + 8)%nat as [|[|m0]] eqn:En; [lia|lia|]. cbn [query]. rewrite atom_top, I1, J1.
    assert (forall t, eqb_bytes w t = look (scan s) t) as Lk by (intros t; unfold look; rewrite T1; reflexivity).
    rewrite <- !Lk. destruct Nm as [N1 N2].
    assert (eqb_bytes w (lit "one") = false) as -> by (destruct (eqb_bytes w (lit "one")) eqn:B; [apply eqb_bytes_eq in B; congruence|reflexivity]).
    assert (eqb_bytes w (lit "all") = false) as -> by (destruct (eqb_bytes w (lit "all")) eqn:B; [apply eqb_bytes_eq in B; congruence|reflexivity]).
    assert (look (next (scan s)) (lit "=") = true) as -> by (apply look_eq; exact T2).
    cbn [orb negb andb]. destruct (R m0 ltac:(lia)) as (s' & -> & A'). cbn [bind]. rewrite T1.
    rewrite ops_end; [|apply no_operator; inversion A'; cbn; auto|lia]. cbn [bind].
    assert (look s' [] = true) as -> by (inversion A' as [s0 U1 _ _ R1|]; subst; apply look_eq; exact U1).
    reflexivity.
Qed.
Lemma line_read m defs l s : knows (m_env m) defs -> is_line defs l s -> line_plain l ->
  exists m', infix_expression m s = Ok (true, m') /\ knows (m_env m') (define defs l) /\
    match l with Ask q => m_text m' = to_string (tree defs q) /\ printable (tree defs q) | Let _ _ => m_text m' = [] end.
Proof.
  intros K (ts & L & G) P. destruct (lexes_clean _ _ L) as [N T].
  assert (forall x t, query_of (fun w => defs w <> None) x t -> query_of (fun w => lookup (m_env m) w <> None) x t) as Q.
  { enough ((forall x t, atom_of (fun w => defs w <> None) x t -> atom_of (fun w => lookup (m_env m) w <> None) x t) /\
      (forall x t, query_of (fun w => defs w <> None) x t -> query_of (fun w => lookup (m_env m) w <> None) x t) /\
      (forall xs t, list_of (fun w => defs w <> None) xs t -> list_of (fun w => lookup (m_env m) w <> None) xs t)) as (_ & G1 & _) by exact G1.
    apply (grammar_ind (fun w => defs w <> None) (fun x t _ => atom_of (fun w => lookup (m_env m) w <> None) x t)
      (fun x t _ => query_of (fun w => lookup (m_env m) w <> None) x t) (fun xs t _ => list_of (fun w => lookup (m_env m) w <> None) xs t));
      try (intros; econstructor; eassumption).
    - intros w Nw Dw. constructor; [exact Nw|]. specialize (K w). destruct (lookup (m_env m) w); [discriminate|]. destruct (defs w); [contradiction|congruence]. }
  destruct (grammar_fits (m_env m) defs K) as (_ & FQ & _).
  inversion G as [q ts' G1|w q ts' Nm G1]; subst; clear G; apply Q in G1; cbn [line_plain] in P.
  - rewrite (line_accepted m (Ask q) ts s ltac:(rewrite (c_str_id s N); exact L) ltac:(constructor; exact G1)). eexists. split; [reflexivity|].
    cbn [m_env m_text define]. destruct (FQ q ts G1 T P) as [F1 F2]. auto.
  - rewrite (line_accepted m (Let w q) _ s ltac:(rewrite (c_str_id s N); exact L) ltac:(constructor; assumption)).
    eexists. split; [reflexivity|]. cbn [m_env m_text]. split; [|reflexivity].
    intros x. rewrite lookup_bound. cbn [define]. destruct (eqb_bytes x w); [|exact (K x)].
    inversion T as [|? ? _ T']; subst. inversion T' as [|? ? _ T'']; subst. exact (FQ q ts' G1 T'' P).
Qed.
Lemma blank_read m s : lexes [] s -> infix_expression m s = Ok (true, Mt (m_env m) []).
Proof.
  intros L. destruct (lexes_clean _ _ L) as [N _]. pose proof (at_scan _ _ L) as A. unfold infix_expression. rewrite (c_str_id s N).
  assert (look (scan s) [] = true) as ->; [|reflexivity]. inversion A as [s0 T1 _ _ R1|]; subst. apply look_eq. exact T1.
Qed.
Theorem accepted_iff m s : (exists m', infix_expression m s = Ok (true, m')) <->
  lexes [] (c_str s) \/ exists l ts, lexes ts (c_str s) /\ line_of (fun w => lookup (m_env m) w <> None) l ts.
Proof.
  split.
  - intros (m' & H). destruct (accepted m s m' H) as [[L _]|(l & ts & L & G & _)]; [auto|]. right. eauto.
  - intros [L|(l & ts & L & G)]; [|eexists; eapply line_accepted; eassumption].
    eexists. unfold infix_expression. pose proof (at_scan _ _ L) as A.
    assert (look (scan (c_str s)) [] = true) as ->; [|reflexivity]. inversion A as [s0 T1 _ _ R1|]; subst. apply look_eq. exact T1.
Qed.
Lemma wrong_read m defs s : knows (m_env m) defs -> ~ In 0 s -> ~ In (chr "=") s -> ~ lexes [] s -> (forall l, ~ is_line defs l s) ->
  infix_expression m s = Ok (false, m).
Proof.
  intros K N Eq Nb Nl. destruct (total m s) as ([|] & m' & E).
  - exfalso. destruct (accepted _ _ _ E) as [[L _]|(l & ts & L & G & _)]; rewrite (c_str_id s N) in L; [exact (Nb L)|].
    apply (Nl l). exists ts. split; [exact L|].
    assert (forall x t, query_of (fun w => lookup (m_env m) w <> None) x t -> query_of (fun w => defs w <> None) x t) as Q.
    { enough ((forall x t, atom_of (fun w => lookup (m_env m) w <> None) x t -> atom_of (fun w => defs w <> None) x t) /\
        (forall x t, query_of (fun w => lookup (m_env m) w <> None) x t -> query_of (fun w => defs w <> None) x t) /\
        (forall xs t, list_of (fun w => lookup (m_env m) w <> None) xs t -> list_of (fun w => defs w <> None) xs t)) as (_ & G1 & _) by exact G1.
      apply (grammar_ind (fun w => lookup (m_env m) w <> None) (fun x t _ => atom_of (fun w => defs w <> None) x t)
        (fun x t _ => query_of (fun w => defs w <> None) x t) (fun xs t _ => list_of (fun w => defs w <> None) xs t));
        try (intros; econstructor; eassumption).
      - intros w Nw Dw. constructor; [exact Nw|]. specialize (K w). destruct (defs w); [discriminate|]. destruct (lookup (m_env m) w); [contradiction|congruence]. }
    inversion G; subst; constructor; auto.
  - rewrite (refused _ _ _ Eq E) in E. exact E.
Qed.
Theorem session_run : forall es texts defs m last, knows (m_env m) defs -> session defs es texts -> spells (m_text m) last ->
  exists outs, mt_run m texts = Ok outs /\
    Forall2 (fun out r => fst out = fst r /\ spells (snd out) (snd r)) outs (reports defs last es).
Proof.
  induction es as [|x es IH]; intros [|s ss] defs m last K H Sp; cbn [session] in H; try contradiction.
  { exists []. split; [reflexivity|constructor]. }
  destruct x as [l| |].
  - destruct H as (H1 & H2 & H3). destruct (line_read m defs l s K H1 H2) as (m' & E & K' & T').
    destruct l as [q|w q].
    + destruct T' as [T' P']. assert (spells (m_text m') (Some (tree defs q))) as Sp' by (cbn [spells]; rewrite T'; apply print_parse, P').
      destruct (IH ss _ m' _ K' H3 Sp') as (outs & E2 & F). cbn [mt_run]. rewrite E. cbn [bind]. rewrite E2. cbn [bind].
      eexists. split; [reflexivity|]. cbn [reports]. constructor; [auto|exact F].
    + destruct (IH ss _ m' None K' H3 T') as (outs & E2 & F). cbn [mt_run]. rewrite E. cbn [bind]. rewrite E2. cbn [bind].
      eexists. split; [reflexivity|]. cbn [reports]. constructor; [auto|exact F].
  - destruct H as [H1 H2]. destruct (IH ss defs (Mt (m_env m) []) None K H2 eq_refl) as (outs & E2 & F).
    cbn [mt_run]. rewrite (blank_read m s H1). cbn [bind]. rewrite E2. cbn [bind]. eexists. split; [reflexivity|]. cbn [reports].
    constructor; [split; reflexivity|exact F].
  - destruct H as (H1 & H2 & H3 & H4 & H5). destruct (IH ss defs m last K H5 Sp) as (outs & E2 & F).
    cbn [mt_run]. rewrite (wrong_read m defs s K H1 H2 H3 H4). cbn [bind]. rewrite E2. cbn [bind]. eexists. split; [reflexivity|]. cbn [reports].
    constructor; [auto|exact F].
Qed.

(** ** Answers *)
Section Valid.
Context (E : bytes -> iv -> Prop).
Definition defs_valid (defs : bytes -> option sexpr) : Prop := forall w e, defs w = Some e -> valid E e.
Lemma grammar_valid defs : defs_valid defs -> let D := fun w => defs w <> None in
  (forall x t, atom_of D x t -> valid E (tree defs x)) /\ (forall x t, query_of D x t -> valid E (tree defs x)) /\
  (forall xs t, list_of D xs t -> xs <> [] /\ Forall (fun x => valid E (tree defs x)) xs).
Proof.
  intros K D.
  assert (forall n xs, xs <> [] /\ Forall (fun x => valid E (tree defs x)) xs -> valid E (tree defs (IOf n xs))) as OF.
  { intros n xs [Ne F]. cbn [tree]. destruct (n =? 0); [apply valid_fixed; unfold maxf; lia|]. apply valid_comb.
    - destruct (n =? 1); auto.
    - intros Z. apply (f_equal (@length _)) in Z. rewrite rev_length, map_length in Z. destruct xs; [congruence|discriminate].
    - apply Forall_rev, Forall_map. exact F. }
  assert (forall ds, 1 <= number ds -> valid E (tree defs (IWidth (number ds)))) as WD.
  { intros ds H. apply valid_fixed. split; [exact H|]. unfold number in *. cbv zeta in *. unfold maxf. destruct (_ <=? _) eqn:B; lia. }
  apply (grammar_ind D (fun x t _ => valid E (tree defs x)) (fun x t _ => valid E (tree defs x))
    (fun xs t _ => xs <> [] /\ Forall (fun x => valid E (tree defs x)) xs)); auto.
  - intros b. apply valid_term.
  - intros w _ Dw. cbn [tree]. unfold D in Dw. destruct (defs w) eqn:X; [exact (K w s X)|congruence].
  - intros k l r t1 t2 t3 _ V1 Sp _ V2. cbn [tree].
    destruct k; cbn [spellings In] in Sp; try contradiction;
      try (apply valid_comb; [solve [auto]|discriminate|auto]); (apply valid_cont; [auto|cbn; lia|auto]).
  - intros q ts _ V. split; [discriminate|auto].
  - intros q xs t1 t2 _ V _ [_ F]. split; [discriminate|auto].
Qed.
Lemma session_valid : forall es texts defs last, defs_valid defs -> (forall e, last = Some e -> valid E e) -> session defs es texts ->
  Forall (fun r => forall e, snd r = Some e -> valid E e) (reports defs last es).
Proof.
  induction es as [|x es IH]; intros [|s ss] defs last K L H; cbn [session] in H; try contradiction; [constructor|].
  destruct (grammar_valid defs K) as (_ & V & _).
  destruct x as [[q|w q]| |]; cbn [reports].
  - destruct H as ((ts & _ & G) & _ & H). inversion G as [? ? G1|]; subst. specialize (V _ _ G1).
    constructor; [cbn [snd]; intros e X; injection X as <-; exact V|]. apply (IH ss); [exact K|intros e X; injection X as <-; exact V|exact H].
  - destruct H as ((ts & _ & G) & _ & H). inversion G as [|? ? ? ? G1]; subst. specialize (V _ _ G1).
    constructor; [discriminate|]. apply (IH ss); [|discriminate|exact H].
    intros x e. cbn [define]. destruct (eqb_bytes x w); [intros X; injection X as <-; exact V|apply K].
  - destruct H as [_ H]. constructor; [discriminate|]. apply (IH ss); [exact K|discriminate|exact H].
  - destruct H as (_ & _ & _ & _ & H). constructor; [exact L|]. apply (IH ss); assumption.
Qed.
End Valid.

Theorem session_answers (E : bytes -> iv -> Prop) (split : bytes -> list bytes) : tokens_indexed E split ->
  forall idx, index_for idx E -> forall count enabled es texts, session (fun _ => None) es texts ->
  exists outs, mt_run mt_new texts = Ok outs /\ length outs = length texts /\
    forall i b text r e, nth_error outs i = Some (b, text) -> nth_error (reports (fun _ => None) None es) i = Some (r, Some e) ->
      (forall e', enabled = true -> expand_phrases split e = Ok e' -> mats_fit E (optimize_ count e')) ->
      b = r /\ exists o, gcl_hopper idx count enabled split text = Ok (Some o) /\
        answers (projT1 o) (projT2 o) (meaning (phrased E split) e).
Proof.
  intros TI idx IX count en es texts H.
  destruct (session_run es texts (fun _ => None) mt_new None) as (outs & R & F); [intros w; exact I|exact H|reflexivity|].
  pose proof (session_valid (phrased E split) es texts (fun _ => None) None ltac:(intros w e X; discriminate) ltac:(discriminate) H) as V.
  exists outs. split; [exact R|]. split.
  { revert R. clear. generalize mt_new. revert outs. induction texts as [|s ss IH]; intros outs m R; cbn [mt_run] in R.
    - injection R as <-. reflexivity.
    - destruct (infix_expression m s) as [[b m']| |]; try discriminate. cbn [bind] in R. destruct (mt_run m' ss) as [o| |] eqn:X; try discriminate.
      cbn [bind] in R. injection R as <-. cbn [length]. rewrite (IH _ _ X). reflexivity. }
  intros i b text r e N1 N2 MF.
  assert (b = r /\ spells text (Some e)) as [-> Sp].
  { clear - F N1 N2. revert i N1 N2. induction F as [|[b0 t0] [r0 e0] os rs [A B] F IH]; intros [|i] N1 N2; try discriminate.
    - injection N1 as -> ->. injection N2 as -> ->. auto.
    - apply (IH i); assumption. }
  split; [reflexivity|]. rewrite Forall_forall in V. apply nth_error_In in N2. specialize (V _ N2 e eq_refl).
  apply query_ok; assumption.
Qed.
Theorem session_new es texts : session (fun _ => None) es texts ->
  exists outs, mt_run mt_new texts = Ok outs /\
    Forall2 (fun out r => fst out = fst r /\ spells (snd out) (snd r)) outs (reports (fun _ => None) None es).
Proof. intros H. apply session_run; [intros w; exact I|exact H|reflexivity]. Qed.
