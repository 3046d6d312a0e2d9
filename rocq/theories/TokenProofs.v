(** The three functions of the ASCII tokenizer agree. *)
From Verif Require Import Base Bytes TokenModel TokenSpec.

Section Lex.
Variable xml : bool.
Definition term_of (w : bytes) : bytes :=
  match w with [] => [] | c :: t => if (uppers w =? 0)%nat then tolower c :: t else w end.
(** One lexer for all three. *)
Fixpoint lex (s : bytes) (k : nat) (off : Z) : list word :=
  match s with
  | [] => []
  | c :: r =>
      match k with
      | S k => lex r k (off + 1)
      | O =>
          if alphanumeric c then
            let n := S (run_of alphanumeric r) in
            Word off (Z.of_nat n) (term_of (firstn n s)) :: lex r (n - 1) (off + 1)
          else if xml && (c =? 60) then
            match tokenize_tag s with
            | Some (q, e) => Word off (Z.of_nat e + 1) (firstn q s ++ [62]) :: lex r e (off + 1)
            | None => lex r 0 (off + 1)
            end
          else if xml && (c =? 38) then
            match tokenize_entity s with
            | Some q => lex r q (off + 1)
            | None => lex r 0 (off + 1)
            end
          else lex r 0 (off + 1)
      end
  end.
Lemma skip_tag_eq s : skip_tag s = option_map snd (tokenize_tag s).
Proof.
  unfold skip_tag, tokenize_tag. cbv zeta. destruct (skipn _ s) as [|c u]; [reflexivity|]. destruct (tag_initial c); [|reflexivity].
  destruct (skipn (_ + 1 + run_of tag_character u) s) as [|d v] eqn:E; [reflexivity|]. destruct (d =? 10); [reflexivity|].
  destruct (skipn (_ + run_of in_tag (d :: v)) s) as [|e w]; [reflexivity|]. destruct (e =? 62); reflexivity.
Qed.
Lemma split_from_lex s : forall k off, split_from xml s k = map w_term (lex s k off).
Proof.
  induction s as [|c r IH]; intros k off; [reflexivity|]. cbn [split_from lex].
  destruct k as [|k]; [|apply IH].
  destruct (alphanumeric c).
  - cbn [map w_term firstn term_of tl]. f_equal. apply IH.
  - destruct (xml && (c =? 60)).
    + change split_tag with tokenize_tag. destruct (tokenize_tag (c :: r)) as [[q e]|]; [|apply IH].
      cbn [map w_term]. f_equal. apply IH.
    + destruct (xml && (c =? 38)); [|apply IH]. change split_entity with tokenize_entity.
      destruct (tokenize_entity (c :: r)); apply IH.
Qed.
Lemma skip_from_lex s : forall k off n,
  skip_from xml s k off n = match nth_error (lex s k off) (Z.to_nat n) with
                            | Some w => w_offset w | None => off + Z.of_nat (length s) end.
Proof.
  induction s as [|c r IH]; intros k off n.
  - cbn. destruct (Z.to_nat n); cbn; lia.
  - assert (L : off + Z.of_nat (length (c :: r)) = off + 1 + Z.of_nat (length r)) by (cbn [length]; lia).
    rewrite L. clear L. cbn [skip_from lex]. destruct k as [|k]; [|apply IH].
    destruct (alphanumeric c) eqn:Ec.
    + cbn [run_of]. rewrite Ec. replace (S (run_of alphanumeric r) - 1)%nat with (run_of alphanumeric r) by lia.
      destruct (Z.leb_spec n 0).
      * replace (Z.to_nat n) with 0%nat by lia. reflexivity.
      * replace (Z.to_nat n) with (S (Z.to_nat (n - 1))) by lia. cbn [nth_error]. apply IH.
    + destruct (xml && (c =? 60)).
      * rewrite skip_tag_eq. destruct (tokenize_tag (c :: r)) as [[q e]|]; cbn [option_map snd]; [|apply IH].
        destruct (Z.leb_spec n 0).
        -- replace (Z.to_nat n) with 0%nat by lia. reflexivity.
        -- replace (Z.to_nat n) with (S (Z.to_nat (n - 1))) by lia. cbn [nth_error]. apply IH.
      * destruct (xml && (c =? 38)); [|apply IH]. change skip_entity with tokenize_entity.
        destruct (tokenize_entity (c :: r)); apply IH.
Qed.
Lemma tokenize_from_lex featurize s : forall k off a,
  reported featurize a (lex s k off) (tokenize_from featurize xml s k off a).
Proof.
  induction s as [|c r IH]; intros k off a; [reflexivity|]. cbn [tokenize_from lex].
  destruct k as [|k]; [|apply IH].
  destruct (alphanumeric c).
  - cbn [reported]. eexists. eexists. split; [reflexivity|]. split; [|apply IH].
    unfold reports. cbn [w_term w_offset w_length firstn term_of tl].
    destruct (Nat.ltb_spec 0 (uppers (c :: firstn (run_of alphanumeric r) r))) as [U|U].
    + replace (uppers (c :: firstn (run_of alphanumeric r) r) =? 0)%nat with false by (symmetry; apply Nat.eqb_neq; lia).
      eexists. split; [reflexivity|]. repeat constructor.
    + replace (uppers (c :: firstn (run_of alphanumeric r) r) =? 0)%nat with true by (symmetry; apply Nat.eqb_eq; lia).
      eexists. split; [reflexivity|]. constructor.
  - destruct (xml && (c =? 60)).
    + destruct (tokenize_tag (c :: r)) as [[q e]|]; [|apply IH].
      cbn [reported]. exists [Token (featurize (firstn q (c :: r) ++ [62])) a off (Z.of_nat e + 1)].
      eexists. split; [reflexivity|]. split; [|apply IH]. exists []. split; [reflexivity|constructor].
    + destruct (xml && (c =? 38)); [|apply IH]. destruct (tokenize_entity (c :: r)); apply IH.
Qed.

(** Layout. *)
Lemma run_of_le f s : (run_of f s <= length s)%nat.
Proof. induction s as [|c r IH]; cbn; [lia|]. destruct (f c); lia. Qed.
Lemma skipn_cons_lt {A} n (s : list A) c u : skipn n s = c :: u -> (n < length s)%nat.
Proof. intros E. pose proof (skipn_length n s) as L. rewrite E in L. cbn in L. lia. Qed.
Lemma tag_lt s q e : tokenize_tag s = Some (q, e) -> (e < length s)%nat.
Proof.
  unfold tokenize_tag. cbv zeta. destruct (skipn _ s) as [|c u]; [discriminate|]. destruct (tag_initial c); [|discriminate].
  destruct (skipn (_ + 1 + run_of tag_character u) s) as [|d v] eqn:E; [discriminate|]. destruct (d =? 10); [discriminate|].
  destruct (skipn (_ + run_of in_tag (d :: v)) s) as [|x w] eqn:E2; [discriminate|]. destruct (x =? 62); [|discriminate].
  intros [= <- <-]. exact (skipn_cons_lt _ _ _ _ E2).
Qed.
Lemma entity_lt s q : tokenize_entity s = Some q -> (q < length s)%nat.
Proof.
  unfold tokenize_entity. cbv zeta. destruct (skipn _ s) as [|d v] eqn:E; [discriminate|]. destruct (d =? 59); [|discriminate].
  intros [= <-]. exact (skipn_cons_lt _ _ _ _ E).
Qed.
Lemma lex_layout s : forall k off, (k <= length s)%nat -> laid_out (off + Z.of_nat k) (lex s k off) (off + Z.of_nat (length s)).
Proof.
  induction s as [|c r IH]; intros k off Hk; cbn [length] in Hk; [cbn; lia|].
  cbn [lex length]. replace (off + Z.of_nat (S (length r))) with (off + 1 + Z.of_nat (length r)) by lia.
  assert (W : forall ws o o' e, laid_out o ws e -> o' <= o -> laid_out o' ws e).
  { intros ws o o' e H Ho. destruct ws as [|w ws]; cbn in *; [lia|]. destruct H as (A & B & C). repeat split; auto. lia. }
  destruct k as [|k].
  - assert (Z0 : laid_out (off + Z.of_nat 0) (lex r 0 (off + 1)) (off + 1 + Z.of_nat (length r))).
    { apply (W _ (off + 1 + Z.of_nat 0)); [apply IH; lia|lia]. }
    destruct (alphanumeric c).
    + cbn [laid_out w_offset w_length]. split; [lia|]. split; [lia|].
      replace (off + Z.of_nat (S (run_of alphanumeric r))) with (off + 1 + Z.of_nat (S (run_of alphanumeric r) - 1)) by lia.
      apply IH. pose proof (run_of_le alphanumeric r). lia.
    + destruct (xml && (c =? 60)).
      * destruct (tokenize_tag (c :: r)) as [[q e]|] eqn:E; [|exact Z0].
        apply tag_lt in E. cbn [length] in E.
        cbn [laid_out w_offset w_length]. split; [lia|]. split; [lia|].
        replace (off + (Z.of_nat e + 1)) with (off + 1 + Z.of_nat e) by lia. apply IH. lia.
      * destruct (xml && (c =? 38)); [|exact Z0]. destruct (tokenize_entity (c :: r)) as [q|] eqn:E; [|exact Z0].
        apply entity_lt in E. cbn [length] in E. apply (W _ (off + 1 + Z.of_nat q)); [apply IH; lia|lia].
  - replace (off + Z.of_nat (S k)) with (off + 1 + Z.of_nat k) by lia. apply IH. lia.
Qed.
End Lex.

(** C26 *)
Theorem ascii_agree : forall featurize xml s, exists ws,
  laid_out 0 ws (Z.of_nat (length s)) /\
  split xml s = map w_term ws /\
  reported featurize 0 ws (tokenize featurize xml s) /\
  (forall n, skip xml s n = match nth_error ws (Z.to_nat n) with Some w => w_offset w | None => Z.of_nat (length s) end).
Proof.
  intros featurize xml s. exists (lex xml s 0 0). split; [exact (lex_layout xml s 0 0 ltac:(lia))|].
  split; [apply split_from_lex|]. split; [apply tokenize_from_lex|]. intros n. apply skip_from_lex.
Qed.
