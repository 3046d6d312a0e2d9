(** Evaluation of query trees. *)
From Verif Require Import Base Bytes HopperModel GclSpec HopperProofs GclProofs VectorModel UnaryModel UnaryProofs AnswerProofs QueryModel QuerySpec.

Section SexprInd.
Context (P : sexpr -> Prop) (H : forall k t w xs, Forall P xs -> P (SX k t w xs)).
Fixpoint sexpr_ind' (e : sexpr) : P e :=
  match e with
  | SX k t w xs => H k t w xs ((fix go l : Forall P l :=
                                  match l with
                                  | [] => Forall_nil P
                                  | x :: r => Forall_cons x (sexpr_ind' x) (go r)
                                  end) xs)
  end.
End SexprInd.

Section Eval.
Context (idx : bytes -> hobj) (E : bytes -> iv -> Prop) (HI : index_for idx E).

Definition good (h : option hobj) (S : iv -> Prop) : Prop :=
  exists o, h = Some o /\ answers (projT1 o) (projT2 o) S.

Lemma bin_op_good k l r SL SR : (2 <= min_operands k \/ k = ONE_OF \/ k = ALL_OF \/ k = FOLLOWED_BY) ->
  good l SL -> good r SR -> good (node_hopper idx k [] 0 [l; r]) (sem_op k SL SR).
Proof.
  intros Hk (ol & -> & Hl) (or & -> & Hr).
  destruct k; cbn in Hk; try (exfalso; intuition (discriminate || lia)); cbn [node_hopper sem_op];
    eexists; (split; [reflexivity|]); cbn [projT1 projT2 bin_obj].
  - apply or_answers; assumption.
  - apply and_answers; assumption.
  - apply fby_answers; assumption.
  - apply cin_answers; assumption.
  - apply cing_answers; assumption.
  - apply nin_answers; assumption.
  - apply nct_answers; assumption.
Qed.

Definition nary k := 2 <= min_operands k \/ k = ONE_OF \/ k = ALL_OF \/ k = FOLLOWED_BY.

Lemma nest_left_good k : nary k -> forall ys Ss e S,
  good (bin_hopper idx e) S -> Forall2 (fun y T => good (bin_hopper idx y) T) ys Ss ->
  good (bin_hopper idx (nest_left k [] 0 e ys)) (fold_left (sem_op k) Ss S).
Proof.
  intros Hk ys. induction ys as [|y ys IH]; intros Ss e S He HF; inversion HF; subst; cbn [nest_left fold_left].
  - exact He.
  - apply IH; [|assumption]. cbn [bin_hopper map]. apply bin_op_good; assumption.
Qed.

Lemma map_good {X} (h : X -> option hobj) (mng : X -> iv -> Prop) xs :
  Forall (fun x => good (h x) (mng x)) xs -> Forall2 (fun y T => good y T) (map h xs) (map mng xs).
Proof. induction 1; constructor; auto. Qed.
Lemma map_good2 (f : sexpr -> sexpr) h mng xs :
  Forall (fun x => good (h (f x)) (mng x)) xs -> Forall2 (fun y T => good (h y) T) (map f xs) (map mng xs).
Proof. induction 1; constructor; auto. Qed.

Lemma nary_meaning k xs : nary k -> meaning E (SX k [] 0 xs) =
  match map (meaning E) xs with [] => fun _ => False | T :: r => fold_left (sem_op k) r T end.
Proof. intros Hk. unfold nary in Hk. destruct k; cbn in Hk; try reflexivity; exfalso; intuition (discriminate || lia). Qed.

Lemma valid_nary e k t w xs : e = SX k t w xs -> valid E e -> nary k ->
  t = [] /\ w = 0 /\ Forall (valid E) xs /\
  ((2 <= length xs)%nat \/ (length xs = 1%nat /\ (k = ONE_OF \/ k = ALL_OF \/ k = FOLLOWED_BY))).
Proof.
  intros -> V Hk. unfold nary in Hk. inversion V; subst; cbn in *; try (exfalso; intuition (discriminate || lia)).
  - repeat split; auto. destruct xs as [|x [|y xs]]; [contradiction| |]; cbn; [right|left]; auto; lia.
  - repeat split; auto.
Qed.

Lemma single_good k h S : (k = ONE_OF \/ k = ALL_OF \/ k = FOLLOWED_BY) -> good h S ->
  good (node_hopper idx k [] 0 [h]) S.
Proof. intros [-> | [-> | ->]] (o & -> & Ho); cbn; exists o; auto. Qed.

Lemma bin_hopper_good : forall e, valid E e -> good (bin_hopper idx (to_binary e)) (meaning E e).
Proof.
  intros e. induction e as [k t w xs IH] using sexpr_ind'. intros V.
  assert (D : nary k \/ k = TERM \/ k = FIXED \/ k = LINK \/ k = MATERIALIZE).
  { unfold nary. destruct k; cbn; auto; left; lia. }
  destruct D as [Hk|D].
  - destruct (valid_nary _ k t w xs eq_refl V Hk) as (-> & -> & HF & Hlen).
    rewrite nary_meaning by exact Hk.
    assert (HG : Forall (fun x => good (bin_hopper idx (to_binary x)) (meaning E x)) xs).
    { apply Forall_forall. intros x Hx. rewrite Forall_forall in IH, HF. auto. }
    pose proof (map_good2 to_binary (bin_hopper idx) (meaning E) xs HG) as HM.
    cbn [to_binary]. destruct xs as [|x [|y xs]]; cbn [length] in Hlen; [lia| |].
    + destruct Hlen as [Hlen|[_ Hk1]]; [lia|]. cbn [map] in *. inversion HM; subst.
      cbn [bin_hopper map fold_left]. apply single_good; assumption.
    + cbn [map] in *. inversion HM as [|? ? ? ? Hx HM1]; subst. inversion HM1 as [|? ? ? ? Hy HM2]; subst.
      cbn [fold_left]. apply nest_left_good; auto.
      cbn [bin_hopper map]. apply bin_op_good; assumption.
  - inversion V; subst; try (exfalso; intuition congruence).
    + cbn. exists (idx t). split; [reflexivity|apply HI].
    + cbn. eexists. split; [reflexivity|]. apply fixed_answers. assumption.
    + inversion IH as [|? ? Hx _]; subst. destruct Hx as (o & Eo & Ho); [assumption|]. cbn [to_binary map bin_hopper].
      rewrite Eo. cbn. eexists. split; [reflexivity|]. apply link_answers; auto.
    + inversion IH as [|? ? Hx _]; subst. destruct Hx as (o & Eo & Ho); [assumption|]. cbn [to_binary map bin_hopper].
      rewrite Eo. cbn. eexists. split; [reflexivity|]. apply mat_answers; auto.
Qed.

Lemma to_hopper_good : forall e, valid E e -> good (to_hopper idx e) (meaning E e).
Proof.
  intros e. induction e as [k t w xs IH] using sexpr_ind'. intros V.
  assert (D : nary k \/ k = TERM \/ k = FIXED \/ k = LINK \/ k = MATERIALIZE).
  { unfold nary. destruct k; cbn; auto; left; lia. }
  cbn [to_hopper]. destruct (is_nary k xs) eqn:En; [apply bin_hopper_good; exact V|].
  destruct D as [Hk|D].
  - destruct (valid_nary _ k t w xs eq_refl V Hk) as (-> & -> & HF & Hlen).
    rewrite nary_meaning by exact Hk.
    assert (HG : Forall (fun x => good (to_hopper idx x) (meaning E x)) xs).
    { apply Forall_forall. intros x Hx. rewrite Forall_forall in IH, HF. auto. }
    pose proof (map_good (to_hopper idx) (meaning E) xs HG) as HM.
    assert (Hle : (length xs <= 2)%nat).
    { unfold is_nary in En. destruct Hk as [Hk|Hk]; destruct k; cbn in Hk; try lia; try (exfalso; intuition congruence). }
    destruct xs as [|x [|y [|z xs]]]; cbn [length] in *; try lia.
    + destruct Hlen as [Hlen|[_ Hk1]]; [lia|]. cbn [map] in *. inversion HM; subst.
      cbn [fold_left]. apply single_good; assumption.
    + cbn [map] in *. inversion HM as [|? ? ? ? Hx HM1]; subst. inversion HM1 as [|? ? ? ? Hy HM2]; subst.
      cbn [fold_left]. apply bin_op_good; assumption.
  - inversion V; subst; try (exfalso; intuition congruence).
    + cbn. exists (idx t). split; [reflexivity|apply HI].
    + cbn. eexists. split; [reflexivity|]. apply fixed_answers. assumption.
    + inversion IH as [|? ? Hx _]; subst. destruct Hx as (o & Eo & Ho); [assumption|]. cbn [map].
      rewrite Eo. cbn. eexists. split; [reflexivity|]. apply link_answers; auto.
    + inversion IH as [|? ? Hx _]; subst. destruct Hx as (o & Eo & Ho); [assumption|]. cbn [map].
      rewrite Eo. cbn. eexists. split; [reflexivity|]. apply mat_answers; auto.
Qed.
End Eval.

(** to_binary leaves no n-ary node (so parse.cc:286's recursive call is [bin_hopper]). *)
Inductive binary : sexpr -> Prop :=
| binary_node k t w xs : (length xs <= 2)%nat -> Forall binary xs -> binary (SX k t w xs).
Lemma nest_left_binary k t w ys : forall e, binary e -> Forall binary ys -> binary (nest_left k t w e ys).
Proof.
  induction ys as [|y ys IH]; intros e He H; cbn; [exact He|]. inversion H; subst.
  apply IH; [|assumption]. constructor; [cbn; lia|]. repeat constructor; assumption.
Qed.
Lemma to_binary_binary e : binary (to_binary e).
Proof.
  induction e as [k t w xs IH] using sexpr_ind'. cbn [to_binary].
  assert (F : Forall binary (map to_binary xs)).
  { apply Forall_map. exact IH. }
  destruct (map to_binary xs) as [|x [|y r]].
  - constructor; [cbn; lia|exact F].
  - constructor; [cbn; lia|exact F].
  - inversion F as [|? ? ? F1]; subst. inversion F1; subst.
    apply nest_left_binary; auto. constructor; [cbn; lia|]. repeat constructor; assumption.
Qed.
Lemma binary_to_hopper idx e : binary e -> to_hopper idx e = bin_hopper idx e.
Proof.
  induction e as [k t w xs IH] using sexpr_ind'. intros B. inversion B; subst.
  cbn [to_hopper bin_hopper]. replace (is_nary k xs) with false.
  - f_equal. apply map_ext_in. intros x Hx. rewrite Forall_forall in IH. apply IH; auto.
    match goal with H : Forall binary xs |- _ => rewrite Forall_forall in H; auto end.
  - unfold is_nary. destruct k; auto; destruct (Z.ltb_spec 2 (Z.of_nat (length xs))); auto; lia.
Qed.
