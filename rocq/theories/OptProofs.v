(** The optimizer preserves the meaning of a query. *)
From Verif Require Import Base Bytes HopperModel GclSpec HopperProofs VectorModel UnaryModel UnaryProofs AnswerProofs QueryModel QuerySpec QueryProofs QuerySem.
From Coq Require Import Permutation.

Lemma same_refl S : same S S. Proof. intros x; reflexivity. Qed.
Lemma same_sym S T : same S T -> same T S. Proof. intros H x; symmetry; apply H. Qed.
Lemma same_trans S T U : same S T -> same T U -> same S U.
Proof. intros H1 H2 x. rewrite (H1 x). apply H2. Qed.
Lemma cover_same S T x : same S T -> (cover S x <-> cover T x).
Proof. intros E. split; intros (a & Ha & N); exists a; (split; [apply E; exact Ha|exact N]). Qed.

Lemma sem_op_same k A A' B B' : same A A' -> same B B' -> same (sem_op k A B) (sem_op k A' B').
Proof.
  intros EA EB. destruct k; cbn [sem_op]; try exact (same_refl _).
  - apply innermost_ext. intros x _. pose proof (cover_same A A' x EA). pose proof (cover_same B B' x EB).
    unfold cover in *. tauto.
  - apply innermost_ext. intros x _. pose proof (cover_same A A' x EA). pose proof (cover_same B B' x EB).
    unfold cover in *. tauto.
  - apply innermost_ext. intros x _. split; intros (a & b & Ha & Hb & H); exists a, b;
      (split; [apply EA; exact Ha|split; [apply EB; exact Hb|exact H]]).
  - intros x. unfold sem_cin. rewrite (EA x). split; intros [H (b & Hb & N)]; (split; [exact H|exists b; split; [apply EB; exact Hb|exact N]]).
  - intros x. unfold sem_cing. rewrite (EA x). split; intros [H (b & Hb & N)]; (split; [exact H|exists b; split; [apply EB; exact Hb|exact N]]).
  - intros x. unfold sem_nin. rewrite (EA x). split; intros [H Hn]; (split; [exact H|]); intros (b & Hb & N); apply Hn; exists b; (split; [apply EB; exact Hb|exact N]).
  - intros x. unfold sem_nct. rewrite (EA x). split; intros [H Hn]; (split; [exact H|]); intros (b & Hb & N); apply Hn; exists b; (split; [apply EB; exact Hb|exact N]).
Qed.
Lemma fold_same k Ss : forall Ts A B, same A B -> Forall2 same Ss Ts ->
  same (fold_left (sem_op k) Ss A) (fold_left (sem_op k) Ts B).
Proof.
  induction Ss as [|S Ss IH]; intros Ts A B E F; inversion F; subst; cbn; auto.
  apply IH; auto. apply sem_op_same; auto.
Qed.
Lemma link_same S T : same S T -> same (sem_link S) (sem_link T).
Proof.
  intros E x. unfold sem_link. split; intros (H1 & H2 & H3 & y & Hy & V); repeat split; auto; try lia; exists y; split; auto; apply E; auto.
Qed.
(** Replacing operands by equivalent ones. *)
Lemma meaning_same2 E F k t w xs ys : k <> TERM -> Forall2 (fun x y => same (meaning E x) (meaning F y)) xs ys ->
  same (meaning E (SX k t w xs)) (meaning F (SX k t w ys)).
Proof.
  intros Hk H. assert (H' : Forall2 same (map (meaning E) xs) (map (meaning F) ys)).
  { induction H; constructor; auto. }
  clear H. destruct k; cbn [meaning]; try contradiction; try exact (same_refl _);
    (inversion H' as [|? ? ? ? H1 H2]; subst; [exact (same_refl _)|]);
    try (apply fold_same; assumption);
    (inversion H2; subst; [try apply link_same; assumption|exact (same_refl _)]).
Qed.
Lemma meaning_same E k t w xs ys : Forall2 (fun x y => same (meaning E x) (meaning E y)) xs ys ->
  same (meaning E (SX k t w xs)) (meaning E (SX k t w ys)).
Proof.
  intros H. destruct (op_eq_dec k TERM) as [->|Hk]; [exact (same_refl _)|]. apply meaning_same2; assumption.
Qed.
Lemma valid_sub2 E F k t w xs ys : Forall2 (fun x y => valid F y /\ same (meaning E x) (meaning F y)) xs ys ->
  valid E (SX k t w xs) -> valid F (SX k t w ys).
Proof.
  intros H V. assert (HL : length ys = length xs).
  { clear V. induction H; cbn; auto. }
  assert (HF : Forall (valid F) ys).
  { clear V HL. induction H as [|? ? ? ? []]; constructor; auto. }
  assert (Hfit : forall S T, same S T -> fits_in_memory S -> fits_in_memory T).
  { intros S T Es (l & Hl & Hn). exists l. split; [|exact Hn]. intros x Hx. apply Hl, Es, Hx. }
  inversion V; subst.
  - inversion H; subst. constructor.
  - inversion H; subst. constructor; auto.
  - inversion H as [|? y ? ? [] Hn]; subst. inversion Hn; subst. constructor; eauto.
  - inversion H as [|? y ? ? [] Hn]; subst. inversion Hn; subst. constructor; eauto.
  - apply valid_comb; auto. intros ->. destruct xs; [contradiction|discriminate].
  - apply valid_cont; auto. lia.
Qed.

(** Operand counts and widths only. *)
Inductive shape : sexpr -> Prop :=
| shape_term t : shape (SX TERM t 0 [])
| shape_fixed w : 1 <= w <= maxf -> shape (SX FIXED [] w [])
| shape_one k x : k = LINK \/ k = MATERIALIZE -> shape x -> shape (SX k [] 0 [x])
| shape_comb k xs : k = ONE_OF \/ k = ALL_OF \/ k = FOLLOWED_BY ->
    xs <> [] -> Forall shape xs -> shape (SX k [] 0 xs)
| shape_cont k xs : k = CONTAINED_IN \/ k = CONTAINING \/ k = NOT_CONTAINED_IN \/ k = NOT_CONTAINING ->
    (2 <= length xs)%nat -> Forall shape xs -> shape (SX k [] 0 xs).
Lemma valid_shape E e : valid E e -> shape e.
Proof.
  induction e as [k t w xs IH] using sexpr_ind'. intros V.
  assert (HF : Forall (valid E) xs) by (inversion V; subst; auto).
  assert (HS : Forall shape xs) by (rewrite Forall_forall in *; auto).
  inversion V; subst; try (constructor; auto; fail).
  - apply shape_one; auto. inversion HS; auto.
  - apply shape_one; auto. inversion HS; auto.
Qed.
Lemma shape_nary k t w xs : shape (SX k t w xs) -> nary k -> t = [] /\ w = 0 /\ Forall shape xs.
Proof.
  intros V Hk. unfold nary in Hk. inversion V; subst; cbn in *; auto; exfalso; intuition (subst; cbn in *; discriminate || lia).
Qed.

Section Opt.
Context (idx : bytes -> hobj) (E : bytes -> iv -> Prop) (HI : index_for idx E) (count : bytes -> Z).
Notation M := (meaning E).

(** Intervals containing one interval of every set. *)
Definition covers (Ss : list (iv -> Prop)) (x : iv) : Prop := Forall (fun S => cover S x) Ss.
Definition allof (Ss : list (iv -> Prop)) : iv -> Prop := innermost (covers Ss).

Lemma covers_app S1 S2 x : covers (S1 ++ S2) x <-> covers S1 x /\ covers S2 x.
Proof. unfold covers. apply Forall_app. Qed.

(** [atoms_of S Ss]: [S] is the all-of combination of the sets [Ss]. *)
Definition atoms_of (S : iv -> Prop) (Ss : list (iv -> Prop)) : Prop :=
  Ss <> [] /\ Forall view Ss /\ view S /\
  (forall x, finite x -> cover S x <-> covers Ss x) /\
  ((2 <= length Ss)%nat -> same S (allof Ss)).

Lemma atoms_of_and A B SA SB : atoms_of A SA -> atoms_of B SB -> atoms_of (sem_and A B) (SA ++ SB).
Proof.
  intros (NA & FA & VA & CA & _) (NB & FB & VB & CB & _). split; [destruct SA; [contradiction|discriminate]|].
  split; [apply Forall_app; auto|].
  split; [apply (view_op ALL_OF); unfold nary; cbn; auto|].
  assert (Hc : forall x, finite x -> cover A x /\ cover B x <-> covers (SA ++ SB) x).
  { intros x F. rewrite covers_app, <- CA, <- CB by exact F. reflexivity. }
  split; [intros x F; rewrite cover_and by auto; apply Hc; exact F|].
  intros _. apply innermost_ext. exact Hc.
Qed.
Lemma atoms_of_one A : view A -> atoms_of A [A].
Proof.
  intros V. split; [discriminate|]. split; [auto|]. split; [exact V|].
  split; [|cbn; lia]. intros x _. unfold covers. split; [auto|]. intros H. inversion H; auto.
Qed.

Lemma atomic_view a : is_atomic a = true -> shape a -> view (M a).
Proof.
  intros Ha V. inversion V; subst; cbn in Ha; try discriminate.
  - eexists _, _. apply HI.
  - eexists _, _. apply fixed_answers. assumption.
  - intuition (subst; discriminate).
  - intuition (subst; discriminate).
  - intuition (subst; discriminate).
Qed.

Lemma collect_atoms_ok : forall e, shape e -> forall atoms, collect_atoms e = Some atoms ->
  atoms_of (M e) (map M atoms) /\ Forall shape atoms /\ Forall (fun a => is_atomic a = true) atoms.
Proof.
  intros e. induction e as [k t w xs IH] using sexpr_ind'. intros V atoms H.
  destruct (op_eq_dec k ALL_OF) as [->|Hk].
  - destruct (shape_nary ALL_OF t w xs V ltac:(unfold nary; cbn; auto)) as (-> & -> & HF).
    destruct xs as [|x xs]; [discriminate|].
    set (go := fix go (l : list sexpr) : option (list sexpr) :=
                 match l with [] => Some [] | x :: r => match collect_atoms x, go r with Some a, Some b => Some (a ++ b) | _, _ => None end end).
    assert (H' : go (x :: xs) = Some atoms) by exact H. clear H.
    cbn [meaning map]. inversion IH as [|? ? IHx IHxs]; subst. inversion HF as [|? ? Vx Vxs]; subst.
    cbn in H'. destruct (collect_atoms x) as [a|] eqn:Ea; [|discriminate].
    destruct (go xs) as [b|] eqn:Eb; [|discriminate]. inversion H'; subst; clear H'.
    destruct (IHx Vx a eq_refl) as (A1 & A2 & A3). rewrite map_app.
    clear IHx IH Ea HF V Vx.
    revert A1 A2 A3. generalize (M x) as S0. revert a b Eb.
    induction xs as [|y ys IHy]; intros a b Eb S0 A1 A2 A3.
    + cbn in Eb. inversion Eb; subst. cbn. rewrite !app_nil_r. auto.
    + cbn in Eb. destruct (collect_atoms y) as [c|] eqn:Ec; [|discriminate].
      destruct (go ys) as [d|] eqn:Ed; [|discriminate]. inversion Eb; subst; clear Eb.
      inversion IHxs as [|? ? IH1 IH2]; subst. inversion Vxs as [|? ? V1 V2]; subst.
      destruct (IH1 V1 c Ec) as (B1 & B2 & B3).
      cbn [map fold_left].
      destruct (IHy IH2 V2 (a ++ c) d eq_refl (sem_and S0 (M y))) as (C1 & C2 & C3).
      * rewrite map_app. apply atoms_of_and; assumption.
      * apply Forall_app; auto.
      * apply Forall_app; auto.
      * rewrite !map_app in *. rewrite <- !app_assoc in *. auto.
  - assert (Ha : collect_atoms (SX k t w xs) = if is_atomic (SX k t w xs) then Some [SX k t w xs] else None).
    { destruct k; try reflexivity. contradiction. }
    rewrite Ha in H. destruct (is_atomic (SX k t w xs)) eqn:Eat; [|discriminate]. inversion H; subst. cbn [map].
    split; [apply atoms_of_one; apply atomic_view; auto|]. auto.
Qed.

Lemma insert_atom_perm x l : Permutation (x :: l) (insert_atom count x l).
Proof.
  induction l as [|y l IH]; cbn; [auto|]. destruct (cost count y <=? cost count x).
  - etransitivity; [apply perm_swap|]. constructor. exact IH.
  - reflexivity.
Qed.
Lemma sort_atoms_perm l : Permutation l (sort_atoms count l).
Proof.
  unfold sort_atoms. enough (H : forall acc, Permutation (acc ++ l) (fold_left (fun s x => insert_atom count x s) l acc)).
  { apply (H []). }
  induction l as [|x l IH]; intros acc; cbn; [rewrite app_nil_r; reflexivity|].
  rewrite <- IH. rewrite <- insert_atom_perm. cbn. rewrite Permutation_middle. reflexivity.
Qed.

(** One step of the rewritten evaluation. *)
Lemma cin_step S A C : view S -> view A ->
  same (sem_cin (sem_and (sem_cin S C) A) C) (sem_cin (sem_and S A) C).
Proof.
  intros VS VA x. unfold sem_cin at 1 3. split; intros [(F & V & [Hs Ha] & Hm) (c & Hc & N)].
  - split; [|exists c; auto]. split; [exact F|]. split; [exact V|]. split.
    + split; [|exact Ha]. destruct Hs as (s & [Hs _] & Ns). exists s; auto.
    + intros y Fy [Hys Hya] Ny. apply (Hm y Fy); auto. split; [|exact Hya].
      destruct Hys as (s & Hs' & Ns). exists s. split; [|exact Ns]. split; [exact Hs'|].
      exists c. split; [exact Hc|]. eapply nests_trans; [exact N|]. eapply nests_trans; eauto.
  - split; [|exists c; auto]. split; [exact F|]. split; [exact V|]. split.
    + split; [|exact Ha]. destruct Hs as (s & Hs & Ns). exists s. split; [|exact Ns]. split; [exact Hs|].
      exists c. split; [exact Hc|]. eapply nests_trans; eauto.
    + intros y Fy [Hys Hya] Ny. apply (Hm y Fy); auto. split; [|exact Hya].
      destruct Hys as (s & [Hs' _] & Ns). exists s. auto.
Qed.

Lemma mat_in_container_meaning l r c :
  M (mat_in_container l r c) = sem_cin (sem_and (M l) (M r)) (M c).
Proof. reflexivity. Qed.

Lemma chain_meaning c r : forall cur S Ss, atoms_of S Ss ->
  same (M cur) (sem_cin S (M c)) ->
  Forall (fun a => view (M a)) r ->
  exists S', atoms_of S' (Ss ++ map M r) /\
    same (M (fold_left (fun cur a => mat_in_container cur a c) r cur)) (sem_cin S' (M c)).
Proof.
  induction r as [|a r IH]; intros cur S Ss HA Hc HV; cbn [fold_left map].
  - exists S. rewrite app_nil_r. auto.
  - inversion HV as [|? ? Va Vr]; subst.
    destruct (IH (mat_in_container cur a c) (sem_and S (M a)) (Ss ++ [M a])) as (S' & H1 & H2); auto.
    + apply atoms_of_and; [exact HA|]. apply atoms_of_one. exact Va.
    + rewrite mat_in_container_meaning. eapply same_trans; [|apply cin_step; [apply HA|exact Va]].
      apply (sem_op_same CONTAINED_IN); [|exact (same_refl _)]. apply (sem_op_same ALL_OF); [exact Hc|exact (same_refl _)].
    + exists S'. rewrite <- app_assoc in H1. auto.
Qed.

Lemma rewrite_meaning e : shape e -> same (M (rewrite_cin_all_of count e)) (M e).
Proof.
  intros V. destruct e as [k t w xs].
  destruct k; try exact (same_refl _). destruct xs as [|l [|c [|z xs]]]; try exact (same_refl _).
  cbn [rewrite_cin_all_of]. destruct (is_atomic c) eqn:Ec; [|exact (same_refl _)].
  destruct (collect_atoms l) as [atoms|] eqn:El; [|exact (same_refl _)].
  destruct (Z.ltb_spec (Z.of_nat (length atoms)) 3) as [_|H3]; [exact (same_refl _)|].
  destruct (shape_nary CONTAINED_IN t w _ V ltac:(unfold nary; cbn; lia)) as (-> & -> & HF).
  inversion HF as [|? ? Vl HF1]; subst. inversion HF1 as [|? ? Vc _]; subst.
  destruct (collect_atoms_ok l Vl atoms El) as (A1 & A2 & A3).
  pose proof (sort_atoms_perm atoms) as P.
  assert (HV : Forall (fun a => view (M a)) (sort_atoms count atoms)).
  { apply Forall_forall. intros a Ha. apply (Permutation_in _ (Permutation_sym P)) in Ha.
    rewrite Forall_forall in A2, A3. apply atomic_view; auto. }
  pose proof (Permutation_length P) as PL.
  destruct (sort_atoms count atoms) as [|a0 [|a1 r]] eqn:Es; try exact (same_refl _).
  inversion HV as [|? ? V0 HV1]; subst. inversion HV1 as [|? ? V1 HVr]; subst.
  destruct (chain_meaning c r (mat_in_container a0 a1 c) (sem_and (M a0) (M a1)) [M a0; M a1]) as (S' & HS & HM); auto.
  - apply (atoms_of_and _ _ [M a0] [M a1]); apply atoms_of_one; assumption.
  - rewrite mat_in_container_meaning. exact (same_refl _).
  - eapply same_trans; [exact HM|]. cbn [meaning map fold_left].
    apply (sem_op_same CONTAINED_IN); [|exact (same_refl _)].
    destruct HS as (_ & _ & _ & _ & HS). destruct A1 as (_ & _ & _ & _ & A1).
    cbn [length app] in HS, PL. rewrite map_length in HS.
    eapply same_trans; [apply HS; lia|].
    apply same_sym. eapply same_trans; [apply A1; rewrite map_length; lia|].
    apply innermost_ext. intros x _. unfold covers.
    change (M a0 :: M a1 :: map M r) with (map M (a0 :: a1 :: r)).
    rewrite !Forall_forall. split; intros H S Hin; apply H.
    + apply (Permutation_in _ (Permutation_map M (Permutation_sym P))). exact Hin.
    + apply (Permutation_in _ (Permutation_map M P)). exact Hin.
Qed.

Lemma optimize_valid_sub k t w xs ys : Forall2 (fun x y => valid E y /\ same (M x) (M y)) xs ys ->
  valid E (SX k t w xs) -> valid E (SX k t w ys).
Proof. apply valid_sub2. Qed.

Notation mats_fit := (mats_fit E).

Lemma atomic_valid_small a : is_atomic a = true -> shape a -> mats_fit a.
Proof.
  intros Ha Va. inversion Va; subst; cbn in Ha; try discriminate; try (cbn; split; [discriminate|exact Logic.I]);
    exfalso; intuition (subst; discriminate).
Qed.

Lemma mats_fit_chain c r : forall cur,
  mats_fit (fold_left (fun cur a => mat_in_container cur a c) r cur) -> mats_fit cur.
Proof.
  induction r as [|a r IH]; intros cur H; cbn [fold_left] in H; [exact H|].
  apply IH in H. cbn in H. tauto.
Qed.
Lemma valid_mic l r c : valid E l -> valid E r -> valid E c ->
  fits_in_memory (sem_cin (sem_and (M l) (M r)) (M c)) -> valid E (mat_in_container l r c).
Proof.
  intros Vl Vr Vc F. apply valid_mat; [|exact F].
  apply valid_cont; [auto|cbn; lia|]. constructor; [|auto]. apply valid_comb; [auto|discriminate|auto].
Qed.
Lemma chain_valid c r : forall cur, valid E cur -> valid E c -> Forall (valid E) r ->
  mats_fit (fold_left (fun cur a => mat_in_container cur a c) r cur) ->
  valid E (fold_left (fun cur a => mat_in_container cur a c) r cur).
Proof.
  induction r as [|a r IH]; intros cur Vcur Vc Vr H; cbn [fold_left] in *; [exact Vcur|].
  inversion Vr; subst. apply IH; auto. apply valid_mic; auto.
  apply mats_fit_chain in H. cbn in H. destruct H as [H _]. specialize (H eq_refl).
  inversion H; subst. assumption.
Qed.
Lemma collect_valid : forall e, valid E e -> forall atoms, collect_atoms e = Some atoms -> Forall (valid E) atoms.
Proof.
  intros e. induction e as [k t w xs IH] using sexpr_ind'. intros V atoms H.
  destruct (op_eq_dec k ALL_OF) as [->|Hk].
  - destruct (valid_nary E _ ALL_OF t w xs eq_refl V ltac:(unfold nary; cbn; auto)) as (-> & -> & HF & _).
    destruct xs as [|x xs]; [discriminate|].
    set (go := fix go (l : list sexpr) : option (list sexpr) :=
                 match l with [] => Some [] | x :: r => match collect_atoms x, go r with Some a, Some b => Some (a ++ b) | _, _ => None end end).
    assert (H' : go (x :: xs) = Some atoms) by exact H. clear H V.
    revert atoms H'. induction (x :: xs) as [|y ys IHy]; intros atoms H'.
    + cbn in H'. inversion H'. constructor.
    + cbn in H'. destruct (collect_atoms y) as [c|] eqn:Ec; [|discriminate].
      destruct (go ys) as [d|] eqn:Ed; [|discriminate]. inversion H'; subst.
      inversion IH; subst. inversion HF; subst. apply Forall_app. split; eauto.
  - assert (Ha : collect_atoms (SX k t w xs) = if is_atomic (SX k t w xs) then Some [SX k t w xs] else None).
    { destruct k; try reflexivity. contradiction. }
    rewrite Ha in H. destruct (is_atomic (SX k t w xs)) eqn:Eat; [|discriminate]. inversion H; subst. auto.
Qed.
Lemma rewrite_valid e : valid E e -> mats_fit (rewrite_cin_all_of count e) -> valid E (rewrite_cin_all_of count e).
Proof.
  intros V. destruct e as [k t w xs].
  destruct k; try (intros; exact V). destruct xs as [|l [|c [|z xs]]]; try (intros; exact V).
  cbn [rewrite_cin_all_of]. destruct (is_atomic c) eqn:Ec; [|intros; exact V].
  destruct (collect_atoms l) as [atoms|] eqn:El; [|intros; exact V].
  destruct (Z.ltb_spec (Z.of_nat (length atoms)) 3) as [_|H3]; [intros; exact V|].
  destruct (valid_nary E _ CONTAINED_IN t w _ eq_refl V ltac:(unfold nary; cbn; lia)) as (-> & -> & HF & _).
  inversion HF as [|? ? Vl HF1]; subst. inversion HF1 as [|? ? Vc _]; subst.
  pose proof (collect_valid l Vl atoms El) as A2.
  pose proof (sort_atoms_perm atoms) as P.
  assert (HV : Forall (valid E) (sort_atoms count atoms)).
  { apply Forall_forall. intros a Ha. rewrite Forall_forall in A2. apply A2.
    apply (Permutation_in _ (Permutation_sym P)). exact Ha. }
  destruct (sort_atoms count atoms) as [|a0 [|a1 r]] eqn:Es; try (intros; exact V).
  inversion HV as [|? ? V0 HV1]; subst. inversion HV1 as [|? ? V1 HVr]; subst.
  intros H. apply chain_valid; auto. apply valid_mic; auto.
  apply mats_fit_chain in H. cbn in H. destruct H as [H _]. specialize (H eq_refl). inversion H; subst. assumption.
Qed.

(** Subtrees of the rewritten node are subtrees of the original. *)
Lemma mats_fit_sub k t w xs : mats_fit (SX k t w xs) -> Forall mats_fit xs.
Proof. intros [_ H]. induction xs as [|x xs IH]; constructor; [apply H|apply IH; apply H]. Qed.
Lemma mats_fit_node k t w xs : k <> MATERIALIZE -> Forall mats_fit xs -> mats_fit (SX k t w xs).
Proof. intros Hk H. split; [contradiction|]. induction H; auto. Qed.
Lemma atoms_mats_fit l : shape l -> forall atoms, collect_atoms l = Some atoms -> mats_fit l.
Proof.
  induction l as [k t w xs IH] using sexpr_ind'. intros V atoms H.
  destruct (op_eq_dec k ALL_OF) as [->|Hk].
  - destruct (shape_nary ALL_OF t w xs V ltac:(unfold nary; cbn; auto)) as (-> & -> & HF).
    apply mats_fit_node; [discriminate|].
    destruct xs as [|x xs]; [constructor|].
    set (go := fix go (l : list sexpr) : option (list sexpr) :=
                 match l with [] => Some [] | x :: r => match collect_atoms x, go r with Some a, Some b => Some (a ++ b) | _, _ => None end end).
    assert (H' : go (x :: xs) = Some atoms) by exact H. clear H V.
    revert atoms H'. induction (x :: xs) as [|y ys IHy]; intros atoms H'; constructor.
    + cbn in H'. destruct (collect_atoms y) as [c|] eqn:Ec; [|discriminate].
      inversion IH; subst. inversion HF; subst. eauto.
    + cbn in H'. destruct (collect_atoms y) as [c|] eqn:Ec; [|discriminate].
      destruct (go ys) as [d|] eqn:Ed; [|discriminate]. inversion IH; subst. inversion HF; subst. eauto.
  - assert (Ha : collect_atoms (SX k t w xs) = if is_atomic (SX k t w xs) then Some [SX k t w xs] else None).
    { destruct k; try reflexivity. contradiction. }
    rewrite Ha in H. destruct (is_atomic (SX k t w xs)) eqn:Eat; [|discriminate].
    apply atomic_valid_small; auto.
Qed.

Lemma rewrite_cases e : shape e -> mats_fit (rewrite_cin_all_of count e) -> mats_fit e.
Proof.
  intros V. destruct e as [k t w xs].
  destruct k; try (intros H; exact H). destruct xs as [|l [|c [|z xs]]]; try (intros H; exact H).
  cbn [rewrite_cin_all_of]. destruct (is_atomic c) eqn:Ec; [|intros H; exact H].
  destruct (collect_atoms l) as [atoms|] eqn:El; [|intros H; exact H].
  destruct (Z.ltb_spec (Z.of_nat (length atoms)) 3) as [_|H3]; [intros H; exact H|].
  destruct (sort_atoms count atoms) as [|a0 [|a1 r]] eqn:Es; try (intros H; exact H).
  intros _.
  destruct (shape_nary CONTAINED_IN t w _ V ltac:(unfold nary; cbn; lia)) as (-> & -> & HF).
  inversion HF as [|? ? Vl HF1]; subst. inversion HF1 as [|? ? Vc _]; subst.
  apply mats_fit_node; [discriminate|]. constructor; [eapply atoms_mats_fit; eauto|].
  constructor; [|constructor]. apply atomic_valid_small; auto.
Qed.

Lemma shape_sub k t w xs ys : length ys = length xs -> Forall shape ys -> shape (SX k t w xs) -> shape (SX k t w ys).
Proof.
  intros HL HF V. inversion V; subst; cbn in HL.
  - destruct ys; [constructor|discriminate].
  - destruct ys; [constructor; auto|discriminate].
  - destruct ys as [|y [|z ys]]; try discriminate. inversion HF; subst. constructor; auto.
  - apply shape_comb; auto. intros ->. destruct xs; [contradiction|discriminate].
  - apply shape_cont; auto. lia.
Qed.
Lemma chain_shape c r : forall cur, shape cur -> shape c -> Forall shape r ->
  shape (fold_left (fun cur a => mat_in_container cur a c) r cur).
Proof.
  induction r as [|a r IH]; intros cur Vcur Vc Vr; cbn [fold_left]; [exact Vcur|].
  inversion Vr; subst. apply IH; auto. apply shape_one; auto. apply shape_cont; [auto|cbn; lia|].
  constructor; auto. apply shape_comb; auto. discriminate.
Qed.
Lemma rewrite_shape e : shape e -> shape (rewrite_cin_all_of count e).
Proof.
  intros V. destruct e as [k t w xs].
  destruct k; try exact V. destruct xs as [|l [|c [|z xs]]]; try exact V.
  cbn [rewrite_cin_all_of]. destruct (is_atomic c) eqn:Ec; [|exact V].
  destruct (collect_atoms l) as [atoms|] eqn:El; [|exact V].
  destruct (Z.ltb_spec (Z.of_nat (length atoms)) 3) as [_|H3]; [exact V|].
  destruct (shape_nary CONTAINED_IN t w _ V ltac:(unfold nary; cbn; lia)) as (-> & -> & HF).
  inversion HF as [|? ? Vl HF1]; subst. inversion HF1 as [|? ? Vc _]; subst.
  destruct (collect_atoms_ok l Vl atoms El) as (_ & A2 & _).
  pose proof (sort_atoms_perm atoms) as P.
  assert (HV : Forall shape (sort_atoms count atoms)).
  { apply Forall_forall. intros a Ha. rewrite Forall_forall in A2. apply A2.
    apply (Permutation_in _ (Permutation_sym P)). exact Ha. }
  destruct (sort_atoms count atoms) as [|a0 [|a1 r]] eqn:Es; try exact V.
  inversion HV as [|? ? V0 HV1]; subst. inversion HV1 as [|? ? V1 HVr]; subst.
  apply chain_shape; auto. apply shape_one; auto. apply shape_cont; [auto|cbn; lia|].
  constructor; auto. apply shape_comb; auto. discriminate.
Qed.

Lemma optimize_ok : forall e, shape e -> shape (optimize_ count e) /\ same (M (optimize_ count e)) (M e).
Proof.
  intros e. induction e as [k t w xs IH] using sexpr_ind'. intros V. cbn [optimize_].
  assert (HF : Forall shape xs) by (inversion V; subst; auto).
  assert (H : Forall (fun x => shape (optimize_ count x) /\ same (M (optimize_ count x)) (M x)) xs).
  { rewrite Forall_forall in *. auto. }
  assert (V' : shape (SX k t w (map (optimize_ count) xs))).
  { apply (shape_sub k t w xs); auto; [apply map_length|]. apply Forall_map. eapply Forall_impl; [|exact H]. cbn. intros x Hx. apply Hx. }
  split; [apply rewrite_shape; exact V'|].
  eapply same_trans; [apply rewrite_meaning; exact V'|].
  apply meaning_same. clear - H. induction H as [|x xs [_ H1]]; constructor; auto.
Qed.
Lemma optimize_valid : forall e, valid E e -> mats_fit (optimize_ count e) -> valid E (optimize_ count e).
Proof.
  intros e. induction e as [k t w xs IH] using sexpr_ind'. intros V. cbn [optimize_]. intros Hm.
  pose proof (valid_shape E _ V) as VS.
  assert (HF : Forall (valid E) xs) by (inversion V; subst; auto).
  assert (HS : Forall shape xs) by (eapply Forall_impl; [|exact HF]; apply valid_shape).
  assert (V' : shape (SX k t w (map (optimize_ count) xs))).
  { apply (shape_sub k t w xs); auto; [apply map_length|]. apply Forall_map. eapply Forall_impl; [|exact HS].
    intros x Hx. apply optimize_ok. exact Hx. }
  apply rewrite_valid; [|exact Hm].
  apply (rewrite_cases _ V') in Hm. apply mats_fit_sub in Hm.
  apply optimize_valid_sub with (xs := xs); [|exact V].
  clear V V' VS. induction xs as [|x xs IHx]; cbn [map]; constructor.
  - inversion IH; subst. inversion HF; subst. inversion Hm; subst. inversion HS; subst.
    split; [auto|]. apply same_sym. apply optimize_ok. assumption.
  - inversion IH; subst. inversion HF; subst. inversion Hm; subst. inversion HS; subst. apply IHx; auto.
Qed.

(** The optimized query answers as the original query means. *)
Lemma optimize_answers en e : valid E e -> (en = true -> mats_fit (optimize_ count e)) ->
  exists o, to_hopper idx (optimize count en e) = Some o /\ answers (projT1 o) (projT2 o) (M e).
Proof.
  intros V Hm. unfold optimize. destruct en.
  - destruct (to_hopper_good idx E HI _ (optimize_valid e V (Hm eq_refl))) as (o & Ho & A).
    exists o. split; [exact Ho|]. eapply answers_ext; [|exact A]. apply optimize_ok. apply (valid_shape E). exact V.
  - exact (to_hopper_good idx E HI e V).
Qed.
End Opt.

(** ** Binary nesting *)
Lemma nest_meaning E k t w : (k <> TERM /\ k <> FIXED /\ k <> LINK /\ k <> MATERIALIZE) ->
  forall r e, meaning E (nest_left k t w e r) = fold_left (sem_op k) (map (meaning E) r) (meaning E e).
Proof.
  intros Hk. induction r as [|x r IH]; intros e; [reflexivity|]. cbn [nest_left map fold_left]. rewrite IH.
  destruct Hk as (H1 & H2 & H3 & H4). destruct k; try contradiction; reflexivity.
Qed.
Lemma to_binary_meaning E e : shape e -> same (meaning E (to_binary e)) (meaning E e).
Proof.
  induction e as [k t w xs IH] using sexpr_ind'. intros V.
  assert (HF : Forall shape xs) by (inversion V; subst; auto).
  assert (H : Forall2 (fun x y => same (meaning E x) (meaning E y)) (map to_binary xs) xs).
  { clear V. induction xs as [|x xs IHx]; cbn [map]; constructor; inversion IH; subst; inversion HF; subst; auto. }
  eapply same_trans; [|apply meaning_same; exact H].
  cbn [to_binary]. inversion V; subst; try exact (same_refl _).
  - destruct (map to_binary xs) as [|x [|y r]]; try exact (same_refl _).
    rewrite nest_meaning by (intuition (subst; discriminate)).
    assert (EQ : forall S T : iv -> Prop, S = T -> same S T) by (intros ? ? ->; exact (same_refl _)). apply EQ.
    match goal with h : _ = ONE_OF \/ _ |- _ => destruct h as [-> | [-> | ->]] end; reflexivity.
  - destruct (map to_binary xs) as [|x [|y r]]; try exact (same_refl _).
    rewrite nest_meaning by (intuition (subst; discriminate)).
    assert (EQ : forall S T : iv -> Prop, S = T -> same S T) by (intros ? ? ->; exact (same_refl _)). apply EQ.
    match goal with h : _ = CONTAINED_IN \/ _ |- _ => destruct h as [-> | [-> | [-> | ->]]] end; reflexivity.
Qed.
Lemma to_binary_valid_meaning E e : valid E e -> same (meaning E (to_binary e)) (meaning E e).
Proof. intros V. apply to_binary_meaning. apply (valid_shape E). exact V. Qed.
