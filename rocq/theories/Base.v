(** Common definitions: results with undefined behaviour as a distinct
    outcome, bounded loops, 64-bit limits. *)
From Coq Require Export List ZArith Lia Bool.
From Coq Require Export ZifyBool ZifyNat ZifyN.
Export ListNotations.
Open Scope Z_scope.

(** Outcome of a C++ call.  [UB] is undefined behaviour (signed overflow,
    out-of-range array access); [NoFuel] means a loop of the model hit its
    bound.  Theorems about the model always state [Ok]. *)
Inductive res (A : Type) : Type :=
| Ok (a : A)
| UB
| NoFuel.
Arguments Ok {A} a.
Arguments UB {A}.
Arguments NoFuel {A}.

Definition bind {A B} (m : res A) (f : A -> res B) : res B :=
  match m with Ok a => f a | UB => UB | NoFuel => NoFuel end.

Notation "'let*' x ':=' m 'in' f" := (bind m (fun x => f))
  (at level 200, x pattern, m at level 100, f at level 200, right associativity).

(** src/core.h:17-18: maxfinity = INT64_MAX, minfinity = INT64_MIN. *)
Definition minf : Z := -9223372036854775808.
Definition maxf : Z := 9223372036854775807.

Global Arguments minf : simpl never.
Global Arguments maxf : simpl never.
Global Arguments Z.add : simpl never.
Global Arguments Z.sub : simpl never.
Global Arguments Z.mul : simpl never.
Global Arguments Z.leb : simpl never.
Global Arguments Z.ltb : simpl never.
Global Arguments Z.eqb : simpl never.
Global Arguments Z.div : simpl never.
Global Arguments Z.modulo : simpl never.

(** An addr computation: signed 64-bit overflow is undefined. *)
Definition chk (z : Z) : res Z := if (minf <=? z) && (z <=? maxf) then Ok z else UB.

(** Array access: out of range is undefined. *)
Definition idx {A} (l : list A) (i : Z) : res A :=
  if i <? 0 then UB
  else match nth_error l (Z.to_nat i) with Some x => Ok x | None => UB end.

(** A [for(;;)]/[while] loop with a binary bound [n]: [body] answers [inl s] to
    go round again from state [s] and [inr a] to leave with answer [a]. *)
Fixpoint ploop {S A} (n : positive) (body : S -> res (S + A)) (s : S) : res (S + A) :=
  match n with
  | xH => body s
  | xO m => match ploop m body s with
            | Ok (inl s1) => ploop m body s1
            | r => r
            end
  | xI m => match body s with
            | Ok (inl s1) => match ploop m body s1 with
                             | Ok (inl s2) => ploop m body s2
                             | r => r
                             end
            | r => r
            end
  end.

(** 2^68: more iterations than any loop of the model needs. *)
Definition BIG : positive := 295147905179352825856.

Definition loop {S A} (body : S -> res (S + A)) (s : S) : res A :=
  match ploop BIG body s with
  | Ok (inl _) => NoFuel
  | Ok (inr a) => Ok a
  | UB => UB
  | NoFuel => NoFuel
  end.

(** [wp m Q]: [m] succeeds (no undefined behaviour, no exhausted bound) and its
    value satisfies [Q]. *)
Definition wp {A} (m : res A) (Q : A -> Prop) : Prop :=
  match m with Ok a => Q a | _ => False end.

Lemma wp_bind {A B} (m : res A) (f : A -> res B) (Q : B -> Prop) :
  wp m (fun a => wp (f a) Q) -> wp (bind m f) Q.
Proof. destruct m; cbn; tauto. Qed.

Lemma wp_bind_inv {A B} (m : res A) (f : A -> res B) (Q : B -> Prop) :
  wp (bind m f) Q -> wp m (fun a => wp (f a) Q).
Proof. destruct m; cbn; tauto. Qed.

Lemma wp_mono {A} (m : res A) (P Q : A -> Prop) :
  wp m P -> (forall a, P a -> Q a) -> wp m Q.
Proof. destruct m; cbn; firstorder. Qed.

Lemma wp_ok {A} (a : A) (Q : A -> Prop) : Q a -> wp (Ok a) Q.
Proof. exact (fun h => h). Qed.

Lemma wp_exists {A} (m : res A) Q : wp m Q -> exists a, m = Ok a /\ Q a.
Proof. destruct m; cbn; intros H; try tauto. eauto. Qed.

Lemma wp_chk z (Q : Z -> Prop) : minf <= z <= maxf -> Q z -> wp (chk z) Q.
Proof.
  unfold chk. intros H HQ.
  destruct (minf <=? z) eqn:E1; destruct (z <=? maxf) eqn:E2; cbn; try lia; exact HQ.
Qed.

Lemma ploop_rule {S A} (Inv : S -> Prop) (mu : S -> Z) (Post : A -> Prop)
      (body : S -> res (S + A)) :
  (forall s, Inv s -> 0 <= mu s) ->
  (forall s, Inv s ->
     wp (body s) (fun r => match r with
                           | inl s' => Inv s' /\ mu s' < mu s
                           | inr a => Post a
                           end)) ->
  forall n s, Inv s ->
    wp (ploop n body s) (fun r => match r with
                                  | inl s' => Inv s' /\ mu s' <= mu s - Zpos n
                                  | inr a => Post a
                                  end).
Proof.
  intros Hmu Hbody n. induction n as [m IH|m IH|]; intros s Hs; cbn [ploop].
  - pose proof (Hbody s Hs) as H0.
    destruct (body s) as [[s1|a]| |]; cbn in H0 |- *; try tauto.
    destruct H0 as [Hs1 Hm1].
    pose proof (IH s1 Hs1) as H1.
    destruct (ploop m body s1) as [[s2|a]| |]; cbn in H1 |- *; try tauto.
    destruct H1 as [Hs2 Hm2].
    pose proof (IH s2 Hs2) as H2.
    destruct (ploop m body s2) as [[s3|a]| |]; cbn in H2 |- *; try tauto.
    destruct H2 as [Hs3 Hm3]. split; [exact Hs3 | lia].
  - pose proof (IH s Hs) as H1.
    destruct (ploop m body s) as [[s2|a]| |]; cbn in H1 |- *; try tauto.
    destruct H1 as [Hs2 Hm2].
    pose proof (IH s2 Hs2) as H2.
    destruct (ploop m body s2) as [[s3|a]| |]; cbn in H2 |- *; try tauto.
    destruct H2 as [Hs3 Hm3]. split; [exact Hs3 | lia].
  - pose proof (Hbody s Hs) as H0.
    destruct (body s) as [[s1|a]| |]; cbn in H0 |- *; try tauto.
    destruct H0; split; [assumption | lia].
Qed.

Lemma loop_rule {S A} (Inv : S -> Prop) (mu : S -> Z) (Post : A -> Prop)
      (body : S -> res (S + A)) (s : S) :
  (forall s, Inv s -> 0 <= mu s) ->
  (forall s, Inv s ->
     wp (body s) (fun r => match r with
                           | inl s' => Inv s' /\ mu s' < mu s
                           | inr a => Post a
                           end)) ->
  Inv s -> mu s < Zpos BIG ->
  wp (loop body s) Post.
Proof.
  intros Hmu Hbody Hs Hlt. unfold loop.
  pose proof (ploop_rule Inv mu Post body Hmu Hbody BIG s Hs) as H.
  destruct (ploop BIG body s) as [[s1|a]| |]; cbn in H |- *; try tauto.
  destruct H as [Hs1 H1]. specialize (Hmu s1 Hs1). lia.
Qed.

Lemma wp_idx {A} (l : list A) (d : A) i (Q : A -> Prop) :
  0 <= i < Z.of_nat (length l) -> Q (nth (Z.to_nat i) l d) -> wp (idx l i) Q.
Proof.
  intros Hi HQ. unfold idx. destruct (i <? 0) eqn:E; [lia|].
  rewrite (nth_error_nth' l d) by lia. exact HQ.
Qed.
