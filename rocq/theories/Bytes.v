(** Byte strings and decimal numerals, used by several models. *)
From Verif Require Import Base.
From Coq Require Import Ascii.
From Coq Require String.
Export String.StringSyntax.

(** A std::string: a list of byte values 0..255. *)
Definition bytes := list Z.
Definition is_byte (c : Z) : Prop := 0 <= c < 256.

(** A C++ string literal. *)
Fixpoint lit (s : String.string) : bytes :=
  match s with String.EmptyString => [] | String.String c r => Z.of_N (N_of_ascii c) :: lit r end.
Global Arguments lit s%string_scope.
Definition chr (s : String.string) : Z := match lit s with c :: _ => c | [] => 0 end.

Fixpoint eqb_bytes (a b : bytes) : bool :=
  match a, b with
  | [], [] => true
  | x :: a', y :: b' => (x =? y) && eqb_bytes a' b'
  | _, _ => false
  end.
Lemma eqb_bytes_eq a b : eqb_bytes a b = true <-> a = b.
Proof.
  revert b. induction a as [|x a IH]; intros [|y b]; cbn; split; intros H; try discriminate; auto.
  - apply andb_prop in H. destruct H as [H1 H2]. apply Z.eqb_eq in H1. apply IH in H2. congruence.
  - inversion H; subst. rewrite Z.eqb_refl. apply IH. reflexivity.
Qed.
Lemma eqb_bytes_refl a : eqb_bytes a a = true.
Proof. apply eqb_bytes_eq. reflexivity. Qed.
Lemma eqb_bytes_neq a b : eqb_bytes a b = false <-> a <> b.
Proof.
  destruct (eqb_bytes a b) eqn:E; split; intros H; try discriminate; auto.
  - apply eqb_bytes_eq in E. contradiction.
  - intros ->. rewrite eqb_bytes_refl in E. discriminate.
Qed.

(** std::to_string of a non-negative integer: decimal digits, most significant
    first. *)
Fixpoint dec_go (n : nat) (z : Z) (acc : bytes) : bytes :=
  match n with
  | O => acc
  | S m => if z <? 10 then (48 + z) :: acc else dec_go m (z / 10) ((48 + z mod 10) :: acc)
  end.
Definition dec_nat (z : Z) : bytes := dec_go (S (Z.to_nat (Z.log2 z))) z [].
(** std::to_string of an addr. *)
Definition dec (z : Z) : bytes := if z <? 0 then 45 :: dec_nat (- z) else dec_nat z.

Definition is_digit (c : Z) : bool := (48 <=? c) && (c <=? 57).
Definition dec_val (a : Z) (l : bytes) : Z := fold_left (fun v c => 10 * v + (c - 48)) l a.

Lemma dec_val_app a l1 l2 : dec_val a (l1 ++ l2) = dec_val (dec_val a l1) l2.
Proof. unfold dec_val. apply fold_left_app. Qed.

Lemma dec_go_ok n : forall z acc, 0 <= z < 2 ^ Z.of_nat n -> (0 < n)%nat ->
  exists d, dec_go n z acc = d ++ acc /\ forallb is_digit d = true /\ dec_val 0 d = z /\ d <> [] /\
            (0 < z -> hd 0 d <> 48) /\ (z = 0 -> d = [48]).
Proof.
  induction n as [|n IH]; intros z acc Hz Hn; [lia|].
  cbn [dec_go]. destruct (Z.ltb_spec z 10) as [Hlt|Hge].
  - exists [48 + z]. split; [reflexivity|]. split; [cbn; unfold is_digit; lia|].
    split; [cbn; lia|]. split; [discriminate|]. split; [intros; cbn; lia|]. intros ->; reflexivity.
  - assert (Hn' : (0 < n)%nat).
    { destruct n; [|lia]. change (2 ^ Z.of_nat 1) with 2 in Hz. lia. }
    destruct (IH (z / 10) ((48 + z mod 10) :: acc)) as (d & E & F & V & N & Hd & _); auto.
    { split; [apply Z.div_pos; lia|]. apply Z.div_lt_upper_bound; [lia|].
      rewrite Nat2Z.inj_succ, Z.pow_succ_r in Hz by lia. lia. }
    exists (d ++ [48 + z mod 10]). rewrite <- app_assoc. split; [exact E|].
    pose proof (Z.mod_pos_bound z 10 ltac:(lia)) as Hm.
    assert (0 < z / 10) by (apply Z.div_str_pos; lia).
    split; [rewrite forallb_app, F; cbn; unfold is_digit; lia|].
    split; [rewrite dec_val_app, V; cbn; pose proof (Z.div_mod z 10 ltac:(lia)); lia|].
    split; [destruct d; discriminate|].
    split; [|lia]. intros _. destruct d; [contradiction|]. cbn. apply Hd. lia.
Qed.
Lemma dec_nat_ok z : 0 <= z ->
  forallb is_digit (dec_nat z) = true /\ dec_val 0 (dec_nat z) = z /\ dec_nat z <> [] /\
  (0 < z -> hd 0 (dec_nat z) <> 48) /\ (z = 0 -> dec_nat z = [48]).
Proof.
  intros Hz. unfold dec_nat.
  destruct (dec_go_ok (S (Z.to_nat (Z.log2 z))) z []) as (d & E & H); [|lia|].
  - split; [exact Hz|]. rewrite Nat2Z.inj_succ, Z2Nat.id by apply Z.log2_nonneg.
    destruct (Z.eq_dec z 0) as [->|Hne]; [reflexivity|]. apply Z.log2_spec. lia.
  - rewrite E, app_nil_r. exact H.
Qed.
Lemma dec_inj a b : 0 <= a -> 0 <= b -> dec_nat a = dec_nat b -> a = b.
Proof.
  intros Ha Hb E. destruct (dec_nat_ok a Ha) as (_ & <- & _). destruct (dec_nat_ok b Hb) as (_ & <- & _).
  rewrite E. reflexivity.
Qed.
Lemma dec_val_ge a l : 0 <= a -> forallb is_digit l = true -> a <= dec_val a l.
Proof.
  revert a. induction l as [|c l IH]; intros a Ha H; cbn; [lia|].
  cbn in H. apply andb_prop in H. destruct H as [Hc Hl]. unfold is_digit in Hc.
  specialize (IH (10 * a + (c - 48)) ltac:(lia) Hl). unfold dec_val in IH. lia.
Qed.
