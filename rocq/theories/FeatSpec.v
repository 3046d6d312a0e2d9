(** Specification vocabulary for featurizers. *)
From Verif Require Import Base Bytes HopperModel.

(** A term that spells a feature number: # and digits. *)
Definition numeral (t : bytes) (n : Z) : Prop :=
  exists ds, t = 35 :: ds /\ ds <> [] /\ Forall (fun c => 48 <= c <= 57) ds /\ n = dec_val 0 ds /\ n <= maxf.
(** Ordinary terms: not empty, no NUL byte, not a number. *)
Definition ordinary (t : bytes) : Prop := t <> [] /\ Forall (fun c => 0 < c < 256) t /\ forall n, ~ numeral t n.
Definition short (t : bytes) : Prop := (length t < 8)%nat.
