(** Specification of the sorting of files of records. *)
From Coq Require Import Permutation Sorted.
From Verif Require Import Base Bytes CodecModel WorkModel SortModel.

(** An order in which records may tie. *)
Definition weak_order (cmp : bytes -> bytes -> bool) : Prop :=
  (forall a b, cmp a b = true -> cmp b a = false) /\
  (forall a b c, cmp b a = false -> cmp c b = false -> cmp c a = false).
(** No record comes after a later one. *)
Definition in_order (cmp : bytes -> bytes -> bool) (l : list bytes) : Prop := StronglySorted (fun a b => cmp b a = false) l.
Definition sorts (cmp : bytes -> bytes -> bool) (sort : list bytes -> list bytes) : Prop :=
  forall l, Permutation l (sort l) /\ in_order cmp (sort l).
(** A file of records of [k] bytes: these records, and perhaps the start of another. *)
Definition holds_records (k : nat) (rs : list bytes) (file : bytes) : Prop :=
  Forall (fun r : bytes => length r = k) rs /\ exists tail, file = concat rs ++ tail /\ (length tail < k)%nat.
(** The names that a working directory still has to give. *)
Definition temporary (working : bytes) (c : Z) (name : bytes) : Prop := exists d, c <= d < 2 ^ 32 /\ name = fst (make_temp working [] d).
(** What a file of annotations must be: proper intervals, and for any two of them in the file the
    first has the lower feature, or both have the same and the first starts and ends earlier. *)
Definition proper (r : bytes) : Prop := field 1 r <= field 2 r.
Definition earlier (a b : bytes) : Prop := field 0 a < field 0 b \/ field 0 a = field 0 b /\ field 1 a < field 1 b /\ field 2 a < field 2 b.
(** Two annotations of one feature, neither within the other. *)
Definition apart (a b : bytes) : Prop := field 0 a = field 0 b -> field 1 a < field 1 b /\ field 2 a < field 2 b \/ field 1 b < field 1 a /\ field 2 b < field 2 a.
