(** Specification vocabulary for the choice of merges. *)
From Verif Require Import Base Bytes StoreModel.

(** [sel] are the elements of [l] from index [s] to index [e]. *)
Definition part {A} (l : list A) (s e : nat) (sel : list A) : Prop :=
  exists p q, l = p ++ sel ++ q /\ length p = s /\ (s + length sel = S e)%nat.
(** [n] elements from index [s] on are true. *)
Definition run_at (a : list bool) (s n : nat) : Prop := (s + n <= length a)%nat /\ forall k, (s <= k < s + n)%nat -> nth k a false = true.
(** [x] and [y] are neighbours. *)
Definition neighbours {A} (l : list A) (x y : A) : Prop := exists p q, l = p ++ x :: y :: q.
Fixpoint total (l : list nat) : nat := match l with [] => 0 | x :: r => x + total r end.
(** What merging can still be done at most: a fiver can be merged and converted. *)
Definition work (m : mem) : nat :=
  total (map (fun e => match e_kind e with Kitten | FiverK => 2 | HazelK => 1 | Gone => 0 end)%nat (m_entries m)).
Definition installs (ls : list label) : nat := length (filter (fun l => match l with LInstall _ => true | _ => false end) ls).
Definition places (ls : list label) : nat := length (filter (fun l => match l with LPlace _ => true | _ => false end) ls).
