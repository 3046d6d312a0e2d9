(** Runs in which the workers follow the scheduler. *)
From Verif Require Import Base Bytes NameModel NameSpec NameWitness StoreModel StoreSpec StoreWitness SchedModel SchedSpec.

(** Every choice of [ls], from [s] on, is the one the scheduler makes. *)
Fixpoint obeys (size : entry -> Z) (ls : list label) (s : sys) : bool :=
  match ls with
  | [] => true
  | l :: r =>
      match l, s with
      | LChoose _ a n, Up m _ _ => match decide m size [] 2 with Some (a', n', _) => Nat.eqb a a' && Nat.eqb n n' | None => false end
      | _, _ => true
      end && match step sort_shards merge_shards false l s with Some s' => obeys size r s' | None => false end
  end.
Definition last_decision (size : entry -> Z) (o : option sys) : option (nat * nat * action) := match o with Some (Up m _ _) => decide m size [] 2 | _ => None end.
Definition ranges (o : option sys) : list (kind * Z * Z) := match o with Some (Up m _ _) => map (fun e => (e_kind e, e_start e, e_end e)) (m_entries m) | _ => [] end.
Definition convert (w a : nat) : list label := [LChoose w a 1; LMerge w; LMerge w; LMerge w; LMerge w; LInstall w; LDiscard w; LDiscard w].
(** Large transactions, each converted on its own; the second is aborted. *)
Definition large (e : entry) : Z := match e_kind e with HazelK => if e_start e =? 3 then 5 else 1 | _ => medium_shard end.
Definition run9 : list label :=
  [LOpen] ++ ready 0 1 (lit "a") ++ committed 0 ++ convert 7 0 ++ ready 1 1 (lit "b") ++ [LAbort 1 0 0] ++
  ready 2 1 (lit "c") ++ committed 2 ++ convert 7 1 ++ ready 3 1 (lit "d") ++ committed 3 ++ convert 7 2.
Example run9_obeys : obeys large run9 start = true.
Proof. vm_compute. reflexivity. Qed.
Example run9_ranges : ranges (wsteps false run9 start) = [(HazelK, 0, 0); (HazelK, 2, 2); (HazelK, 3, 3)].
Proof. vm_compute. reflexivity. Qed.
Example run9_stuck : last_decision large (wsteps false run9 start) = None.
Proof. vm_compute. reflexivity. Qed.
(** Without the abort they become one. *)
Definition hmerge (w a : nat) : list label := [LChoose w a 2; LMerge w; LMerge w; LMerge w; LMerge w; LInstall w; LDiscard w; LDiscard w; LDiscard w].
Definition run10 : list label :=
  [LOpen] ++ ready 0 1 (lit "a") ++ committed 0 ++ ready 2 1 (lit "c") ++ committed 2 ++ convert 7 0 ++ convert 7 1 ++ hmerge 7 0.
Example run10_obeys : obeys large run10 start = true.
Proof. vm_compute. reflexivity. Qed.
Example run10_ranges : ranges (wsteps false run10 start) = [(HazelK, 0, 1)] /\ last_decision large (wsteps false run10 start) = None.
Proof. split; vm_compute; reflexivity. Qed.
(** Three small transactions are merged at once, the rest is converted. *)
Definition small (e : entry) : Z := 10.
Definition run11 : list label :=
  [LOpen] ++ ready 0 1 (lit "a") ++ committed 0 ++ ready 1 1 (lit "b") ++ committed 1 ++ ready 2 1 (lit "c") ++ committed 2 ++
  [LChoose 7 0 3; LMerge 7; LMerge 7; LMerge 7; LMerge 7; LInstall 7].
Example run11_obeys : obeys small run11 start = true.
Proof. vm_compute. reflexivity. Qed.
Example run11_ranges : ranges (wsteps false run11 start) = [(FiverK, 0, 2)].
Proof. vm_compute. reflexivity. Qed.
