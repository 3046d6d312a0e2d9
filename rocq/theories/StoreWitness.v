(** Runs of the store. *)
From Verif Require Import Base Bytes NameModel NameSpec NameWitness StoreModel StoreSpec.

Notation wsteps := (steps sort_shards merge_shards).
Notation wreopened := (reopened sort_shards merge_shards).
Definition ready (i : nat) (n : Z) (b : bytes) : list label := [LBegin i; LWrite i n b; LPlace i; LPickle i; LPickle i; LPickle i; LPickle i].
Definition committed (i : nat) : list label := [LCommit i; LCommitted i].
(** Two clones; the second commits first; a reader; then the other; a merge of the two,
    stopped when the new shard is in place and one of the old ones is removed. *)
Definition run1 : list label :=
  [LOpen] ++ ready 0 3 (lit "cat") ++ ready 1 2 (lit "ox") ++ committed 1 ++ [LStart 5] ++ committed 0 ++
  [LChoose 7 0 2; LMerge 7; LMerge 7; LMerge 7; LMerge 7; LInstall 7; LDiscard 7].
Definition show (o : option sys) : option (list txn) := match o with Some (Up m _ _) => Some (shown m) | _ => None end.
Definition read (r : nat) (o : option sys) : option (list txn) := match o with Some (Up m _ _) => match m_readers m r with Some (es, _) => Some (flat_map e_txns es) | None => None end | _ => None end.
Definition after (o : option sys) : option (option (list txn)) := match o with Some s => Some (wreopened (disk s)) | None => None end.
Definition cat_ox : list txn := [Txn 0 0 3 (lit "cat"); Txn 1 3 2 (lit "ox")].
Example run1_shown : show (wsteps false run1 start) = Some cat_ox.
Proof. vm_compute. reflexivity. Qed.
Example run1_reader : read 5 (wsteps false run1 start) = Some [Txn 1 3 2 (lit "ox")].
Proof. vm_compute. reflexivity. Qed.
Example run1_reopened : after (wsteps false run1 start) = Some (Some cat_ox).
Proof. vm_compute. reflexivity. Qed.
Example run1_notes : h_acked (notes run1) = [0; 1]%nat /\ h_placed (notes run1) = [(3, lit "cat"); (2, lit "ox")].
Proof. split; vm_compute; reflexivity. Qed.
(** A crash in the middle of a merge, of opening, and again. *)
Definition run2 : list label := run1 ++ [LCrash; LOpening 1; LOpen] ++ ready 3 1 (lit "x") ++ [LCommit 3; LCrash; LOpen].
Example run2_shown : show (wsteps false run2 start) = Some (cat_ox ++ [Txn 2 5 1 (lit "x")]).
Proof. vm_compute. reflexivity. Qed.
(** commit_all of two clones, stopped after the script is linked. *)
Definition run3 : list label := [LOpen] ++ ready 0 3 (lit "cat") ++ ready 1 2 (lit "ox") ++ [LScript 0 [0; 1]%nat; LScriptLink 0].
Example run3_reopened : after (wsteps false run3 start) = Some (Some cat_ox).
Proof. vm_compute. reflexivity. Qed.
Example run3_batch : h_batches (notes run3) = [[0; 1]%nat].
Proof. vm_compute. reflexivity. Qed.
(** The same, and readers see the first of the two alone. *)
Definition run4 : list label := run3 ++ [LScriptTidy 0] ++ committed 0 ++ [LStart 2].
Example run4_reader : read 2 (wsteps false run4 start) = Some [Txn 0 0 3 (lit "cat")].
Proof. vm_compute. reflexivity. Qed.
(** A transaction without annotations. *)
Definition run5 : list label := [LOpen] ++ ready 0 3 (lit "cat") ++ [LBegin 1; LWrite 1 2 []; LPlace 1; LPickle 1; LCommit 1].
Definition is_down (o : option sys) : bool := match o with Some (Down _ _) => true | _ => false end.
Example run5_down : is_down (wsteps false run5 start) = true.
Proof. vm_compute. reflexivity. Qed.
(** A merged file that is not written. *)
Definition run6 : list label :=
  [LOpen] ++ ready 0 3 (lit "cat") ++ committed 0 ++ ready 1 2 (lit "ox") ++ committed 1 ++
  [LChoose 7 0 2; LMerge 7; LMergeUnwritten 7; LInstall 7; LDiscard 7; LDiscard 7; LCrash].
Example run6_lost : after (wsteps true run6 start) = Some (Some []).
Proof. vm_compute. reflexivity. Qed.
(** A conversion that fails after its file is there, then a merge. *)
Definition run7 : list label :=
  [LOpen] ++ ready 0 3 (lit "cat") ++ committed 0 ++ ready 1 2 (lit "ox") ++ committed 1 ++
  [LChoose 7 0 1; LMerge 7; LMerge 7; LMerge 7; LMergeFail 7; LChoose 7 0 2; LMerge 7; LMerge 7; LMerge 7; LCrash].
Example run7_stuck : after (wsteps true run7 start) = Some None.
Proof. vm_compute. reflexivity. Qed.
(** An abort before ready that meets the number of a ready transaction. *)
Definition run8 : list label := [LOpen] ++ ready 0 3 (lit "cat") ++ [LBegin 1; LAbort 1 0 0; LCommit 0].
Example run8_down : is_down (wsteps true run8 start) = true.
Proof. vm_compute. reflexivity. Qed.
