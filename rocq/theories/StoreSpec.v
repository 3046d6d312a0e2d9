(** Specification vocabulary for the shared index directory. *)
From Verif Require Import Base Bytes StoreModel.
From Coq Require Import Sorting.Sorted.

(** [l] are the transactions of [g] with sequence numbers from [s] to [e], in order. *)
Definition holds (g : list txn) (s e : Z) (l : list txn) : Prop :=
  StronglySorted (fun x y => t_seq x < t_seq y) l /\ forall x, In x l <-> In x g /\ s <= t_seq x <= e.
(** What a reader that starts now reads. *)
Definition shown (m : mem) : list txn := flat_map e_txns (filter visible (m_entries m)).

(** * What the callers did
    Read off the calls alone.  A transaction is known by its ticket: how many transactions
    were made ready before it. *)
Record hist := Hist {
  h_open : nat -> Z * bytes;          (* what clone i has written since it began *)
  h_placed : list (Z * bytes);        (* what was written, by ticket *)
  h_tick : nat -> nat;                (* the ticket of the transaction of clone i *)
  h_asked : list nat;                 (* commit was called *)
  h_acked : list nat;                 (* commit returned *)
  h_batches : list (list nat) }.      (* calls of commit_all *)
Definition nothing : hist := Hist (fun _ => (0, [])) [] (fun _ => O) [] [] [].
Definition note (l : label) (h : hist) : hist :=
  match l with
  | LBegin i => Hist (upd (h_open h) i (0, [])) (h_placed h) (h_tick h) (h_asked h) (h_acked h) (h_batches h)
  | LWrite i n b => Hist (upd (h_open h) i (fst (h_open h i) + n, snd (h_open h i) ++ b)) (h_placed h) (h_tick h) (h_asked h) (h_acked h) (h_batches h)
  | LPlace i => Hist (h_open h) (h_placed h ++ [h_open h i]) (upd (h_tick h) i (length (h_placed h))) (h_asked h) (h_acked h) (h_batches h)
  | LCommit i => Hist (h_open h) (h_placed h) (h_tick h) (h_tick h i :: h_asked h) (h_acked h) (h_batches h)
  | LCommitted i => Hist (h_open h) (h_placed h) (h_tick h) (h_asked h) (h_tick h i :: h_acked h) (h_batches h)
  | LScript _ is => Hist (h_open h) (h_placed h) (h_tick h) (map (h_tick h) is ++ h_asked h) (h_acked h) (map (h_tick h) is :: h_batches h)
  | _ => h
  end.
Definition notes (ls : list label) : hist := fold_left (fun h l => note l h) ls nothing.
Definition content (x : txn) : Z * bytes := (t_len x, t_data x).
(** [l] are the contents of the transactions with tickets [ts], oldest first. *)
Definition are (h : hist) (ts : list nat) (l : list txn) : Prop :=
  StronglySorted lt ts /\ (forall t, In t ts -> (t < length (h_placed h))%nat) /\ map content l = map (fun t => nth t (h_placed h) (0, [])) ts.
(** What a process that opens the directory shows. *)
Definition reopened sort merge (d : dir) : option (list txn) :=
  match opening sort merge d with Some (_, m) => Some (shown m) | None => None end.
(** The tokens of a transaction. *)
Definition at_address (x : txn) (a : Z) : Prop := t_addr x <= a < t_addr x + t_len x.
(** A clone holds a transaction that has its place and is not shown yet. *)
Definition holder (m : mem) (i : nat) (x : txn) : Prop :=
  match m_clones m i with
  | Placed _ y | Failed _ y | Pickling _ y _ | Ready _ y _ | Committing _ y _ => y = x
  | Idle | Open _ _ => False
  end.
(** The files. *)
Definition disk (s : sys) : dir := match s with Up _ d _ | Down d _ => d end.
(** The shards worker [w] is merging. *)
Definition selected (m : mem) (w : nat) (sel : list entry) : Prop :=
  match m_workers m w with WChosen _ l | WPickling _ l _ | WOutput _ l => l = sel | WIdle | WDiscard _ => False end.
(** Steps of the merge workers. *)
Definition background (l : label) : bool :=
  match l with LChoose _ _ _ | LMerge _ | LMergeFail _ | LInstall _ | LDiscard _ | LSide _ _ => true | _ => false end.
