(** What clients of lists that are loaded on first use rely on. *)
From Verif Require Import Base HopperModel ArrayDefs CodecModel PostingModel CacheModel.

Section Spec.
Variable direct : key -> option posting.
Variable deps : key -> list key.
Variable combine : key -> list posting -> posting.
(** Lists are made of lists of lower rank. *)
Variable rank : key -> nat.

(** The list of a feature, if it were computed at once: by induction on the rank. *)
Definition labelled (k : key) (d : posting) : posting :=
  Posting (snd k) (postings d) (qostings d) (fostings d).
Fixpoint value_at (n : nat) (k : key) : posting :=
  match direct k with
  | Some p => p
  | None =>
      match n with
      | O => labelled k (combine k [])
      | S n => labelled k (combine k (map (value_at n) (deps k)))
      end
  end.
Definition value (k : key) : posting := value_at (rank k) k.

(** The next access of a thread to the contents of a shared list: which, and whether it
    writes. *)
Definition touches (t : thread) : option (nat * bool) :=
  match stack t with
  | Write _ r _ _ :: _ => Some (r, true)
  | Merge _ _ (Shared r :: _) _ :: _ => Some (r, false)
  | [] =>
      match calls t with
      | UseAt h :: _ =>
          match nth_error (handles t) h with
          | Some (Handle _ (Shared r) true) => Some (r, false)
          | _ => None
          end
      | _ => None
      end
  | _ => None
  end.
(** Two threads are about to access one list, at least one of them writing. *)
Definition race (s : state) : Prop :=
  exists i j t u r a b, i <> j /\ nth_error (threads s) i = Some t /\ nth_error (threads s) j = Some u /\
    touches t = Some (r, a) /\ touches u = Some (r, b) /\ (a || b)%bool = true.

(** How many steps a program can take. *)
Fixpoint cost_at (n : nat) (k : key) : nat :=
  match n with
  | O => 24
  | S n => 24 + list_sum (map (fun k => 8 + cost_at n k) (deps k))
  end%nat.
Definition cost (k : key) : nat := cost_at (rank k) k.
Definition call_cost (c : call) : nat :=
  match c with AskHopper k | AskPosting k => 10 + cost k | UseAt _ => 13 end%nat.
Definition program_cost (p : list call) : nat := list_sum (map call_cost p).
Definition runs (l : list turn) : nat := length (filter (fun a => match a with Run _ => true | _ => false end) l).
Definition spurious (l : list turn) : nat := length (filter (fun a => match a with Run _ => false | _ => true end) l).

(** The lists a client reads: the features of the calls that read, in order; [have]
    are the features of the hoppers it has. *)
Fixpoint reads_from (have : list key) (p : list call) : list key :=
  match p with
  | [] => []
  | AskHopper k :: p | AskPosting k :: p => reads_from (have ++ [k]) p
  | UseAt h :: p => match nth_error have h with Some k => [k] | None => [] end ++ reads_from have p
  end.
Definition reads (p : list call) : list key := reads_from [] p.
(** What it must see: each of these lists, complete. *)
Definition answers (p : list call) : list (key * posting) := map (fun k => (k, value k)) (reads p).
End Spec.
