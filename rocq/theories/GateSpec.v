(** What the threads that read a file rely on. *)
From Verif Require Import Base HopperModel ArrayDefs Bytes CodecModel PostingModel GateModel.

(** The bytes [o, o + n) of the file, if it has them. *)
Definition part (file : bytes) (o n : Z) : option bytes :=
  if (o <? 0) || (n <? 0) then None else
  if n =? 0 then Some [] else
  if len file <? o + n then None else Some (slice file o n).
(** In the middle of reading: has a permit it has not given back. *)
Definition permitted (t : reader) : bool :=
  match at_ t with Reading _ | Leave _ | Raising _ => true | _ => false end.
Definition inside (s : gate) : nat := length (filter permitted (readers s)).
Definition finished (t : reader) : bool := match todo t, at_ t with [], Outside => true | _, _ => false end.
(** A read that meets no error of the disk. *)
Definition disk_error (a : turn) : bool := match a with Pread _ Failed => true | _ => false end.
(** A turn that is not a thread's own doing. *)
Definition outside_turn (a : turn) : bool := match a with Pread _ Interrupted | Spurious _ => true | _ => false end.
Definition own_turns (l : list turn) : nat := length (filter (fun a => negb (outside_turn a)) l).
Definition outside_turns (l : list turn) : nat := length (filter outside_turn l).
(** How many steps a read can take. *)
Definition read_cost (r : Z * Z) : nat := (9 + Z.to_nat (snd r))%nat.
Definition reads_cost (p : list (Z * Z)) : nat := list_sum (map read_cost p).
