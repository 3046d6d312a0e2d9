(** What the threads that read chunks of text rely on. *)
From Verif Require Import Base Bytes ObtainModel.

Definition finished (t : user) : bool := match todo t, at_ t with [], _ => true | _, _ => false end.
(** About to access the bytes of a chunk: which, and whether it writes. *)
Definition touches (t : user) : option (nat * bool) :=
  match todo t, at_ t with
  | k :: _, Put _ => Some (k, true)
  | k :: _, Use => Some (k, false)
  | _, _ => None
  end.
(** Two threads are about to access one chunk, at least one of them writing. *)
Definition race (s : text) : Prop :=
  exists i j t u k a b, i <> j /\ nth_error (users s) i = Some t /\ nth_error (users s) j = Some u /\
    touches t = Some (k, a) /\ touches u = Some (k, b) /\ (a || b)%bool = true.
(** A read of the file failed. *)
Definition failed (a : turn) : bool := let 'Run _ ok := a in negb ok.
