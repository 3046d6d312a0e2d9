(** What a random ranking is, independent of its code. *)
From Verif Require Import Base HopperModel RankModel.

Section Spec.
Context {F : Type} (zero : F) (lt : F -> F -> bool) (draw : nat -> option F).
(** The containers with the numbers drawn for them, those above zero. *)
Fixpoint drawn (i : nat) (cs : list iv) : list (result (F := F)) :=
  match cs with
  | [] => []
  | c :: rest =>
      match draw i with
      | Some s => if lt zero s then [res3 (ip c) (iq c) s] else []
      | None => []
      end ++ drawn (S i) rest
  end.
End Spec.
