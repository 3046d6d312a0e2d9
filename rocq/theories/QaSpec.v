(** What feedback for question answering is to do. *)
From Verif Require Import Base Bytes RankModel RankerModel RankerSpec.

(** The tokens of a text, each with its gap. *)
Fixpoint numbered (gap : Z -> Z) (i : Z) (tokens : list bytes) : list (bytes * Z) :=
  match tokens with [] => [] | t :: rest => (t, gap i) :: numbered gap (i + 1) rest end.
(** The smallest gap of a token. *)
Definition nearest (t : bytes) (l : list (bytes * Z)) : option Z :=
  match map snd (filter (fun x => eqb_bytes (fst x) t) l) with [] => None | g :: gs => Some (fold_left Z.min gs g) end.

Section Spec.
Context {F : Type} (one : F) (add : F -> F -> F) (lt : F -> F -> bool).
Context (translate : Z -> Z -> bytes) (wsplit : bytes -> list bytes) (expect : bytes -> Z -> F) (gain : F -> F -> F).
(** The tokens from [p] to [q]. *)
Definition tokens_of (p q : Z) : list bytes := if p <=? q then wsplit (translate p q) else [].
(** The tokens before, in and after a passage, within its container, with their gaps: the
    number of tokens from there to the far end of the passage; in the passage, all its
    tokens; after it, those between its start and there less one. *)
Definition tokens_around (window : Z) (r : @result F) : list (bytes * Z) :=
  let before := tokens_of (Z.max (rp r - window) (rcp r)) (Z.max (rp r - 1) (rcp r)) in
  numbered (fun i => Z.of_nat (length before) - i + rq r - rp r) 0 before ++
  numbered (fun _ => rq r - rp r + 1) 0 (tokens_of (rp r) (rq r)) ++
  numbered (fun i => rq r - rp r + i) 0 (tokens_of (Z.min (rq r + 1) (rcq r)) (Z.min (rq r + window) (rcq r))).
(** The gaps of a token at the passages it is near. *)
Definition gaps_of (window : Z) (passages : list (@result F)) (t : bytes) : list Z :=
  flat_map (fun r => match nearest t (tokens_around window r) with Some g => [g] | None => [] end) passages.
(** The terms that may be chosen: near more than one passage; with what they are worth. *)
Definition qa_candidate (window : Z) (passages : list (@result F)) (t : bytes) (v : F) : Prop :=
  exists g gs, gaps_of window passages t = g :: gs /\ lt one (times one add (S (length gs))) = true /\
    v = gain (times one add (S (length gs))) (total add (expect t g) (map (expect t) gs)).
End Spec.
