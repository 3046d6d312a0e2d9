(** Specification of compression. *)
From Verif Require Import Base Bytes CodecModel.

(** A 64-bit signed value. *)
Definition is_addr (z : Z) : Prop := minf <= z <= maxf.

(** [lossless c b]: whatever room beyond len + extra the caller provides, [c]
    compresses [b] within that promise, and decompressing the result into any
    room that can hold [b] gives [b] back.  A non-empty input has a non-empty
    result. *)
Definition lossless (c : compressor) (b : bytes) : Prop :=
  forall available, len b + extra c (len b) <= available ->
  exists z, crush c b available = Ok z /\ len z <= len b + extra c (len b) /\ Forall is_byte z /\
            (b <> [] -> z <> []) /\
            forall room, len b <= room -> tang c z room = Ok b.

(** Non-decreasing, from 0. *)
Fixpoint ascending (p : Z) (l : list Z) : Prop :=
  match l with [] => True | a :: r => p <= a /\ ascending a r end.

(** Pushing bits one by one. *)
Definition push_all (bs : list bool) (b : bits_in) : bits_in :=
  fold_left (fun b x => bi_push b (Z.b2z x)) bs b.
(** Reading a bit buffer with front/pop. *)
Fixpoint read_bits (n : nat) (b : bits_out) : res (list Z) :=
  if bo_empty b then Ok [] else
  match n with
  | O => NoFuel
  | S m => let x := bo_bit b in let* b' := bo_pop b in let* l := read_bits m b' in Ok (x :: l)
  end.
