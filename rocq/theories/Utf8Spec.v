(** Specification vocabulary for UTF-8 text. *)
From Verif Require Import Base Bytes Utf8Table.

(** Codepoints of up to 21 bits and their UTF-8 encoding (RFC 3629, table in section 3). *)
Definition codepoint (c : Z) : Prop := 0 <= c < 2097152.
Definition encode_one (c : Z) : bytes :=
  if c <? 128 then [c]
  else if c <? 2048 then [192 + c / 64; 128 + c mod 64]
  else if c <? 65536 then [224 + c / 4096; 128 + c / 64 mod 64; 128 + c mod 64]
  else [240 + c / 262144; 128 + c / 4096 mod 64; 128 + c / 64 mod 64; 128 + c mod 64].
Definition encode (cs : list Z) : bytes := flat_map encode_one cs.
(** How many bytes the codepoint that starts with byte [b] has; other bytes stand alone. *)
Definition unit_length (b : Z) : nat :=
  if b <? 192 then 1 else if b <? 224 then 2 else if b <? 240 then 3 else if b <? 248 then 4 else 1.
(** Texts in which no codepoint is cut off at the end. *)
Inductive complete : bytes -> Prop :=
| Complete_nil : complete []
| Complete_unit : forall b r t, length r = (unit_length b - 1)%nat -> complete t -> complete (b :: r ++ t).
(** Complete texts with one more byte, an ASCII character but no letter or digit. *)
Definition ascii_other (x : Z) : Prop :=
  0 <= x < 128 /\ ~ (48 <= x <= 57) /\ ~ (65 <= x <= 90) /\ ~ (97 <= x <= 122).
Definition utf8_ends (t : bytes) : Prop := exists u x, t = u ++ [x] /\ Forall is_byte u /\ complete u /\ ascii_other x.

(** What the table says about a codepoint: the run of the table it is in. *)
Inductive kind_is : list (Z * Z) -> Z -> Z -> Prop :=
| Kind_here : forall n a r c, 0 <= c < n -> kind_is ((n, a) :: r) c a
| Kind_later : forall n a r c b, kind_is r c b -> kind_is ((n, a) :: r) (c + n) b.
Definition letter (c : Z) : Prop := kind_is compressed_actions c 1 \/ kind_is compressed_actions c 2.
Definition symbol (c : Z) : Prop := kind_is compressed_actions c 3 \/ kind_is compressed_actions c 4.
(** [d] is the folded form of [c]. *)
Definition folds_to (c d : Z) : Prop :=
  (kind_is compressed_actions c 2 /\ In (c, d) compressed_folds) \/ (~ kind_is compressed_actions c 2 /\ d = c).
(** The [n] codepoints from number [i] on: a longest run of letters, or one symbol. *)
Definition is_term (cs : list Z) (i n : nat) : Prop :=
  (n = 1%nat /\ exists c, nth_error cs i = Some c /\ symbol c) \/
  ((0 < n)%nat /\ (forall j, (i <= j < i + n)%nat -> exists c, nth_error cs j = Some c /\ letter c) /\
   (forall j c, i = S j -> nth_error cs j = Some c -> ~ letter c) /\
   (forall c, nth_error cs (i + n) = Some c -> ~ letter c)).
Definition part (cs : list Z) (i n : nat) : list Z := firstn n (skipn i cs).
