(** Specification vocabulary for tokenizers. *)
From Verif Require Import Base Bytes TokenModel.

(** One token of a text: where it is, how long, and the term it is searched by. *)
Record word := Word { w_offset : Z; w_length : Z; w_term : bytes }.
(** The words lie in the text [n] bytes long, in order, apart, from offset [o] on. *)
Fixpoint laid_out (o : Z) (ws : list word) (n : Z) : Prop :=
  match ws with
  | [] => o <= n
  | w :: r => o <= w_offset w /\ 0 < w_length w /\ laid_out (w_offset w + w_length w) r n
  end.
(** What tokenize reports for word [w] at address [a]: first the term itself, then
    perhaps more features, all at its place. *)
Definition reports (featurize : bytes -> Z) (a : Z) (w : word) (g : list token) : Prop :=
  exists more, g = Token (featurize (w_term w)) a (w_offset w) (w_length w) :: more /\
    Forall (fun t => t_address t = a /\ t_offset t = w_offset w /\ t_length t = w_length w) more.
Fixpoint reported (featurize : bytes -> Z) (a : Z) (ws : list word) (toks : list token) : Prop :=
  match ws with
  | [] => toks = []
  | w :: r => exists g rest, toks = g ++ rest /\ reports featurize a w g /\ reported featurize (a + 1) r rest
  end.

(** The letters A to Z and a to z, the digits 0 to 9; the capital letters. *)
Definition letter_or_digit (c : Z) : bool :=
  ((65 <=? c) && (c <=? 90)) || ((97 <=? c) && (c <=? 122)) || ((48 <=? c) && (c <=? 57)).
Definition capital (c : Z) : bool := (65 <=? c) && (c <=? 90).
(** Byte [i] of a text. *)
Definition byte_at (s : bytes) (i : Z) (c : Z) : Prop := 0 <= i /\ nth_error s (Z.to_nat i) = Some c.
(** [o, o + n) is a longest run of letters and digits. *)
Definition is_word (s : bytes) (o n : Z) : Prop :=
  0 <= o /\ 0 < n /\ o + n <= Z.of_nat (length s) /\
  (forall i c, o <= i < o + n -> byte_at s i c -> letter_or_digit c = true) /\
  (forall c, byte_at s (o - 1) c -> letter_or_digit c = false) /\
  (forall c, byte_at s (o + n) c -> letter_or_digit c = false).
(** Lower case of a text. *)
Definition lower_char (c : Z) : Z := if capital c then c + 32 else c.
(** The bytes of a range of a text. *)
Definition slice (s : bytes) (o n : Z) : bytes := firstn (Z.to_nat n) (skipn (Z.to_nat o) s).
(** Some letter after the first is upper case. *)
Definition mixed_case (w : bytes) : Prop := exists c, In c (tl w) /\ capital c = true.
(** The features word [w] of text [s] is indexed by: its lower case form, and as written
    when mixed. *)
Definition word_feature (featurize : bytes -> Z) (s : bytes) (w : word) (f : Z) : Prop :=
  let t := slice s (w_offset w) (w_length w) in
  f = featurize (map lower_char t) \/ (mixed_case t /\ f = featurize t).
(** A byte no token crosses, and texts that end in one. *)
Definition stops (xml : bool) (c : Z) : Prop := if xml then c = 10 else letter_or_digit c = false.
Definition ascii_ends (xml : bool) (s : bytes) : Prop := stops xml (last s 0).
