(** Specification of the files of a working directory. *)
From Verif Require Import Base Bytes CodecModel CodecSpec WorkModel.

(** The [amount] bytes of [text] from [pos] on, or as many as there are. *)
Definition part (text : bytes) (pos amount : Z) : bytes := firstn (Z.to_nat amount) (skipn (Z.to_nat pos) text).
(** What a reader answers: each request goes on where the last one ended, or from where it says. *)
Fixpoint served (text : bytes) (pos : Z) (requests : list request) : list bytes :=
  match requests with
  | [] => []
  | Next n :: r => let b := part text pos n in b :: served text (pos + len b) r
  | From w n :: r => let b := part text w n in b :: served text (w + len b) r
  end.
(** Amounts and positions below [b]. *)
Definition below (b : Z) (q : request) : Prop :=
  match q with Next n => 0 <= n < b | From w n => 0 <= w < b /\ 0 <= n < b end.
Definition in_turn (q : request) : Prop := match q with Next n => 0 <= n | From _ _ => False end.
Definition plain_recipes : list bytes := [[]; lit "file"; lit "full"].
Definition compressed_recipes : list bytes := [lit "compressed"; lit "compression test"].
(** A compressor without loss, whose promise of room grows with the length, and keeps below 2^62. *)
Definition good_zlib (c : compressor) : Prop :=
  (forall b, Forall is_byte b -> lossless c b) /\
  (forall n m, 0 <= n <= m -> m <= compressed_available -> 0 <= extra c n /\ n + extra c n <= m + extra c m) /\
  compressed_available + extra c compressed_available < 2 ^ 62.
