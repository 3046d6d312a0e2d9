(** Property theorems C11 and C12: compression. *)
From Verif Require Import Base Bytes CodecModel CodecSpec CodecProofs BitsProofs.

(** C11: any non-decreasing list of non-negative addresses, of any length. *)
Theorem C11_post_lossless : forall l, ascending 0 l -> Forall (fun a => a <= maxf) l ->
  lossless post_compressor (word_bytes l).
Proof. exact post_lossless. Qed.
Print Assumptions C11_post_lossless.
(** C11: any other list is not compressed to anything, whatever the number of rounds
    the encoding loop is given (with a falling list the real loop does not end). *)
Theorem C11_post_only_ascending : forall n l available b, Forall is_addr l -> ~ ascending 0 l ->
  crush (post_compressor_with n) (word_bytes l) available <> Ok b.
Proof. exact post_only_ascending. Qed.
Print Assumptions C11_post_only_ascending.
Example C11_ex : ascending 0 [0; 5; 5; 132; 9223372036854775807] /\
  crush post_compressor (word_bytes [0; 5; 5; 132; 9223372036854775807]) 47 =
    Ok [0; 5; 0; 127; 251; 254; 255; 255; 255; 255; 255; 255; 127] /\
  ~ ascending 0 [7; 3].
Proof. split; [cbn; lia|]. split; [vm_compute; reflexivity|]. cbn. lia. Qed.

(** C12: the value codec gives back any list of 64-bit values. *)
Theorem C12_tfdf_lossless : forall l, Forall is_addr l -> lossless (tfdf_compressor false) (word_bytes l).
Proof. exact tfdf_lossless. Qed.
Print Assumptions C12_tfdf_lossless.
(** C12: as a component it takes exactly the lists of values from 1 to 2^30. *)
Theorem C12_tfdf_component_lossless : forall l, Forall (fun a => 1 <= a <= 1073741824) l ->
  lossless (tfdf_compressor true) (word_bytes l).
Proof. exact tfdf_component_lossless. Qed.
Print Assumptions C12_tfdf_component_lossless.
Theorem C12_tfdf_component_refuses : forall l available, Forall is_addr l -> l <> [] ->
  2 * len (word_bytes l) + 1 <= available ->
  crush (tfdf_compressor true) (word_bytes l) available = Ok [] <-> ~ Forall (fun a => 1 <= a <= 1073741824) l.
Proof. exact tfdf_component_refuses. Qed.
Print Assumptions C12_tfdf_component_refuses.
(** C12: bits read back from a bit buffer are the bits put in; the buffer takes one
    byte more than the whole bytes. *)
Theorem C12_bits : forall bs : list bool,
  exists b, bo_new (bi_bits (push_all bs bi_new)) (bi_count (push_all bs bi_new)) = Ok b /\
            read_bits (length bs) b = Ok (map Z.b2z bs).
Proof. exact bits_round_trip. Qed.
Print Assumptions C12_bits.
Theorem C12_bits_buffer : forall bs : list bool, len (bi_bits (push_all bs bi_new)) = len bs / 8 + 1.
Proof. exact bits_buffer. Qed.
Print Assumptions C12_bits_buffer.
(** C12: the null and the test compressor, on any bytes. *)
Theorem C12_null_lossless : forall b, Forall is_byte b -> lossless null_compressor b.
Proof. exact null_lossless. Qed.
Print Assumptions C12_null_lossless.
Theorem C12_bad_lossless : forall b, Forall is_byte b -> lossless bad_compressor b.
Proof. exact bad_lossless. Qed.
Print Assumptions C12_bad_lossless.
Example C12_ex :
  crush (tfdf_compressor false) (word_bytes [1; 2; 1073741824]) 49 = Ok [9; 0; 0; 0; 0; 0; 0; 0; 1] /\
  crush (tfdf_compressor false) (word_bytes [1; 0]) 33 = Ok (word_bytes [1; 0]) /\
  crush (tfdf_compressor true) (word_bytes [1; 0]) 33 = Ok [] /\
  match bo_new (bi_bits (push_all [true; false; true; true; false; false; false; true; true] bi_new)) 9 with
  | Ok b => read_bits 9 b = Ok [1; 0; 1; 1; 0; 0; 0; 1; 1]
  | _ => False
  end.
Proof. vm_compute. repeat split; reflexivity. Qed.
