(** Model of the compressors: compressor.h, null_compressor.h, bad_compressor.h,
    post_compressor.cc, bits.h, tfdf_compressor.cc (src/).  zlib_compressor.cc
    calls the zlib library and is not modelled; theorems that mention "a
    compressor" hold for any that meets the stated law. *)
From Verif Require Import Base Bytes.

(** * Memory: 64-bit little-endian words (the reinterpret_cast<addr *> of the
    codecs, post_compressor.cc:69, tfdf_compressor.cc:54; little endian is the
    layout of the supported platforms). *)
Fixpoint le_bytes (n : nat) (z : Z) : bytes :=
  match n with O => [] | S m => z mod 256 :: le_bytes m (z / 256) end.
Fixpoint le_val (b : bytes) : Z :=
  match b with [] => 0 | c :: r => c + 256 * le_val r end.
(** The eight bytes of an addr, and the addr of eight bytes (two's complement). *)
Definition addr_bytes (z : Z) : bytes := le_bytes 8 z.
Definition addr_of (b : bytes) : Z :=
  let u := le_val b in if maxf <? u then u - 18446744073709551616 else u.
(** An array of addr as bytes, and back; a last incomplete word is ignored
    (length / sizeof(addr)). *)
Definition word_bytes (l : list Z) : bytes := flat_map addr_bytes l.
Fixpoint words (b : bytes) : list Z :=
  match b with
  | a0 :: a1 :: a2 :: a3 :: a4 :: a5 :: a6 :: a7 :: r =>
      addr_of [a0; a1; a2; a3; a4; a5; a6; a7] :: words r
  | _ => []
  end.
Definition len {A} (l : list A) : Z := Z.of_nat (length l).

(** * compressor.h:18-64.  crush_ and tang_ get the available room and return the
    bytes written; a failed assertion or an access outside the input is [UB]. *)
Record compressor := Compressor {
  crush_ : bytes -> Z -> res bytes;
  tang_ : bytes -> Z -> res bytes;
  extra : Z -> Z
}.
(** compressor.h:27-34 *)
Definition crush (c : compressor) (b : bytes) (available : Z) : res bytes :=
  if available <? len b + extra c (len b) then UB
  else match b with [] => Ok [] | _ => crush_ c b available end.
(** compressor.h:35-40 *)
Definition tang (c : compressor) (b : bytes) (available : Z) : res bytes :=
  match b with [] => Ok [] | _ => tang_ c b available end.

(** null_compressor.h:39-48 *)
Definition take_bytes (n : Z) (b : bytes) : bytes := firstn (Z.to_nat n) b.
Definition null_compressor : compressor :=
  Compressor (fun b a => Ok (take_bytes (Z.min (len b) a) b))
             (fun b a => Ok (take_bytes (Z.min (len b) a) b)) (fun _ => 0).

(** bad_compressor.h:37-55 *)
Fixpoint bad_halve (b : bytes) : res bytes :=
  match b with
  | [] => Ok []
  | x :: y :: r => if x =? y then let* t := bad_halve r in Ok (x :: t) else UB
  | [_] => UB
  end.
Definition bad_compressor : compressor :=
  Compressor (fun b a => if a <? 2 * len b then UB else Ok (flat_map (fun c => [c; c]) b))
             (fun b a => if (len b mod 2 =? 0) && (len b / 2 <=? a) then bad_halve b else UB)
             (fun n => n).

(** * post_compressor.cc:11-20: seven bits at a time, least significant first; the
    do-while loop gets at most [n] rounds.  (A char holds the byte: the sign
    extension of [*in++] only affects bits that & 0x7F and & 0x80 discard.) *)
Fixpoint encode_1 (n : nat) (delta : Z) : res bytes :=
  match n with
  | O => NoFuel
  | S m =>
      let seven := Z.land delta 127 in
      let delta := Z.shiftr delta 7 in
      if delta =? 0 then Ok [seven]
      else let* r := encode_1 m delta in Ok (Z.lor seven 128 :: r)
  end.
(** post_compressor.cc:22-33 *)
Fixpoint encode_all (n : nat) (previous : Z) (l : list Z) : res bytes :=
  match l with
  | [] => Ok []
  | a :: r =>
      let* d := chk (a - previous) in
      let* b := encode_1 n d in
      let* t := encode_all n a r in Ok (b ++ t)
  end.
(** post_compressor.cc:35-47: reads past the end of the input and shifts that do
    not fit are undefined. *)
Fixpoint decode_1 (b : bytes) (working shift : Z) : res (Z * bytes) :=
  match b with
  | [] => UB
  | c :: r =>
      if 63 <? shift then UB else
      let* piece := chk (Z.shiftl (Z.land c 127) shift) in
      let working := Z.lor working piece in
      if Z.land c 128 =? 0 then Ok (working, r) else decode_1 r working (shift + 7)
  end.
(** post_compressor.cc:49-63: [n] is the room in the output list. *)
Fixpoint decode_all (n : nat) (b : bytes) (value : Z) : res (list Z) :=
  match b with
  | [] => Ok []
  | _ =>
      match n with
      | O => UB
      | S m =>
          let* (delta, r) := decode_1 b 0 0 in
          let* value := chk (value + delta) in
          let* l := decode_all m r value in Ok (value :: l)
      end
  end.
(** post_compressor.cc:67-79, post_compressor.h:41 *)
Definition post_compressor_with (n : nat) : compressor :=
  Compressor (fun b _ => encode_all n 0 (words b))
             (fun b a => let* l := decode_all (Z.to_nat (a / 8)) b 0 in Ok (word_bytes l))
             (fun n => n / 8 + 2).
(** Nine rounds encode every non-negative addr. *)
Definition post_compressor : compressor := post_compressor_with 9.

(** * bits.h:8-46: BitsIn; [bi_out] is what has been written from start_ to next_. *)
Record bits_in := BitsIn { bi_count : Z; bi_mask : Z; bi_cur : Z; bi_out : bytes }.
Definition bi_new : bits_in := BitsIn 0 1 0 [].
(** bits.h:13-23; mask_ and current_ are unsigned char. *)
Definition bi_push (b : bits_in) (bit : Z) : bits_in :=
  let cur := if bit =? 0 then bi_cur b else Z.lor (bi_cur b) (bi_mask b) in
  let count := bi_count b + 1 in
  if count mod 8 =? 0 then BitsIn count 1 0 (bi_out b ++ [cur])
  else BitsIn count (Z.shiftl (bi_mask b) 1 mod 256) cur (bi_out b).
(** bits.h:25-28: the finished buffer (one byte past the whole ones is written). *)
Definition bi_bits (b : bits_in) : bytes := bi_out b ++ [bi_cur b].

(** bits.h:48-79: BitsOut; [bo_next] is the rest of the buffer from next_. *)
Record bits_out := BitsOut { bo_count : Z; bo_front : Z; bo_next : bytes; bo_cur : Z }.
Definition bo_new (b : bytes) (count : Z) : res bits_out :=
  if 0 <? count then
    match b with [] => UB | c :: r => Ok (BitsOut count 0 r c) end
  else Ok (BitsOut 0 0 b 0).
Definition bo_bit (b : bits_out) : Z := Z.land (bo_cur b) 1.
Definition bo_empty (b : bits_out) : bool := bo_count b <=? bo_front b.
Definition bo_pop (b : bits_out) : res bits_out :=
  let f := bo_front b + 1 in
  if bo_count b <=? f then Ok (BitsOut (bo_count b) f (bo_next b) 0)
  else if f mod 8 =? 0 then
         match bo_next b with [] => UB | c :: r => Ok (BitsOut (bo_count b) f r c) end
       else Ok (BitsOut (bo_count b) f (bo_next b) (Z.shiftr (bo_cur b) 1)).

(** * tfdf_compressor.cc:14 *)
Definition TFDF_BIG : Z := 1073741824.
(** tfdf_compressor.cc:19-24: the index of the highest bit of [a] among bits
    [i .. i+n-1], [j] so far. *)
Fixpoint high_bit (n : nat) (a i j : Z) : Z :=
  match n with
  | O => j
  | S m => high_bit m a (i + 1) (if Z.testbit a i then i else j)
  end.
(** tfdf_compressor.cc:25-29 *)
Fixpoint push_addr (j : nat) (a : Z) (b : bits_in) : bits_in :=
  match j with
  | O => bi_push b 1
  | S m => push_addr m (Z.shiftr a 1) (bi_push (bi_push b 0) (Z.land a 1))
  end.
(** tfdf_compressor.cc:16-32 *)
Definition crush_addr (a : Z) (b : bits_in) : option bits_in :=
  if (a <=? 0) || (TFDF_BIG <? a) then None
  else Some (push_addr (Z.to_nat (high_bit 31 a 0 0)) a b).
(** tfdf_compressor.cc:34-47: the loop gets [n] rounds; a mask that leaves 63 bits
    is undefined. *)
Fixpoint tang_addr (n : nat) (b : bits_out) (a mask : Z) : res (Z * bits_out) :=
  match n with
  | O => NoFuel
  | S m =>
      if bo_bit b =? 0 then
        let* b1 := bo_pop b in
        let a := if bo_bit b1 =? 1 then Z.lor a mask else a in
        let* mask := chk (Z.shiftl mask 1) in
        let* b2 := bo_pop b1 in tang_addr m b2 a mask
      else
        let* b1 := bo_pop b in Ok (Z.lor a mask, b1)
  end.

(** tfdf_compressor.cc:54-62 *)
Fixpoint crush_addrs (l : list Z) (b : bits_in) : option bits_in :=
  match l with
  | [] => Some b
  | a :: r => match crush_addr a b with Some b' => crush_addrs r b' | None => None end
  end.
(** tfdf_compressor.cc:63-64; seven rounds suffice. *)
Fixpoint bi_pad (n : nat) (b : bits_in) : bits_in :=
  match n with
  | O => b
  | S m => if bi_count b mod 8 =? 0 then b else bi_pad m (bi_push b 0)
  end.
(** tfdf_compressor.cc:50-70 *)
Definition tfdf_crush (component : bool) (inp : bytes) : res bytes :=
  if negb (len inp mod 8 =? 0) then UB else
  match crush_addrs (words inp) bi_new with
  | None => if component then Ok [] else Ok inp
  | Some b =>
      let b := bi_pad 7 b in
      let n := bi_count b / 8 in
      let out := take_bytes n (bi_bits b) in
      if negb component && (n mod 8 =? 0) then Ok (out ++ [0]) else Ok out
  end.
(** tfdf_compressor.cc:85-89: position after the highest set bit of the last
    byte; the assertion makes eight rounds enough. *)
Fixpoint last_count (n : nat) (c mask count : Z) : res Z :=
  match n with
  | O => NoFuel
  | S m => if Z.land c mask =? 0 then last_count m c (Z.shiftr mask 1) (count - 1) else Ok count
  end.
(** tfdf_compressor.cc:92-93 *)
Fixpoint tang_addrs (n : nat) (b : bits_out) : res (list Z) :=
  if bo_empty b then Ok [] else
  match n with
  | O => NoFuel
  | S m =>
      let* (a, b') := tang_addr (S n) b 0 1 in
      let* l := tang_addrs m b' in Ok (a :: l)
  end.
(** tfdf_compressor.cc:72-95; [available] is ignored by the code.  The loops get
    as many rounds as there are bits. *)
Definition tfdf_tang (component : bool) (inp : bytes) : res bytes :=
  if negb component && (len inp mod 8 =? 0) then Ok inp else
  let* c0 := idx inp (len inp - 1) in
  let inp := if negb component && (c0 =? 0) then removelast inp else inp in
  let* c := idx inp (len inp - 1) in
  if c =? 0 then UB else
  let* count := last_count 8 c 128 (8 * len inp) in
  let* b := bo_new inp count in
  let* l := tang_addrs (Z.to_nat count) b in Ok (word_bytes l).
(** tfdf_compressor.h:13-50 *)
Definition tfdf_compressor (component : bool) : compressor :=
  Compressor (fun b _ => tfdf_crush component b) (fun b _ => tfdf_tang component b) (fun n => n + 1).
