(** Model of HashingFeaturizer, src/hashing_featurizer.cc, and the featurizers around it. *)
From Verif Require Import Base Bytes HopperModel ShardModel.

(** uint64_t and its reading as an addr. *)
Definition wrap64 (z : Z) : Z := z mod 18446744073709551616.
Definition signed64 (u : Z) : Z := if u <? 9223372036854775808 then u else u - 18446744073709551616.
(** A union with a char array: the bytes, least significant first. *)
Fixpoint pack (s : bytes) : Z := match s with [] => 0 | c :: r => c + 256 * pack r end.
Fixpoint unpack (n : nat) (v : Z) : bytes := match n with O => [] | S m => v mod 256 :: unpack m (v / 256) end.

(** hashing_featurizer.cc:13-58: MurmurHash64A (for fewer than 2^31 bytes). *)
Definition mur_m : Z := 14313749767032793493.
Definition mur_mul (h : Z) : Z := wrap64 (h * mur_m).
Definition mur_mix (h : Z) : Z := Z.lxor h (Z.shiftr h 47).
Fixpoint mur_blocks (n : nat) (s : bytes) (h : Z) : Z * bytes :=
  match n with
  | O => (h, s)
  | S n => let k := mur_mul (mur_mix (mur_mul (pack (firstn 8 s)))) in
           mur_blocks n (skipn 8 s) (mur_mul (Z.lxor h k))
  end.
Definition murmur (s : bytes) (seed : Z) : Z :=
  let n := Z.of_nat (length s) in
  let (h, r) := mur_blocks (Z.to_nat (n / 8)) s (Z.lxor seed (wrap64 (n * mur_m))) in
  let h := match r with [] => h | _ => mur_mul (Z.lxor h (pack r)) end in
  mur_mix (mur_mul (mur_mix h)).

(** hashing_featurizer.cc:64-89 *)
Definition try_digit (c : Z) : Z := if (48 <=? c) && (c <=? 57) then c - 48 else minf.
(** hashing_featurizer.cc:91-110; u.v is compared unsigned. *)
Fixpoint try_digits (s : bytes) (v : Z) : Z :=
  match s with
  | [] => v
  | c :: r =>
      let d := try_digit c in
      if d <? 0 then minf
      else if (v <? maxf / 10) || ((v =? maxf / 10) && (d <=? maxf mod 10)) then try_digits r (10 * v + d)
      else minf
  end.
Definition try_literal (s : bytes) : Z := match s with [] => minf | _ => try_digits s 0 end.
(** hashing_featurizer.cc:115-140: featurize_; negating the least addr is undefined. *)
Definition featurize_hash (s : bytes) : res Z :=
  let h := signed64 (murmur s 588503011) in
  let* a := if 0 <? h then Ok h else chk (- h) in
  Ok (Z.lor a 72057594037927936).
Definition featurize (s : bytes) : res Z :=
  match s with
  | [] => Ok null_feature
  | c :: r =>
      let l := if c =? 35 then try_literal r else minf in
      if 0 <=? l then Ok l
      else if Z.of_nat (length s) <? 8 then Ok (pack s)
      else featurize_hash s
  end.
(** A C string: up to the first NUL. *)
Fixpoint c_str (s : bytes) : bytes := match s with [] => [] | c :: r => if c =? 0 then [] else c :: c_str r end.
(** hashing_featurizer.cc:142-154: translate_ *)
Definition feature_name (f : Z) : bytes :=
  if f =? null_feature then lit "#0"
  else let s := unpack 8 (wrap64 f) in
       if negb (nth 7 s 0 =? 0) then 35 :: dec f else c_str s.
(** tagging_featurizer.h:33-36, with the tag_ of line 26. *)
Definition tagging (tag key : bytes) : res Z := featurize ((tag ++ lit ":") ++ key).
