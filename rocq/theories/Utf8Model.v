(** Model of the UTF-8 tokenizer, src/utf8_tokenizer.cc.  A pointer into the buffer is
    the rest of the buffer from there; [k] is the number of bytes of the current
    codepoint still to be passed over by "s = t". *)
From Verif Require Import Base Bytes TokenModel Utf8Table.

(** utf8_tokenizer.cc:150-168 *)
Definition utf8 (cp : Z) : bytes :=
  if cp <=? 127 then [cp]
  else if cp <=? 2047 then [Z.lor (Z.shiftr cp 6) 192; Z.lor (Z.land cp 63) 128]
  else if cp <=? 65535 then
    [Z.lor (Z.shiftr cp 12) 224; Z.lor (Z.land (Z.shiftr cp 6) 63) 128; Z.lor (Z.land cp 63) 128]
  else if cp <=? 2097151 then
    [Z.lor (Z.shiftr cp 18) 240; Z.lor (Z.land (Z.shiftr cp 12) 63) 128; Z.lor (Z.land (Z.shiftr cp 6) 63) 128;
     Z.lor (Z.land cp 63) 128]
  else [32].

(** utf8_tokenizer.cc:192-230: the codepoint and the number of bytes taken.  "t > e": not
    enough bytes left.  It is never called at the end of the buffer. *)
Definition unicode (s : bytes) : Z * nat :=
  match s with
  | [] => (32, 1%nat)
  | a :: r =>
      if Z.land a 128 =? 0 then (a, 1%nat)
      else if Z.land a 224 =? 192 then
        match r with
        | b :: _ => (Z.lor (Z.shiftl (Z.land a 31) 6) (Z.land b 63), 2%nat)
        | _ => (32, 1%nat)
        end
      else if Z.land a 240 =? 224 then
        match r with
        | b :: c :: _ => (Z.lor (Z.lor (Z.shiftl (Z.land a 15) 12) (Z.shiftl (Z.land b 63) 6)) (Z.land c 63), 3%nat)
        | _ => (32, 1%nat)
        end
      else if Z.land a 248 =? 240 then
        match r with
        | b :: c :: d :: _ =>
            (Z.lor (Z.lor (Z.lor (Z.shiftl (Z.land a 7) 18) (Z.shiftl (Z.land b 63) 12)) (Z.shiftl (Z.land c 63) 6)) (Z.land d 63), 4%nat)
        | _ => (32, 1%nat)
        end
      else (32, 1%nat)
  end.

(** What actions_[codepoint] points at: nothing, action_token_, action_unigram_, or the
    bytes of a folded codepoint. *)
Inductive action := Nontoken | InToken | Unigram | Fold (p : bytes).

(** utf8_tokenizer.cc:318-328: folds_, and offset.  No src occurs twice, so the entry
    found first is the one assigned last. *)
Fixpoint fold_offsets (l : list (Z * Z)) (n : Z) : list (Z * Z) :=
  match l with
  | [] => []
  | (src, dst) :: r => (src, n) :: fold_offsets r (n + Z.of_nat (length (utf8 dst)))
  end.
Definition folds : bytes := flat_map (fun f => utf8 (snd f)) compressed_folds ++ [0].
Fixpoint lookup (l : list (Z * Z)) (x : Z) : Z :=
  match l with [] => 0 | (a, b) :: r => if a =? x then b else lookup r x end.
(** utf8_tokenizer.cc:329-353: what [cp] is in compressed_actions, and actions_.  Both
    unigrams and bigrams are action_unigram_, so the branches for action_bigram_ and
    the state ACTION_BIGRAM below are never taken and left out. *)
Fixpoint run_at (l : list (Z * Z)) (cp : Z) : Z :=
  match l with [] => 0 | (n, a) :: r => if cp <? n then a else run_at r (cp - n) end.
Definition fold_ptr (cp : Z) : bytes := skipn (Z.to_nat (lookup (fold_offsets compressed_folds 0) cp)) folds.
Definition actions (cp : Z) : action :=
  let a := run_at compressed_actions cp in
  if a =? 0 then Nontoken
  else if a =? 1 then InToken
  else if a =? 2 then Fold (fold_ptr cp)
  else Unigram.
(** utf8_tokenizer.cc:421-423: for (push( *action++); ( *action & 0xC0) == 0x80; push( *action++)) *)
Definition continues (c : Z) : bool := Z.land c 192 =? 128.
Definition folded (p : bytes) : bytes :=
  match p with [] => [] | c :: r => c :: firstn (run_of continues r) r end.

Section Tokenizer.
Variable featurize : bytes -> Z.
(** utf8_tokenizer.cc:382-511.  [state] is None in ACTION_NONTOKEN, and the token so far
    and its offset in ACTION_TOKEN. *)
Fixpoint utokenize_from (s : bytes) (k : nat) (off address : Z) (state : option (bytes * Z)) : list token :=
  match s with
  | [] => match state with
          | Some (tok, offset) => [Token (featurize tok) address offset (off - offset)]
          | None => []
          end
  | c :: r =>
      match k with
      | S k => utokenize_from r k (off + 1) address state
      | O =>
          let n := snd (unicode s) in
          let t := firstn n s in
          match state, actions (fst (unicode s)) with
          | None, Nontoken => utokenize_from r (n - 1) (off + 1) address None
          | None, InToken => utokenize_from r (n - 1) (off + 1) address (Some (t, off))
          | None, Unigram => Token (featurize t) address off (Z.of_nat n) :: utokenize_from r (n - 1) (off + 1) (address + 1) None
          | None, Fold p => utokenize_from r (n - 1) (off + 1) address (Some (folded p, off))
          | Some (tok, offset), Nontoken =>
              Token (featurize tok) address offset (off - offset) :: utokenize_from r (n - 1) (off + 1) (address + 1) None
          | Some (tok, offset), InToken => utokenize_from r (n - 1) (off + 1) address (Some (tok ++ t, offset))
          | Some (tok, offset), Unigram =>
              Token (featurize tok) address offset (off - offset) ::
              Token (featurize t) (address + 1) off (Z.of_nat n) :: utokenize_from r (n - 1) (off + 1) (address + 1 + 1) None
          | Some (tok, offset), Fold p => utokenize_from r (n - 1) (off + 1) address (Some (tok ++ folded p, offset))
          end
      end
  end.
Definition utokenize (s : bytes) : list token := utokenize_from s 0 0 0 None.
End Tokenizer.

(** utf8_tokenizer.cc:513-572; [inside] is ACTION_TOKEN, the answer is an offset. *)
Fixpoint uskip_from (s : bytes) (k : nat) (off n : Z) (inside : bool) : Z :=
  match s with
  | [] => off
  | c :: r =>
      match k with
      | S k => uskip_from r k (off + 1) n inside
      | O =>
          let m := (snd (unicode s) - 1)%nat in
          match inside, actions (fst (unicode s)) with
          | false, Nontoken => uskip_from r m (off + 1) n false
          | false, InToken => if n <=? 0 then off else uskip_from r m (off + 1) n true
          | false, Unigram => if n <=? 0 then off else uskip_from r m (off + 1) (n - 1) false
          | false, Fold _ => if n <=? 0 then off else uskip_from r m (off + 1) n true
          | true, Nontoken => uskip_from r m (off + 1) (n - 1) false
          | true, InToken => uskip_from r m (off + 1) n true
          | true, Unigram => if n - 1 <=? 0 then off else uskip_from r m (off + 1) (n - 1 - 1) false
          | true, Fold _ => uskip_from r m (off + 1) n true
          end
      end
  end.
Definition uskip (s : bytes) (n : Z) : Z := uskip_from s 0 0 n false.

(** utf8_tokenizer.cc:574-677; "while ( *s)" ends at a NUL. *)
Fixpoint usplit_from (s : bytes) (k : nat) (state : option bytes) : list bytes :=
  match s with
  | [] => match state with Some tok => [tok] | None => [] end
  | c :: r =>
      match k with
      | S k => usplit_from r k state
      | O =>
          if c =? 0 then match state with Some tok => [tok] | None => [] end
          else
          let n := snd (unicode s) in
          let t := firstn n s in
          match state, actions (fst (unicode s)) with
          | None, Nontoken => usplit_from r (n - 1) None
          | None, InToken => usplit_from r (n - 1) (Some t)
          | None, Unigram => t :: usplit_from r (n - 1) None
          | None, Fold p => usplit_from r (n - 1) (Some (folded p))
          | Some tok, Nontoken => tok :: usplit_from r (n - 1) None
          | Some tok, InToken => usplit_from r (n - 1) (Some (tok ++ t))
          | Some tok, Unigram => tok :: t :: usplit_from r (n - 1) None
          | Some tok, Fold p => usplit_from r (n - 1) (Some (tok ++ folded p))
          end
      end
  end.
Definition usplit (s : bytes) : list bytes := usplit_from s 0 None.
