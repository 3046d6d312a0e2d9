(** Model of the ASCII tokenizer, src/ascii_tokenizer.cc.  A pointer into the buffer is
    the rest of the buffer from there and its offset; [k] is the number of bytes a loop
    has already passed over.  The inner for and the outer for(;;) of each function are
    one recursion: the inner loop ends at a letter or digit, the outer one after it. *)
From Verif Require Import Base Bytes.

(** ascii_tokenizer.cc:15-31.  Bytes from 128 up are negative chars and in no class. *)
Definition alphabetic (c : Z) : bool := ((65 <=? c) && (c <=? 90)) || ((97 <=? c) && (c <=? 122)).
Definition alphanumeric (c : Z) : bool := alphabetic c || ((48 <=? c) && (c <=? 57)).
Definition tolower (c : Z) : Z := Z.lor c 32.
Definition isupper (c : Z) : bool := (65 <=? c) && (c <=? 90).
Definition tag_initial (c : Z) : bool := alphabetic c || (c =? 95).
Definition tag_character (c : Z) : bool := alphanumeric c || (c =? 45) || (c =? 95) || (c =? 46).

(** for (; q != last && f of the byte at q; q++): how far q moves. *)
Fixpoint run_of (f : Z -> bool) (s : bytes) : nat :=
  match s with [] => O | c :: r => if f c then S (run_of f r) else O end.
Definition in_tag (c : Z) : bool := negb (c =? 10) && negb (c =? 62).
Definition in_entity (c : Z) : bool := negb (c =? 32) && negb (c =? 10) && negb (c =? 59).
Definition uppers (w : bytes) : nat := length (filter isupper (tl w)).

(** core.h:91-97 *)
Record token := Token { t_feature : Z; t_address : Z; t_offset : Z; t_length : Z }.

Section Ascii.
(** Featurizer::featurize and xml_. *)
Variable featurize : bytes -> Z.
Variable xml : bool.

(** ascii_tokenizer.cc:49-71: from "<", how far q and r are when the tag ends at r. *)
Definition tokenize_tag (s : bytes) : option (nat * nat) :=
  let q := match tl s with c :: _ => if c =? 47 then 2%nat else 1%nat | [] => 1%nat end in
  match skipn q s with
  | c :: u =>
      if tag_initial c then
        let q := (q + 1 + run_of tag_character u)%nat in
        match skipn q s with
        | c :: _ =>
            if c =? 10 then None else
            let r := (q + run_of in_tag (skipn q s))%nat in
            match skipn r s with c :: _ => if c =? 62 then Some (q, r) else None | [] => None end
        | [] => None
        end
      else None
  | [] => None
  end.
(** ascii_tokenizer.cc:72-80: from "&", how far the ";" is. *)
Definition tokenize_entity (s : bytes) : option nat :=
  let q := (1 + run_of in_entity (tl s))%nat in
  match skipn q s with c :: _ => if c =? 59 then Some q else None | [] => None end.
(** ascii_tokenizer.cc:39-104.  The bytes written into the buffer (the tag's ">", the
    lower case letters) are before p when the loop goes on. *)
Fixpoint tokenize_from (s : bytes) (k : nat) (off address : Z) : list token :=
  match s with
  | [] => []
  | c :: r =>
      match k with
      | S k => tokenize_from r k (off + 1) address
      | O =>
          if alphanumeric c then
            let n := S (run_of alphanumeric r) in
            let w := firstn n s in
            (if (0 <? uppers w)%nat then
               [Token (featurize w) address off (Z.of_nat n); Token (featurize (map tolower w)) address off (Z.of_nat n)]
             else [Token (featurize (tolower c :: tl w)) address off (Z.of_nat n)]) ++
            tokenize_from r (n - 1) (off + 1) (address + 1)
          else if xml && (c =? 60) then
            match tokenize_tag s with
            | Some (q, e) => Token (featurize (firstn q s ++ [62])) address off (Z.of_nat e + 1) ::
                             tokenize_from r e (off + 1) (address + 1)
            | None => tokenize_from r 0 (off + 1) address
            end
          else if xml && (c =? 38) then
            match tokenize_entity s with
            | Some q => tokenize_from r q (off + 1) address
            | None => tokenize_from r 0 (off + 1) address
            end
          else tokenize_from r 0 (off + 1) address
      end
  end.
Definition tokenize (s : bytes) : list token := tokenize_from s 0 0 0.

(** ascii_tokenizer.cc:112-131, where q itself goes on to the end of the tag. *)
Definition skip_tag (s : bytes) : option nat :=
  let q := match tl s with c :: _ => if c =? 47 then 2%nat else 1%nat | [] => 1%nat end in
  match skipn q s with
  | c :: u =>
      if tag_initial c then
        let q := (q + 1 + run_of tag_character u)%nat in
        match skipn q s with
        | c :: _ =>
            if c =? 10 then None else
            let q := (q + run_of in_tag (skipn q s))%nat in
            match skipn q s with c :: _ => if c =? 62 then Some q else None | [] => None end
        | [] => None
        end
      else None
  | [] => None
  end.
(** ascii_tokenizer.cc:132-140 *)
Definition skip_entity (s : bytes) : option nat :=
  let q := (1 + run_of in_entity (tl s))%nat in
  match skipn q s with c :: _ => if c =? 59 then Some q else None | [] => None end.
(** ascii_tokenizer.cc:106-150; the answer is an offset. *)
Fixpoint skip_from (s : bytes) (k : nat) (off n : Z) : Z :=
  match s with
  | [] => off
  | c :: r =>
      match k with
      | S k => skip_from r k (off + 1) n
      | O =>
          if alphanumeric c then
            if n <=? 0 then off else skip_from r (run_of alphanumeric s - 1) (off + 1) (n - 1)
          else if xml && (c =? 60) then
            match skip_tag s with
            | Some q => if n <=? 0 then off else skip_from r q (off + 1) (n - 1)
            | None => skip_from r 0 (off + 1) n
            end
          else if xml && (c =? 38) then
            match skip_entity s with
            | Some q => skip_from r q (off + 1) n
            | None => skip_from r 0 (off + 1) n
            end
          else skip_from r 0 (off + 1) n
      end
  end.
Definition skip (s : bytes) (n : Z) : Z := skip_from s 0 0 n.

(** ascii_tokenizer.cc:162-180 *)
Definition split_tag (s : bytes) : option (nat * nat) :=
  let q := match tl s with c :: _ => if c =? 47 then 2%nat else 1%nat | [] => 1%nat end in
  match skipn q s with
  | c :: u =>
      if tag_initial c then
        let q := (q + 1 + run_of tag_character u)%nat in
        match skipn q s with
        | c :: _ =>
            if c =? 10 then None else
            let r := (q + run_of in_tag (skipn q s))%nat in
            match skipn r s with c :: _ => if c =? 62 then Some (q, r) else None | [] => None end
        | [] => None
        end
      else None
  | [] => None
  end.
(** ascii_tokenizer.cc:181-189 *)
Definition split_entity (s : bytes) : option nat :=
  let q := (1 + run_of in_entity (tl s))%nat in
  match skipn q s with c :: _ => if c =? 59 then Some q else None | [] => None end.
(** ascii_tokenizer.cc:152-203 *)
Fixpoint split_from (s : bytes) (k : nat) : list bytes :=
  match s with
  | [] => []
  | c :: r =>
      match k with
      | S k => split_from r k
      | O =>
          if alphanumeric c then
            let n := S (run_of alphanumeric r) in
            let w := firstn n s in
            (if (uppers w =? 0)%nat then tolower c :: tl w else w) :: split_from r (n - 1)
          else if xml && (c =? 60) then
            match split_tag s with
            | Some (q, e) => (firstn q s ++ [62]) :: split_from r e
            | None => split_from r 0
            end
          else if xml && (c =? 38) then
            match split_entity s with
            | Some q => split_from r q
            | None => split_from r 0
            end
          else split_from r 0
      end
  end.
Definition split (s : bytes) : list bytes := split_from s 0.
End Ascii.
