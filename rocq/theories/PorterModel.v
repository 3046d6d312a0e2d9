(** Model of the Porter stemmer: src/porter.cc, src/porter.h. *)
From Verif Require Import Base Bytes.
Local Arguments chr s%string_scope.

(** src/porter.h:61-63: the members b, k and j; the buffer has HUGE_ENGLISH_WORD + 1
    bytes (23-26).  k0 is always 0 (52). *)
Record ps := Ps { pb : bytes; pk : Z; pj : Z }.
Definition huge_word : Z := 32.
Definition set_k (s : ps) (k : Z) : ps := Ps (pb s) k (pj s).
Definition set_j (s : ps) (j : Z) : ps := Ps (pb s) (pk s) j.
(** b[i]: an index outside the buffer is undefined. *)
Definition rd (s : ps) (i : Z) : res Z :=
  if (0 <=? i) && (i <? Z.of_nat (length (pb s))) then Ok (nth (Z.to_nat i) (pb s) 0) else UB.
(** memmove(b + i, t, the length of t) *)
Definition put (s : ps) (i : Z) (t : bytes) : res ps :=
  if (0 <=? i) && (i + Z.of_nat (length t) <=? Z.of_nat (length (pb s)))
  then Ok (Ps (firstn (Z.to_nat i) (pb s) ++ t ++ skipn (Z.to_nat i + length t) (pb s)) (pk s) (pj s)) else UB.

(** src/porter.cc:60-66; the smaller indices its recursion visits are in the buffer
    when [i] is. *)
Definition a_vowel (c : Z) : bool :=
  (c =? chr "a") || (c =? chr "e") || (c =? chr "i") || (c =? chr "o") || (c =? chr "u").
Fixpoint cons_at (b : bytes) (i : nat) : bool :=
  let c := nth i b 0 in
  if a_vowel c then false
  else if c =? chr "y" then match i with O => true | S h => negb (cons_at b h) end
  else true.
Definition cons (s : ps) (i : Z) : res bool := let* _ := rd s i in Ok (cons_at (pb s) (Z.to_nat i)).

(** src/porter.cc:80-103: the loops at 83-86, 89-93 and 96-100 look for a vowel or a
    consonant from [i] on, up to j. *)
Fixpoint scan_to (n : nat) (s : ps) (want : bool) (i : Z) : res (option Z) :=
  match n with
  | O => NoFuel
  | S m =>
      if pj s <? i then Ok None else
      let* c := cons s i in
      if Bool.eqb c want then Ok (Some i) else scan_to m s want (i + 1)
  end.
Definition p_fuel (s : ps) : nat := Z.to_nat (pj s + 3).
Fixpoint m_loop (n : nat) (s : ps) (i : Z) (c : Z) : res Z :=
  match n with
  | O => NoFuel
  | S m =>
      let* x := scan_to (p_fuel s) s true i in
      match x with
      | None => Ok c
      | Some i1 =>
          let* y := scan_to (p_fuel s) s false (i1 + 1) in
          match y with
          | None => Ok (c + 1)
          | Some i2 => m_loop m s (i2 + 1) (c + 1)
          end
      end
  end.
Definition p_m (s : ps) : res Z :=
  let* x := scan_to (p_fuel s) s false 0 in
  match x with
  | None => Ok 0
  | Some i => m_loop (p_fuel s) s (i + 1) 0
  end.
(** src/porter.cc:108-111 *)
Definition vowelinstem (s : ps) : res bool :=
  let* x := scan_to (p_fuel s) s false 0 in
  Ok (match x with Some _ => true | None => false end).
(** src/porter.cc:116-120 *)
Definition doublec (s : ps) (i : Z) : res bool :=
  if i <? 1 then Ok false else
  let* a := rd s i in
  let* b := rd s (i - 1) in
  if a =? b then cons s i else Ok false.
(** src/porter.cc:132-138 *)
Definition cvc (s : ps) (i : Z) : res bool :=
  if i <? 2 then Ok false else
  let* c0 := cons s i in
  let* c1 := cons s (i - 1) in
  let* c2 := cons s (i - 2) in
  if negb c0 || c1 || negb c2 then Ok false else
  let* ch := rd s i in
  Ok (negb ((ch =? chr "w") || (ch =? chr "x") || (ch =? chr "y"))).
(** src/porter.cc:143-150; [t] without its length byte. *)
Definition ends (t : bytes) (s : ps) : res (bool * ps) :=
  let len := Z.of_nat (length t) in
  let* c := rd s (pk s) in
  if negb (last t 0 =? c) then Ok (false, s)
  else if pk s + 1 <? len then Ok (false, s)
  else if eqb_bytes (firstn (length t) (skipn (Z.to_nat (pk s - len + 1)) (pb s))) t
       then Ok (true, set_j s (pk s - len))
       else Ok (false, s).
(** src/porter.cc:156-160 *)
Definition setto (t : bytes) (s : ps) : res ps :=
  let* s' := put s (pj s + 1) t in Ok (set_k s' (pj s + Z.of_nat (length t))).
(** src/porter.cc:164 *)
Definition p_r (t : bytes) (s : ps) : res ps :=
  let* n := p_m s in if 0 <? n then setto t s else Ok s.

(** src/porter.cc:191-195 *)
Definition step1a (s : ps) : res ps :=
  let* c := rd s (pk s) in
  if negb (c =? chr "s") then Ok s else
  let* (e, s) := ends (lit "sses") s in
  if e then Ok (set_k s (pk s - 2)) else
  let* (e, s) := ends (lit "ies") s in
  if e then setto (lit "i") s else
  let* c := rd s (pk s - 1) in
  if c =? chr "s" then Ok s else Ok (set_k s (pk s - 1)).
(** src/porter.cc:199-208, after k = j. *)
Definition tidy (s : ps) : res ps :=
  let* (e, s) := ends (lit "at") s in
  if e then setto (lit "ate") s else
  let* (e, s) := ends (lit "bl") s in
  if e then setto (lit "ble") s else
  let* (e, s) := ends (lit "iz") s in
  if e then setto (lit "ize") s else
  let* d := doublec s (pk s) in
  if d then
    let s := set_k s (pk s - 1) in
    let* ch := rd s (pk s) in
    if (ch =? chr "l") || (ch =? chr "s") || (ch =? chr "z") then Ok (set_k s (pk s + 1)) else Ok s
  else
    let* n := p_m s in
    if n =? 1 then let* c := cvc s (pk s) in if c then setto (lit "e") s else Ok s
    else Ok s.
(** src/porter.cc:196-209 *)
Definition step1b (s : ps) : res ps :=
  let* (e, s) := ends (lit "eed") s in
  if e then let* n := p_m s in if 0 <? n then Ok (set_k s (pk s - 1)) else Ok s
  else
    let* (e, s) := ends (lit "ed") s in
    let* (e, s) := (if e then Ok (true, s) else ends (lit "ing") s) in
    if e then
      let* v := vowelinstem s in
      if v then tidy (set_k s (pj s)) else Ok s
    else Ok s.
(** src/porter.cc:215 *)
Definition step1c (s : ps) : res ps :=
  let* (e, s) := ends (lit "y") s in
  if e then let* v := vowelinstem s in if v then put s (pk s) (lit "i") else Ok s
  else Ok s.

(** The lines "if (ends(..)) { r(..); break; }" of a case. *)
Fixpoint rules (l : list (bytes * bytes)) (s : ps) : res ps :=
  match l with
  | [] => Ok s
  | (t, u) :: l' => let* (e, s) := ends t s in if e then p_r u s else rules l' s
  end.
(** src/porter.cc:226-257 *)
Definition cases2 (c : Z) : list (bytes * bytes) :=
  if c =? chr "a" then [(lit "ational", lit "ate"); (lit "tional", lit "tion")]
  else if c =? chr "c" then [(lit "enci", lit "ence"); (lit "anci", lit "ance")]
  else if c =? chr "e" then [(lit "izer", lit "ize")]
  else if c =? chr "l" then [(lit "bli", lit "ble"); (lit "alli", lit "al"); (lit "entli", lit "ent");
                             (lit "eli", lit "e"); (lit "ousli", lit "ous")]
  else if c =? chr "o" then [(lit "ization", lit "ize"); (lit "ation", lit "ate"); (lit "ator", lit "ate")]
  else if c =? chr "s" then [(lit "alism", lit "al"); (lit "iveness", lit "ive"); (lit "fulness", lit "ful");
                             (lit "ousness", lit "ous")]
  else if c =? chr "t" then [(lit "aliti", lit "al"); (lit "iviti", lit "ive"); (lit "biliti", lit "ble")]
  else if c =? chr "g" then [(lit "logi", lit "log")]
  else [].
(** src/porter.cc:224-261 *)
Definition step2 (s : ps) : res ps := let* c := rd s (pk s - 1) in rules (cases2 c) s.
(** src/porter.cc:268-277 *)
Definition cases3 (c : Z) : list (bytes * bytes) :=
  if c =? chr "e" then [(lit "icate", lit "ic"); (lit "ative", []); (lit "alize", lit "al")]
  else if c =? chr "i" then [(lit "iciti", lit "ic")]
  else if c =? chr "l" then [(lit "ical", lit "ic"); (lit "ful", [])]
  else if c =? chr "s" then [(lit "ness", [])]
  else [].
(** src/porter.cc:266-279 *)
Definition step3 (s : ps) : res ps := let* c := rd s (pk s) in rules (cases3 c) s.
(** src/porter.cc:286-306 *)
Definition cases4 (c : Z) : list bytes :=
  if c =? chr "a" then [lit "al"]
  else if c =? chr "c" then [lit "ance"; lit "ence"]
  else if c =? chr "e" then [lit "er"]
  else if c =? chr "i" then [lit "ic"]
  else if c =? chr "l" then [lit "able"; lit "ible"]
  else if c =? chr "n" then [lit "ant"; lit "ement"; lit "ment"; lit "ent"]
  else if c =? chr "o" then [lit "ion"; lit "ou"]
  else if c =? chr "s" then [lit "ism"]
  else if c =? chr "t" then [lit "ate"; lit "iti"]
  else if c =? chr "u" then [lit "ous"]
  else if c =? chr "v" then [lit "ive"]
  else if c =? chr "z" then [lit "ize"]
  else [].
(** One of the suffixes, "ion" only after s or t (297). *)
Fixpoint suffix4 (l : list bytes) (s : ps) : res (bool * ps) :=
  match l with
  | [] => Ok (false, s)
  | t :: l' =>
      let* (e, s) := ends t s in
      let* e := (if e && eqb_bytes t (lit "ion")
                 then let* c := rd s (pj s) in Ok ((c =? chr "s") || (c =? chr "t")) else Ok e) in
      if e then Ok (true, s) else suffix4 l' s
  end.
(** src/porter.cc:284-309 *)
Definition step4 (s : ps) : res ps :=
  let* c := rd s (pk s - 1) in
  let* (e, s) := suffix4 (cases4 c) s in
  if e then let* n := p_m s in if 1 <? n then Ok (set_k s (pj s)) else Ok s else Ok s.
(** src/porter.cc:315-322 *)
Definition step5 (s : ps) : res ps :=
  let s := set_j s (pk s) in
  let* c := rd s (pk s) in
  let* s := (if c =? chr "e" then
               let* a := p_m s in
               if 1 <? a then Ok (set_k s (pk s - 1))
               else if a =? 1 then let* v := cvc s (pk s - 1) in if v then Ok s else Ok (set_k s (pk s - 1))
               else Ok s
             else Ok s) in
  let* c := rd s (pk s) in
  if c =? chr "l" then
    let* d := doublec s (pk s) in
    if d then let* n := p_m s in if 1 <? n then Ok (set_k s (pk s - 1)) else Ok s else Ok s
  else Ok s.
(** src/porter.cc:334-345 *)
Definition porter (s : ps) (j : Z) : res ps :=
  let s := set_k s j in
  if pk s <=? 1 then Ok s else
  let* s := step1a s in
  let* s := step1b s in
  let* s := step1c s in
  let* s := step2 s in
  let* s := step3 s in
  let* s := step4 s in
  step5 s.

(** src/porter.h:17; isupper and islower in the C locale.  The argument may be a negative
    char, for which they are undefined; the tables of the C library answer 0. *)
Definition upper (c : Z) : bool := (65 <=? c) && (c <=? 90).
Definition letter (c : Z) : bool := upper c || ((97 <=? c) && (c <=? 122)).
Definition lower (c : Z) : Z := if upper c then c + 32 else c.
(** src/porter.h:42-51: [None] when a byte before the first NUL is no letter. *)
Fixpoint load (s : ps) (p : Z) (w : bytes) : res (bool * ps) :=
  match w with
  | [] => Ok (true, s)
  | c :: r =>
      if c =? 0 then Ok (true, s)
      else if letter c then let* s := put s p [lower c] in load s (p + 1) r
      else Ok (false, s)
  end.
(** src/porter.h:35-58: the stem, what *stemmed becomes, and the object for the next call.
    The lock is held from 41 to 50 or 57, so calls are one after the other. *)
Definition stem (s : ps) (word : bytes) : res (bytes * bool * ps) :=
  let n := Z.of_nat (length word) in
  if (n <? 3) || (huge_word <? n) then Ok (word, false, s) else
  let* (ok, s) := load s 0 word in
  if ok then let* s := porter s (n - 1) in
             Ok (lit "porter:" ++ firstn (Z.to_nat (pk s + 1)) (pb s), true, s)
  else Ok (word, false, s).
