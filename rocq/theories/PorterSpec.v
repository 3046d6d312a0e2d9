(** Porter's algorithm (M. F. Porter, An algorithm for suffix stripping, 1980), with the
    departures the comments of src/porter.cc announce, on words of small letters. *)
From Verif Require Import Base Bytes.
Local Arguments chr s%string_scope.

(** A letter is a consonant unless it is a, e, i, o or u, or a y that follows a consonant. *)
Definition is_vowel (c : Z) : bool := existsb (Z.eqb c) (lit "aeiou").
Fixpoint consonants (after_consonant : bool) (w : bytes) : list bool :=
  match w with
  | [] => []
  | c :: r => let f := negb (is_vowel c) && negb ((c =? chr "y") && after_consonant) in f :: consonants f r
  end.
(** The measure: how often a consonant follows a vowel. *)
Fixpoint turns (fs : list bool) : Z :=
  match fs with
  | a :: (b :: _) as r => (if negb a && b then 1 else 0) + turns r
  | _ => 0
  end.
Definition measure (w : bytes) : Z := turns (consonants false w).
Definition has_vowel (w : bytes) : Prop := In false (consonants false w).
(** *d: ends in a double consonant. *)
Definition double (w : bytes) : Prop := exists u c fs, w = u ++ [c; c] /\ consonants false w = fs ++ [true].
(** *o: ends consonant, vowel, consonant, the last of them not w, x or y. *)
Definition short (w : bytes) : Prop :=
  exists u c fs, w = u ++ [c] /\ consonants false w = fs ++ [true; false; true] /\ ~ In c (lit "wxy").

(** A rule with a suffix and its replacement is used when no rule with a longer suffix
    fits, and then only if its condition holds for what stands before the suffix. *)
Definition fitting (rules : list (bytes * bytes)) (w u s r : bytes) : Prop :=
  In (s, r) rules /\ w = u ++ s /\
  forall u' s' r', In (s', r') rules -> w = u' ++ s' -> (length s' <= length s)%nat.
Inductive by_rules (rules : list (bytes * bytes)) (cond : bytes -> bytes -> Prop) (w : bytes) : bytes -> Prop :=
| by_rule u s r : fitting rules w u s r -> cond s u -> by_rules rules cond w (u ++ r)
| by_refusal u s r : fitting rules w u s r -> ~ cond s u -> by_rules rules cond w w
| by_default : (forall u s r, In (s, r) rules -> w <> u ++ s) -> by_rules rules cond w w.

Definition rules_1a := [(lit "sses", lit "ss"); (lit "ies", lit "i"); (lit "ss", lit "ss"); (lit "s", [])].
Definition rules_1b := [(lit "eed", lit "ee"); (lit "ed", []); (lit "ing", [])].
Definition rules_1b2 := [(lit "at", lit "ate"); (lit "bl", lit "ble"); (lit "iz", lit "ize")].
Definition rules_1c := [(lit "y", lit "i")].
Definition rules_2 :=
  [(lit "ational", lit "ate"); (lit "tional", lit "tion"); (lit "enci", lit "ence"); (lit "anci", lit "ance");
   (lit "izer", lit "ize"); (lit "bli", lit "ble"); (lit "alli", lit "al"); (lit "entli", lit "ent");
   (lit "eli", lit "e"); (lit "ousli", lit "ous"); (lit "ization", lit "ize"); (lit "ation", lit "ate");
   (lit "ator", lit "ate"); (lit "alism", lit "al"); (lit "iveness", lit "ive"); (lit "fulness", lit "ful");
   (lit "ousness", lit "ous"); (lit "aliti", lit "al"); (lit "iviti", lit "ive"); (lit "biliti", lit "ble");
   (lit "logi", lit "log")].
Definition rules_3 :=
  [(lit "icate", lit "ic"); (lit "ative", []); (lit "alize", lit "al"); (lit "iciti", lit "ic");
   (lit "ical", lit "ic"); (lit "ful", []); (lit "ness", [])].
Definition rules_4 : list (bytes * bytes) := map (fun s => (s, []))
  [lit "al"; lit "ance"; lit "ence"; lit "er"; lit "ic"; lit "able"; lit "ible"; lit "ant"; lit "ement"; lit "ment";
   lit "ent"; lit "ion"; lit "ou"; lit "ism"; lit "ate"; lit "iti"; lit "ous"; lit "ive"; lit "ize"].

(** Step 1b: when "ed" or "ing" goes, an e may come back or a double letter go. *)
Inductive tidied (w : bytes) : bytes -> Prop :=
| td_rule u s r : fitting rules_1b2 w u s r -> tidied w (u ++ r)
| td_double u c : (forall u s r, ~ fitting rules_1b2 w u s r) -> double w -> w = u ++ [c] -> ~ In c (lit "lsz") -> tidied w u
| td_lsz u c : (forall u s r, ~ fitting rules_1b2 w u s r) -> double w -> w = u ++ [c] -> In c (lit "lsz") -> tidied w w
| td_e : (forall u s r, ~ fitting rules_1b2 w u s r) -> ~ double w -> measure w = 1 -> short w -> tidied w (w ++ lit "e")
| td_same : (forall u s r, ~ fitting rules_1b2 w u s r) -> ~ double w -> ~ (measure w = 1 /\ short w) -> tidied w w.
Inductive step_1b (w : bytes) : bytes -> Prop :=
| b_eed u : w = u ++ lit "eed" -> 1 <= measure u -> step_1b w (u ++ lit "ee")
| b_eed_keep u : w = u ++ lit "eed" -> measure u < 1 -> step_1b w w
| b_cut u s r w' : fitting rules_1b w u s r -> s <> lit "eed" -> has_vowel u -> tidied u w' -> step_1b w w'
| b_keep u s r : fitting rules_1b w u s r -> s <> lit "eed" -> ~ has_vowel u -> step_1b w w
| b_none : (forall u s r, In (s, r) rules_1b -> w <> u ++ s) -> step_1b w w.
Definition cond_4 (s u : bytes) : Prop := 2 <= measure u /\ (s = lit "ion" -> exists v c, u = v ++ [c] /\ In c (lit "st")).
(** Steps 5a and 5b. *)
Inductive step_5a (w : bytes) : bytes -> Prop :=
| e_cut u : w = u ++ lit "e" -> (2 <= measure u \/ (measure u = 1 /\ ~ short u)) -> step_5a w u
| e_keep u : w = u ++ lit "e" -> ~ (2 <= measure u \/ (measure u = 1 /\ ~ short u)) -> step_5a w w
| e_none : (forall u, w <> u ++ lit "e") -> step_5a w w.
Inductive step_5b (w : bytes) : bytes -> Prop :=
| l_cut u : w = u ++ lit "ll" -> 2 <= measure w -> step_5b w (u ++ lit "l")
| l_keep u : w = u ++ lit "ll" -> measure w < 2 -> step_5b w w
| l_none : (forall u, w <> u ++ lit "ll") -> step_5b w w.

(** Steps 1, and 1 to 3. *)
Definition after_1 (w w' : bytes) : Prop := exists w1 w2,
  by_rules rules_1a (fun _ _ => True) w w1 /\ step_1b w1 w2 /\ by_rules rules_1c (fun _ u => has_vowel u) w2 w'.
Definition after_3 (w w' : bytes) : Prop := exists w1 w2, after_1 w w1 /\
  by_rules rules_2 (fun _ u => 1 <= measure u) w1 w2 /\ by_rules rules_3 (fun _ u => 1 <= measure u) w2 w'.
(** The stem of a word of at least three letters. *)
Definition stem_of (w w' : bytes) : Prop := exists w3 w4 w5, after_3 w w3 /\
  by_rules rules_4 cond_4 w3 w4 /\ step_5a w4 w5 /\ step_5b w5 w'.

(** Words: three to thirty-two letters, large or small. *)
Definition is_letter (c : Z) : Prop := 65 <= c <= 90 \/ 97 <= c <= 122.
Definition small (c : Z) : Z := if (65 <=? c) && (c <=? 90) then c + 32 else c.
Definition is_word (w : bytes) : Prop := (3 <= length w <= 32)%nat /\ Forall is_letter w.
(** The words step 1 leaves one letter of. *)
Definition one_letter_left (w : bytes) : Prop :=
  w = lit "ies" \/ exists v t, is_vowel v = true /\ In t [lit "ed"; lit "ing"; lit "eds"; lit "ings"] /\ w = v :: t /\
    w <> lit "eed" /\ w <> lit "eeds".
