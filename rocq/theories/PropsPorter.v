(** C50: the Porter stemmer. *)
From Verif Require Import Base Bytes PorterModel PorterSpec PorterProofs PorterSteps PorterTop PorterWitness.

(** Every word of three to thirty-two letters but the exceptional ones is answered with
    the stem the rules give it, whatever was stemmed before. *)
Theorem C50_stem_partial s w : in_use s -> is_word w -> ~ one_letter_left (map small w) -> ~ after_3 (map small w) (lit "ion") ->
  exists w' s', stem_of (map small w) w' /\ stem s w = Ok (lit "porter:" ++ w', true, s') /\ (1 <= length w' <= length w)%nat.
Proof. exact (stems s w). Qed.
Print Assumptions C50_stem_partial.
Example C50_stem_case : is_word (lit "Generalizations") /\ ~ one_letter_left (map small (lit "Generalizations")) /\
  ~ after_3 (map small (lit "Generalizations")) (lit "ion") /\ in_use new_stemmer /\
  result new_stemmer (lit "Generalizations") = Some (lit "porter:gener", true) /\
  result new_stemmer (lit "hopping") = Some (lit "porter:hop", true) /\
  result new_stemmer (lit "falling") = Some (lit "porter:fall", true) /\
  result new_stemmer (lit "filing") = Some (lit "porter:file", true) /\
  result new_stemmer (lit "skies") = Some (lit "porter:ski", true) /\
  result new_stemmer (lit "eed") = Some (lit "porter:eed", true).
Proof.
  assert (is_word (lit "Generalizations")) as W by (apply word_by; reflexivity).
  destruct (fine (lit "Generalizations") true (lit "porter:gener") ltac:(vm_compute; reflexivity) W) as [F1 F2].
  split; [exact W|]. split; [exact F1|]. split; [exact F2|]. split; [exact new_in_use|]. repeat split; vm_compute; reflexivity.
Qed.

(** The rules give no word two stems. *)
Theorem C50_one w a b : stem_of w a -> stem_of w b -> a = b.
Proof. exact (stem_of_one w a b). Qed.
Print Assumptions C50_one.
Example C50_one_case : exists a, stem_of (lit "relational") a.
Proof.
  assert (is_word (lit "relational")) as W by (apply word_by; reflexivity).
  destruct (fine (lit "relational") true (lit "porter:relat") ltac:(vm_compute; reflexivity) W) as [F1 F2].
  destruct (C50_stem_partial new_stemmer (lit "relational") new_in_use W F1 F2) as (a & _ & S & _). exists a. exact S.
Qed.

(** What was stemmed before makes no difference to a word of letters. *)
Theorem C50_history s1 s2 w : in_use s1 -> in_use s2 -> is_word w ->
  (stem s1 w = UB /\ stem s2 w = UB) \/ exists w' t1 t2, stem s1 w = Ok (w', true, t1) /\ stem s2 w = Ok (w', true, t2).
Proof. exact (history s1 s2 w). Qed.
Print Assumptions C50_history.
Example C50_history_case : in_use (after new_stemmer (lit "conditional")) /\ is_word (lit "rational") /\
  result (after new_stemmer (lit "conditional")) (lit "rational") = Some (lit "porter:ration", true).
Proof. split; [apply after_in_use, new_in_use|]. split; [apply word_by; reflexivity|vm_compute; reflexivity]. Qed.

(** Shorter and longer strings, and those with something that is no letter, come back
    as they are, and the caller is told so. *)
Theorem C50_unchanged s w : in_use s ->
  ((length w < 3)%nat \/ (32 < length w)%nat \/ exists u c r, w = u ++ c :: r /\ Forall is_letter u /\ ~ is_letter c /\ c <> 0) ->
  exists s', stem s w = Ok (w, false, s').
Proof. exact (unchanged s w). Qed.
Print Assumptions C50_unchanged.
Example C50_unchanged_case : result new_stemmer (lit "is") = Some (lit "is", false) /\ result new_stemmer (lit "don't") = Some (lit "don't", false) /\
  exists u c r, lit "don't" = u ++ c :: r /\ Forall is_letter u /\ ~ is_letter c /\ c <> 0.
Proof.
  split; [vm_compute; reflexivity|]. split; [vm_compute; reflexivity|]. exists (lit "don"), 39, (lit "t").
  split; [reflexivity|]. split; [repeat constructor; unfold is_letter; cbn; lia|]. unfold is_letter. lia.
Qed.

(** The exceptional words, exactly: for these the code reads outside its buffer. *)
Theorem C50_outside_refuted s w : in_use s -> is_word w ->
  (stem s w = UB <-> one_letter_left (map small w) \/ after_3 (map small w) (lit "ion")).
Proof. exact (outside s w). Qed.
Print Assumptions C50_outside_refuted.
Example C50_outside_case : is_word (lit "Ies") /\ one_letter_left (map small (lit "Ies")) /\ stem new_stemmer (lit "Ies") = UB /\ stem new_stemmer (lit "oing") = UB.
Proof. split; [apply word_by; reflexivity|]. split; [left; reflexivity|]. split; vm_compute; reflexivity. Qed.

(** Among them the English word ion and words built on it. *)
Theorem C50_ion_refuted s : in_use s ->
  Forall (fun w => stem s w = UB) [lit "ion"; lit "Ions"; lit "ioned"; lit "ioning"; lit "ionful"; lit "ionness"; lit "ionative"].
Proof. exact (ion_words s). Qed.
Print Assumptions C50_ion_refuted.
Example C50_ion_case : in_use new_stemmer /\ ~ one_letter_left (lit "ion"). Proof. split; [exact new_in_use|exact (proj1 not_left_ion)]. Qed.

(** A NUL byte in a word lets what was stemmed before show through. *)
Theorem C50_nul_refuted : exists w s1 s2 r1 r2, in_use s1 /\ in_use s2 /\ (3 <= length w <= 32)%nat /\ Forall (fun c => is_letter c \/ c = 0) w /\
  result s1 w = Some (r1, true) /\ result s2 w = Some (r2, true) /\ r1 <> r2.
Proof. exact nul_words. Qed.
Print Assumptions C50_nul_refuted.
