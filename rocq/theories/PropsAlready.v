(** C52: which files count as appended. *)
From Verif Require Import Base Bytes HopperModel GclSpec UnaryModel VectorModel RankSpec RankWitness TsvModel TsvSpec AlreadyModel AlreadyProofs.

(** C52: of the paths that the query finds, a file counts as appended exactly if one of them
    is its own, a name without a slash and the same after ./ being one file.  Missing: paths with
    white space, see C52_longer_path_refuted. *)
Theorem C52_already_partial : forall translate C c SC items name, answers C c SC -> listed SC items ->
  (forall x, In x items -> exists n rest, translate (ip x) (iq x) = normalized_path n ++ rest /\ Forall (fun c => ~ space c) n /\
    (rest = [] \/ exists c r, rest = c :: r /\ space c)) ->
  Forall (fun c => ~ space c) name ->
  exists b, already_appended translate C c name = Ok b /\
  (b = true <-> exists x n rest, In x items /\ translate (ip x) (iq x) = normalized_path n ++ rest /\ Forall (fun c => ~ space c) n /\
    (rest = [] \/ exists c r, rest = c :: r /\ space c) /\ same_file name n).
Proof. exact already_ok. Qed.
Print Assumptions C52_already_partial.
Definition plist := [Iv 2 3 0; Iv 6 6 0].
Definition ptext (p q : Z) : bytes := if p =? 2 then lit "a/b " else lit "./c ".
Example C52_already_ex : answers _ (st plist) (set_of plist) /\ listed (set_of plist) plist.
Proof. apply st_answers; [gcl|cbn; lia|repeat constructor]. Qed.
Example C52_already_run : already_appended ptext (stored_cls false plist) (st plist) (lit "c") = Ok true /\
  already_appended ptext (stored_cls false plist) (st plist) (lit "a/b") = Ok true /\
  already_appended ptext (stored_cls false plist) (st plist) (lit "b") = Ok false.
Proof. vm_compute. repeat split. Qed.
Example C52_already_texts : ptext 2 3 = normalized_path (lit "a/b") ++ [32] /\ ptext 6 6 = normalized_path (lit "c") ++ [32] /\ space 32.
Proof. vm_compute. repeat split; auto. Qed.
