(** Specification vocabulary for configuration text. *)
From Verif Require Import Base Bytes RecipeModel.

(** Two lists with the same names in the same order, and values related by [P]. *)
Section Pairs.
Context {A B : Type} (P : A -> B -> Prop).
Fixpoint pairs (m : list (bytes * A)) (l : list (bytes * B)) {struct l} : Prop :=
  match m, l with
  | [], [] => True
  | (k, v) :: m', (k', t) :: l' => k = k' /\ P v t /\ pairs m' l'
  | _, _ => False
  end.
End Pairs.
Section Every.
Context {A : Type} (P : A -> Prop).
Fixpoint every (l : list (bytes * A)) : Prop := match l with [] => True | (_, t) :: l' => P t /\ every l' end.
End Every.

(** What a configuration says: a text, or settings by name. *)
Inductive conf := Str (v : bytes) | Map (l : list (bytes * conf)).
(** [v] says [t], for one who cooks it, and then what it finds, as long as it cooks. *)
Fixpoint says (v : bytes) (t : conf) {struct t} : Prop :=
  match t with
  | Str w => v = w /\ cook v = None
  | Map l => exists m, cook v = Some m /\ pairs says m l
  end.
(** Every text in a configuration satisfies [P]. *)
Fixpoint texts (P : bytes -> Prop) (t : conf) : Prop :=
  match t with Str v => P v | Map l => every (texts P) l end.
(** No quotation mark, no backslash and no zero. *)
Definition clean (v : bytes) : Prop := forall c, In c v -> c <> 34 /\ c <> 92 /\ c <> 0.
Definition one_line (v : bytes) : Prop := ~ In 10 v.
(** Names: not empty, of letters, digits, '-', '_' and '.'. *)
Definition name (k : bytes) : Prop := k <> [] /\ forall c, In c k -> identifier c = true.
(** A std::map with such names. *)
Fixpoint ordered {A} (m : list (bytes * A)) : Prop :=
  match m with [] => True | (k, _) :: r => name k /\ (match r with [] => True | (k', _) :: _ => before k k' = true end) /\ ordered r end.
(** The file holds configuration [l]. *)
Definition holds_conf (file : bytes) (l : list (bytes * conf)) : Prop := exists dna, read_dna file = Some dna /\ says dna (Map l).
(** The extra parameters in a configuration. *)
Definition extra (l : list (bytes * conf)) : option (list (bytes * conf)) :=
  match get parameters l with None => Some [] | Some (Map p) => Some p | Some (Str _) => None end.
