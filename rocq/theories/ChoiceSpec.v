(** What is expected of the choice of ranking statistics. *)
From Verif Require Import Base Bytes RecipeModel MakeModel JsonTxtModel OpenModel ChoiceModel.

(** The value of a parameter; one that cannot be read counts as empty. *)
Definition value (w : warren) (k : bytes) : bytes := match w_param w k with Some v => v | None => [] end.
Definition readable (w : warren) : Prop := forall k, w_param w k <> None.
Definition meadow (w : warren) : Prop := w_param w (lit "format") = Some (lit "meadowlark").
(** The statistics that a warren says it has. *)
Inductive declared (w : warren) : bytes -> Prop :=
| declared_meadow : meadow w -> declared w (lit "tf-idf")
| declared_name : ~ meadow w -> value w (lit "statistics") <> [] -> declared w (value w (lit "statistics"))
| declared_container : ~ meadow w -> value w (lit "statistics") = [] -> value w (lit "container") <> [] -> declared w (lit "idf").
(** The kinds, and what they are called. *)
Inductive called : kind -> bytes -> Prop :=
| called_idf : called KIdf (lit "idf") | called_df : called KDf (lit "df") | called_tf : called KDf (lit "tf")
| called_field : called KField (lit "field") | called_tfidf : called KTfIdf (lit "tf-idf").
(** The first of some queries that is not empty. *)
Fixpoint first_of (qs : list bytes) : option bytes :=
  match qs with [] => None | [] :: qs => first_of qs | q :: _ => Some q end.
(** Its solutions; none when there is no such query, or it is not a query. *)
Definition solutions (w : warren) (qs : list bytes) : option (list (Z * Z)) :=
  match first_of qs with Some q => w_gcl w q | None => None end.
Definition items_of (w : warren) := solutions w [value w (lit "content"); value w (lit "container"); w_default w].
Definition containers_of (w : warren) := solutions w [value w (lit "container"); w_default w].
Definition or_none (h : option (list (Z * Z))) : list (Z * Z) := match h with Some l => l | None => [] end.
(** What a warren holds of each kind of statistics. *)
Definition holds (w : warren) (k : kind) : Prop :=
  match k with
  | KIdf => w_avgl w = true
  | KDf => content_hopper w <> None /\ 1 <= fst (w_total w) /\ 1 <= snd (w_total w)
  | KField => content_hopper w <> None /\ w_fields w = true
  | KTfIdf => False
  end.
