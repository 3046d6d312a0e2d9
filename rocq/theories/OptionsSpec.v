(** What options are to do: changes of a configuration, a tree of settings by name. *)
From Verif Require Import Base Bytes RecipeModel RecipeSpec MakeModel OptionsModel.

(** The four forms of an option (comment before interpret_option, src/recipe.cc:206-210). *)
Inductive opt := Set_recipe (x z : bytes) | Set_name (x z : bytes) | Set_in (x y z : bytes) | Wrap (x y : bytes).
Definition spelled (o : opt) : bytes :=
  match o with
  | Set_recipe x z => x ++ lit ":" ++ z
  | Set_name x z => x ++ lit ":name:" ++ z
  | Set_in x y z => x ++ lit ":" ++ y ++ lit ":" ++ z
  | Wrap x y => x ++ lit "@" ++ y
  end.
(** Values: not empty, no colon, no at sign, and a text that configurations keep (C30). *)
Definition value (z : bytes) : Prop := z <> [] /\ ~ In 58 z /\ ~ In 64 z /\ clean z /\ cook z = None.
Definition proper (o : opt) : Prop :=
  match o with
  | Set_recipe x z | Set_name x z | Wrap x z => name x /\ value z
  | Set_in x y z => name x /\ name y /\ y <> lit "name" /\ value z
  end.
(** The configuration after an option; None when it does not apply. *)
Definition change (o : opt) (l : list (bytes * conf)) : option (list (bytes * conf)) :=
  match o with
  | Set_recipe x z => match get x l with Some (Map part) => Some (put x (Map (put (lit "recipe") (Str z) part)) l) | _ => None end
  | Set_name x z => match get x l with Some (Map part) => Some (put x (Map (put (lit "recipe") (Str []) (put (lit "name") (Str z) part))) l) | _ => None end
  | Set_in x y z =>
    match get x l with
    | Some (Map part) =>
      match get (lit "recipe") part with
      | Some (Map r) => match get y r with Some _ => Some (put x (Map (put (lit "recipe") (Map (put y (Str z) r)) part)) l) | None => None end
      | _ => None
      end
    | _ => None
    end
  | Wrap x y => match get x l with Some t => Some (put x (Map [(lit "name", Str y); (lit "recipe", t)]) l) | None => None end
  end.
Definition item_of (o : opt) : bytes := match o with Set_recipe x _ | Set_name x _ | Set_in x _ _ | Wrap x _ => x end.
(** The item that [x] names has a recipe, if it has settings. *)
Definition whole (x : bytes) (l : list (bytes * conf)) : Prop := forall part, get x l = Some (Map part) -> get (lit "recipe") part <> None.
(** Options one after the other, all of which apply. *)
Inductive changes : list (bytes * conf) -> list opt -> list (bytes * conf) -> Prop :=
| changes_none l : changes l [] l
| changes_more l o l1 os l2 : proper o -> whole (item_of o) l -> change o l = Some l1 -> changes l1 os l2 -> changes l (o :: os) l2.

(** What extract_option shows. *)
Inductive query := Q_recipe (x : bytes) | Q_name (x : bytes) | Q_in (x y : bytes).
Definition asked (q : query) : bytes :=
  match q with Q_recipe x => x | Q_name x => x ++ lit ":name" | Q_in x y => x ++ lit ":" ++ y end.
Definition sensible (q : query) : Prop :=
  match q with Q_recipe x | Q_name x => name x | Q_in x y => name x /\ name y /\ y <> lit "name" end.
Definition shown (q : query) (l : list (bytes * conf)) : option conf :=
  match get (match q with Q_recipe x | Q_name x | Q_in x _ => x end) l with
  | Some (Map part) =>
    match get (lit "name") part, get (lit "recipe") part with
    | Some n, Some r =>
      match q with
      | Q_recipe _ => Some r
      | Q_name _ => Some n
      | Q_in _ y => match r with Map l' => get y l' | Str _ => None end
      end
    | _, _ => None
    end
  | _ => None
  end.
(** What an option sets, and to what. *)
Definition sets (o : opt) : query * bytes :=
  match o with
  | Set_recipe x z => (Q_recipe x, z) | Set_name x z => (Q_name x, z) | Set_in x y z => (Q_in x y, z) | Wrap x y => (Q_name x, y)
  end.
