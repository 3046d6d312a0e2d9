(** Model of the options that change and show recipes: interpret_option and
    extract_option, src/recipe.cc. *)
From Verif Require Import Base Bytes RecipeModel MakeModel.

(** std::sregex_token_iterator with the pattern of one character and -1: the pieces between the
    separators.  A string without separators is one piece, also when it is empty; an empty piece
    after the last separator is left out. *)
Fixpoint pieces_from (sep : Z) (cur s : bytes) : list bytes :=
  match s with
  | [] => [cur]
  | c :: r => if c =? sep then cur :: pieces_from sep [] r else pieces_from sep (cur ++ [c]) r
  end.
Definition pieces (sep : Z) (s : bytes) : list bytes :=
  match rev (pieces_from sep [] s) with
  | [] :: ((_ :: _) as r) => rev r
  | _ => pieces_from sep [] s
  end.
Definition at_sign : Z := 64.
Definition colon : Z := 58.
(** src/recipe.cc:220-238: X@Y.  The key is that of the item found. *)
Definition wrap_option (m : params) (x y : bytes) : option bytes :=
  match get x m with
  | None => None
  | Some v => Some (freeze (put x (freeze (put k_recipe v (put k_name y []))) m))
  end.
(** src/recipe.cc:239-284, on the pieces.  The wrong number of pieces is noted in the error, but
    the function goes on (lines 242-244): with one piece it reads pieces[1] past the end, and with more than
    three it leaves out the rest.  Lines 262-267 compare an iterator of one map to the end of
    another, which is undefined when there is no recipe to be found; when there is one, they are
    taken to be different. *)
Definition set_option (m : params) (ps : list bytes) : res (option bytes) :=
  match ps with
  | [] => UB
  | x :: rest =>
    match get x m with
    | None => Ok None
    | Some v =>
      match cook v with
      | None => Ok None
      | Some im =>
        match rest with
        | [] => UB
        | [z] => Ok (Some (freeze (put x (freeze (put k_recipe z im)) m)))
        | y :: z :: _ =>
          if eqb_bytes y k_name then Ok (Some (freeze (put x (freeze (put k_recipe [] (put k_name z im))) m)))
          else
            match get k_recipe im with
            | None => UB
            | Some r =>
              match cook r with
              | None => Ok None
              | Some rm =>
                match get y rm with
                | None => Ok None
                | Some _ => Ok (Some (freeze (put x (freeze (put k_recipe (freeze (put y z rm)) im)) m)))
                end
              end
            end
        end
      end
    end
  end.
(** src/recipe.cc:211-285: the new recipe, None when false is returned. *)
Definition interpret_option (recipe option_ : bytes) : res (option bytes) :=
  if eqb_bytes option_ [] then Ok (Some recipe) else
  match cook recipe with
  | None => Ok None
  | Some m =>
    match pieces at_sign option_ with
    | [x; y] => Ok (wrap_option m x y)
    | _ => set_option m (pieces colon option_)
    end
  end.
(** src/recipe.cc:292-343: the value, None when false is returned.  As above for the number of
    pieces and the iterators; the last value is read without a test that it was found, lines 338-340. *)
Definition extract_option (recipe option_ : bytes) : res (option bytes) :=
  match cook recipe with
  | None => Ok None
  | Some m =>
    match pieces colon option_ with
    | [] => UB
    | x :: rest =>
      match get x m with
      | None => Ok None
      | Some v =>
        match cook v with
        | None => Ok None
        | Some im =>
          match get k_name im, get k_recipe im with
          | Some n, Some r =>
            match rest with
            | [] => Ok (Some r)
            | y :: _ =>
              if eqb_bytes y k_name then Ok (Some n)
              else match cook r with
                   | None => Ok None
                   | Some rm => match get y rm with Some z => Ok (Some z) | None => UB end
                   end
            end
          | _, _ => UB
          end
        end
      end
    end
  end.
(** The loops over options split at white space, src/bigwig.cc:443-449 and
    src/simple_builder.cc:249-255 and 299-305, one option after the other. *)
Fixpoint interpret_all (recipe : bytes) (options : list bytes) : res (option bytes) :=
  match options with
  | [] => Ok (Some recipe)
  | o :: os => let* r := interpret_option recipe o in match r with Some r => interpret_all r os | None => Ok None end
  end.
