(** Model of featurizers made from their names and recipes: src/featurizer.cc and the
    featurizers that it knows. *)
From Verif Require Import Base Bytes HopperModel ShardModel FeatModel RecipeModel.

(** The featurizers.  [Tagging base tag] has tag_ = tag + ":" (src/tagging_featurizer.h:21-22);
    the counts of [Vocab] are in [vocab_count] below. *)
Inductive featurizer :=
  | Hashing
  | Nothing
  | Tagging (base : featurizer) (tag : bytes)
  | Json (wrapped : featurizer)
  | Vocab (wrapped : featurizer).

(** A char as a signed number. *)
Definition schar (c : Z) : Z := if c <? 128 then c else c - 256.
(** src/json.h:22-25 *)
Definition internal_token (key : bytes) : bool :=
  match key with
  | [a; b; c] => (a =? 239) && (b =? 183) && ((schar 144 <=? schar c) || (schar 153 <=? schar c))
  | _ => false
  end.
(** featurize_ of each: src/hashing_featurizer.cc:115-140 (FeatModel.v), null_featurizer.h:32,
    tagging_featurizer.h:33-36, json_featurizer.cc:17-22, vocab_featurizer.cc:101-108. *)
Fixpoint feature (f : featurizer) (key : bytes) : res Z :=
  match f with
  | Hashing => featurize key
  | Nothing => Ok 0
  | Tagging base tag => feature base ((tag ++ lit ":") ++ key)
  | Json wrapped => if internal_token key then Ok null_feature else feature wrapped key
  | Vocab wrapped => feature wrapped key
  end.
(** translate_ of each: hashing_featurizer.cc:142-154 (FeatModel.v), null_featurizer.h:33, tagging_featurizer.h:37-39,
    wrapping_featurizer.cc:27-29, vocab_featurizer.cc:110-112. *)
Fixpoint name_back (f : featurizer) (n : Z) : bytes :=
  match f with
  | Hashing => feature_name n
  | Nothing => []
  | Tagging base _ => name_back base n
  | Json wrapped | Vocab wrapped => name_back wrapped n
  end.
Definition n_hashing := lit "hashing".
Definition n_null := lit "null".
Definition n_tagging := lit "tagging".
Definition n_json := lit "json".
Definition n_vocab := lit "vocab".
Definition k_name := lit "name".
Definition k_recipe := lit "recipe".
Definition k_tag := lit "tag".
(** name_ of each: hashing_featurizer.h:31, null_featurizer.h:30, tagging_featurizer.h:31,
    json_featurizer.h:25, vocab_featurizer.cc:95. *)
Fixpoint feat_name (f : featurizer) : bytes :=
  match f with
  | Hashing => n_hashing
  | Nothing => n_null
  | Tagging _ _ => n_tagging
  | Json _ => n_json
  | Vocab wrapped => feat_name wrapped
  end.
(** recipe_ of each: hashing_featurizer.cc:113, null_featurizer.h:31,
    tagging_featurizer.cc:87-94, wrapping_featurizer.cc:11-21, vocab_featurizer.cc:97-99. *)
Fixpoint feat_recipe (f : featurizer) : bytes :=
  match f with
  | Hashing | Nothing => []
  | Tagging base tag => freeze (put k_recipe (feat_recipe base) (put k_name (feat_name base) (put k_tag tag [])))
  | Json wrapped =>
      match feat_name wrapped with
      | [] => []
      | _ => freeze (put k_recipe (feat_recipe wrapped) (put k_name (feat_name wrapped) []))
      end
  | Vocab wrapped => feat_recipe wrapped
  end.

(** src/recipe.cc:345-365 *)
Definition unwrap (package : bytes) : option (bytes * bytes) :=
  match cook package with
  | None => None
  | Some m => match get k_name m, get k_recipe m with Some n, Some r => Some (n, r) | _, _ => None end
  end.
(** src/tagging_featurizer.cc:14-41, 59-83: the name and the recipe of the base, and the tag. *)
Definition tagging_parts (recipe : bytes) : option (bytes * bytes * bytes) :=
  match cook recipe with
  | None => None
  | Some m =>
      match get k_name m, get k_tag m with
      | Some n, Some t => Some (n, match get k_recipe m with Some r => r | None => [] end, t)
      | _, _ => None
      end
  end.
(** src/vocab_featurizer.cc:18-38, before the check: what is wrapped. *)
Definition vocab_parts (recipe : bytes) : option (bytes * bytes) :=
  match recipe with
  | [] => Some (n_hashing, [])
  | _ => match cook recipe with Some _ => unwrap recipe | None => Some (recipe, []) end
  end.
(** src/featurizer.cc:49-69, Featurizer::check, with the checks of each featurizer; the first
    argument bounds the depth of nesting. *)
Fixpoint feat_check (n : nat) (name recipe : bytes) : bool :=
  match n with
  | O => false
  | S n' =>
      if eqb_bytes name [] || eqb_bytes name n_hashing then match recipe with [] => true | _ => false end
      else if eqb_bytes name n_tagging then
        match tagging_parts recipe with Some (b, r, _) => feat_check n' b r | None => false end
      else if eqb_bytes name n_vocab then
        match recipe with
        | [] => true
        | _ => match vocab_parts recipe with Some (b, r) => feat_check n' b r | None => false end
        end
      else if eqb_bytes name n_json then
        match unwrap recipe with Some (b, r) => feat_check n' b r | None => false end
      else eqb_bytes name n_null
  end.
Section Make.
(** Is there a working directory, and a vocabulary in it. *)
Context (working vocabulary : bool).
(** src/featurizer.cc:17-47, Featurizer::make, with src/tagging_featurizer.cc:11-56 and
    src/vocab_featurizer.cc:44-72; None is the null pointer. *)
Fixpoint feat_make (n : nat) (name recipe : bytes) : option featurizer :=
  match n with
  | O => None
  | S n' =>
      if eqb_bytes name [] || eqb_bytes name n_hashing then match recipe with [] => Some Hashing | _ => None end
      else if eqb_bytes name n_tagging then
        match tagging_parts recipe with
        | Some (b, r, t) => match feat_make n' b r with Some f => Some (Tagging f t) | None => None end
        | None => None
        end
      else if eqb_bytes name n_vocab then
        if working then
          match vocab_parts recipe with
          | Some (b, r) =>
              if (match recipe with [] => true | _ => feat_check n' b r end) then
                match feat_make n' b r with
                | Some f => Some (if vocabulary then f else Vocab f)
                | None => None
                end
              else None
          | None => None
          end
        else None
      else if eqb_bytes name n_json then
        match unwrap recipe with
        | Some (b, r) => match feat_make n' b r with Some f => Some (Json f) | None => None end
        | None => None
        end
      else if eqb_bytes name n_null then Some Nothing
      else None
  end.
(** The nesting is bounded by the length of the recipe (MakeProofs.v: make_enough). *)
Definition featurizer_make (name recipe : bytes) : option featurizer := feat_make (length recipe + 2) name recipe.
End Make.
Definition featurizer_check (name recipe : bytes) : bool := feat_check (length recipe + 2) name recipe.

(** src/vocab_featurizer.cc:101-106: the counts after some keys; 80-93: the file written at
    the end. *)
Definition vocab_count (m : list (bytes * Z)) (key : bytes) : list (bytes * Z) :=
  match get key m with None => put key 1 m | Some c => put key (c + 1) m end.
Definition vocab_counts (keys : list bytes) : list (bytes * Z) := fold_left vocab_count keys [].
Fixpoint vocab_file (wrapped : featurizer) (m : list (bytes * Z)) : res bytes :=
  match m with
  | [] => Ok []
  | (t, c) :: rest =>
      let* f := feature wrapped t in
      let* more := vocab_file wrapped rest in
      Ok (dec f ++ [32] ++ dec c ++ [32] ++ t ++ [10] ++ more)
  end.
