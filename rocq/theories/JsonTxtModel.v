(** Model of how src/json_txt.cc chooses whether text is shown as JSON. *)
From Verif Require Import Base Bytes RecipeModel.

(** core.cc:11-16 *)
Definition okay (v : bytes) : bool :=
  existsb (eqb_bytes v) [lit "y"; lit "yes"; lit "on"; lit "true"; lit "okay"; lit "ok"; lit "Y"; lit "Yes"; lit "On"; lit "True"; lit "Okay"; lit "Ok"; lit "OK"].
(** core.cc:18-23 *)
Definition okay_text (b : bool) : bytes := if b then lit "yes" else lit "no".
(** json_txt.cc:15-32 *)
Definition wrap_parameters (m : params) : bool := match get (lit "json") m with Some v => okay v | None => false end.
Definition should_wrap (recipe : bytes) : bool :=
  if eqb_bytes recipe (lit "json") then true
  else match cook recipe with Some m => wrap_parameters m | None => false end.
(** json_txt.cc:77-84: JsonTxt::recipe_ over the recipe of the wrapped text. *)
Definition json_recipe (recipe : bytes) : bytes :=
  match (if eqb_bytes recipe [] then Some [] else cook recipe) with
  | None => recipe
  | Some m => freeze (put (lit "jason") (okay_text true) m)
  end.
