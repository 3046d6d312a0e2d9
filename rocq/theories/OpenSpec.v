(** Specification vocabulary for the configuration of a bigwig. *)
From Verif Require Import Base Bytes RecipeModel RecipeSpec MakeModel MakeSpec JsonTxtModel OpenModel.

(** Text that a configuration keeps: no quotation mark, backslash, zero or end of line, and not
    itself a configuration. *)
Definition plain_text (v : bytes) : Prop := clean v /\ one_line v /\ cook v = None.
Fixpoint plain_tags (f : featurizer) : Prop :=
  match f with
  | Hashing | Nothing => True
  | Tagging base tag => plain_text tag /\ plain_tags base
  | Json wrapped | Vocab wrapped => plain_tags wrapped
  end.
(** A compressor that its name and recipe make, with a recipe that is kept. *)
Definition named (c : compressor) : Prop := comp_make (c_name c) (c_recipe c) = Some c /\ plain_text (c_recipe c).
(** What can happen to a bigwig. *)
Inductive event :=
  | Set_parameter (k v : bytes)
  | Set_container (c : bytes)
  | Set_stemmer (s : stemmer)
  | Set_merge (on : bool)
  | Reopen (vocabulary : bool).
Definition happen (st : store) (e : event) : res (option store) :=
  match e with
  | Set_parameter k v => Ok (Some (set_parameter st k v))
  | Set_container c => Ok (Some (set_container st c))
  | Set_stemmer s => Ok (Some (set_stemmer st s))
  | Set_merge on => Ok (Some (set_merge st on))
  | Reopen vocabulary => bigwig_open vocabulary (fst st)
  end.
Fixpoint history (st : store) (es : list event) : res (option store) :=
  match es with
  | [] => Ok (Some st)
  | e :: es' => let* o := happen st e in match o with None => Ok None | Some st' => history st' es' end
  end.
(** What an event sets. *)
Definition sets (e : event) : option (bytes * bytes) :=
  match e with
  | Set_parameter k v => Some (k, v)
  | Set_container c => Some (lit "container", c)
  | Set_stemmer s => Some (lit "stemmer", match s with NoStem => [] | Porter => lit "porter" end)
  | Set_merge on => Some (lit "merge", if on then lit "yes" else lit "no")
  | Reopen _ => None
  end.
(** The value that was set last; the empty text when none was. *)
Definition last_value (k : bytes) (es : list event) : bytes :=
  fold_left (fun v e => match sets e with Some (k', v') => if eqb_bytes k k' then v' else v | None => v end) es [].
(** Settings of names to plain texts, and stemmers that exist. *)
Definition proper (e : event) : Prop :=
  match e with
  | Set_parameter k v => name k /\ plain_text v /\ (k = lit "stemmer" -> v = [] \/ v = lit "porter")
  | Set_container c => plain_text c
  | _ => True
  end.
(** The parts that a bigwig was made of. *)
Definition made_of (b : bigwig) (f : featurizer) (t : tokenizer) (posting fvalue text : compressor) : Prop :=
  alike (b_featurizer b) f /\ b_tokenizer b = t /\ b_posting b = posting /\ b_fvalue b = fvalue /\ b_text b = text.
