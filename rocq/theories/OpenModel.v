(** Model of the configuration of a bigwig: written when it is made (Bigwig::recipe_), changed
    by its settings, and read when it is opened (Bigwig::make), src/bigwig.cc. *)
From Verif Require Import Base Bytes RecipeModel MakeModel JsonTxtModel.

(** std::map::operator[], read only. *)
Definition item (k : bytes) (m : params) : bytes := match get k m with Some v => v | None => [] end.

(** * Tokenizers: src/ascii_tokenizer.cc:205-231, src/utf8_tokenizer.cc:359-380 *)
Inductive tokenizer := Ascii (xml : bool) | Utf8.
Definition n_ascii := lit "ascii".
Definition n_utf8 := lit "utf8".
Definition tok_name (t : tokenizer) : bytes := match t with Ascii _ => n_ascii | Utf8 => n_utf8 end.
Definition tok_recipe (t : tokenizer) : bytes := match t with Ascii true => lit "xml" | Ascii false => lit "noxml" | Utf8 => [] end.
(** src/tokenizer.cc:12-27: tokenizer->name_ is set without a test for the null pointer that the
    tokenizers return for other recipes. *)
Definition tok_make (name recipe : bytes) : res (option tokenizer) :=
  if eqb_bytes name [] || eqb_bytes name n_ascii then
    if eqb_bytes recipe [] || eqb_bytes recipe (lit "noxml") then Ok (Some (Ascii false))
    else if eqb_bytes recipe (lit "xml") then Ok (Some (Ascii true)) else UB
  else if eqb_bytes name n_utf8 then if eqb_bytes recipe [] then Ok (Some Utf8) else UB
  else Ok None.
(** src/tokenizer.cc:29-40 *)
Definition tok_check (name recipe : bytes) : bool :=
  if eqb_bytes name [] || eqb_bytes name n_ascii then
    eqb_bytes recipe [] || eqb_bytes recipe (lit "xml") || eqb_bytes recipe (lit "noxml")
  else if eqb_bytes name n_utf8 then eqb_bytes recipe [] else false.

(** * Compressors: what they do, and the name and the recipe that they were made from *)
Inductive method := Zlib | Plain | Post | Tfdf (component : bool) | Bad.
Record compressor := { c_method : method; c_name : bytes; c_recipe : bytes }.
(** src/compressor.cc:15-38; src/tfdf_compressor.h:16-25 and the makes of the others, which take any
    recipe. *)
Definition comp_make (name recipe : bytes) : option compressor :=
  match
    (if eqb_bytes name [] || eqb_bytes name (lit "zlib") then Some Zlib
    else if eqb_bytes name (lit "null") then Some Plain
    else if eqb_bytes name (lit "post") then Some Post
    else if eqb_bytes name (lit "tfdf") then
      if eqb_bytes recipe (lit "component") then Some (Tfdf true) else if eqb_bytes recipe [] then Some (Tfdf false) else None
    else if eqb_bytes name (lit "bad") then Some Bad
    else None)
  with Some m => Some {| c_method := m; c_name := name; c_recipe := recipe |} | None => None end.
(** PostCompressor::make() and the like, src/post_compressor.h:20-22: no name, src/compressor.h:56-57. *)
Definition comp_direct (m : method) : compressor := {| c_method := m; c_name := []; c_recipe := [] |}.

(** * Stemmers: src/stemmer.cc:11-25; the name of a null stemmer stays empty, src/stemmer.h:37. *)
Inductive stemmer := NoStem | Porter.
Definition n_porter := lit "porter".
Definition stem_name (s : stemmer) : bytes := match s with NoStem => [] | Porter => n_porter end.
Definition stem_make (name : bytes) : option stemmer :=
  if eqb_bytes name [] || eqb_bytes name n_null then Some NoStem else if eqb_bytes name n_porter then Some Porter else None.

(** * A bigwig, as far as it is configured *)
Record bigwig := {
  b_featurizer : featurizer; b_tokenizer : tokenizer;
  b_posting : compressor; b_fvalue : compressor; b_text : compressor;
  b_parameters : params; b_container : bytes; b_stemmer : stemmer; b_merge : bool }.
Definition k_featurizer := lit "featurizer".
Definition k_tokenizer := lit "tokenizer".
Definition k_idx := lit "idx".
Definition k_txt := lit "txt".
Definition k_warren := lit "warren".
Definition k_container := lit "container".
Definition k_stemmer := lit "stemmer".
Definition k_merge := lit "merge".
Definition k_posting := lit "posting_compressor".
Definition k_posting_r := lit "posting_compressor_recipe".
Definition k_fvalue := lit "fvalue_compressor".
Definition k_fvalue_r := lit "fvalue_compressor_recipe".
Definition k_compressor := lit "compressor".
Definition k_compressor_r := lit "compressor_recipe".
Definition n_bigwig := lit "bigwig".
(** src/bigwig.cc:1421-1474; the maps are put in one after the other. *)
Definition bigwig_recipe (b : bigwig) : bytes :=
  let tok := put k_recipe (tok_recipe (b_tokenizer b)) (put k_name (tok_name (b_tokenizer b)) []) in
  let feat := put k_recipe (feat_recipe (b_featurizer b)) (put k_name (feat_name (b_featurizer b)) []) in
  let txt_r := put k_compressor_r (c_recipe (b_text b)) (put k_compressor (c_name (b_text b)) []) in
  let txt := put k_recipe (freeze txt_r) (put k_name n_bigwig []) in
  let idx_r := put k_posting_r (c_recipe (b_posting b)) (put k_posting (c_name (b_posting b))
              (put k_fvalue_r (c_recipe (b_fvalue b)) (put k_fvalue (c_name (b_fvalue b)) []))) in
  let idx := put k_recipe (freeze idx_r) (put k_name n_bigwig []) in
  freeze (put parameters (freeze (b_parameters b)) (put k_idx (freeze idx) (put k_txt (freeze txt)
         (put k_featurizer (freeze feat) (put k_tokenizer (freeze tok) (put k_warren n_bigwig [])))))).
(** The file of configuration and the bigwig. *)
Definition store : Type := bytes * bigwig.
(** src/bigwig.cc:606-658, with a working directory and a fluffle of its own, src/fluffle.h:18-28;
    src/warren.h:33-39. *)
Definition bigwig_make (f : featurizer) (t : tokenizer) (posting fvalue text : compressor) : store :=
  let b := {| b_featurizer := f; b_tokenizer := t; b_posting := posting; b_fvalue := fvalue; b_text := text;
              b_parameters := []; b_container := []; b_stemmer := NoStem; b_merge := true |} in
  (write_dna (bigwig_recipe b), b).
(** src/bigwig.cc:740-757; nothing is changed when the file cannot be read. *)
Definition set_parameter (st : store) (k v : bytes) : store :=
  let '(file, b) := st in
  match set_parameter_in_dna file k v with
  | None => st
  | Some file' =>
      (file', {| b_featurizer := b_featurizer b; b_tokenizer := b_tokenizer b; b_posting := b_posting b; b_fvalue := b_fvalue b;
                 b_text := b_text b; b_parameters := put k v (b_parameters b); b_container := b_container b;
                 b_stemmer := b_stemmer b; b_merge := b_merge b |})
  end.
(** src/bigwig.cc:759-775 *)
Definition get_parameter (st : store) (k : bytes) : bytes := item k (b_parameters (snd st)).
Definition with_ (b : bigwig) (c : bytes) (s : stemmer) (m : bool) : bigwig :=
  {| b_featurizer := b_featurizer b; b_tokenizer := b_tokenizer b; b_posting := b_posting b; b_fvalue := b_fvalue b;
     b_text := b_text b; b_parameters := b_parameters b; b_container := c; b_stemmer := s; b_merge := m |}.
(** src/warren.h:71-76 *)
Definition set_container (st : store) (c : bytes) : store :=
  set_parameter (fst st, with_ (snd st) c (b_stemmer (snd st)) (b_merge (snd st))) k_container c.
(** src/warren.h:81-87 *)
Definition set_stemmer (st : store) (s : stemmer) : store :=
  set_parameter (fst st, with_ (snd st) (b_container (snd st)) s (b_merge (snd st))) k_stemmer (stem_name s).
(** src/bigwig.cc:660-668 *)
Definition set_merge (st : store) (on : bool) : store :=
  let st := set_parameter st k_merge (okay_text on) in
  (fst st, with_ (snd st) (b_container (snd st)) (b_stemmer (snd st)) on).
(** Returning the null pointer when something is not there. *)
Definition need {A B} (o : option A) (k : A -> res (option B)) : res (option B) :=
  match o with Some a => k a | None => Ok None end.
(** src/bigwig.cc:455-604, without the shards; [vocabulary] as in MakeModel.v. *)
Definition bigwig_open (vocabulary : bool) (file : bytes) : res (option store) :=
  need (read_dna file) (fun dna =>
  need (cook dna) (fun m =>
  need (cook (item k_featurizer m)) (fun fm =>
  need (featurizer_make true vocabulary (item k_name fm) (item k_recipe fm)) (fun f =>
  need (cook (item k_tokenizer m)) (fun tm =>
  let* made := tok_make (item k_name tm) (item k_recipe tm) in
  need made (fun t =>
  need (cook (item k_idx m)) (fun im =>
  need (cook (item k_recipe im)) (fun ir =>
  need (comp_make (item k_posting ir) (item k_posting_r ir)) (fun posting =>
  need (comp_make (item k_fvalue ir) (item k_fvalue_r ir)) (fun fvalue =>
  need (cook (item k_txt m)) (fun xm =>
  need (cook (item k_recipe xm)) (fun xr =>
  need (comp_make (item k_compressor xr) (item k_compressor_r xr)) (fun text =>
  need (match get parameters m with None => Some [] | Some p => cook p end) (fun ps =>
  let stemmer_name := item k_stemmer ps in
  need (match stemmer_name with [] => Some NoStem | _ => stem_make stemmer_name end) (fun s =>
  let do_merge := item k_merge ps in
  let container := item k_container ps in
  let b := {| b_featurizer := f; b_tokenizer := t; b_posting := posting; b_fvalue := fvalue; b_text := text;
              b_parameters := ps; b_container := []; b_stemmer := NoStem;
              b_merge := eqb_bytes do_merge [] || okay do_merge |} in
  let st := (file, b) in
  let st := match stemmer_name with [] => st | _ => set_stemmer st s end in
  let st := match container with [] => st | _ => set_container st container end in
  Ok (Some st)))))))))))))))).
(** src/warren.cc:116-140: the kind of warren that a burrow holds. *)
Definition warren_kind (file : bytes) : option bytes :=
  match read_dna file with
  | None => None
  | Some dna => match cook dna with
                | None => None
                | Some m => Some (match get k_warren m with Some n => n | None => lit "simple" end)
                end
  end.
