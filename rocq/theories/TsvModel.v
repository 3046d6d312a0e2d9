(** Model of appending files with fields and of the paths of files: src/core.cc (split_tsv,
    split_lines) and meadowlark/meadowlark.cc (append_tsv, normalized_path, path_match). *)
From Verif Require Import Base Bytes HopperModel TokenModel TextModel.
From Verif Require RecipeModel.
Local Arguments chr s%string_scope.
Local Notation is_space := RecipeModel.is_space.

(** * Splitting *)
(** src/core.cc:91-117; [line] is what stands between line_start and p. *)
Fixpoint split_lines_from (s line : bytes) : list bytes :=
  match s with
  | [] => match line with [] => [] | _ => [line] end
  | c :: r =>
      if (c =? 10) || (c =? 13) then
        match r with
        | 10 :: r' => if c =? 13 then line :: split_lines_from r' [] else line :: split_lines_from r []
        | _ => line :: split_lines_from r []
        end
      else split_lines_from r (line ++ [c])
  end.
Definition split_lines (s : bytes) : list bytes := split_lines_from s [].

Fixpoint begins (a s : bytes) : bool :=
  match a, s with [], _ => true | x :: a', c :: s' => (c =? x) && begins a' s' | _ :: _, [] => false end.
(** s.find(separator): what stands before it and what after. *)
Fixpoint find_cut (sep s : bytes) : option (bytes * bytes) :=
  if begins sep s then Some ([], skipn (length sep) s)
  else match s with
       | [] => None
       | c :: r => match find_cut sep r with Some (a, b) => Some (c :: a, b) | None => None end
       end.
(** src/core.cc:78-86; [n] bounds the number of fields. *)
Fixpoint split_by (n : nat) (sep s : bytes) : list bytes :=
  match n with
  | O => []
  | S m => match find_cut sep s with None => [s] | Some (a, b) => a :: split_by m sep b end
  end.
(** src/core.cc:62-74; [word] is what stands between i and j. *)
Fixpoint split_white (s word : bytes) : list bytes :=
  match s with
  | [] => match word with [] => [] | _ => [word] end
  | c :: r =>
      if is_space c then match word with [] => split_white r [] | _ => word :: split_white r [] end
      else split_white r (word ++ [c])
  end.
(** src/core.cc:57-89 *)
Definition split_tsv (s sep : bytes) : list bytes :=
  match sep with [] => split_white s [] | _ => split_by (S (length s)) sep s end.

(** * Appending *)
Section Tsv.
(** The tokenizer, the feature of the text chunks and Featurizer::featurize. *)
Variable tokenize : bytes -> list token.
Variable chunk : Z.
Variable featurize : bytes -> Z.

(** meadowlark/meadowlark.cc:362-364: tags[j], which is the same whenever it is made. *)
Definition tag (j : Z) : Z := featurize (lit ":" ++ dec j ++ lit ":").
(** meadowlark/meadowlark.cc:365-381.  The appender and the annotator of a transaction never
    fail, src/fiver.cc:62-70, 119-154. *)
Fixpoint append_fields (wsep : bytes) (j : Z) (fields : list bytes) (d : draft) (p0 q0 : Z) : draft * (Z * Z) :=
  match fields with
  | [] => (d, (p0, q0))
  | f :: r =>
      let field := match r with [] => f | _ => f ++ wsep end in
      let '(d1, (p1, q1)) := append tokenize chunk field d in
      let d2 := if p1 <=? q1 then annotate (tag j) p1 q1 0 d1 else d1 in
      append_fields wsep (j + 1) r d2 (Z.min p0 p1) (Z.max q0 q1)
  end.
(** meadowlark/meadowlark.cc:354-392, line [i] of the file. *)
Definition append_line (header : bool) (sep wsep : bytes) (i : Z) (line : bytes) (d : draft) (p q : Z) : draft * (Z * Z) :=
  let record_feature := if header && (i =? 0) then featurize (lit "::") else featurize (lit ":") in
  let '(d1, (p0, q0)) := append_fields wsep 0 (split_tsv line sep) d maxf minf in
  let d2 := if p0 <=? q0 then annotate record_feature p0 q0 0 d1 else d1 in
  (d2, (Z.min p p0, Z.max q q0)).
Fixpoint append_lines (header : bool) (sep wsep : bytes) (i : Z) (ls : list bytes) (d : draft) (p q : Z) : draft * (Z * Z) :=
  match ls with
  | [] => (d, (p, q))
  | l :: r => let '(d1, (p1, q1)) := append_line header sep wsep i l d p q in append_lines header sep wsep (i + 1) r d1 p1 q1
  end.
(** meadowlark/meadowlark.cc:350-351: the lines of worker [n], counted without overflow. *)
Definition first_line {A} (lines : list A) (n threads : Z) : Z := (Z.of_nat (length lines) * n) / threads.
Definition lines_of {A} (lines : list A) (n threads : Z) : list A :=
  let a := first_line lines n threads in let b := first_line lines (n + 1) threads in
  firstn (Z.to_nat (b - a)) (skipn (Z.to_nat a) lines).
(** meadowlark/meadowlark.cc:317-319 *)
Definition written_separator (sep : bytes) : bytes := match sep with [] => [9] | _ => sep end.
(** meadowlark/meadowlark.cc:343-395: what worker [n] has written when it calls ready; it
    began with an empty transaction. *)
Definition worker (path_feature : Z) (header : bool) (sep : bytes) (lines : list bytes) (n threads : Z) : draft :=
  let '(d, (p, q)) := append_lines header sep (written_separator sep) (first_line lines n threads) (lines_of lines n threads) draft_init maxf minf in
  if p <=? q then annotate path_feature p q 0 d else d.

(** meadowlark/meadowlark.cc:70-75 *)
Definition normalized_path (name : bytes) : bytes := if existsb (fun c => c =? chr "/") name then name else lit "./" ++ name.
(** meadowlark/meadowlark.cc:105-121: the transaction of the path when it is ready. *)
Definition path_draft (name : bytes) : draft :=
  let '(d, (p, q)) := append tokenize chunk (normalized_path name) draft_init in annotate (featurize (lit "/")) p q 0 d.
End Tsv.

(** meadowlark/meadowlark.cc:88-103 *)
Definition path_match (text path : bytes) : bool :=
  let t := RecipeModel.skip text in
  begins path t &&
  match skipn (length path) t with [] => true | c :: _ => is_space c end.

(** * The transactions of append_tsv *)
Inductive part := Path | Lines (n : Z).
Section Commit.
(** Whether the path's transaction gets ready, and for each worker whether its clone can be
    made and begins a transaction, and whether its transaction gets ready. *)
Variables (path_ok : bool) (clone_ok ready_ok : Z -> bool).
Definition numbers (threads : Z) : list Z := map Z.of_nat (seq 0 (Z.to_nat threads)).
(** meadowlark/meadowlark.cc:299-419: the answer, and what was committed, in order.  The
    threads of the workers only share [failed], which is set if one is not ready. *)
Definition append_tsv (lines : Z) (threads : Z) : bool * list part :=
  if negb path_ok then (false, [])
  else if lines =? 0 then (true, [Path])
  else if forallb clone_ok (numbers threads) then
    if forallb ready_ok (numbers threads) then (true, Path :: map Lines (numbers threads))
    else (false, [Path])
  else (false, [Path]).
End Commit.
