(** Model of qa_prf in src/ranking.cc: feedback for question answering. *)
From Verif Require Import Base Bytes RankModel RankerModel.
From Verif Require Import RecipeModel.

(** src/ranking.cc:575-578, 588-591, 605-608: the smallest gap of a token. *)
Definition nearer (gap : Z) (range : list (bytes * Z)) (t : bytes) : list (bytes * Z) :=
  match get t range with None => put t gap range | Some g => put t (Z.min gap g) range end.
(** src/ranking.cc:573-579, 586-592, 603-609: the tokens of one of the texts, from the i-th
    on. *)
Fixpoint qa_gaps (gap : Z -> Z) (i : Z) (tokens : list bytes) (range : list (bytes * Z)) : list (bytes * Z) :=
  match tokens with
  | [] => range
  | t :: rest => qa_gaps gap (i + 1) rest (nearer (gap i) range t)
  end.

Section Qa.
(** As in RankerModel.v: doubles, parameters, sorting, texts. *)
Context {F : Type} (zero one : F) (add : F -> F -> F) (lt : F -> F -> bool).
Notation weights := (list (bytes * F)).
Variables (default : bytes -> F).
Context (sort : sorter).
Variables (size_of : F -> nat) (addr_of : F -> Z).
Variables (translate : Z -> Z -> bytes) (wsplit : bytes -> list bytes).
(** src/ranking.cc:616-619: [expect t gap] is the chance that [t] is among that many tokens;
    630-634: [gain f e] is f * log(f / e). *)
Variable expect : bytes -> Z -> F.
Variable gain : F -> F -> F.

(** src/ranking.cc:562-610.  Addresses are far from the ends of their type. *)
Definition qa_range (window : Z) (r : @result F) : list (bytes * Z) :=
  let p := if rp r - window <? rcp r then rcp r else rp r - window in
  let q := if rp r - 1 <? rcp r then rcp r else rp r - 1 in
  let range := if p <=? q then
                 let tokens := wsplit (translate p q) in
                 qa_gaps (fun i => Z.of_nat (length tokens) - i + rq r - rp r) 0 tokens []
               else [] in
  let range := if rp r <=? rq r then
                 qa_gaps (fun _ => rq r - rp r + 1) 0 (wsplit (translate (rp r) (rq r))) range
               else range in
  let p := if rcq r <? rq r + 1 then rcq r else rq r + 1 in
  let q := if rcq r <? rq r + window then rcq r else rq r + window in
  if p <=? q then
    qa_gaps (fun i => rq r - rp r + i) 0 (wsplit (translate p q)) range
  else range.
(** src/ranking.cc:558-561, 625-627: the results used, the first of each container; the loop
    stops after [depth]. *)
Fixpoint qa_results (depth : nat) (seen : list Z) (k : nat) (ranking : list (@result F)) : list (@result F) :=
  match ranking with
  | [] => []
  | r :: rest =>
      if existsb (Z.eqb (rcp r)) seen then qa_results depth seen k rest
      else r :: if Nat.leb depth (S k) then [] else qa_results depth (rcp r :: seen) (S k) rest
  end.
(** src/ranking.cc:611-615 *)
Definition qa_frequencies (ranges : list (list (bytes * Z))) : weights :=
  fold_left (fun m range => fold_left (fun m tg => tick one add m (fst tg)) range m) ranges [].
(** src/ranking.cc:616-623 *)
Definition qa_expectation (m : weights) (tg : bytes * Z) : weights :=
  match get (fst tg) m with
  | None => put (fst tg) (expect (fst tg) (snd tg)) m
  | Some e => put (fst tg) (add e (expect (fst tg) (snd tg))) m
  end.
Definition qa_expectations (ranges : list (list (bytes * Z))) : weights :=
  fold_left (fun m range => fold_left qa_expectation range m) ranges [].
(** src/ranking.cc:629-637 *)
Definition qa_values (ranges : list (list (bytes * Z))) : weights :=
  flat_map (fun tf => if lt one (snd tf)
                      then [(fst tf, gain (snd tf) (match get (fst tf) (qa_expectations ranges) with Some e => e | None => zero end))]
                      else []) (qa_frequencies ranges).
(** src/ranking.cc:539-652: the terms, and the weighted query [q] after it.  The parameters
    are those of kld. *)
Definition qa_prf (ranking : list (@result F)) (parameters : weights) (q : weights) : res (list bytes * weights) :=
  match ranking with
  | [] => Ok ([], q)
  | _ =>
      let* expansions := ranking_parameter default (lit "kld") (lit "expansions") parameters in
      let* depth := ranking_parameter default (lit "kld") (lit "depth") parameters in
      let* window := ranking_parameter default (lit "kld") (lit "window") parameters in
      let ranges := map (qa_range (addr_of window)) (qa_results (size_of depth) [] 0 ranking) in
      let terms := chosen lt sort (size_of expansions) (qa_values ranges) in
      Ok (map fst terms, fold_left (fun m tv => put (fst tv) (snd tv) m) terms [])
  end.
End Qa.
