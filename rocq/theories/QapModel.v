(** Model of qap in src/ranking.cc: short answers cut from the text around the
    best passages. *)
From Verif Require Import Base HopperModel VectorModel FeatModel RankModel StatsModel IcoverModel.

(** Conversion of a size_t expression to addr. *)
Definition as_addr (z : Z) : Z :=
  let u := wrap64 z in if u <? 9223372036854775808 then u else u - 18446744073709551616.
(** The order of std::string. *)
Fixpoint string_before (a b : list Z) : bool :=
  match a, b with
  | [], [] => false
  | [], _ :: _ => true
  | _ :: _, [] => false
  | x :: a', y :: b' => if x <? y then true else if y <? x then false else string_before a' b'
  end.
(** std::set<std::string>::insert *)
Fixpoint set_add (t : list Z) (l : list (list Z)) : list (list Z) :=
  match l with
  | [] => [t]
  | x :: r => if string_before t x then t :: l else if string_before x t then x :: set_add t r else l
  end.
(** std::string::substr for off up to the length; beyond it throws, which
    nothing catches. *)
Definition substr (text : list Z) (off len : Z) : res (list Z) :=
  if Z.of_nat (length text) <? off then UB
  else Ok (firstn (Z.to_nat len) (skipn (Z.to_nat off) text)).

Section Qap.
(** Scores as in RankModel.v. *)
Context {F : Type} (zero : F) (add : F -> F -> F) (lt : F -> F -> bool) (sort : sorter).
(** weight * weight * weight, src/ranking.cc:1460 *)
Context (cube : F -> F).
(** std::log(N / (ft * (location + 1.0))), src/ranking.cc:1409, 1439-1446, of a
    word at a distance, as computed by the machine. *)
Context (rare : list Z -> Z -> F).
(** warren->txt()->translate, warren->tokenizer()->split, and the offset and the
    length of each token that warren->tokenizer()->tokenize finds. *)
Context (translate : Z -> Z -> list Z) (split : list Z -> list (list Z)) (tokenize : list Z -> list (Z * Z)).
Notation result := (result (F := F)).

(** src/ranking.cc:1415-1421: the text around a passage.  [seen] of 1413, 1422 is
    never added to, so every fragment is used. *)
Definition qap_start (window : Z) (r : result) : Z :=
  let p := as_addr (rp r - window) in if p <? rcp r then rcp r else p.
Definition qap_fragment (window : Z) (r : result) : list Z :=
  let q := as_addr (rq r + window) in
  translate (qap_start window r) (if rcq r <? q then rcq r else q).

(** src/ranking.cc:1428-1437: the distances of words.  A std::map is a partial
    function. *)
Fixpoint qap_locations (cq : Z) (tokens : list (list Z)) (place location : Z)
         (locations : list Z -> option Z) : list Z -> option Z :=
  match tokens with
  | [] => locations
  | t :: rest =>
      let set := match locations t with None => true | Some l => place <? l end in
      let locations' := if set then fun u => if word_eq u t then Some location else locations u
                        else locations in
      let place' := place + 1 in
      let location1 := if 0 <? location then location - 1 else location in
      let location2 := if cq <? place' then location1 + 1 else location1 in
      qap_locations cq rest place' location2 locations'
  end.
(** src/ranking.cc:1424-1427 *)
Definition qap_where (window : Z) (r : result) : list Z -> option Z :=
  let p := qap_start window r in
  qap_locations (rq r) (split (qap_fragment window r)) p (Z.max (rp r - p) 0) (fun _ => None).
(** src/ranking.cc:1438-1451: add to the weights.  The order of the words does
    not matter: each has its own entry. *)
Definition qap_weigh (window : Z) (weights : list Z -> option F) (r : result) : list Z -> option F :=
  fun t => match qap_where window r t with
           | None => weights t
           | Some l => Some (match weights t with None => rare t l | Some w => add w (rare t l) end)
           end.
(** src/ranking.cc:1414-1460: all the weights; the words of the query have none. *)
Definition qap_weights (window : Z) (query : list Z) (covers : list result) : list Z -> option F :=
  let weights := fold_left (qap_weigh window) covers (fun _ => None) in
  fun t => if existsb (word_eq t) (split query) then None else option_map cube (weights t).

(** src/ranking.cc:1470-1476: the runs of [len] tokens from the i-th on. *)
Fixpoint qap_runs (text : list Z) (tokens : list (Z * Z)) (len i n : nat) : res (list (list Z)) :=
  match n with
  | O => Ok []
  | S m =>
      let* a := idx tokens (Z.of_nat i) in
      let* b := idx tokens (Z.of_nat i + Z.of_nat len - 1) in
      let* c := substr text (fst a) (wrap64 (fst b + snd b - fst a)) in
      let* rest := qap_runs text tokens len (S i) m in
      Ok (c :: rest)
  end.
(** src/ranking.cc:1463-1478: the candidates of a fragment. *)
Definition qap_candidates (len : nat) (text : list Z) : res (list (list Z)) :=
  let tokens := tokenize text in
  if Nat.leb (length tokens) len then Ok [text]
  else qap_runs text tokens len 0 (length tokens - len).
Fixpoint qap_all (len j : nat) (fragments : list (list Z)) : res (list (nat * list Z)) :=
  match fragments with
  | [] => Ok []
  | text :: rest =>
      let* cs := qap_candidates len text in
      let* more := qap_all len (S j) rest in
      Ok (map (fun c => (j, c)) cs ++ more)
  end.
(** src/ranking.cc:1482-1490: the score of a candidate. *)
Definition qap_score (weights : list Z -> option F) (c : list Z) : F :=
  fold_left (fun s t => match weights t with Some w => add s w | None => s end)
            (fold_left (fun l t => set_add t l) (split c) []) zero.
(** src/ranking.cc:1500-1507: the best candidates, one from each fragment. *)
Fixpoint qap_pick (depth : nat) (seen : list nat) (l : list (nat * list Z * F)) : list (nat * list Z * F) :=
  match depth, l with
  | S d, (j, c, s) :: rest =>
      if existsb (Nat.eqb j) seen then qap_pick depth seen rest
      else (j, c, s) :: qap_pick d (j :: seen) rest
  | _, _ => []
  end.
(** src/ranking.cc:1494-1497: the comparison; sorting the indices of candidates
    is sorting the candidates. *)
Definition qap_better (a b : nat * list Z * F) : bool := lt (snd b) (snd a).
(** src/ranking.cc:1410-1508, for the passages found. *)
Definition qap_answers (depth len : nat) (window : Z) (query : list Z) (covers : list result)
  : res (list (list Z)) :=
  let weights := qap_weights window query covers in
  let* cs := qap_all len 0 (map (qap_fragment window) covers) in
  let scored := map (fun c => (c, qap_score weights (snd c))) cs in
  Ok (map (fun x => snd (fst x)) (qap_pick depth [] (sort _ qap_better scored))).

(** src/ranking.cc:1395-1509, qap.  The parameters are converted to size_t
    already. *)
Definition qap (stable_sort : sorter) (penal : F -> nat -> Z -> F) (weight : list Z -> F) (hopper : list Z -> hobj)
           (query : list Z) (chopper : option hobj) (depth len passages : nat) (window : Z) : res (list (list Z)) :=
  let* covers := icover_ranking zero add lt sort stable_sort penal (split query) weight hopper chopper passages in
  qap_answers depth len window query covers.
End Qap.
