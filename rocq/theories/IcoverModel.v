(** Model of icover_ranking in src/ranking.cc: passages are the shortest
    intervals holding n words of the query, first with every word, then with
    one word fewer, down to single words. *)
From Verif Require Import Base HopperModel VectorModel RankModel.

Section Icover.
(** Scores as in RankModel.v. *)
Context {F : Type} (zero : F) (add : F -> F -> F) (lt : F -> F -> bool).
Context (sort stable_sort : sorter).
(** score - n * std::log(len + 1.0), src/ranking.cc:482, as computed by the
    machine for a passage of q - p = len. *)
Context (penal : F -> nat -> Z -> F).
Notation result := (result (F := F)).

(** src/ranking.cc:424-430, struct WeightedHopper. *)
Record wh := Wh { w_weight : F; w_pos : Z; w_hop : hobj }.
(** src/ranking.cc:446-449, 503-505: the comparison a.weight < b.weight. *)
Definition lighter (a b : wh) : bool := lt (w_weight a) (w_weight b).
(** src/ranking.cc:516-518: the comparison a.weight > b.weight. *)
Definition heavier (a b : wh) : bool := lt (w_weight b) (w_weight a).
(** src/ranking.cc:468-471: the comparison a.position < b.position. *)
Definition sooner (a b : wh) : bool := w_pos a <? w_pos b.

(** src/ranking.cc:443, 490, 499: top.size() >= depth ? top.back().score() : 0.0.
    back() of an empty vector is undefined. *)
Definition icover_target (top : list result) (depth : nat) : res F :=
  if Nat.leb depth (length top) then
    match rev top with r :: _ => Ok (rscore r) | [] => UB end
  else Ok zero.

(** src/ranking.cc:450-459: drop the lightest words while the n lightest
    together are not above the target.  a <= b is the negation of b < a, NaN
    apart. *)
Fixpoint icover_prune (n : nat) (target : F) (whs : list wh) : list wh :=
  match whs with
  | [] => []
  | _ :: rest =>
      if Nat.leb n (length whs) then
        if lt target (fold_left (fun s w => add s (w_weight w)) (firstn n whs) zero) then whs
        else icover_prune n target rest
      else whs
  end.

(** src/ranking.cc:466-467: tau(k) of every hopper, keeping the ends. *)
Fixpoint icover_ends (k : Z) (whs : list wh) : res (list wh) :=
  match whs with
  | [] => Ok []
  | w :: rest =>
      let* (h, x) := h_tau (projT1 (w_hop w)) (projT2 (w_hop w)) k in
      let* rest' := icover_ends k rest in
      Ok (Wh (w_weight w) (iq x) (existT St _ h) :: rest')
  end.

(** src/ranking.cc:477-481: uat(q) of the hoppers before the n-th, the earliest
    start and the sum of the weights. *)
Fixpoint icover_starts (q : Z) (whs : list wh) (p : Z) (score : F) : res (list wh * Z * F) :=
  match whs with
  | [] => Ok ([], p, score)
  | w :: rest =>
      let* (h, x) := h_uat (projT1 (w_hop w)) (projT2 (w_hop w)) q in
      let* (rest', p', s) := icover_starts q rest (Z.min p (ip x)) (add score (w_weight w)) in
      Ok (Wh (w_weight w) (ip x) (existT St _ h) :: rest', p', s)
  end.

(** The local variables of src/ranking.cc:442-501. *)
Record icover := Icover {
  i_whs : list wh; i_chop : hobj; i_k : Z;
  i_top : list result; i_cur : list result; i_target : F }.

(** src/ranking.cc:484-494: keep a passage above the target that is in a
    container. *)
Definition icover_keep (depth : nat) (p q : Z) (score : F) (chop : hobj)
           (top cur : list result) (target : F)
  : res (hobj * list result * list result * F) :=
  if lt target score then
    let* (h, c) := h_rho (projT1 chop) (projT2 chop) q in
    let chop' : hobj := existT St _ h in
    if ip c <=? p then
      let cur' := cur ++ [Res p q (ip c) (iq c) score] in
      if Nat.eqb (length cur') depth then
        let top' := merge_results lt sort stable_sort top cur' depth in
        let* target' := icover_target top' depth in
        Ok (chop', top', [], target')
      else Ok (chop', top, cur', target)
    else Ok (chop', top, cur, target)
  else Ok (chop, top, cur, target).

(** src/ranking.cc:465-495, one round of the loop: the next shortest passage
    with n words. *)
Definition icover_step (depth n : nat) (s : icover) : res (icover + icover) :=
  let* ends := icover_ends (i_k s) (i_whs s) in
  let whs := sort wh sooner ends in
  let* w := idx whs (Z.of_nat n - 1) in
  let q := w_pos w in
  if q =? maxf then
    Ok (inr (Icover whs (i_chop s) (i_k s) (i_top s) (i_cur s) (i_target s)))
  else
    let* (h, x) := h_uat (projT1 (w_hop w)) (projT2 (w_hop w)) q in
    let* (front, p, sum) := icover_starts q (firstn (n - 1) whs) (ip x) (w_weight w) in
    let whs' := front ++ Wh (w_weight w) q (existT St _ h) :: skipn n whs in
    let* len := chk (q - p) in
    let* (chop, top, cur, target) :=
      icover_keep depth p q (penal sum n len) (i_chop s) (i_top s) (i_cur s) (i_target s) in
    let* k := chk (p + 1) in
    Ok (inl (Icover whs' chop k top cur target)).

(** src/ranking.cc:464-500: the loop over the passages with n words, and the
    merging of what it left over. *)
Definition icover_wave (depth n : nat) (whs : list wh) (chop : hobj) (top : list result) (target : F)
  : res (list wh * hobj * list result * F) :=
  let* s := loop (icover_step depth n) (Icover whs chop (minf + 1) top [] target) in
  if Nat.ltb 0 (length (i_cur s)) then
    let top' := merge_results lt sort stable_sort (i_top s) (i_cur s) depth in
    let* target' := icover_target top' depth in
    Ok (i_whs s, i_chop s, top', target')
  else Ok (i_whs s, i_chop s, i_top s, i_target s).

(** src/ranking.cc:442-501, the passes with n words, n - 1 words, ..., 2 words;
    [inl] is the return of line 461. *)
Fixpoint icover_waves (depth n : nat) (whs : list wh) (chop : hobj) (top : list result) (target : F)
  : res (list result + (list wh * hobj * list result * F)) :=
  match n with
  | S (S _ as m) =>
      let* target0 := icover_target top depth in
      let full := Nat.leb depth (length top) in
      let whs0 := if full then icover_prune n target0 (sort wh lighter whs) else whs in
      if full && Nat.ltb (length whs0) n then Ok (inl top)
      else
        let* (whs', chop', top', target') := icover_wave depth n whs0 chop top target0 in
        icover_waves depth m whs' chop' top' target'
  | _ => Ok (inr (whs, chop, top, target))
  end.

(** src/ranking.cc:506-511: drop the words whose weight is not above the
    target. *)
Fixpoint icover_drop (target : F) (whs : list wh) : list wh :=
  match whs with
  | [] => []
  | w :: rest => if lt target (w_weight w) then whs else icover_drop target rest
  end.

(** src/ranking.cc:520-528, the rounds of the loop that use one hopper. *)
Definition icover_word (depth : nat) (w : F) (C : hcls)
           (s : St C * hobj * Z * list result)
  : res ((St C * hobj * Z * list result) + (hobj * list result)) :=
  let '(h, chop, k, acc) := s in
  if Nat.ltb (length acc) depth then
    let* (h', x) := h_tau C h k in
    if iq x <? maxf then
      let* (c', c) := h_rho (projT1 chop) (projT2 chop) (iq x) in
      let acc' := if ip c <=? ip x then acc ++ [Res (ip x) (iq x) (ip c) (iq c) w] else acc in
      let* k' := chk (ip x + 1) in
      Ok (inl (h', existT St _ c', k', acc'))
    else Ok (inr (chop, acc))
  else Ok (inr (chop, acc)).
(** src/ranking.cc:520-532: the words from the heaviest on until there are
    [depth] results. *)
Fixpoint icover_words (depth : nat) (whs : list wh) (chop : hobj) (k : Z) (acc : list result)
  : res (list result) :=
  match whs with
  | [] => Ok acc
  | w :: rest =>
      let* (chop', acc') :=
        loop (icover_word depth (w_weight w) (projT1 (w_hop w)))
             (projT2 (w_hop w), chop, k, acc) in
      icover_words depth rest chop' (minf + 1) acc'
  end.

(** src/ranking.cc:406-536, icover_ranking.  [terms] are the words of the
    query, [weight] is log((tokens + vocab) / (count + 1.0)) of a word
    (432-439), [hopper] its hopper and [chopper] that of the containers: None
    when their query has a syntax error or no hopper (414-423). *)
Definition icover_ranking {T : Type} (terms : list T) (weight : T -> F) (hopper : T -> hobj)
           (chopper : option hobj) (depth : nat) : res (list result) :=
  match terms, chopper with
  | [], _ => Ok []
  | _, None => Ok []
  | _, Some chop =>
      let whs := map (fun t => Wh (weight t) minf (hopper t)) terms in
      let* r := icover_waves depth (length terms) whs chop [] zero in
      match r with
      | inl top => Ok top
      | inr (whs1, chop1, top, target) =>
          let whs2 := if Nat.leb depth (length top)
                      then icover_drop target (sort wh lighter whs1) else whs1 in
          if Nat.leb depth (length top) && Nat.eqb (length whs2) 0 then Ok top
          else
            let* onesies := icover_words depth (sort wh heavier whs2) chop1 0 [] in
            Ok (merge_results lt sort stable_sort top onesies depth)
      end
  end.
End Icover.
