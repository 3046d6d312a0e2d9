(** Model of the ranking functions of src/ranking.cc: shortest substring
    ranking, its parallel version, tiers of queries, BM25, language-model and
    dot-product ranking, rank fusion and the merging of result lists. *)
From Verif Require Import Base HopperModel.

(** The two sorting functions of the C++ library used by src/ranking.cc, for
    every element type and comparison.  They are arguments of the model; what
    the standard promises of them is stated in RankSpec.v. *)
Definition sorter := forall A : Type, (A -> A -> bool) -> list A -> list A.

Section Rank.
(** Scores.  src/core.h:16: fval is double.  [F] stands for the doubles other
    than NaN, [zero] for 0.0, [add] for + with its rounding and [lt] for the
    comparison <; only the laws stated in RankSpec.v are used. *)
Context {F : Type} (zero : F) (add : F -> F -> F) (lt : F -> F -> bool).
Context (sort stable_sort : sorter).

(** src/ranking.h:16-41, class RankingResult. *)
Record result := Res { rp : Z; rq : Z; rcp : Z; rcq : Z; rscore : F }.
(** src/ranking.h:18-19, the three-argument constructor. *)
Definition res3 (p q : Z) (score : F) : result := Res p q p q score.

(** The comparison of src/ranking.cc:83-86, 294-297, 380-383, 392-395. *)
Definition by_score (a b : result) : bool := lt (rscore b) (rscore a).

(** src/ranking.cc:286-301, top_results. *)
Definition top_results (results0 results1 : list result) (depth : nat) : list result :=
  firstn depth (sort result by_score (results0 ++ results1)).

(** The score a further result has to beat; src/ranking.cc:340, 1259, 1357,
    1608 (top.size() == depth or >= depth, top[top.size() - 1] or
    top.back()). *)
Definition target_of (top : list result) (depth : nat) : F :=
  if Nat.eqb (length top) depth then
    match rev top with r :: _ => rscore r | [] => zero end
  else zero.

(** src/ranking.cc:344-350, 1276-1282, 1382-1388, 1629-1635: keep a result that
    beats the target; a full batch is merged into the top. *)
Definition keep (depth : nat) (target : F) (r : result) (tc : list result * list result)
  : list result * list result :=
  let (top, current) := tc in
  if lt target (rscore r) then
    let current' := current ++ [r] in
    if Nat.eqb (length current') depth then (top_results top current' depth, [])
    else (top, current')
  else (top, current).

(* ------------------------------------------------------------------ *)
(** * Shortest substring ranking *)
Section Ssr.
(** The hoppers of the query and of the containers. *)
Context (A C : hcls).
(** 1.0 / (K + q - p), src/ranking.cc:355, as computed by the machine. *)
Context (weight : Z -> Z -> F).

(** The local variables of src/ranking.cc:330-338. *)
Record ssr := Ssr {
  s_hop : St A; s_chop : St C;
  s_p : Z; s_q : Z; s_cp : Z; s_cq : Z;
  s_score : F; s_target : F; s_best_p : Z; s_best_q : Z;
  s_top : list result; s_current : list result }.

(** src/ranking.cc:339-362, one turn of the while loop. *)
Definition ssr_body (depth : nat) (stop : Z) (s : ssr) : res (ssr + ssr) :=
  if (s_p s <? maxf) && (s_cq s <? maxf) && (s_cp s <? stop) then
    let target := target_of (s_top s) depth in
    if s_p s <? s_cp s then
      let* (h, r) := h_tau A (s_hop s) (s_cp s) in
      Ok (inl (Ssr h (s_chop s) (ip r) (iq r) (s_cp s) (s_cq s)
                 (s_score s) target (s_best_p s) (s_best_q s) (s_top s) (s_current s)))
    else if s_cq s <? s_q s then
      let (top, current) :=
        keep depth target (Res (s_best_p s) (s_best_q s) (s_cp s) (s_cq s) (s_score s))
          (s_top s, s_current s) in
      let* (c, r) := h_rho C (s_chop s) (s_q s) in
      Ok (inl (Ssr (s_hop s) c (s_p s) (s_q s) (ip r) (iq r)
                 zero target maxf maxf top current))
    else
      let score := add (s_score s) (weight (s_p s) (s_q s)) in
      let* len := chk (s_q s - s_p s) in
      let* best := chk (s_best_q s - s_best_p s) in
      let shorter := (s_best_p s =? maxf) || (len <? best) in
      let* k := chk (s_p s + 1) in
      let* (h, r) := h_tau A (s_hop s) k in
      Ok (inl (Ssr h (s_chop s) (ip r) (iq r) (s_cp s) (s_cq s) score target
                 (if shorter then s_p s else s_best_p s)
                 (if shorter then s_q s else s_best_q s) (s_top s) (s_current s)))
  else Ok (inr s).

(** src/ranking.cc:308-367, ssr_ranking, from the two hoppers on; the query
    text and its compilation (src/ranking.cc:321-329) are C06's. *)
Definition ssr_ranking (hop : St A) (chop : St C) (depth : nat) (start stop : Z)
  : res (list result) :=
  if Nat.eqb depth 0 then Ok [] else
  let start := if start =? minf then start + 1 else start in
  if stop <=? start then Ok [] else
  let* (c, r) := h_tau C chop start in
  if stop <=? ip r then Ok [] else
  let* (h, x) := h_tau A hop (ip r) in
  let* s := loop (ssr_body depth stop)
              (Ssr h c (ip x) (iq x) (ip r) (iq r) zero zero maxf maxf [] []) in
  let current :=
    if lt (s_target s) (s_score s) && (s_cq s <? maxf) && (s_cp s <? stop)
    then s_current s ++ [Res (s_best_p s) (s_best_q s) (s_cp s) (s_cq s) (s_score s)]
    else s_current s in
  Ok (top_results (s_top s) current depth).

(** src/ranking.cc:1776, MINIMUM_PARALLEL_TOKENS. *)
Definition minimum_parallel_tokens : Z := 1000000.
(** src/core.cc:39-46, allowed_threads; [hardware] is
    std::thread::hardware_concurrency(). *)
Definition allowed_threads (hardware desired : Z) : Z :=
  let cap := if hardware <=? 1 then 4 else 2 * hardware in
  if desired =? 0 then cap else if desired <? cap then desired else cap.
(** src/ranking.cc:1817-1821, where the n-th of d ranges begins. *)
Definition range_begin (start span d n : Z) : Z :=
  start + (span / d) * n + ((span mod d) * n) / d.

(** src/ranking.cc:1825-1842: the workers.  Each has a clone of the warren, so
    hoppers of its own in their initial state, and writes only its own entry
    of [rankings]; they are run here one after the other.  A clone that fails
    (src/ranking.cc:1832-1835, 1843-1844) is not modelled. *)
Fixpoint workers (hop : St A) (chop : St C) (depth : nat) (ranges : list (Z * Z))
  : res (list (list result)) :=
  match ranges with
  | [] => Ok []
  | (b, e) :: rest =>
      let* r := ssr_ranking hop chop depth b e in
      let* rs := workers hop chop depth rest in
      Ok (r :: rs)
  end.

(** src/ranking.cc:1778-1848, parallel_ranking, with ssr_ranking as the
    algorithm: src/ranking.cc:1851-1864, parallel_ssr. *)
Definition parallel_ssr (hardware threads : Z) (hop : St A) (chop : St C) (depth : nat)
  : res (list result) :=
  if Nat.eqb depth 0 then Ok [] else
  let* (c, r) := h_tau C chop (minf + 1) in
  if ip r =? maxf then Ok [] else
  let start := ip r in
  let* (_, r') := h_ohr C c (maxf - 1) in
  if ip r' =? minf then Ok [] else
  let* z := if iq r' =? maxf then Ok maxf else chk (iq r' + 1) in
  if z <=? start then Ok [] else
  let* span := chk (z - start) in
  let range_threads := Z.max 1 (span / minimum_parallel_tokens) in
  let threads := Z.min (allowed_threads hardware threads) range_threads in
  if threads <=? 1 then ssr_ranking hop chop depth start z else
  let ranges := map (fun i => (range_begin start span threads (Z.of_nat i),
                               range_begin start span threads (Z.of_nat i + 1)))
                    (seq 0 (Z.to_nat threads)) in
  let* rankings := workers hop chop depth ranges in
  Ok (fold_left (fun top ranking => top_results top ranking depth) rankings []).
End Ssr.

(* ------------------------------------------------------------------ *)
(** * Tiers of queries *)
(** src/ranking.cc:252-260, the results of one tier.  [fake i] is the score
    given to the i-th result: depth - top.size() as a double. *)
Fixpoint add_tier (fake : nat -> F) (depth : nat) (ranking : list result)
         (st : list Z * list result) : list Z * list result :=
  match ranking with
  | [] => st
  | r :: rest =>
      let (seen, top) := st in
      if Nat.ltb (length top) depth then
        if existsb (Z.eqb (rcp r)) seen then add_tier fake depth rest (seen, top)
        else add_tier fake depth rest
               (rcp r :: seen,
                top ++ [Res (rp r) (rq r) (rcp r) (rcq r) (fake (depth - length top)%nat)])
      else (seen, top)
  end.
(** src/ranking.cc:240-265, tiered_ranking; [rank tier] is ssr_ranking of the
    tier's query over all addresses. *)
Fixpoint add_tiers {T : Type} (rank : T -> res (list result)) (fake : nat -> F)
         (depth : nat) (tiers : list T) (st : list Z * list result) : res (list result) :=
  match tiers with
  | [] => Ok (snd st)
  | t :: rest =>
      let* ranking := rank t in
      let st' := add_tier fake depth ranking st in
      if Nat.eqb (length (snd st')) depth then Ok (snd st')
      else add_tiers rank fake depth rest st'
  end.
Definition tiered_ranking {T : Type} (rank : T -> res (list result)) (fake : nat -> F)
           (depth : nat) (tiers : list T) : res (list result) :=
  match tiers with
  | [] => Ok []
  | _ => add_tiers rank fake depth tiers ([], [])
  end.

(* ------------------------------------------------------------------ *)
(** * Fusing and merging result lists *)
(** src/ranking.cc:66-74, the scores gathered in a map from the start of a
    result to its score.  [reciprocal i] is 1.0 / (60.0 + i + 1.0). *)
Fixpoint find_score (k : Z) (m : list (Z * F)) : option F :=
  match m with
  | [] => None
  | (k', v) :: r => if k =? k' then Some v else find_score k r
  end.
Fixpoint set_score (k : Z) (v : F) (m : list (Z * F)) : list (Z * F) :=
  match m with
  | [] => [(k, v)]
  | (k', v') :: r => if k =? k' then (k, v) :: r else (k', v') :: set_score k v r
  end.
Fixpoint gather (reciprocal : nat -> F) (i : nat) (ranking : list result)
         (m : list (Z * F)) : list (Z * F) :=
  match ranking with
  | [] => m
  | r :: rest =>
      let m' := match find_score (rp r) m with
                | None => set_score (rp r) (reciprocal i) m
                | Some v => set_score (rp r) (add v (reciprocal i)) m
                end in
      gather reciprocal (S i) rest m'
  end.
(** src/ranking.cc:75-82: the first result of each start, with its score. *)
Fixpoint fuse (m : list (Z * F)) (seen : list Z) (results : list result) : list result :=
  match results with
  | [] => []
  | r :: rest =>
      if existsb (Z.eqb (rp r)) seen then fuse m seen rest
      else Res (rp r) (rq r) (rcp r) (rcq r)
               (match find_score (rp r) m with Some v => v | None => zero end)
           :: fuse m (rp r :: seen) rest
  end.
(** src/ranking.cc:64-88, rrf_fusion. *)
Definition rrf_fusion (reciprocal : nat -> F) (rankings : list (list result)) : list result :=
  let scores := fold_left (fun m ranking => gather reciprocal 0 ranking m) rankings [] in
  sort result by_score (fuse scores [] (concat rankings)).

(** src/ranking.cc:384-387, the second comparison of merge_results. *)
Definition by_container (a b : result) : bool := rcp a <? rcp b.
(** src/ranking.cc:388-391: the first result of each run of equal containers
    ([merged.back()] is the argument). *)
Fixpoint merge_runs (back : option result) (l : list result) : list result :=
  match l with
  | [] => []
  | r :: rest =>
      match back with
      | None => r :: merge_runs (Some r) rest
      | Some b => if rcp b <? rcp r then r :: merge_runs (Some r) rest
                  else merge_runs (Some b) rest
      end
  end.
(** src/ranking.cc:374-399, merge_results. *)
Definition merge_results (results0 results1 : list result) (depth : nat) : list result :=
  let combined := stable_sort result by_container (sort result by_score (results0 ++ results1)) in
  firstn depth (sort result by_score (merge_runs None combined)).

(** src/ranking.cc:45-57, maybe_add_container, when there are containers, and
    src/ranking.h:31-36, RankingResult::container. *)
Definition set_container (r : result) (cp cq : Z) : result :=
  if (cp <=? rp r) && (rq r <=? cq) then Res (rp r) (rq r) cp cq (rscore r) else r.
Fixpoint add_container (C : hcls) (c : St C) (ranking : list result) : res (list result) :=
  match ranking with
  | [] => Ok []
  | r :: rest =>
      let* (c', x) := h_rho C c (rq r) in
      let* rs := add_container C c' rest in
      Ok (set_container r (ip x) (iq x) :: rs)
  end.

(* ------------------------------------------------------------------ *)
(** * Rankings that add up the scores of the terms of each document *)
(** A term's hopper with its last answer.  The struct TermHopper of
    src/ranking.cc:1231-1237, 1578-1585, or WandHopper of 1338-1344. *)
Record term := Term { t_cls : hcls; t_hop : St t_cls; t_iv : iv }.
(** hopper->tau(k, &p, &q, &v) into the struct. *)
Definition advance (t : term) (k : Z) : res term :=
  let* (h, r) := h_tau (t_cls t) (t_hop t) k in Ok (Term (t_cls t) h r).

(** src/ranking.cc:1249-1256, 1590-1605: first answers, and the first
    document. *)
Fixpoint first_docs (ts : list term) (best : iv) : res (list term * iv) :=
  match ts with
  | [] => Ok ([], best)
  | t :: rest =>
      let* t' := advance t (minf + 1) in
      let best' := if ip (t_iv t') <? ip best then t_iv t' else best in
      let* (rest', b) := first_docs rest best' in
      Ok (t' :: rest', b)
  end.
(** src/ranking.cc:1260-1275, 1609-1628: score the document [d] and move
    on.  [gain i v p q] is what the i-th term adds to document (p, q) when
    its value there is [v]: the expression of src/ranking.cc:1265-1267 with the
    term's weights and the document's length, or the product of 1595, 1599,
    1617, 1621. *)
Fixpoint score_doc (gain : nat -> Z -> Z -> Z -> F) (i : nat) (d : iv) (ts : list term)
         (score : F) (next : iv) : res (list term * F * iv) :=
  match ts with
  | [] => Ok ([], score, next)
  | t :: rest =>
      if ip (t_iv t) =? ip d then
        let score' := add score (gain i (ivl (t_iv t)) (ip d) (iq d)) in
        let* k := chk (ip d + 1) in
        let* t' := advance t k in
        let next' := if ip (t_iv t') <? ip next then t_iv t' else next in
        let* (rest', s, n) := score_doc gain (S i) d rest score' next' in
        Ok (t' :: rest', s, n)
      else
        let next' := if ip (t_iv t) <? ip next then t_iv t else next in
        let* (rest', s, n) := score_doc gain (S i) d rest score next' in
        Ok (t :: rest', s, n)
  end.
(** src/ranking.cc:1257-1287, 1606-1640, the loop over the documents. *)
Definition daat_body (gain : nat -> Z -> Z -> Z -> F) (depth : nat)
           (s : list term * iv * (list result * list result))
  : res ((list term * iv * (list result * list result)) + list result) :=
  let '(ts, d, (top, current)) := s in
  if ip d <? maxf then
    let target := target_of top depth in
    let* (ts', score, next) := score_doc gain 0 d ts zero (Iv maxf maxf 0) in
    Ok (inl (ts', next, keep depth target (res3 (ip d) (iq d) score) (top, current)))
  else Ok (inr (top_results top current depth)).
(** src/ranking.cc:1221-1288, lmd_ranking, and src/ranking.cc:1564-1641, product_ranking, from
    the hoppers of the query's terms on. *)
Definition term_ranking (gain : nat -> Z -> Z -> Z -> F) (depth : nat) (ts : list term)
  : res (list result) :=
  if Nat.eqb depth 0 then Ok [] else
  let* (ts', d) := first_docs ts (Iv maxf maxf 0) in
  loop (daat_body gain depth) (ts', d, ([], [])).

(** src/ranking.cc:1338-1344, struct WandHopper: [w_idf] is the weight of the
    term in the query times its idf. *)
Record wand := Wand { w_idf : F; w_gain : Z -> Z -> F; w_term : term }.
Definition w_p (w : wand) : Z := ip (t_iv (w_term w)).
Definition w_q (w : wand) : Z := iq (t_iv (w_term w)).
Definition w_v (w : wand) : Z := ivl (t_iv (w_term w)).
Definition w_advance (w : wand) (k : Z) : res wand :=
  let* t := advance (w_term w) k in Ok (Wand (w_idf w) (w_gain w) t).
Fixpoint each_advance (k : Z) (ws : list wand) : res (list wand) :=
  match ws with
  | [] => Ok []
  | w :: rest =>
      let* w' := w_advance w k in
      let* rest' := each_advance k rest in Ok (w' :: rest')
  end.
(** The comparison of src/ranking.cc:1358-1359. *)
Definition by_p (a b : wand) : bool := w_p a <? w_p b.
(** src/ranking.cc:1360-1361: finished terms are dropped from the end. *)
Fixpoint pop_finished (l : list wand) : list wand :=
  match l with
  | [] => []
  | w :: r => match pop_finished r with
              | [] => if w_p w =? maxf then [] else [w]
              | r' => w :: r'
              end
  end.
(** src/ranking.cc:1362-1370: the first term at which the sum of the weights
    exceeds the target: the terms before it, and from it on. *)
Fixpoint find_pivot (target x : F) (l : list wand) : option (list wand * wand * list wand) :=
  match l with
  | [] => None
  | w :: r =>
      let x' := add x (w_idf w) in
      if lt target x' then Some ([], w, r)
      else match find_pivot target x' r with
           | None => None
           | Some (a, v, b) => Some (w :: a, v, b)
           end
  end.
(** src/ranking.cc:1376-1381.  [w_gain w tf len] is
    bm25(tf, idf, length, avgl, b, k1), src/ranking.cc:1294-1296. *)
Fixpoint score_pivot (pivot length : Z) (ws : list wand) (score : F) : res (list wand * F) :=
  match ws with
  | [] => Ok ([], score)
  | w :: rest =>
      if w_p w =? pivot then
        let score' := add score (w_gain w (w_v w) length) in
        let* k := chk (pivot + 1) in
        let* w' := w_advance w k in
        let* (rest', s) := score_pivot pivot length rest score' in
        Ok (w' :: rest', s)
      else
        let* (rest', s) := score_pivot pivot length rest score in
        Ok (w :: rest', s)
  end.
(** src/ranking.cc:1356-1389, one turn of the loop. *)
Definition wand_body (depth : nat) (s : list wand * (list result * list result))
  : res ((list wand * (list result * list result)) + list result) :=
  let '(ws, (top, current)) := s in
  let target := target_of top depth in
  let ws1 := pop_finished (sort wand by_p ws) in
  match find_pivot target zero ws1 with
  | None => Ok (inr (top_results top current depth))
  | Some (before, w, after) =>
      let pivot := w_p w in
      let qivot := w_q w in
      let* len := chk (qivot - pivot) in
      let* before' := each_advance pivot before in
      let* (ws2, score) := score_pivot pivot (len + 1) (before' ++ w :: after) zero in
      Ok (inl (ws2, keep depth target (res3 pivot qivot score) (top, current)))
  end.
(** src/ranking.cc:1323-1393, bm25_ranking, from the hoppers of the terms whose
    idf is not 0 on, before maybe_add_container. *)
Definition bm25_ranking (depth : nat) (ws : list wand) : res (list result) :=
  if Nat.eqb depth 0 then Ok [] else
  let* ws' := each_advance (minf + 1) ws in
  loop (wand_body depth) (ws', ([], [])).
End Rank.
