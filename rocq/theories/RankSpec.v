(** What a ranking is, independent of the ranking code. *)
From Coq Require Export Permutation Sorted.
From Verif Require Import Base HopperModel GclSpec RankModel.

(** A strict weak order: what std::sort asks of a comparison.  The doubles
    other than NaN under < are one. *)
Definition weak_order {A : Type} (lt : A -> A -> bool) : Prop :=
  (forall a, lt a a = false) /\
  (forall a b c, lt a b = true -> lt b c = true -> lt a c = true) /\
  (forall a b c, lt a c = true -> lt a b = true \/ lt b c = true).
(** Nothing stands before something smaller. *)
Definition ordered {A : Type} (lt : A -> A -> bool) (l : list A) : Prop :=
  StronglySorted (fun a b => lt b a = false) l.
(** std::sort: the same elements, in order; ties in any order. *)
Definition sorts (sort : sorter) : Prop :=
  forall A (lt : A -> A -> bool) l, weak_order lt ->
  Permutation l (sort A lt l) /\ ordered lt (sort A lt l).
(** std::stable_sort: elements that tie keep their order. *)
Definition sorts_stably (sort : sorter) : Prop :=
  sorts sort /\
  forall A (lt : A -> A -> bool) l a, weak_order lt ->
  let tie x := negb (lt a x) && negb (lt x a) in
  filter tie (sort A lt l) = filter tie l.

Section Spec.
Context {F : Type} (zero : F) (add : F -> F -> F) (lt : F -> F -> bool).
Notation result := (result (F := F)).

(** Adding [g] to a score that is zero or more than zero gives more than
    zero. *)
Definition positive (g : F) : Prop :=
  forall s, s = zero \/ lt zero s = true -> lt zero (add s g) = true.

(** [top] is a ranking of the [depth] best results of [all]: highest scores
    first, nothing twice, and no result left out for a worse one. *)
Definition best (depth : nat) (all top : list result) : Prop :=
  exists left_out,
    Permutation all (top ++ left_out) /\
    length top = Nat.min depth (length all) /\
    StronglySorted (fun a b => lt (rscore a) (rscore b) = false) top /\
    forall t r, In t top -> In r left_out -> lt (rscore t) (rscore r) = false.

(** Shortest substring ranking.  [inside c x]: the container [c] contains the
    solution [x]. *)
Definition inside (c x : iv) : bool := (ip c <=? ip x) && (iq x <=? iq c).
(** The score of a container: the weights of the solutions in it, added in
    order. *)
Definition ssr_score (weight : Z -> Z -> F) (l : list iv) : F :=
  fold_left (fun s x => add s (weight (ip x) (iq x))) l zero.
(** The passage shown for it: the first of its shortest solutions. *)
Definition shortest (l : list iv) (x : iv) : Prop :=
  exists a b, l = a ++ x :: b /\
    (forall y, In y a -> iq x - ip x < iq y - ip y) /\
    (forall y, In y b -> iq x - ip x <= iq y - ip y).
(** The result expected for a container: its score and its passage. *)
Definition ssr_result (weight : Z -> Z -> F) (sols : list iv) (c : iv) (r : result) : Prop :=
  rcp r = ip c /\ rcq r = iq c /\
  rscore r = ssr_score weight (filter (inside c) sols) /\
  exists x, shortest (filter (inside c) sols) x /\ rp r = ip x /\ rq r = iq x.
(** The containers that start in [start, stop) and contain a solution. *)
Definition matching (sols conts : list iv) (start stop : Z) : list iv :=
  filter (fun c => (start <=? ip c) && (ip c <? stop) && existsb (inside c) sols) conts.
(** [top] holds the [depth] best of those containers, each with its score and
    its passage. *)
Definition ssr_answer (weight : Z -> Z -> F) (sols conts : list iv) (start stop : Z)
           (depth : nat) (top : list result) : Prop :=
  exists all, Forall2 (ssr_result weight sols) (matching sols conts start stop) all /\
              best depth all top.
(** No two containers overlap. *)
Definition apart (C : iv -> Prop) : Prop :=
  forall c d, C c -> C d -> ip c < ip d -> iq c < ip d.

(** Rankings of documents by the sum of their terms' scores.  [lists] has, for
    each term, the documents it occurs in with a value each; [gain i v p q] is
    what the i-th term adds to the score of document (p, q) when its value
    there is v. *)
Fixpoint doc_score (gain : nat -> Z -> Z -> Z -> F) (i : nat) (d : iv)
         (lists : list (list iv)) (score : F) : F :=
  match lists with
  | [] => score
  | l :: rest =>
      doc_score gain (S i) d rest
        (match find (fun x => ip x =? ip d) l with
         | Some x => add score (gain i (ivl x) (ip d) (iq d))
         | None => score
         end)
  end.
(** The documents with a score above zero. *)
Definition doc_results (gain : nat -> Z -> Z -> Z -> F) (docs : list iv)
           (lists : list (list iv)) : list result :=
  map (fun d => res3 (ip d) (iq d) (doc_score gain 0 d lists zero))
      (filter (fun d => lt zero (doc_score gain 0 d lists zero)) docs).
(** Every entry of a term's list is one of the documents. *)
Definition of_docs (docs l : list iv) : Prop :=
  forall x, In x l -> exists d, In d docs /\ ip d = ip x /\ iq d = iq x.

(** Addition without rounding, that keeps the order. *)
Definition exact : Prop :=
  (forall a b, add a b = add b a) /\ (forall a b c, add a (add b c) = add (add a b) c) /\
  (forall a, add zero a = a) /\
  (forall a b c, lt a b = false -> lt (add a c) (add b c) = false).

(** Fusing rankings: what the results with start [k] earn, in order. *)
Fixpoint earned (reciprocal : nat -> F) (k : Z) (i : nat) (ranking : list result) : list F :=
  match ranking with
  | [] => []
  | r :: rest => (if rp r =? k then [reciprocal i] else []) ++ earned reciprocal k (S i) rest
  end.
Definition fused_score (reciprocal : nat -> F) (rankings : list (list result)) (k : Z) (s : F)
  : Prop :=
  exists g gs, flat_map (earned reciprocal k 0) rankings = g :: gs /\ s = fold_left add gs g.
(** [r] is the first of the results of [l] with its start. *)
Definition first_with_start (l : list result) (r : result) : Prop :=
  exists a b, l = a ++ r :: b /\ forall y, In y a -> rp y <> rp r.
Definition fused (reciprocal : nat -> F) (rankings : list (list result)) (top : list result)
  : Prop :=
  StronglySorted (fun a b => lt (rscore a) (rscore b) = false) top /\
  NoDup (map rp top) /\
  (forall k, In k (map rp top) <-> In k (map rp (concat rankings))) /\
  forall r, In r top ->
    fused_score reciprocal rankings (rp r) (rscore r) /\
    exists r0, first_with_start (concat rankings) r0 /\
      rp r = rp r0 /\ rq r = rq r0 /\ rcp r = rcp r0 /\ rcq r = rcq r0.

(** One best result for each container of [l]. *)
Definition one_each (l all : list result) : Prop :=
  NoDup (map rcp all) /\
  (forall k, In k (map rcp all) <-> In k (map rcp l)) /\
  forall r, In r all -> In r l /\
    forall y, In y l -> rcp y = rcp r -> lt (rscore r) (rscore y) = false.

(** Tiers.  The results whose container is not among [seen]. *)
Definition unseen (seen : list Z) (l : list result) : list result :=
  filter (fun r => negb (existsb (Z.eqb (rcp r)) seen)) l.
(** [alls] has for each tier the results of all the containers that match it.
    The ranking takes the best of the first tier, then the best of the next
    among the containers not taken yet, until it has [depth]. *)
Fixpoint tiered (depth : nat) (alls : list (list result)) (seen : list Z) (top : list result)
  : Prop :=
  match alls with
  | [] => top = []
  | all :: rest =>
      exists pick top', top = pick ++ top' /\ best depth (unseen seen all) pick /\
        tiered (depth - length pick) rest (map rcp pick ++ seen) top'
  end.
(** A result without its score. *)
Definition place (r : result) : Z * Z * Z * Z := (rp r, rq r, rcp r, rcq r).

(** [r'] is [r] with its container: the first of the containers [conts] that
    covers it, if one does. *)
Definition contained (conts : list iv) (r r' : result) : Prop :=
  rp r' = rp r /\ rq r' = rq r /\ rscore r' = rscore r /\
  let covers c := ip c <= rp r /\ rq r <= iq c in
  ((exists a c b, conts = a ++ c :: b /\ covers c /\ (forall d, In d a -> ~ covers d) /\
      rcp r' = ip c /\ rcq r' = iq c) \/
   ((forall c, In c conts -> ~ covers c) /\ r' = r)).
End Spec.
