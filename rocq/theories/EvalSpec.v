(** What the measures of a ranking are (specification for C59 to C61). *)
From Coq Require Import Reals Permutation Sorted.
From Verif Require Import Base Bytes RecipeModel RankerSpec.
Local Open Scope R_scope.

Definition Rsum (l : list R) : R := fold_right Rplus 0 l.
Definition over (a b : R) : R := if Req_EM_T b 0 then 0 else a / b.
(** Judgments give each item at most one grade; an item without one has grade 0. *)
Definition grade (g : list (Z * R)) (p : Z) : R := Rsum (map snd (filter (fun x => Z.eqb (fst x) p) g)).
Definition graded (g : list (Z * R)) : Prop := NoDup (map fst g).
Definition grades_within (low high : R) (g : list (Z * R)) : Prop := Forall (fun x => low <= snd x <= high) g.
Definition not_negative (g : list (Z * R)) : Prop := Forall (fun x => 0 <= snd x) g.
(** An item is relevant if its grade is above 0. *)
Definition relevants (g : list (Z * R)) (l : list Z) : list Z :=
  filter (fun p => if Rlt_dec 0 (grade g p) then true else false) l.
Definition many (l : list Z) : R := INR (length l).

(** The part of the first [k] that is relevant, even if there are fewer than [k]. *)
Definition precision_at (g : list (Z * R)) (k : nat) (l : list Z) : R := many (relevants g (firstn k l)) / INR k.
(** The precision at each rank that holds a relevant item, for all relevant items there are. *)
Definition average_precision (g : list (Z * R)) (l : list Z) : R :=
  over (Rsum (map (fun k => if Rlt_dec 0 (grade g (nth (k - 1) l 0%Z)) then precision_at g k l else 0) (seq 1 (length l))))
       (many (relevants g (map fst g))).
Definition reciprocal_rank (g : list (Z * R)) (l : list Z) (r : R) : Prop :=
  (relevants g l = [] /\ r = 0) \/
  (exists before p after, l = before ++ p :: after /\ relevants g before = [] /\ 0 < grade g p /\ r = 1 / INR (S (length before))).

(** Discounted cumulative gain: the grade at rank i (from 1) over log2 (i + 1). *)
Fixpoint discounted (i : nat) (v : list R) : R :=
  match v with [] => 0 | x :: r => x / (ln (INR i + 2) / ln 2) + discounted (S i) r end.
Definition dcg (g : list (Z * R)) (l : list Z) : R := discounted 0 (map (grade g) l).
Definition cut {A} (k : option nat) (l : list A) : list A := match k with None => l | Some n => firstn n l end.
(** The largest gain that any ranking without repetitions can have. *)
Definition best_gain (g : list (Z * R)) (k : option nat) (b : R) : Prop :=
  (forall l, NoDup l -> dcg g (cut k l) <= b) /\ exists l, NoDup l /\ dcg g (cut k l) = b.

(** Sorting by falling value; the names of the gains, with their depths. *)
Definition falls (s : list R) : Prop := StronglySorted (fun a b => b <= a) s.
Definition sorts_down (sort : list R -> list R) : Prop := forall v, Permutation (sort v) v /\ falls (sort v).
Definition gains : list (bytes * bytes * option nat) :=
  [(lit "dcg", lit "ndcg", None); (lit "dcg05", lit "ndcg05", Some 5%nat); (lit "dcg10", lit "ndcg10", Some 10%nat); (lit "dcg20", lit "ndcg20", Some 20%nat)].

(** Rank-biased precision: each rank counts [p] times the one before. *)
Fixpoint persisting (p : R) (v : list R) : R := match v with [] => 0 | x :: r => x + p * persisting p r end.
Definition rbp (p : R) (g : list (Z * R)) (l : list Z) : R := (1 - p) * persisting p (map (grade g) l).

(** Time-biased gain (Smucker and Clarke 2012) of a ranking of passages, when [t] seconds have
    passed: a summary takes 4.4 seconds; one of a relevant item is followed with probability
    0.64, others with 0.39; reading takes 7.8 seconds and 0.018 for each token; a relevant item
    that is read is kept with probability 0.77; the gain halves every 224 seconds. *)
Fixpoint time_biased (g : list (Z * R)) (t : R) (l : list (Z * Z)) : R :=
  match l with
  | [] => 0
  | (p, q) :: r =>
      let reading := 18 / 1000 * IZR (q - p + 1) + 78 / 10 in
      if Req_EM_T (grade g p) 0
      then time_biased g (t + 44 / 10 + 39 / 100 * reading) r
      else 64 / 100 * (77 / 100) * Rpower 2 (- t / 224) + time_biased g (t + 44 / 10 + 64 / 100 * reading) r
  end.

(** A measure that is there and a number. *)
Definition known (k : bytes) (m : list (bytes * option R)) : Prop := exists y, get k m = Some (Some y).
(** The mean of a number over several maps of measures. *)
Definition mean_of (k : bytes) (ms : list (list (bytes * option R))) (x : R) : Prop :=
  exists v, Forall2 (fun m y => get k m = Some (Some y)) ms v /\ x = Rsum v / INR (length ms).

(** [m] is the largest difference that judgments can make between two rankings: no judgments
    with grades from 0 to 1 make a larger one, and some make that. *)
Definition largest_difference (measure : list (Z * R) -> list Z -> R) (one two : list Z) (m : R) : Prop :=
  (forall g, graded g -> grades_within 0 1 g -> Rabs (measure g one - measure g two) <= m) /\
  exists g, graded g /\ grades_within 0 1 g /\ Rabs (measure g one - measure g two) = m.

Definition med_names : list (bytes * (list (Z * R) -> list Z -> R)) :=
  [(lit "med-dcg", dcg); (lit "med-rbp50", rbp (1 / 2)); (lit "med-rbp95", rbp (95 / 100))].

(** A text without its tags <DOCNO> and </DOCNO>, found from left to right; and its first word. *)
Definition open_tag : bytes := lit "<DOCNO>".
Definition close_tag : bytes := lit "</DOCNO>".
Inductive untagged : bytes -> bytes -> Prop :=
| U_nil : untagged [] []
| U_open s t : untagged s t -> untagged (open_tag ++ s) t
| U_close s t : untagged s t -> untagged (close_tag ++ s) t
| U_byte c s t : (forall r, c :: s <> open_tag ++ r) -> (forall r, c :: s <> close_tag ++ r) ->
    untagged s t -> untagged (c :: s) (c :: t).
Definition first_word (t w : bytes) : Prop :=
  exists a b, t = a ++ w ++ b /\ Forall (fun c => is_space c = true) a /\ Forall (fun c => is_space c = false) w /\
    (w = [] -> b = []) /\ (b = [] \/ exists c r, b = c :: r /\ is_space c = true).
(** Without double quotes; an identifier as they usually are; the end of a word. *)
Definition unquoted (w : bytes) : bytes := filter (fun c => negb (Z.eqb c 34)) w.
Definition plain_id (id : bytes) : Prop := id <> [] /\ Forall (fun c => is_space c = false /\ c <> 60%Z /\ c <> 34%Z) id.
Definition ends (s : bytes) : Prop := s = [] \/ exists c r, s = c :: r /\ is_space c = true.

(** The lines of a file of judgments: topic, anything, item, grade, between white space. *)
Record line_of := Line { l_topic : bytes; l_item : bytes; l_grade : R }.
Definition reads (atof : bytes -> R) (line : bytes) (x : line_of) : Prop :=
  exists any digits, pipeline_of [l_topic x; any; l_item x; digits] line /\ l_grade x = Rmax 0 (atof digits).
(** The highest grade of a file, at least 0. *)
Definition highest (xs : list line_of) : R := fold_right (fun x m => Rmax (l_grade x) m) 0 xs.
(** The last line for this topic whose item is at [p]. *)
Definition last_line (place : bytes -> option (Z * Z)) (xs : list line_of) (topic : bytes) (p : Z) (x : line_of) : Prop :=
  exists before after, xs = before ++ x :: after /\ l_topic x = topic /\ (exists q, place (l_item x) = Some (p, q)) /\
    Forall (fun y => l_topic y = topic -> forall q, place (l_item y) <> Some (p, q)) after.
Definition holds2 {A} (m : list (bytes * list (Z * A))) (topic : bytes) (p : Z) (v : A) : Prop :=
  exists t, In (topic, t) m /\ In (p, v) t.
(** What a grade becomes. *)
Definition rated (microsoft : bool) (high v : R) : option R :=
  if microsoft then Some ((Rpower 2 v - 1) / Rpower 2 high) else if Req_EM_T high 0 then None else Some (v / high).
