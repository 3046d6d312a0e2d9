(** What a ranking pipeline is to do. *)
From Verif Require Import Base Bytes RankModel RankerModel.
From Verif Require Import RecipeModel.
From Coq Require Import Sorting.Sorted Permutation.

(** The entries of a map, in the order of its keys, each key once. *)
Definition a_map {A} (m : list (bytes * A)) : Prop := StronglySorted (fun a b => before (fst a) (fst b) = true) m.
(** [m'] is [m] with [k] set to [v]. *)
Definition sets {A} (k : bytes) (v : A) (m m' : list (bytes * A)) : Prop :=
  a_map m' /\ forall k' v', In (k', v') m' <-> (k' = k /\ v' = v) \/ (k' <> k /\ In (k', v') m).

Section Spec.
Context {F : Type} (one : F) (add : F -> F -> F).
Notation weights := (list (bytes * F)).
(** one + one + ... *)
Fixpoint times (n : nat) : F := match n with O | 1%nat => one | S n => add (times n) one end.
Definition occurrences (t : bytes) (terms : list bytes) : nat := count_occ (list_eq_dec Z.eq_dec) terms t.
(** Each term with the number of its occurrences. *)
Definition bag (terms : list bytes) (q : weights) : Prop :=
  a_map q /\ forall t w, In (t, w) q <-> In t terms /\ w = times (occurrences t terms).
(** The weights of terms with one stem are added up. *)
Fixpoint total (w : F) (ws : list F) : F := match ws with [] => w | x :: r => total (add w x) r end.
Definition stems (stem : bytes -> bytes) (q q' : weights) : Prop :=
  a_map q' /\ forall t w, In (t, w) q' <-> exists x ws, map snd (filter (fun tw => eqb_bytes (stem (fst tw)) t) q) = x :: ws /\ w = total x ws.
(** Stop words are left out, unless nothing else is there. *)
Definition stops (stopwords : list bytes) (q q' : weights) : Prop :=
  ((exists t w, In (t, w) q /\ ~ In t stopwords) /\ a_map q' /\ forall t w, In (t, w) q' <-> In (t, w) q /\ ~ In t stopwords) \/
  ((forall t w, In (t, w) q -> In t stopwords) /\ q' = q).

(** The query, the parameters and the ranking between the stages of a pipeline. *)
Record view := View { v_query : weights; v_parameters : weights; v_ranking : list (@result F) }.
Context (stem : bytes -> bytes) (stopwords : list bytes) (bm25 lmd : weights -> weights -> list (@result F)).
Context (rsj kld : list (@result F) -> weights -> weights -> res weights).
Inductive effect : @stage F -> view -> view -> Prop :=
  | E_bm25 q ps r : effect Bm25 (View q ps r) (View q ps (bm25 q ps))
  | E_lmd q ps r : effect Lmd (View q ps r) (View q ps (lmd q ps))
  | E_stem q q' ps r : stems stem q q' -> effect Stem (View q ps r) (View q' ps r)
  | E_stop q q' ps r : stops stopwords q q' -> effect Stop (View q ps r) (View q' ps r)
  | E_param k v q ps ps' r : sets k v ps ps' -> effect (Param k v) (View q ps r) (View q ps' r)
  | E_random_none q ps r : effect (Random []) (View q ps r) (View q ps r)
  | E_random k v l q ps ps1 ps2 r : sets k v ps ps1 -> effect (Random l) (View q ps1 r) (View q ps2 r) -> effect (Random ((k, v) :: l)) (View q ps r) (View q ps2 r)
  | E_rsj_none q ps : effect Rsj (View q ps []) (View q ps [])
  | E_rsj q q' ps r : r <> [] -> rsj r ps q = Ok q' -> effect Rsj (View q ps r) (View q' ps r)
  | E_kld_none q ps : effect Kld (View q ps []) (View q ps [])
  | E_kld q q' ps r : r <> [] -> kld r ps q = Ok q' -> effect Kld (View q ps r) (View q' ps r).
Inductive effects : list (@stage F) -> view -> view -> Prop :=
  | E_nil v : effects [] v v
  | E_cons s l v v1 v2 : effect s v v1 -> effects l v1 v2 -> effects (s :: l) v v2.
End Spec.

(** A pipeline: the names of stages with white space between them, and perhaps behind them. *)
Definition white_run (s : bytes) : Prop := s <> [] /\ Forall (fun c => is_space c = true) s.
Definition stage_text (s : bytes) : Prop := s <> [] /\ Forall (fun c => is_space c = false) s.
Inductive pipeline_of : list bytes -> bytes -> Prop :=
  | P_last n : stage_text n -> pipeline_of [n] n
  | P_trail n w : stage_text n -> white_run w -> pipeline_of [n] (n ++ w)
  | P_more n w l s : stage_text n -> white_run w -> pipeline_of l s -> pipeline_of (n :: l) (n ++ w ++ s).

(** What the texts of stages mean. *)
Section Stages.
Local Arguments chr s%string_scope.
Context {F : Type} (default draw : bytes -> F) (stof : bytes -> option F).
(** The parameters of a ranker, with their drawn values, and the depth. *)
Definition drawn_for (ranker : bytes) (m : list (bytes * F)) : Prop :=
  exists names, parameter_names ranker = Some names /\ a_map m /\
  forall k v, In (k, v) m <-> (k = lit "depth" /\ v = default k) \/ (In k names /\ v = draw k).
Inductive stage_named : bytes -> @stage F -> Prop :=
  | N_bm25 : stage_named (lit "bm25") Bm25
  | N_kld : stage_named (lit "kld") Kld
  | N_lmd : stage_named (lit "lmd") Lmd
  | N_rsj : stage_named (lit "rsj") Rsj
  | N_stem : stage_named (lit "stem") Stem
  | N_stop : stage_named (lit "stop") Stop
  | N_param k t v : k <> [] -> ~ In (chr "=") k -> t <> [] -> stof t = Some v -> stage_named (k ++ lit "=" ++ t) (Param k v)
  | N_random r m : ~ In (chr "=") r -> drawn_for r m -> stage_named (lit "random:" ++ r) (Random m).
(** The value of a parameter: under its full name, or its short name, or its default. *)
Definition parameter_value (ranker name : bytes) (ps : list (bytes * F)) (v : F) : Prop :=
  let full := ranker ++ lit ":" ++ name in
  In (full, v) ps \/
  (~ In full (map fst ps) /\ In (name, v) ps) \/
  (~ In full (map fst ps) /\ ~ In name (map fst ps) /\
   exists names, parameter_names ranker = Some names /\ (In full names /\ v = default full \/ ~ In full names /\ name = lit "depth" /\ v = default name)).
End Stages.

(** Feedback. *)
Section Feedback.
Context {F : Type} (zero one : F) (add mul : F -> F -> F) (lt : F -> F -> bool).
Notation weights := (list (bytes * F)).
(** In how many texts a term occurs. *)
Definition text_count (texts : list (list bytes)) (t : bytes) : nat := length (filter (existsb (eqb_bytes t)) texts).
(** The words of a text. *)
Definition words_of (wsplit : bytes -> list bytes) (wstem : bytes -> bytes) (unstemmed : bool) (text : bytes) : list bytes :=
  if unstemmed then wsplit text else map wstem (wsplit text).
(** The terms that may be added, with what they are worth. *)
Definition rsj_candidate (rsj : bytes -> F) (texts : list (list bytes)) (t : bytes) (v : F) : Prop :=
  lt zero (rsj t) = true /\ exists n, text_count texts t = S n /\ v = mul (rsj t) (times one add (S n)).
Definition kld_candidate (expect : bytes -> nat -> F) (gain : F -> F -> F) (texts : list (list bytes)) (t : bytes) (v : F) : Prop :=
  exists n x xs, text_count texts t = S n /\ lt one (times one add (S n)) = true /\
    map (fun ws => expect t (length ws)) (filter (existsb (eqb_bytes t)) texts) = x :: xs /\
    v = gain (times one add (S n)) (total add x xs).
(** The largest of [z] and the values. *)
Definition largest (z : F) (vs : list F) (m : F) : Prop := In m (z :: vs) /\ forall v, In v (z :: vs) -> lt m v = false.
(** The best [n] of the candidates. *)
Definition best_of (n : nat) (cands : bytes -> F -> Prop) (l : weights) : Prop :=
  exists rest, (forall t v, In (t, v) (l ++ rest) <-> cands t v) /\ NoDup (map fst (l ++ rest)) /\
    length l = Nat.min n (length (l ++ rest)) /\ forall x y, In x l -> In y rest -> lt (snd x) (snd y) = false.
(** Each of the terms is added to the query with its weight. *)
Definition grown (value : F -> F) (q terms q' : weights) : Prop :=
  a_map q' /\ forall t w, In (t, w) q' <->
    (exists v, In (t, v) terms /\ ((exists u, In (t, u) q /\ w = add u (value v)) \/ (~ In t (map fst q) /\ w = value v))) \/
    (~ In t (map fst terms) /\ In (t, w) q).
(** The first result of each container. *)
Fixpoint firsts (seen : list Z) (ranking : list (@result F)) : list (@result F) :=
  match ranking with
  | [] => []
  | r :: l => if in_dec Z.eq_dec (rcp r) seen then firsts seen l else r :: firsts (rcp r :: seen) l
  end.
End Feedback.
