(** Specification of interval lists and of the query operators, independent of
    the hopper code.  A list of annotations is a set of intervals with values. *)
From Verif Require Import Base HopperModel.

(** [nests x y]: interval x contains interval y. *)
Definition nests (x y : iv) : Prop := ip x <= ip y /\ iq y <= iq x.
(** A proper interval of finite addresses. *)
Definition finite (x : iv) : Prop := minf < ip x /\ ip x <= iq x /\ iq x < maxf.

(** A generalised concordance list: finite intervals, none containing another
    (so an interval occurs with one value only). *)
Definition GC (S : iv -> Prop) : Prop :=
  (forall x, S x -> finite x) /\ (forall x y, S x -> S y -> nests x y -> x = y).

(** What the four navigation methods promise about a set [S]:
    tau(k): the first interval that starts at or after k; *)
Definition tau_spec (S : iv -> Prop) (k : Z) (r : iv) : Prop :=
  (k = minf /\ r = Iv minf minf 0) \/
  (k <> minf /\
   ((S r /\ k <= ip r /\ forall x, S x -> k <= ip x -> ip r <= ip x) \/
    (r = Iv maxf maxf 0 /\ forall x, S x -> ip x < k))).
(** rho(k): the first interval that ends at or after k; *)
Definition rho_spec (S : iv -> Prop) (k : Z) (r : iv) : Prop :=
  (k = minf /\ r = Iv minf minf 0) \/
  (k <> minf /\
   ((S r /\ k <= iq r /\ forall x, S x -> k <= iq x -> iq r <= iq x) \/
    (r = Iv maxf maxf 0 /\ forall x, S x -> iq x < k))).
(** uat(k): the last interval that ends at or before k; *)
Definition uat_spec (S : iv -> Prop) (k : Z) (r : iv) : Prop :=
  (k = maxf /\ r = Iv maxf maxf 0) \/
  (k <> maxf /\
   ((S r /\ iq r <= k /\ forall x, S x -> iq x <= k -> iq x <= iq r) \/
    (r = Iv minf minf 0 /\ forall x, S x -> k < iq x))).
(** ohr(k): the last interval that starts at or before k. *)
Definition ohr_spec (S : iv -> Prop) (k : Z) (r : iv) : Prop :=
  (k = maxf /\ r = Iv maxf maxf 0) \/
  (k <> maxf /\
   ((S r /\ ip r <= k /\ forall x, S x -> ip x <= k -> ip x <= ip r) \/
    (r = Iv minf minf 0 /\ forall x, S x -> k < ip x))).
(** L(k) and R(k): the start of uat(k) and the end of tau(k). *)
Definition L_spec (S : iv -> Prop) (k l : Z) : Prop := exists r, uat_spec S k r /\ l = ip r.
Definition R_spec (S : iv -> Prop) (k l : Z) : Prop := exists r, tau_spec S k r /\ l = iq r.

(** The innermost intervals satisfying [P] (no value attached: 0). *)
Definition innermost (P : iv -> Prop) (x : iv) : Prop :=
  finite x /\ ivl x = 0 /\ P x /\
  forall y, finite y -> P y -> nests x y -> nests y x.

(** The operators of the query language. *)
Definition sem_and (A B : iv -> Prop) : iv -> Prop :=
  innermost (fun x => (exists a, A a /\ nests x a) /\ (exists b, B b /\ nests x b)).
Definition sem_or (A B : iv -> Prop) : iv -> Prop :=
  innermost (fun x => (exists a, A a /\ nests x a) \/ (exists b, B b /\ nests x b)).
Definition sem_fby (A B : iv -> Prop) : iv -> Prop :=
  innermost (fun x => exists a b, A a /\ B b /\ nests x a /\ nests x b /\ iq a < ip b).
Definition sem_cin (A B : iv -> Prop) (x : iv) : Prop := A x /\ exists b, B b /\ nests b x.
Definition sem_cing (A B : iv -> Prop) (x : iv) : Prop := A x /\ exists b, B b /\ nests x b.
Definition sem_nin (A B : iv -> Prop) (x : iv) : Prop := A x /\ ~ exists b, B b /\ nests b x.
Definition sem_nct (A B : iv -> Prop) (x : iv) : Prop := A x /\ ~ exists b, B b /\ nests x b.
(** Merge: innermost intervals of the union; on equal intervals the first
    operand's value. *)
Definition sem_merge (A B : iv -> Prop) (x : iv) : Prop :=
  (A x \/ (B x /\ ~ exists y, A y /\ ip y = ip x /\ iq y = iq x)) /\
  (forall y, A y \/ B y -> nests x y -> nests y x).
(** Merge of many lists: innermost intervals of the union; on equal intervals
    the value of the last list that has it. *)
Definition sem_inner (Ss : list (iv -> Prop)) (x : iv) : Prop :=
  (exists i S, nth_error Ss i = Some S /\ S x /\
     forall j T y, (i < j)%nat -> nth_error Ss j = Some T -> T y -> ~ (ip y = ip x /\ iq y = iq x)) /\
  (forall T y, In T Ss -> T y -> nests x y -> nests y x).
(** Fixed width: every interval of [w] positions. *)
Definition sem_fixed (w : Z) (x : iv) : Prop := finite x /\ iq x = ip x + w - 1 /\ ivl x = 0.

(** Link: the positions the values of [S] refer to. *)
Definition sem_link (S : iv -> Prop) (x : iv) : Prop :=
  iq x = ip x /\ ivl x = 0 /\ minf < ip x < maxf /\ exists y, S y /\ ivl y = ip x.
(** [S] is finite and its intervals fit in an array in memory. *)
Definition fits_in_memory (S : iv -> Prop) : Prop :=
  exists l : list iv, (forall x, S x -> In x l) /\ Z.of_nat (length l) <= 2305843009213693951.

(** Histories: a call is a method and a key; running a history collects the
    answers.  L and R answer a single address, reported as both ends. *)
Inductive meth := Mtau | Mrho | Muat | Mohr | ML | MR.
Definition call (C : hcls) (s : St C) (m : meth) (k : Z) : res (St C * iv) :=
  match m with
  | Mtau => h_tau C s k
  | Mrho => h_rho C s k
  | Muat => h_uat C s k
  | Mohr => h_ohr C s k
  | ML => let* (s', l) := h_L C s k in Ok (s', Iv l l 0)
  | MR => let* (s', l) := h_R C s k in Ok (s', Iv l l 0)
  end.
Fixpoint run (C : hcls) (s : St C) (h : list (meth * Z)) : res (list iv) :=
  match h with
  | [] => Ok []
  | (m, k) :: h' =>
      let* (s', r) := call C s m k in
      let* rs := run C s' h' in Ok (r :: rs)
  end.
Definition answer (S : iv -> Prop) (mk : meth * Z) (r : iv) : Prop :=
  let (m, k) := mk in
  match m with
  | Mtau => tau_spec S k r
  | Mrho => rho_spec S k r
  | Muat => uat_spec S k r
  | Mohr => ohr_spec S k r
  | ML => exists l, r = Iv l l 0 /\ L_spec S k l
  | MR => exists l, r = Iv l l 0 /\ R_spec S k l
  end.
(** [implements C s0 S]: for every history of calls on the object [s0], every
    answer is the one the specification [S] prescribes. *)
Definition implements (C : hcls) (s0 : St C) (S : iv -> Prop) : Prop :=
  forall h, Forall (fun mk => minf <= snd mk <= maxf) h ->
  exists rs, run C s0 h = Ok rs /\ Forall2 (answer S) h rs.

(** [answers C s0 S]: the object is a correct view of the un-nested set [S]. *)
Definition answers (C : hcls) (s0 : St C) (S : iv -> Prop) : Prop := GC S /\ implements C s0 S.

(** No two intervals of the two sets start together and end apart. *)
Definition starts_agree (A B : iv -> Prop) : Prop :=
  forall a b, A a -> B b -> ip a = ip b -> iq a = iq b.

(** Interval list given as a Coq list. *)
Definition set_of (l : list iv) (x : iv) : Prop := In x l.
(** Strictly increasing starts and ends, finite intervals. *)
Fixpoint gclist (l : list iv) : Prop :=
  match l with
  | [] => True
  | x :: r => finite x /\
              match r with [] => True | y :: _ => ip x < ip y /\ iq x < iq y end /\
              gclist r
  end.
(** The same, where an entry may be repeated. *)
Fixpoint gcdup (l : list iv) : Prop :=
  match l with
  | [] => True
  | x :: r => finite x /\
              match r with [] => True | y :: _ => (ip x < ip y /\ iq x < iq y) \/ x = y end /\
              gcdup r
  end.
(** [l] lists exactly the intervals of [S], in order. *)
Definition listed (S : iv -> Prop) (l : list iv) : Prop := gclist l /\ forall x, In x l <-> S x.
