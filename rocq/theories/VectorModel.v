(** Model of gcl/vector_hopper.{h,cc}: the hopper over a vector of hoppers. *)
From Verif Require Import Base HopperModel.

(** vector_hopper.h:30: hoppers_, as the tuple of the operands' states. *)
Fixpoint tup (Cs : list hcls) : Type :=
  match Cs with [] => unit | C :: r => (St C * tup r)%type end.

(** hoppers_[i]->m(k); an index out of range is undefined. *)
Fixpoint vcall {O : Type} (m : forall C, St C -> Z -> res (St C * O)) (Cs : list hcls) (i : nat)
  : tup Cs -> Z -> res (tup Cs * O) :=
  match Cs return tup Cs -> Z -> res (tup Cs * O) with
  | [] => fun _ _ => UB
  | C :: r => fun s k =>
      match i with
      | O => let* (a, o) := m C (fst s) k in Ok ((a, snd s), o)
      | S j => let* (b, o) := vcall m r j (snd s) k in Ok ((fst s, b), o)
      end
  end.

(** vector_hopper.cc:16-48: a queue element: operand index and its last answer. *)
Definition elt := (nat * iv)%type.

(** vector_hopper.cc:50-58 InnerTauCompare: [tau_better a b] iff !compare(a, b). *)
Definition tau_better (a b : elt) : bool :=
  (iq (snd a) <? iq (snd b)) ||
  ((iq (snd a) =? iq (snd b)) &&
   ((ip (snd b) <? ip (snd a)) || ((ip (snd a) =? ip (snd b)) && Nat.ltb (fst b) (fst a)))).
(** vector_hopper.cc:60-68 InnerUatCompare. *)
Definition uat_better (a b : elt) : bool :=
  (ip (snd b) <? ip (snd a)) ||
  ((ip (snd a) =? ip (snd b)) &&
   ((iq (snd a) <? iq (snd b)) || ((iq (snd a) =? iq (snd b)) && Nat.ltb (fst b) (fst a)))).

(** std::priority_queue, as the sequence of its elements: top() is the element
    no other one beats, pop() removes it, push() adds one.  (Indices in the
    queue are distinct, so the order is strict and top() is unique; the heap
    layout is not modelled.) *)
Fixpoint top_of (better : elt -> elt -> bool) (e : elt) (q : list elt) : elt :=
  match q with
  | [] => e
  | x :: r => top_of better (if better x e then x else e) r
  end.
Definition top (better : elt -> elt -> bool) (q : list elt) : res elt :=
  match q with [] => UB | e :: r => Ok (top_of better e r) end.
Definition pop (e : elt) (q : list elt) : list elt :=
  filter (fun x => negb (Nat.eqb (fst x) (fst e))) q.

Section Inner.
Variable Cs : list hcls.
(** vector_hopper.h:30-32, vector_hopper.cc:87-90. *)
Record vec := Vec { vs : tup Cs; tq : list elt; uq : list elt; tau_k : Z; uat_k : Z }.

(** vector_hopper.cc:100-104 / 140-143: query every operand. *)
Fixpoint fill (m : forall C, St C -> Z -> res (St C * iv)) (is : list nat) (s : tup Cs) (k : Z)
  : res (tup Cs * list elt) :=
  match is with
  | [] => Ok (s, [])
  | i :: r =>
      let* (s1, x) := vcall m Cs i s k in
      let* (s2, q) := fill m r s1 k in Ok (s2, (i, x) :: q)
  end.

(** vector_hopper.cc:105-112 / 145-151: refresh stale tops. *)
Definition refresh (m : forall C, St C -> Z -> res (St C * iv)) (better : elt -> elt -> bool)
           (stale : iv -> bool) (s : tup Cs) (q : list elt) (k : Z) : res (tup Cs * list elt) :=
  loop (fun '(s, q) =>
          let* e := top better q in
          if stale (snd e) then
            let* (s1, x) := vcall m Cs (fst e) s k in
            Ok (inl (s1, (fst e, x) :: pop e q))
          else Ok (inr (s, q))) (s, q).

(** vector_hopper.cc:93-117 *)
Definition inner_tau_ (s : mst vec) (k : Z) : res (mst vec * iv) :=
  if k =? maxf then Ok (s, maxr) else
  let v := sub s in
  let* (st, q) :=
    if k <? tau_k v then fill h_tau (seq 0 (length Cs)) (vs v) k
    else refresh h_tau tau_better (fun x => ip x <? k) (vs v) (tq v) k in
  let* e := top tau_better q in
  Ok (set_sub s (Vec st q (uq v) k (uat_k v)), snd e).
(** vector_hopper.cc:134-158 *)
Definition inner_uat_ (s : mst vec) (k : Z) : res (mst vec * iv) :=
  if k =? minf then Ok (s, minr) else
  let v := sub s in
  let* (st, q) :=
    if uat_k v <? k then fill h_uat (seq 0 (length Cs)) (vs v) k
    else refresh h_uat uat_better (fun x => k <? iq x) (vs v) (uq v) k in
  let* e := top uat_better q in
  Ok (set_sub s (Vec st (tq v) q (tau_k v) k), snd e).

(** vector_hopper.cc:197-213: L_ and R_. *)
Fixpoint vfold (m : forall C, St C -> Z -> res (St C * Z)) (op : Z -> Z -> Z) (is : list nat)
         (s : tup Cs) (k acc : Z) : res (tup Cs * Z) :=
  match is with
  | [] => Ok (s, acc)
  | i :: r => let* (s1, x) := vcall m Cs i s k in vfold m op r s1 k (op acc x)
  end.
Definition set_vs (v : vec) (st : tup Cs) : vec := Vec st (tq v) (uq v) (tau_k v) (uat_k v).
Definition inner_L (s : mst vec) (k : Z) : res (mst vec * Z) :=
  let* (st, l) := vfold h_L Z.max (seq 0 (length Cs)) (vs (sub s)) k minf in
  Ok (set_sub s (set_vs (sub s) st), l).
Definition inner_R (s : mst vec) (k : Z) : res (mst vec * Z) :=
  let* (st, l) := vfold h_R Z.min (seq 0 (length Cs)) (vs (sub s)) k maxf in
  Ok (set_sub s (set_vs (sub s) st), l).

Definition inner_tau := memo_tau inner_tau_.
Definition inner_uat := memo_uat inner_uat_.
(** vector_hopper.cc:119-132 *)
Definition inner_rho_ (s : mst vec) (k : Z) : res (mst vec * iv) :=
  if k =? minf then Ok (s, minr) else
  let* k1 := chk (k - 1) in
  let* (s1, l) := inner_L s k1 in
  if l =? maxf then Ok (s1, maxr) else
  let* l1 := chk (l + 1) in inner_tau s1 l1.
(** vector_hopper.cc:160-173 *)
Definition inner_ohr_ (s : mst vec) (k : Z) : res (mst vec * iv) :=
  if k =? maxf then Ok (s, maxr) else
  let* k1 := chk (k + 1) in
  let* (s1, r) := inner_R s k1 in
  if r =? minf then Ok (s1, minr) else
  let* r1 := chk (r - 1) in inner_uat s1 r1.

Definition inner_hopper : hcls :=
  HC (mst vec) inner_tau (memo_rho inner_rho_) inner_uat (memo_ohr inner_ohr_) inner_L inner_R.
(** vector_hopper.h:31-32: the queues start empty, tau_k_ = maxfinity, uat_k_ = minfinity. *)
Definition inner_init (st : tup Cs) : St inner_hopper := fresh (Vec st [] [] maxf minf).
End Inner.

(** A hopper object: its class and its state. *)
Definition hobj := { C : hcls & St C }.
Fixpoint classes (l : list hobj) : list hcls :=
  match l with [] => [] | o :: r => projT1 o :: classes r end.
Fixpoint states (l : list hobj) : tup (classes l) :=
  match l return tup (classes l) with [] => tt | o :: r => (projT2 o, states r) end.

(** vector_hopper.cc:180-195: VectorHopper::make. *)
Definition vector_make (l : list hobj) : hobj :=
  match l with
  | [] => existT _ empty_hopper empty_init
  | [o] => o
  | _ => existT _ (inner_hopper (classes l)) (inner_init (classes l) (states l))
  end.
