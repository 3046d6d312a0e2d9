(** Model of the enumeration loops, gcl::Link (gcl/gcl.cc:351-421) and
    gcl::Materialize (gcl/materialize.cc). *)
From Verif Require Import Base HopperModel ArrayDefs.

(** The idiom [for (h->m(minfinity+1); key < maxfinity; h->m(key+1))]
    (gcl.cc:371-374, 385-388, materialize.cc:43-48), with [f] the loop body. *)
Definition enum_fwd {T Acc} (m : T -> Z -> res (T * iv)) (key : iv -> Z) (f : Acc -> iv -> Acc)
           (s : T) (acc : Acc) : res (T * Acc) :=
  let* k0 := chk (minf + 1) in
  let* (s0, x0) := m s k0 in
  loop (fun '(s, x, acc) =>
          if key x <? maxf then
            let* k1 := chk (key x + 1) in
            let* (s', x') := m s k1 in Ok (inl (s', x', f acc x))
          else Ok (inr (s, acc))) (s0, x0, acc).
(** [for (h->m(maxfinity-1); key > minfinity; h->m(key-1))] (gcl.cc:399-402, 413-416). *)
Definition enum_bwd {T Acc} (m : T -> Z -> res (T * iv)) (key : iv -> Z) (f : Acc -> iv -> Acc)
           (s : T) (acc : Acc) : res (T * Acc) :=
  let* k0 := chk (maxf - 1) in
  let* (s0, x0) := m s k0 in
  loop (fun '(s, x, acc) =>
          if minf <? key x then
            let* k1 := chk (key x - 1) in
            let* (s', x') := m s k1 in Ok (inl (s', x', f acc x))
          else Ok (inr (s, acc))) (s0, x0, acc).

(** A hopper built from a finished list: EmptyHopper, SingletonHopper or
    ArrayHopper (gcl.cc:351-364 make_link_hopper with [withv = false],
    materialize.cc:14-33 make_hopper with [withv = true]). *)
Definition stored_cls (withv : bool) (l : list iv) : hcls :=
  match l with
  | [] => empty_hopper
  | [x] => singleton_hopper x
  | _ => array_hopper (arr_of l withv)
  end.
Definition stored_start (withv : bool) (l : list iv) : St (stored_cls withv l) :=
  match l return St (stored_cls withv l) with
  | [] => empty_init
  | [x] => singleton_init x
  | x :: y :: r => array_init (arr_of (x :: y :: r) withv)
  end.
(** The pointer expr_ after it was replaced: the list chooses the class. *)
Definition stored (withv : bool) := { l : list iv & St (stored_cls withv l) }.
Definition stored_call {O} (m : forall C, St C -> Z -> res (St C * O)) {withv} (s : stored withv) (k : Z)
  : res (stored withv * O) :=
  let* (t, r) := m (stored_cls withv (projT1 s)) (projT2 s) k in Ok (existT _ (projT1 s) t, r).
Definition stored_make (withv : bool) (l : list iv) : stored withv := existT _ l (stored_start withv l).

(** std::set<addr>::insert on the ascending sequence of elements. *)
Fixpoint set_insert (s : list Z) (a : Z) : list Z :=
  match s with
  | [] => [a]
  | b :: r => if a <? b then a :: s else if a =? b then s else b :: set_insert r a
  end.
(** gcl.cc:373-374: the loop body of Link. *)
Definition link_add (s : list Z) (x : iv) : list Z :=
  if (minf <? ivl x) && (ivl x <? maxf) then set_insert s (ivl x) else s.

Section Unary.
Variable A : hcls.
(** gcl.cc:367-421: Link; the left alternative is linked_ = false. *)
Definition lst := (St A + stored false)%type.
Definition link_go {O} (enum : St A -> list Z -> res (St A * list Z))
           (m : forall C, St C -> Z -> res (St C * O)) (s : mst lst) (k : Z) : res (mst lst * O) :=
  let* o := match sub s with
            | inl a => let* (_, zs) := enum a [] in
                       Ok (stored_make false (map (fun z => Iv z z 0) zs))
            | inr o => Ok o
            end in
  let* (o', r) := stored_call m o k in Ok (set_sub s (inr o'), r).
Definition link_tau_ := link_go (enum_fwd (h_tau A) ip link_add) h_tau.
Definition link_rho_ := link_go (enum_fwd (h_rho A) iq link_add) h_rho.
Definition link_uat_ := link_go (enum_bwd (h_uat A) iq link_add) h_uat.
Definition link_ohr_ := link_go (enum_bwd (h_ohr A) ip link_add) h_ohr.
Definition link_hopper : hcls :=
  HC (mst lst) (memo_tau link_tau_) (memo_rho link_rho_) (memo_uat link_uat_) (memo_ohr link_ohr_)
     (base_L (memo_uat link_uat_)) (base_R (memo_tau link_tau_)).
Definition link_init (a : St A) : St link_hopper := fresh (inl a).

(** materialize.cc:37-73: Materialize; the left alternative is materialized_ = false.
    The vectors are collected newest first and reversed at the end. *)
Definition mat_st := (St A + stored true)%type.
Definition mat_go {O} (m : forall C, St C -> Z -> res (St C * O)) (s : mst mat_st) (k : Z) : res (mst mat_st * O) :=
  let* o := match sub s with
            | inl a => let* (_, l) := enum_fwd (h_tau A) ip (fun acc x => x :: acc) a [] in
                       Ok (stored_make true (rev l))
            | inr o => Ok o
            end in
  let* (o', r) := stored_call m o k in Ok (set_sub s (inr o'), r).
Definition mat_hopper : hcls :=
  HC (mst mat_st) (memo_tau (mat_go h_tau)) (memo_rho (mat_go h_rho)) (memo_uat (mat_go h_uat))
     (memo_ohr (mat_go h_ohr)) (base_L (memo_uat (mat_go h_uat))) (base_R (memo_tau (mat_go h_tau))).
Definition mat_init (a : St A) : St mat_hopper := fresh (inl a).
End Unary.

(** The loop a client writes to list the results (e.g. apps/dump, README):
    all intervals, in order of visit. *)
Definition enum_all {T} (fwd : bool) (m : T -> Z -> res (T * iv)) (key : iv -> Z) (s : T) : res (list iv) :=
  let* (_, l) := (if fwd then enum_fwd m key (fun acc x => x :: acc) s []
                  else enum_bwd m key (fun acc x => x :: acc) s []) in
  Ok (rev l).
