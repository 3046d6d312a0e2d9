(** Model of the hopper classes: src/hopper.h, src/hopper.cc,
    src/array_hopper.cc and the operator classes of gcl/gcl.cc. *)
From Verif Require Import Base.

(** An answer (p, q, v) of tau/rho/uat/ohr.  [ivl] is the 64-bit pattern of the
    fval as a signed integer (core.h:21-28 fval2addr): the code only copies it,
    and 0 is the pattern of 0.0. *)
Record iv := Iv { ip : Z; iq : Z; ivl : Z }.

(** A hopper class: the object's state and its public methods (hopper.h:16-62).
    Every call returns the object's new state. *)
Record hcls := HC {
  St : Type;
  h_tau : St -> Z -> res (St * iv);
  h_rho : St -> Z -> res (St * iv);
  h_uat : St -> Z -> res (St * iv);
  h_ohr : St -> Z -> res (St * iv);
  h_L : St -> Z -> res (St * Z);
  h_R : St -> Z -> res (St * Z)
}.

(** hopper.h:101-123: the one-entry memo of each method, next to the
    subclass's own fields [sub]. *)
Record memo := Memo { mk : Z; mr : iv }.
Record mst (X : Type) := MS { sub : X; ct : memo; cr : memo; cu : memo; co : memo }.
Arguments MS {X}. Arguments sub {X}. Arguments ct {X}. Arguments cr {X}.
Arguments cu {X}. Arguments co {X}.

Definition set_sub {X} (s : mst X) (x : X) := MS x (ct s) (cr s) (cu s) (co s).
Definition set_ct {X} (s : mst X) m := MS (sub s) m (cr s) (cu s) (co s).
Definition set_cr {X} (s : mst X) m := MS (sub s) (ct s) m (cu s) (co s).
Definition set_cu {X} (s : mst X) m := MS (sub s) (ct s) (cr s) m (co s).
Definition set_co {X} (s : mst X) m := MS (sub s) (ct s) (cr s) (cu s) m.

(** hopper.h:102-123: initial memo contents. *)
Definition memo_min := Memo minf (Iv minf minf 0).
Definition memo_max := Memo maxf (Iv maxf maxf 0).
Definition fresh {X} (x : X) : mst X := MS x memo_min memo_min memo_max memo_max.

(** hopper.h:19-62: the public methods wrap the virtual ones with the memo.
    (No virtual method of the code calls the public method it implements, so
    storing the key after the call instead of before makes no difference.) *)
Definition memo_tau {X} (raw : mst X -> Z -> res (mst X * iv)) (s : mst X) (k : Z) :=
  if k =? mk (ct s) then Ok (s, mr (ct s))
  else let* (s', r) := raw s k in Ok (set_ct s' (Memo k r), r).
Definition memo_rho {X} (raw : mst X -> Z -> res (mst X * iv)) (s : mst X) (k : Z) :=
  if k =? mk (cr s) then Ok (s, mr (cr s))
  else let* (s', r) := raw s k in Ok (set_cr s' (Memo k r), r).
Definition memo_uat {X} (raw : mst X -> Z -> res (mst X * iv)) (s : mst X) (k : Z) :=
  if k =? mk (cu s) then Ok (s, mr (cu s))
  else let* (s', r) := raw s k in Ok (set_cu s' (Memo k r), r).
Definition memo_ohr {X} (raw : mst X -> Z -> res (mst X * iv)) (s : mst X) (k : Z) :=
  if k =? mk (co s) then Ok (s, mr (co s))
  else let* (s', r) := raw s k in Ok (set_co s' (Memo k r), r).

(** hopper.cc:7-17: default L_ and R_. *)
Definition base_L {X} (uat : mst X -> Z -> res (mst X * iv)) (s : mst X) (k : Z) :=
  let* (s', r) := uat s k in Ok (s', ip r).
Definition base_R {X} (tau : mst X -> Z -> res (mst X * iv)) (s : mst X) (k : Z) :=
  let* (s', r) := tau s k in Ok (s', iq r).

Definition minr := Iv minf minf 0.
Definition maxr := Iv maxf maxf 0.

(** A class whose virtual methods are pure functions of the key. *)
Definition pure_hcls (tau_ rho_ uat_ ohr_ : Z -> iv) : hcls :=
  let tau := memo_tau (fun (s : mst unit) k => Ok (s, tau_ k)) in
  let rho := memo_rho (fun (s : mst unit) k => Ok (s, rho_ k)) in
  let uat := memo_uat (fun (s : mst unit) k => Ok (s, uat_ k)) in
  let ohr := memo_ohr (fun (s : mst unit) k => Ok (s, ohr_ k)) in
  HC (mst unit) tau rho uat ohr (base_L uat) (base_R tau).

(** hopper.cc:19-45: EmptyHopper. *)
Definition empty_fwd (k : Z) : iv := if k =? minf then minr else maxr.
Definition empty_bwd (k : Z) : iv := if k =? maxf then maxr else minr.
Definition empty_hopper : hcls := pure_hcls empty_fwd empty_fwd empty_bwd empty_bwd.
Definition empty_init : St empty_hopper := fresh tt.

(** hopper.cc:47-93: SingletonHopper(p_, q_, v_). *)
Definition sing_tau (x : iv) (k : Z) : iv :=
  if k =? minf then minr else if k <=? ip x then x else maxr.
Definition sing_rho (x : iv) (k : Z) : iv :=
  if k =? minf then minr else if k <=? iq x then x else maxr.
Definition sing_uat (x : iv) (k : Z) : iv :=
  if k =? maxf then maxr else if iq x <=? k then x else minr.
Definition sing_ohr (x : iv) (k : Z) : iv :=
  if k =? maxf then maxr else if ip x <=? k then x else minr.
Definition singleton_hopper (x : iv) : hcls :=
  pure_hcls (sing_tau x) (sing_rho x) (sing_uat x) (sing_ohr x).
Definition singleton_init (x : iv) : St (singleton_hopper x) := fresh tt.

(** hopper.cc:95-143: FixedWidthHopper(width_), every addition checked. *)
Definition fixed_tau (w k : Z) : res iv :=
  if k =? minf then Ok minr else
  let* lim := chk (maxf - w) in
  if k <=? lim then
    let* a := chk (k + w) in let* b := chk (a - 1) in Ok (Iv k b 0)
  else Ok maxr.
Definition fixed_rho (w k : Z) : res iv :=
  if k =? minf then Ok minr else
  let* lim := chk (minf + w) in
  if k <? lim then Ok (Iv (minf + 1) lim 0)
  else if k <? maxf then
    let* a := chk (k - w) in let* b := chk (a + 1) in Ok (Iv b k 0)
  else Ok maxr.
Definition fixed_uat (w k : Z) : res iv :=
  if k =? maxf then Ok maxr else
  let* lim := chk (minf + w) in
  if lim <=? k then
    let* a := chk (k - w) in let* b := chk (a + 1) in Ok (Iv b k 0)
  else Ok minr.
Definition fixed_ohr (w k : Z) : res iv :=
  if k =? maxf then Ok maxr else
  let* lim := chk (maxf - w) in
  if lim <=? k then Ok (Iv lim (maxf - 1) 0)
  else if minf <? k then
    let* a := chk (k + w) in let* b := chk (a - 1) in Ok (Iv k b 0)
  else Ok minr.
Definition fixed_hopper (w : Z) : hcls :=
  let lift (f : Z -> Z -> res iv) (s : mst unit) k := let* r := f w k in Ok (s, r) in
  let tau := memo_tau (lift fixed_tau) in
  let rho := memo_rho (lift fixed_rho) in
  let uat := memo_uat (lift fixed_uat) in
  let ohr := memo_ohr (lift fixed_ohr) in
  HC (mst unit) tau rho uat ohr (base_L uat) (base_R tau).
Definition fixed_init (w : Z) : St (fixed_hopper w) := fresh tt.

(** array_hopper.cc:48-56 / 93-101: the final bisection.  [up] says whether the
    probe moves the low end ([addrs[probe] < k] resp. [<= k]). *)
Definition bisect (a : list Z) (up : Z -> bool) (low high : Z) : res (Z * Z) :=
  loop (fun '(lo, hi) =>
          if 1 <? hi - lo then
            let probe := lo + (hi - lo) / 2 in
            let* x := idx a probe in
            if up x then Ok (inl (probe, hi)) else Ok (inl (lo, probe))
          else Ok (inr (lo, hi))) (low, high).

(** array_hopper.cc:23, 82: gallop upwards from [low] while [go]. *)
Definition gallop_up (a : list Z) (n low : Z) (go : Z -> bool) : res Z :=
  loop (fun hop =>
          let* j := chk (low + hop) in
          if j <? n then
            let* x := idx a j in
            if go x then let* h2 := chk (hop * 2) in Ok (inl h2) else Ok (inr hop)
          else Ok (inr hop)) 1.
(** array_hopper.cc:40, 68: gallop downwards from [high] while [go]. *)
Definition gallop_down (a : list Z) (high : Z) (go : Z -> bool) : res Z :=
  loop (fun hop =>
          let j := high - hop in
          if 0 <=? j then
            let* x := idx a j in
            if go x then let* h2 := chk (hop * 2) in Ok (inl h2) else Ok (inr hop)
          else Ok (inr hop)) 1.

(** array_hopper.cc:14-57: hopping.  Answers the new [*current] and the result. *)
Definition hopping (a : list Z) (n c k : Z) : res (Z * Z) :=
  let* ac := idx a c in
  if ac <? k then
    let* last := idx a (n - 1) in
    if last <? k then Ok (c, maxf) else
    let* hop := gallop_up a n c (fun x => x <? k) in
    let* j := chk (c + hop) in
    let high := if n <=? j then n - 1 else j in
    let* (lo, hi) := bisect a (fun x => x <? k) c high in
    let* r := idx a hi in Ok (hi, r)
  else if k <? ac then
    let* first := idx a 0 in
    if k <=? first then
      if k =? minf then Ok (c, minf) else Ok (0, first)
    else
    let* hop := gallop_down a c (fun x => k <=? x) in
    let low := if c <? hop then 0 else c - hop in
    let* (lo, hi) := bisect a (fun x => x <? k) low c in
    let* r := idx a hi in Ok (hi, r)
  else Ok (c, ac).

(** array_hopper.cc:59-102: gnippoh. *)
Definition gnippoh (a : list Z) (n c k : Z) : res (Z * Z) :=
  let* ac := idx a c in
  if k <? ac then
    let* first := idx a 0 in
    if k <? first then Ok (c, minf) else
    let* hop := gallop_down a c (fun x => k <? x) in
    let low := if c <? hop then 0 else c - hop in
    let* (lo, hi) := bisect a (fun x => x <=? k) low c in
    let* r := idx a lo in Ok (lo, r)
  else if ac <? k then
    let* last := idx a (n - 1) in
    if last <=? k then
      if k =? maxf then Ok (c, maxf) else Ok (n - 1, last)
    else
    let* hop := gallop_up a n c (fun x => x <=? k) in
    let* j := chk (c + hop) in
    let high := if n <=? j then n - 1 else j in
    let* (lo, hi) := bisect a (fun x => x <=? k) c high in
    let* r := idx a lo in Ok (lo, r)
  else Ok (c, ac).

(** array_hopper.h:84-94: the bound arrays; [af = None] is fostings_ == nullptr.
    (The lazy bind() of array_hopper.cc:189-220 happens before the first access
    and only copies pointers; it is modelled by constructing with the arrays.) *)
Record arr := Arr { ap : list Z; aq : list Z; af : option (list Z) }.
Definition alen (a : arr) : Z := Z.of_nat (length (ap a)).

(** array_hopper.cc:138-139: fetch the value, 0.0 when there is no value array. *)
Definition arr_val (a : arr) (c : Z) : res Z :=
  match af a with None => Ok 0 | Some f => idx f c end.

(** array_hopper.cc:129-187: tau_, rho_, uat_, ohr_; [sub s] is current_. *)
Definition arr_tau_ (a : arr) (s : mst Z) (k : Z) : res (mst Z * iv) :=
  let* (c, p) := hopping (ap a) (alen a) (sub s) k in
  if (p =? maxf) || (p =? minf) then Ok (set_sub s c, Iv p p 0)
  else let* q := idx (aq a) c in let* v := arr_val a c in Ok (set_sub s c, Iv p q v).
Definition arr_rho_ (a : arr) (s : mst Z) (k : Z) : res (mst Z * iv) :=
  let* (c, q) := hopping (aq a) (alen a) (sub s) k in
  if (q =? maxf) || (q =? minf) then Ok (set_sub s c, Iv q q 0)
  else let* p := idx (ap a) c in let* v := arr_val a c in Ok (set_sub s c, Iv p q v).
Definition arr_uat_ (a : arr) (s : mst Z) (k : Z) : res (mst Z * iv) :=
  let* (c, q) := gnippoh (aq a) (alen a) (sub s) k in
  if (q =? maxf) || (q =? minf) then Ok (set_sub s c, Iv q q 0)
  else let* p := idx (ap a) c in let* v := arr_val a c in Ok (set_sub s c, Iv p q v).
Definition arr_ohr_ (a : arr) (s : mst Z) (k : Z) : res (mst Z * iv) :=
  let* (c, p) := gnippoh (ap a) (alen a) (sub s) k in
  if (p =? maxf) || (p =? minf) then Ok (set_sub s c, Iv p p 0)
  else let* q := idx (aq a) c in let* v := arr_val a c in Ok (set_sub s c, Iv p q v).
(** array_hopper.cc:105-127: L_ and R_ bypass the memo but move current_. *)
Definition arr_L (a : arr) (s : mst Z) (k : Z) : res (mst Z * Z) :=
  let* (c, q) := gnippoh (aq a) (alen a) (sub s) k in
  if q =? maxf then Ok (set_sub s c, maxf)
  else if q =? minf then Ok (set_sub s c, minf)
  else let* p := idx (ap a) c in Ok (set_sub s c, p).
Definition arr_R (a : arr) (s : mst Z) (k : Z) : res (mst Z * Z) :=
  let* (c, p) := hopping (ap a) (alen a) (sub s) k in
  if p =? maxf then Ok (set_sub s c, maxf)
  else if p =? minf then Ok (set_sub s c, minf)
  else let* q := idx (aq a) c in Ok (set_sub s c, q).

Definition array_hopper (a : arr) : hcls :=
  HC (mst Z) (memo_tau (arr_tau_ a)) (memo_rho (arr_rho_ a))
     (memo_uat (arr_uat_ a)) (memo_ohr (arr_ohr_ a)) (arr_L a) (arr_R a).
Definition array_init (a : arr) : St (array_hopper a) := fresh 0.

(** Calling a method of an operand from an operator object. *)
Definition on_left {X Y O} (f : X -> Z -> res (X * O)) (s : mst (X * Y)) (k : Z)
  : res (mst (X * Y) * O) :=
  let* (x, r) := f (fst (sub s)) k in Ok (set_sub s (x, snd (sub s)), r).
Definition on_right {X Y O} (f : Y -> Z -> res (Y * O)) (s : mst (X * Y)) (k : Z)
  : res (mst (X * Y) * O) :=
  let* (y, r) := f (snd (sub s)) k in Ok (set_sub s (fst (sub s), y), r).

Section Combinational.
(** gcl.cc:55-81: Combinational, for any L_ and R_ of the subclass. *)
Context {X : Type} (L R : mst X -> Z -> res (mst X * Z)).

(** gcl.cc:55-57 *)
Definition comb_tau_ (s : mst X) (k : Z) : res (mst X * iv) :=
  let* (s1, q) := R s k in let* (s2, p) := L s1 q in Ok (s2, Iv p q 0).
(** gcl.cc:69-71 *)
Definition comb_uat_ (s : mst X) (k : Z) : res (mst X * iv) :=
  let* (s1, p) := L s k in let* (s2, q) := R s1 p in Ok (s2, Iv p q 0).
Definition comb_tau := memo_tau comb_tau_.
Definition comb_uat := memo_uat comb_uat_.
(** gcl.cc:59-67 *)
Definition comb_rho_ (s : mst X) (k : Z) : res (mst X * iv) :=
  if k =? minf then Ok (s, minr) else
  let* k1 := chk (k - 1) in
  let* (s1, ll) := L s k1 in
  if ll =? maxf then Ok (s1, maxr) else
  let* l1 := chk (ll + 1) in comb_tau s1 l1.
(** gcl.cc:73-81 *)
Definition comb_ohr_ (s : mst X) (k : Z) : res (mst X * iv) :=
  if k =? maxf then Ok (s, maxr) else
  let* k1 := chk (k + 1) in
  let* (s1, rr) := R s k1 in
  if rr =? minf then Ok (s1, minr) else
  let* r1 := chk (rr - 1) in comb_uat s1 r1.
Definition comb_hcls : hcls :=
  HC (mst X) comb_tau (memo_rho comb_rho_) comb_uat (memo_ohr comb_ohr_) L R.
End Combinational.

Section Binary.
(** gcl.h:32-45: Binary owns two operand hoppers. *)
Variables A B : hcls.
Let X := (St A * St B)%type.

(** gcl.cc:83-85 *)
Definition and_L (s : mst X) (k : Z) : res (mst X * Z) :=
  let* (s1, a) := on_left (h_L A) s k in
  let* (s2, b) := on_right (h_L B) s1 k in Ok (s2, Z.min a b).
Definition and_R (s : mst X) (k : Z) : res (mst X * Z) :=
  let* (s1, a) := on_left (h_R A) s k in
  let* (s2, b) := on_right (h_R B) s1 k in Ok (s2, Z.max a b).
Definition and_hopper : hcls := comb_hcls and_L and_R.

(** gcl.cc:87-89 *)
Definition or_L (s : mst X) (k : Z) : res (mst X * Z) :=
  let* (s1, a) := on_left (h_L A) s k in
  let* (s2, b) := on_right (h_L B) s1 k in Ok (s2, Z.max a b).
Definition or_R (s : mst X) (k : Z) : res (mst X * Z) :=
  let* (s1, a) := on_left (h_R A) s k in
  let* (s2, b) := on_right (h_R B) s1 k in Ok (s2, Z.min a b).
Definition or_hopper : hcls := comb_hcls or_L or_R.

(** gcl.cc:91-111 *)
Definition fby_L (s : mst X) (k : Z) : res (mst X * Z) :=
  let* (s1, ll) := on_right (h_L B) s k in
  if ll =? minf then Ok (s1, minf)
  else if ll =? maxf then Ok (s1, maxf)
  else let* l1 := chk (ll - 1) in on_left (h_L A) s1 l1.
Definition fby_R (s : mst X) (k : Z) : res (mst X * Z) :=
  let* (s1, rr) := on_left (h_R A) s k in
  if rr =? minf then Ok (s1, minf)
  else if rr =? maxf then Ok (s1, maxf)
  else let* r1 := chk (rr + 1) in on_right (h_R B) s1 r1.
Definition fby_hopper : hcls := comb_hcls fby_L fby_R.

(** gcl.cc:113-124 *)
Definition cin_tau_ (s : mst X) (k : Z) : res (mst X * iv) :=
  loop (fun '(s, k) =>
          let* (s1, x) := on_left (h_tau A) s k in
          if ip x =? maxf then Ok (inr (s1, x)) else
          let* (s2, y) := on_right (h_rho B) s1 (iq x) in
          if ip y <=? ip x then Ok (inr (s2, x)) else Ok (inl (s2, ip y))) (s, k).
(** gcl.cc:132-143 *)
Definition cin_uat_ (s : mst X) (k : Z) : res (mst X * iv) :=
  loop (fun '(s, k) =>
          let* (s1, x) := on_left (h_uat A) s k in
          if iq x =? minf then Ok (inr (s1, x)) else
          let* (s2, y) := on_right (h_ohr B) s1 (ip x) in
          if iq x <=? iq y then Ok (inr (s2, x)) else Ok (inl (s2, iq y))) (s, k).
(** gcl.cc:126-130 *)
Definition cin_rho_ (s : mst X) (k : Z) : res (mst X * iv) :=
  let* (s1, x) := on_left (h_rho A) s k in memo_tau cin_tau_ s1 (ip x).
(** gcl.cc:145-149 *)
Definition cin_ohr_ (s : mst X) (k : Z) : res (mst X * iv) :=
  let* (s1, x) := on_left (h_ohr A) s k in memo_uat cin_uat_ s1 (iq x).
Definition cin_hopper : hcls :=
  HC (mst X) (memo_tau cin_tau_) (memo_rho cin_rho_) (memo_uat cin_uat_)
     (memo_ohr cin_ohr_) (base_L (memo_uat cin_uat_)) (base_R (memo_tau cin_tau_)).

(** gcl.cc:157-168 *)
Definition cing_rho_ (s : mst X) (k : Z) : res (mst X * iv) :=
  loop (fun '(s, k) =>
          let* (s1, x) := on_left (h_rho A) s k in
          if iq x =? maxf then Ok (inr (s1, x)) else
          let* (s2, y) := on_right (h_tau B) s1 (ip x) in
          if iq y <=? iq x then Ok (inr (s2, x)) else Ok (inl (s2, iq y))) (s, k).
(** gcl.cc:176-187 *)
Definition cing_ohr_ (s : mst X) (k : Z) : res (mst X * iv) :=
  loop (fun '(s, k) =>
          let* (s1, x) := on_left (h_ohr A) s k in
          if ip x =? minf then Ok (inr (s1, x)) else
          let* (s2, y) := on_right (h_uat B) s1 (iq x) in
          if ip x <=? ip y then Ok (inr (s2, x)) else Ok (inl (s2, ip y))) (s, k).
(** gcl.cc:151-155 *)
Definition cing_tau_ (s : mst X) (k : Z) : res (mst X * iv) :=
  let* (s1, x) := on_left (h_tau A) s k in memo_rho cing_rho_ s1 (iq x).
(** gcl.cc:170-174 *)
Definition cing_uat_ (s : mst X) (k : Z) : res (mst X * iv) :=
  let* (s1, x) := on_left (h_uat A) s k in memo_ohr cing_ohr_ s1 (ip x).
Definition cing_hopper : hcls :=
  HC (mst X) (memo_tau cing_tau_) (memo_rho cing_rho_) (memo_uat cing_uat_)
     (memo_ohr cing_ohr_) (base_L (memo_uat cing_uat_)) (base_R (memo_tau cing_tau_)).

(** gcl.cc:189-202 *)
Definition nin_tau_ (s : mst X) (k : Z) : res (mst X * iv) :=
  let* (s1, x) := on_left (h_tau A) s k in
  if (ip x =? maxf) || (iq x =? minf) then Ok (s1, x) else
  loop (fun '(s, x) =>
          let* (s2, y) := on_right (h_rho B) s (iq x) in
          if ip x <? ip y then Ok (inr (s2, x)) else
          let* k1 := chk (iq y + 1) in
          let* (s3, x') := on_left (h_rho A) s2 k1 in
          if ip x' =? maxf then Ok (inr (s3, x')) else Ok (inl (s3, x'))) (s1, x).
(** gcl.cc:210-223 *)
Definition nin_uat_ (s : mst X) (k : Z) : res (mst X * iv) :=
  let* (s1, x) := on_left (h_uat A) s k in
  if (iq x =? minf) || (ip x =? maxf) then Ok (s1, x) else
  loop (fun '(s, x) =>
          let* (s2, y) := on_right (h_ohr B) s (ip x) in
          if iq y <? iq x then Ok (inr (s2, x)) else
          let* k1 := chk (ip y - 1) in
          let* (s3, x') := on_left (h_ohr A) s2 k1 in
          if iq x' =? minf then Ok (inr (s3, x')) else Ok (inl (s3, x'))) (s1, x).
(** gcl.cc:204-208 *)
Definition nin_rho_ (s : mst X) (k : Z) : res (mst X * iv) :=
  let* (s1, x) := on_left (h_rho A) s k in memo_tau nin_tau_ s1 (ip x).
(** gcl.cc:225-229 *)
Definition nin_ohr_ (s : mst X) (k : Z) : res (mst X * iv) :=
  let* (s1, x) := on_left (h_ohr A) s k in memo_uat nin_uat_ s1 (iq x).
Definition nin_hopper : hcls :=
  HC (mst X) (memo_tau nin_tau_) (memo_rho nin_rho_) (memo_uat nin_uat_)
     (memo_ohr nin_ohr_) (base_L (memo_uat nin_uat_)) (base_R (memo_tau nin_tau_)).

(** gcl.cc:237-250 *)
Definition nct_rho_ (s : mst X) (k : Z) : res (mst X * iv) :=
  let* (s1, x) := on_left (h_rho A) s k in
  if (iq x =? maxf) || (ip x =? minf) then Ok (s1, x) else
  loop (fun '(s, x) =>
          let* (s2, y) := on_right (h_tau B) s (ip x) in
          if iq x <? iq y then Ok (inr (s2, x)) else
          let* k1 := chk (ip y + 1) in
          let* (s3, x') := on_left (h_tau A) s2 k1 in
          if iq x' =? maxf then Ok (inr (s3, x')) else Ok (inl (s3, x'))) (s1, x).
(** gcl.cc:258-271 *)
Definition nct_ohr_ (s : mst X) (k : Z) : res (mst X * iv) :=
  let* (s1, x) := on_left (h_ohr A) s k in
  if (ip x =? minf) || (iq x =? maxf) then Ok (s1, x) else
  loop (fun '(s, x) =>
          let* (s2, y) := on_right (h_uat B) s (iq x) in
          if ip y <? ip x then Ok (inr (s2, x)) else
          let* k1 := chk (iq y - 1) in
          let* (s3, x') := on_left (h_uat A) s2 k1 in
          if ip x' =? minf then Ok (inr (s3, x')) else Ok (inl (s3, x'))) (s1, x).
(** gcl.cc:231-235 *)
Definition nct_tau_ (s : mst X) (k : Z) : res (mst X * iv) :=
  let* (s1, x) := on_left (h_tau A) s k in memo_rho nct_rho_ s1 (iq x).
(** gcl.cc:252-256 *)
Definition nct_uat_ (s : mst X) (k : Z) : res (mst X * iv) :=
  let* (s1, x) := on_left (h_uat A) s k in memo_ohr nct_ohr_ s1 (ip x).
Definition nct_hopper : hcls :=
  HC (mst X) (memo_tau nct_tau_) (memo_rho nct_rho_) (memo_uat nct_uat_)
     (memo_ohr nct_ohr_) (base_L (memo_uat nct_uat_)) (base_R (memo_tau nct_tau_)).

(** gcl.cc:273-295 *)
Definition mrg_tau_ (s : mst X) (k : Z) : res (mst X * iv) :=
  let* (s1, x) := on_left (h_tau A) s k in
  let* (s2, y) := on_right (h_tau B) s1 k in
  if iq x <? iq y then Ok (s2, x)
  else if iq y <? iq x then Ok (s2, y)
  else if ip x <? ip y then Ok (s2, y)
  else Ok (s2, x).
(** gcl.cc:312-334 *)
Definition mrg_uat_ (s : mst X) (k : Z) : res (mst X * iv) :=
  let* (s1, x) := on_left (h_uat A) s k in
  let* (s2, y) := on_right (h_uat B) s1 k in
  if ip y <? ip x then Ok (s2, x)
  else if ip x <? ip y then Ok (s2, y)
  else if iq x <? iq y then Ok (s2, y)
  else Ok (s2, x).
Definition mrg_tau := memo_tau mrg_tau_.
Definition mrg_uat := memo_uat mrg_uat_.
(** gcl.cc:297-310 *)
Definition mrg_rho_ (s : mst X) (k : Z) : res (mst X * iv) :=
  if k =? minf then Ok (s, minr) else
  let* k1 := chk (k - 1) in
  let* (s1, l) := base_L mrg_uat s k1 in
  if l =? maxf then Ok (s1, maxr) else
  let* l1 := chk (l + 1) in mrg_tau s1 l1.
(** gcl.cc:336-349 *)
Definition mrg_ohr_ (s : mst X) (k : Z) : res (mst X * iv) :=
  if k =? maxf then Ok (s, maxr) else
  let* k1 := chk (k + 1) in
  let* (s1, r) := base_R mrg_tau s k1 in
  if r =? minf then Ok (s1, minr) else
  let* r1 := chk (r - 1) in mrg_uat s1 r1.
Definition mrg_hopper : hcls :=
  HC (mst X) mrg_tau (memo_rho mrg_rho_) mrg_uat (memo_ohr mrg_ohr_)
     (base_L mrg_uat) (base_R mrg_tau).

Definition bin_init (a : St A) (b : St B) : mst X := fresh (a, b).
End Binary.
