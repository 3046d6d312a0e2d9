(** Property theorems C01-C05 and C07: navigation of stored lists, operators,
    merges, links and enumeration.  Vocabulary: GclSpec.v. *)
From Verif Require Import Base HopperModel ArrayDefs GclSpec VectorModel UnaryModel AnswerProofs HopperWitness.

(** C01: a stored list of any length, in memory as arrays; an entry may be repeated. *)
Theorem C01_stored_list : forall (l : list iv) (withv : bool),
  gcdup l -> 0 < Z.of_nat (length l) <= 2305843009213693951 ->
  (withv = false -> Forall (fun x => ivl x = 0) l) ->
  answers (array_hopper (arr_of l withv)) (array_init (arr_of l withv)) (set_of l).
Proof. exact array_answers. Qed.
Print Assumptions C01_stored_list.
Example C01_stored_list_ex :
  (gcdup w3 /\ 0 < Z.of_nat (length w3) <= 2305843009213693951) /\
  run (array_hopper (arr_of w3 true)) (array_init (arr_of w3 true))
      [(Mtau, 2); (Mohr, 7); (Mrho, 6); (Muat, 5); (Mtau, 9)] =
  Ok [Iv 4 5 9; Iv 4 5 9; Iv 8 8 (-3); Iv 4 5 9; Iv maxf maxf 0].
Proof. exact w3_ok. Qed.

Theorem C01_no_interval : answers empty_hopper empty_init (fun _ => False).
Proof. exact empty_answers. Qed.
Print Assumptions C01_no_interval.

Theorem C01_one_interval : forall x, finite x ->
  answers (singleton_hopper x) (singleton_init x) (eq x).
Proof. exact singleton_answers. Qed.
Print Assumptions C01_one_interval.
Example C01_one_interval_ex : finite (Iv (-5) 12 7).
Proof. exact one_ok. Qed.

Theorem C01_fixed_width : forall w, 1 <= w <= maxf ->
  answers (fixed_hopper w) (fixed_init w) (sem_fixed w).
Proof. exact fixed_answers. Qed.
Print Assumptions C01_fixed_width.
Example C01_fixed_width_ex : 1 <= 3 <= maxf.
Proof. exact three_ok. Qed.

(** C02: containment. *)
Theorem C02_contained_in : forall A B a b SA SB, answers A a SA -> answers B b SB ->
  answers (cin_hopper A B) (bin_init A B a b) (sem_cin SA SB).
Proof. exact cin_answers. Qed.
Print Assumptions C02_contained_in.
Theorem C02_containing : forall A B a b SA SB, answers A a SA -> answers B b SB ->
  answers (cing_hopper A B) (bin_init A B a b) (sem_cing SA SB).
Proof. exact cing_answers. Qed.
Print Assumptions C02_containing.
Theorem C02_not_contained_in : forall A B a b SA SB, answers A a SA -> answers B b SB ->
  answers (nin_hopper A B) (bin_init A B a b) (sem_nin SA SB).
Proof. exact nin_answers. Qed.
Print Assumptions C02_not_contained_in.
Theorem C02_not_containing : forall A B a b SA SB, answers A a SA -> answers B b SB ->
  answers (nct_hopper A B) (bin_init A B a b) (sem_nct SA SB).
Proof. exact nct_answers. Qed.
Print Assumptions C02_not_containing.

(** C03: combination. *)
Theorem C03_and : forall A B a b SA SB, answers A a SA -> answers B b SB ->
  answers (and_hopper A B) (bin_init A B a b) (sem_and SA SB).
Proof. exact and_answers. Qed.
Print Assumptions C03_and.
Theorem C03_or : forall A B a b SA SB, answers A a SA -> answers B b SB ->
  answers (or_hopper A B) (bin_init A B a b) (sem_or SA SB).
Proof. exact or_answers. Qed.
Print Assumptions C03_or.
Theorem C03_followed_by : forall A B a b SA SB, answers A a SA -> answers B b SB ->
  answers (fby_hopper A B) (bin_init A B a b) (sem_fby SA SB).
Proof. exact fby_answers. Qed.
Print Assumptions C03_followed_by.
(** The hypotheses of C02 and C03 hold of two real objects, and the operators
    really produce intervals. *)
Example C02_C03_ex :
  answers _ obj_w3 (set_of w3) /\ answers _ obj_w2 (set_of w2) /\
  enum_all true (h_tau (cin_hopper _ _)) ip (bin_init _ _ obj_w3 obj_w2) = Ok [Iv 4 5 9] /\
  enum_all true (h_tau (nin_hopper _ _)) ip (bin_init _ _ obj_w3 obj_w2) = Ok [Iv 1 3 7; Iv 8 8 (-3)] /\
  enum_all true (h_tau (fby_hopper _ _)) ip (bin_init _ _ obj_w3 obj_w2) = Ok [Iv 1 6 0; Iv 8 20 0].
Proof. exact ops_ok. Qed.

(** C04: the n-ary merge, any number of lists. *)
Theorem C04_vector_merge : forall (os : list hobj) (Ss : list (iv -> Prop)),
  Z.of_nat (length os) <= maxf ->
  Forall2 (fun o S => answers (projT1 o) (projT2 o) S) os Ss ->
  answers (projT1 (vector_make os)) (projT2 (vector_make os)) (sem_inner Ss).
Proof. exact vector_answers. Qed.
Print Assumptions C04_vector_merge.
Example C04_vector_merge_ex :
  Forall2 (fun o S => answers (projT1 o) (projT2 o) S) vec_objs [set_of w3; set_of w2; eq (Iv 2 3 1)] /\
  (let o := vector_make vec_objs in enum_all true (h_tau (projT1 o)) ip (projT2 o)
     = Ok [Iv 2 3 1; Iv 4 5 9; Iv 8 8 (-3); Iv 15 20 4]).
Proof. exact vec_ex_ok. Qed.

(** C04, the binary merge.  Full statement: [answers] without [starts_agree].  It is
    refuted below for uat/ohr; what holds is: everything, when no two intervals of
    the operands start together and end apart; and tau, rho, L, R always. *)
Theorem C04_merge_partial : forall A B a b SA SB, answers A a SA -> answers B b SB ->
  starts_agree SA SB ->
  answers (mrg_hopper A B) (bin_init A B a b) (sem_merge SA SB).
Proof. exact mrg_answers. Qed.
Print Assumptions C04_merge_partial.
Theorem C04_merge_forward_partial : forall A B a b SA SB, answers A a SA -> answers B b SB ->
  forall h : list (meth * Z), Forall (fun mk => minf <= snd mk <= maxf) h ->
  exists rs, run (mrg_hopper A B) (bin_init A B a b) h = Ok rs /\
    Forall2 (fun mk r => match fst mk with
                         | Muat | Mohr => True
                         | _ => answer (sem_merge SA SB) mk r
                         end) h rs.
Proof. exact mrg_forward. Qed.
Print Assumptions C04_merge_forward_partial.
Example C04_merge_ex : starts_agree (set_of w3) (set_of w4).
Proof. exact agree_ok. Qed.
Theorem C04_merge_refuted : exists A B a b SA SB, answers A a SA /\ answers B b SB /\
  exists s r, h_uat (mrg_hopper A B) (bin_init A B a b) 10 = Ok (s, r) /\ ~ uat_spec (sem_merge SA SB) 10 r.
Proof. exact merge_refuted. Qed.
Print Assumptions C04_merge_refuted.

(** C05: links. *)
Theorem C05_link : forall A a S, answers A a S -> fits_in_memory S ->
  answers (link_hopper A) (link_init A a) (sem_link S).
Proof. exact link_answers. Qed.
Print Assumptions C05_link.
Example C05_link_ex : answers _ obj_w3 (set_of w3) /\ fits_in_memory (set_of w3) /\
  run (link_hopper _) (link_init _ obj_w3) [(Mtau, 0); (Mtau, -10); (Muat, 8)] = Ok [Iv 7 7 0; Iv (-3) (-3) 0; Iv 7 7 0].
Proof. exact link_ex. Qed.

(** C07: each of the four enumeration loops visits exactly the intervals of the
    set, once, in order; a materialized hopper is indistinguishable. *)
Theorem C07_enumeration : forall C s S, answers C s S ->
  exists l, listed S l /\
    enum_all true (h_tau C) ip s = Ok l /\ enum_all true (h_rho C) iq s = Ok l /\
    enum_all false (h_uat C) iq s = Ok (rev l) /\ enum_all false (h_ohr C) ip s = Ok (rev l).
Proof. exact enumeration. Qed.
Print Assumptions C07_enumeration.
Theorem C07_materialize : forall A a S, answers A a S -> fits_in_memory S ->
  answers (mat_hopper A) (mat_init A a) S.
Proof. exact mat_answers. Qed.
Print Assumptions C07_materialize.
Example C07_ex : enum_all false (h_ohr (mat_hopper _)) ip (mat_init _ obj_w3) = Ok [Iv 8 8 (-3); Iv 4 5 9; Iv 1 3 7].
Proof. exact mat_ex. Qed.
