(** The correctness results in terms of [answers]: any object, any history. *)
From Verif Require Import Base HopperModel ArrayDefs GclSpec HopperProofs GclProofs ArrayProofs.
From Verif Require Import VectorModel VectorProofs UnaryModel UnaryProofs.

Lemma array_answers l withv : gcdup l -> 0 < Z.of_nat (length l) <= 2305843009213693951 ->
  (withv = false -> Forall (fun x => ivl x = 0) l) ->
  answers (array_hopper (arr_of l withv)) (array_init (arr_of l withv)) (set_of l).
Proof.
  intros G Hn Hv. apply answers_iff. exists (Iof (cur_ok l) (set_of l)).
  split; [apply array_ok; assumption|]. apply array_init_ok; assumption.
Qed.
Lemma empty_answers : answers empty_hopper empty_init (fun _ => False).
Proof.
  apply answers_iff. eexists. split; [exact empty_ok|]. apply (fresh_inv (fun _ => True)). exact Logic.I.
Qed.
Lemma singleton_answers x : finite x -> answers (singleton_hopper x) (singleton_init x) (eq x).
Proof.
  intros F. apply answers_iff. eexists. split; [exact (singleton_ok x F)|].
  apply (fresh_inv (fun _ => True)). exact Logic.I.
Qed.
Lemma fixed_answers w : 1 <= w <= maxf -> answers (fixed_hopper w) (fixed_init w) (sem_fixed w).
Proof.
  intros F. apply answers_iff. eexists. split; [exact (fixed_ok w F)|].
  apply (fresh_inv (fun _ => True)). exact Logic.I.
Qed.
Lemma stored_answers_dup withv l : gcdup l -> Z.of_nat (length l) <= 2305843009213693951 ->
  (withv = false -> Forall (fun x => ivl x = 0) l) ->
  answers (stored_cls withv l) (stored_start withv l) (set_of l).
Proof. intros G Hn Hv. split; [exact (gcdup_GC l G)|]. apply stored_ok_dup; assumption. Qed.
Lemma stored_answers withv l : gclist l -> Z.of_nat (length l) <= 2305843009213693951 ->
  (withv = false -> Forall (fun x => ivl x = 0) l) ->
  answers (stored_cls withv l) (stored_start withv l) (set_of l).
Proof. intros G. apply stored_answers_dup. apply gclist_gcdup. exact G. Qed.

Section Bin.
Context (A B : hcls) (a : St A) (b : St B) (SA SB : iv -> Prop).
Context (HA : answers A a SA) (HB : answers B b SB).
Ltac bin L :=
  pose proof (proj1 (answers_iff A a SA) HA) as (IA & HIA & Ha);
  pose proof (proj1 (answers_iff B b SB) HB) as (IB & HIB & Hb);
  apply answers_iff; eexists; split; [exact (L A B SA SB IA IB HIA HIB)|];
  apply fresh_inv; split; assumption.
Lemma and_answers : answers (and_hopper A B) (bin_init A B a b) (sem_and SA SB).
Proof. bin and_ok. Qed.
Lemma or_answers : answers (or_hopper A B) (bin_init A B a b) (sem_or SA SB).
Proof. bin or_ok. Qed.
Lemma fby_answers : answers (fby_hopper A B) (bin_init A B a b) (sem_fby SA SB).
Proof. bin fby_ok. Qed.
Lemma cin_answers : answers (cin_hopper A B) (bin_init A B a b) (sem_cin SA SB).
Proof. bin cin_ok. Qed.
Lemma cing_answers : answers (cing_hopper A B) (bin_init A B a b) (sem_cing SA SB).
Proof. bin cing_ok. Qed.
Lemma nin_answers : answers (nin_hopper A B) (bin_init A B a b) (sem_nin SA SB).
Proof. bin nin_ok. Qed.
Lemma nct_answers : answers (nct_hopper A B) (bin_init A B a b) (sem_nct SA SB).
Proof. bin nct_ok. Qed.
Lemma mrg_answers : starts_agree SA SB -> answers (mrg_hopper A B) (bin_init A B a b) (sem_merge SA SB).
Proof.
  intros Hs.
  pose proof (proj1 (answers_iff A a SA) HA) as (IA & HIA & Ha).
  pose proof (proj1 (answers_iff B b SB) HB) as (IB & HIB & Hb).
  apply answers_iff; eexists; split; [exact (mrg_ok A B SA SB IA IB HIA HIB Hs)|].
  apply fresh_inv; split; assumption.
Qed.
Lemma mrg_forward (h : list (meth * Z)) : Forall (fun mk => minf <= snd mk <= maxf) h ->
  exists rs, run (mrg_hopper A B) (bin_init A B a b) h = Ok rs /\
    Forall2 (fun mk r => match fst mk with
                         | Muat | Mohr => True
                         | _ => answer (sem_merge SA SB) mk r
                         end) h rs.
Proof.
  pose proof (proj1 (answers_iff A a SA) HA) as (IA & HIA & Ha).
  pose proof (proj1 (answers_iff B b SB) HB) as (IB & HIB & Hb).
  apply (mrg_fwd A B SA SB IA IB HIA HIB). apply fwd_inv_init; assumption.
Qed.
End Bin.

Lemma obj_answers o S : obj_ok o S <-> answers (projT1 o) (projT2 o) S.
Proof. symmetry. apply answers_iff. Qed.
Lemma vector_answers os Ss : Z.of_nat (length os) <= maxf ->
  Forall2 (fun o S => answers (projT1 o) (projT2 o) S) os Ss ->
  answers (projT1 (vector_make os)) (projT2 (vector_make os)) (sem_inner Ss).
Proof.
  intros Hn H. apply obj_answers. apply vector_make_ok; [exact Hn|].
  induction H; constructor.
  - apply obj_answers. assumption.
  - apply IHForall2. cbn [length] in Hn. lia.
Qed.

Lemma link_answers A a S : answers A a S -> fits_in_memory S ->
  answers (link_hopper A) (link_init A a) (sem_link S).
Proof.
  intros HA Hf. apply answers_iff in HA. destruct HA as (I & HI & Ha). apply answers_iff.
  eexists. split; [exact (link_ok A S I HI Hf)|]. apply link_init_ok. exact Ha.
Qed.
Lemma mat_answers A a S : answers A a S -> fits_in_memory S ->
  answers (mat_hopper A) (mat_init A a) S.
Proof.
  intros HA Hf. apply answers_iff in HA. destruct HA as (I & HI & Ha). apply answers_iff.
  eexists. split; [exact (mat_ok A S I HI Hf)|]. apply mat_init_ok. exact Ha.
Qed.
Lemma enumeration C s S : answers C s S ->
  exists l, listed S l /\
    enum_all true (h_tau C) ip s = Ok l /\ enum_all true (h_rho C) iq s = Ok l /\
    enum_all false (h_uat C) iq s = Ok (rev l) /\ enum_all false (h_ohr C) ip s = Ok (rev l).
Proof.
  intros H. apply answers_iff in H. destruct H as (I & HI & Hs).
  exact (enum_all_fwd_ok C S I HI s Hs).
Qed.
