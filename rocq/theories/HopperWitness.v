(** Concrete objects used by the examples beside the property theorems. *)
From Verif Require Import Base HopperModel ArrayDefs GclSpec HopperProofs VectorModel UnaryModel ArrayProofs AnswerProofs.

Definition w3 := [Iv 1 3 7; Iv 4 5 9; Iv 8 8 (-3)].
Definition w2 := [Iv 4 6 0; Iv 15 20 4].
Definition w4 := [Iv 4 5 6; Iv 15 20 4].
Definition obj_w3 : St (array_hopper (arr_of w3 true)) := array_init (arr_of w3 true).
Definition obj_w2 : St (array_hopper (arr_of w2 true)) := array_init (arr_of w2 true).
Definition vec_objs : list hobj :=
  [existT _ _ obj_w3; existT _ _ obj_w2; existT _ _ (singleton_init (Iv 2 3 1))].

Lemma gw3 : gclist w3. Proof. cbn; unfold finite, minf, maxf; cbn; lia. Qed.
Lemma gw2 : gclist w2. Proof. cbn; unfold finite, minf, maxf; cbn; lia. Qed.
Lemma aw3 : answers _ obj_w3 (set_of w3).
Proof. apply array_answers; [exact (gclist_gcdup _ gw3)|cbn; lia|discriminate]. Qed.
Lemma aw2 : answers _ obj_w2 (set_of w2).
Proof. apply array_answers; [exact (gclist_gcdup _ gw2)|cbn; lia|discriminate]. Qed.

Lemma w3_ok :
  (gcdup w3 /\ 0 < Z.of_nat (length w3) <= 2305843009213693951) /\
  run (array_hopper (arr_of w3 true)) (array_init (arr_of w3 true))
      [(Mtau, 2); (Mohr, 7); (Mrho, 6); (Muat, 5); (Mtau, 9)] =
  Ok [Iv 4 5 9; Iv 4 5 9; Iv 8 8 (-3); Iv 4 5 9; Iv maxf maxf 0].
Proof. split; [split; [exact (gclist_gcdup _ gw3)|cbn; lia]|]. vm_compute. reflexivity. Qed.
Lemma one_ok : finite (Iv (-5) 12 7). Proof. unfold finite, minf, maxf; cbn; lia. Qed.
Lemma three_ok : 1 <= 3 <= maxf. Proof. unfold maxf; lia. Qed.
Lemma ops_ok :
  answers _ obj_w3 (set_of w3) /\ answers _ obj_w2 (set_of w2) /\
  enum_all true (h_tau (cin_hopper _ _)) ip (bin_init _ _ obj_w3 obj_w2) = Ok [Iv 4 5 9] /\
  enum_all true (h_tau (nin_hopper _ _)) ip (bin_init _ _ obj_w3 obj_w2) = Ok [Iv 1 3 7; Iv 8 8 (-3)] /\
  enum_all true (h_tau (fby_hopper _ _)) ip (bin_init _ _ obj_w3 obj_w2) = Ok [Iv 1 6 0; Iv 8 20 0].
Proof. split; [exact aw3|]. split; [exact aw2|]. vm_compute. auto. Qed.
Lemma vec_ex_ok :
  Forall2 (fun o S => answers (projT1 o) (projT2 o) S) vec_objs [set_of w3; set_of w2; eq (Iv 2 3 1)] /\
  (let o := vector_make vec_objs in enum_all true (h_tau (projT1 o)) ip (projT2 o)
     = Ok [Iv 2 3 1; Iv 4 5 9; Iv 8 8 (-3); Iv 15 20 4]).
Proof.
  split; [|vm_compute; reflexivity].
  constructor; [exact aw3|]. constructor; [exact aw2|]. constructor; [|constructor].
  apply singleton_answers; unfold finite, minf, maxf; cbn; lia.
Qed.
Lemma agree_ok : starts_agree (set_of w3) (set_of w4).
Proof.
  intros a b Ha Hb. cbn in Ha, Hb.
  repeat (destruct Ha as [<-|Ha]; [repeat (destruct Hb as [<-|Hb]; [cbn; lia|]); contradiction|]). contradiction.
Qed.
Lemma link_ex : answers _ obj_w3 (set_of w3) /\ fits_in_memory (set_of w3) /\
  run (link_hopper _) (link_init _ obj_w3) [(Mtau, 0); (Mtau, -10); (Muat, 8)] = Ok [Iv 7 7 0; Iv (-3) (-3) 0; Iv 7 7 0].
Proof.
  split; [exact aw3|]. split; [exists w3; split; [auto|cbn; lia]|]. vm_compute. reflexivity.
Qed.
Lemma mat_ex : enum_all false (h_ohr (mat_hopper _)) ip (mat_init _ obj_w3) = Ok [Iv 8 8 (-3); Iv 4 5 9; Iv 1 3 7].
Proof. vm_compute. reflexivity. Qed.

(** gcl.cc:312-334: with equal starts the longer interval is answered. *)
Lemma merge_refuted : exists A B a b SA SB, answers A a SA /\ answers B b SB /\
  exists s r, h_uat (mrg_hopper A B) (bin_init A B a b) 10 = Ok (s, r) /\ ~ uat_spec (sem_merge SA SB) 10 r.
Proof.
  exists (singleton_hopper (Iv 5 6 1)), (singleton_hopper (Iv 5 8 2)), (singleton_init _), (singleton_init _).
  exists (eq (Iv 5 6 1)), (eq (Iv 5 8 2)).
  split; [apply singleton_answers; unfold finite, minf, maxf; cbn; lia|].
  split; [apply singleton_answers; unfold finite, minf, maxf; cbn; lia|].
  do 2 eexists. split; [vm_compute; reflexivity|].
  intros [[E _]|[_ [((_ & Hn) & _)|[E _]]]]; try discriminate.
  specialize (Hn (Iv 5 6 1) (or_introl eq_refl)). unfold nests in Hn; cbn in Hn. lia.
Qed.
