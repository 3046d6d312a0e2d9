(** The stemmer as its users see it; concrete words. *)
From Verif Require Import Base Bytes PorterModel PorterSpec PorterProofs PorterSteps PorterTop.

Lemma letter_is c : letter c = true <-> is_letter c.
Proof. unfold letter, upper, is_letter. rewrite orb_true_iff, !andb_true_iff, !Z.leb_le. tauto. Qed.
Lemma letters_are w : Forall is_letter w -> Forall (fun c => letter c = true) w.
Proof. apply Forall_impl. intros c. apply letter_is. Qed.
Lemma word_is w : is_word w -> word_of_letters w.
Proof. intros [L F]. split; [exact L|apply letters_are, F]. Qed.
Lemma small_is w : map lower w = map small w. Proof. reflexivity. Qed.
Lemma left_iff w : is_word w -> ((exists c, after_1 (map small w) [c]) <-> one_letter_left (map small w)).
Proof. intros [L _]. split; [intros [c A]; apply (one_left _ c); [rewrite map_length; lia|exact A]|apply left_one]. Qed.
Lemma stems s w : in_use s -> is_word w -> ~ one_letter_left (map small w) -> ~ after_3 (map small w) (lit "ion") ->
  exists w' s', stem_of (map small w) w' /\ stem s w = Ok (lit "porter:" ++ w', true, s') /\ (1 <= length w' <= length w)%nat.
Proof.
  intros U W N1 N2. destruct (stem_ok s w U (word_is w W)) as [(s' & w' & E & S & L & _)|(_ & [X|X])]; rewrite ?small_is in *.
  - exists w', s'. auto.
  - exfalso. apply N1, (left_iff w W), X.
  - contradiction.
Qed.
Lemma outside s w : in_use s -> is_word w -> (stem s w = UB <-> one_letter_left (map small w) \/ after_3 (map small w) (lit "ion")).
Proof. intros U W. rewrite (stem_iff s w U (word_is w W)), small_is, (left_iff w W). reflexivity. Qed.
Lemma unchanged s w : in_use s ->
  ((length w < 3)%nat \/ (32 < length w)%nat \/ exists u c r, w = u ++ c :: r /\ Forall is_letter u /\ ~ is_letter c /\ c <> 0) ->
  exists s', stem s w = Ok (w, false, s').
Proof.
  intros U D. apply stem_same; [exact U|]. destruct D as [D|[D|(u & c & r & E & F & N & Z)]]; [left; exact D|right; left; exact D|].
  right. right. exists u, c, r. split; [exact E|]. split; [apply letters_are, F|]. split; [|exact Z]. apply not_true_is_false. rewrite letter_is. exact N.
Qed.
Lemma history s1 s2 w : in_use s1 -> in_use s2 -> is_word w ->
  (stem s1 w = UB /\ stem s2 w = UB) \/ exists w' t1 t2, stem s1 w = Ok (w', true, t1) /\ stem s2 w = Ok (w', true, t2).
Proof.
  intros U1 U2 W. destruct (stem_ok s1 w U1 (word_is w W)) as [(t1 & w1 & E1 & S1 & _ & N1 & N2)|(E1 & X)];
    destruct (stem_ok s2 w U2 (word_is w W)) as [(t2 & w2 & E2 & S2 & _ & M1 & M2)|(E2 & Y)].
  - right. rewrite (stem_of_one _ _ _ S2 S1) in E2. eauto.
  - destruct Y as [[c Y]|Y]; [destruct (N1 c Y)|contradiction].
  - destruct X as [[c X]|X]; [destruct (M1 c X)|contradiction].
  - left. auto.
Qed.

Definition new_stemmer : ps := Ps (repeat 0 33) 0 0.
Lemma new_in_use : in_use new_stemmer. Proof. apply made. reflexivity. Qed.
Definition result (s : ps) (w : bytes) : option (bytes * bool) := match stem s w with Ok (t, f, _) => Some (t, f) | _ => None end.
Lemma word_by w : forallb letter w && (3 <=? length w)%nat && (length w <=? 32)%nat = true -> is_word w.
Proof.
  rewrite !andb_true_iff, !Nat.leb_le, forallb_forall. intros [[F L1] L2]. split; [lia|]. apply Forall_forall. intros c I. apply letter_is, F, I.
Qed.
Lemma fine w s' t : result new_stemmer w = Some (t, s') -> is_word w -> ~ one_letter_left (map small w) /\ ~ after_3 (map small w) (lit "ion").
Proof.
  intros R W. pose proof (outside new_stemmer w new_in_use W) as O. unfold result in R. destruct (stem new_stemmer w) eqn:E; [|discriminate|discriminate].
  split; intros X; assert (@Ok (bytes * bool * ps) a = UB) as Y by (apply O; auto); discriminate.
Qed.
Lemma ub_everywhere w : is_word w -> stem new_stemmer w = UB -> forall s, in_use s -> stem s w = UB.
Proof. intros W E s U. apply (outside s w U W). apply (outside new_stemmer w new_in_use W), E. Qed.
Lemma ion_words s : in_use s -> Forall (fun w => stem s w = UB) [lit "ion"; lit "Ions"; lit "ioned"; lit "ioning"; lit "ionful"; lit "ionness"; lit "ionative"].
Proof.
  intros U. repeat constructor; (apply ub_everywhere; [apply word_by; reflexivity|vm_compute; reflexivity|exact U]).
Qed.
Lemma not_left_ion : ~ one_letter_left (lit "ion") /\ ~ one_letter_left (lit "ionness").
Proof.
  assert (forall w, one_letter_left w -> In (last w 0) (lit "sdg") /\ w <> lit "ionness") as H.
  { intros w [->|(v & t & _ & I & -> & _)]; [split; [cbn; auto|discriminate]|]. cbn [In] in I. destruct I as [<-|[<-|[<-|[<-|[]]]]]; (split; [cbn; auto|discriminate]). }
  split; intros X; apply H in X; destruct X as [X Y]; [cbn in X; intuition discriminate|congruence].
Qed.
Definition after (s : ps) (w : bytes) : ps := match stem s w with Ok (_, _, s') => s' | _ => s end.
Lemma after_in_use s w : in_use s -> in_use (after s w).
Proof. intros U. unfold after. destruct (stem s w) as [[[t f] s']| |] eqn:E; [eapply called; eassumption|exact U|exact U]. Qed.
Lemma nul_words : exists w s1 s2 r1 r2, in_use s1 /\ in_use s2 /\ (3 <= length w <= 32)%nat /\ Forall (fun c => is_letter c \/ c = 0) w /\
  result s1 w = Some (r1, true) /\ result s2 w = Some (r2, true) /\ r1 <> r2.
Proof.
  exists (lit "a" ++ [0] ++ lit "b"), (after new_stemmer (lit "xylophone")), (after new_stemmer (lit "apple")).
  do 2 eexists. split; [apply after_in_use, new_in_use|]. split; [apply after_in_use, new_in_use|]. split; [cbn; lia|].
  split; [repeat constructor; unfold is_letter; cbn; lia|]. split; [vm_compute; reflexivity|]. split; [vm_compute; reflexivity|discriminate].
Qed.
