(** What the queries of tiers find. *)
From Verif Require Import Base Bytes HopperModel GclSpec GclProofs HopperProofs UnaryProofs UnaryModel VectorModel QueryModel QuerySpec
  RankModel RankSpec TierModel TierSpec.

(** [d] contains an interval of [S]. *)
Definition met (S : iv -> Prop) (d : iv) : Prop := exists x, S x /\ nests d x.
Lemma nests_trans a b c : nests a b -> nests b c -> nests a c.
Proof. unfold nests. lia. Qed.
Lemma innermost_inside (P : iv -> Prop) : (forall x y, ip x = ip y -> iq x = iq y -> P x -> P y) -> forall d, finite d -> P d -> ~ ~ met (innermost P) d.
Proof.
  intros HP d. remember (Z.to_nat (iq d - ip d)) as n eqn:En. assert (Z.to_nat (iq d - ip d) <= n)%nat as Hn by lia. clear En. revert d Hn.
  induction n as [|n IH]; intros d Hn Hd Pd NM; apply NM; exists (Iv (ip d) (iq d) 0);
    (split; [|unfold nests; cbn; lia]); (split; [exact Hd|]); (split; [reflexivity|]); (split; [apply (HP d); [reflexivity|reflexivity|exact Pd]|]);
    intros y Hy Py [N1 N2]; cbn in *; unfold nests; cbn.
  - destruct Hy, Hd. lia.
  - destruct (Z_le_dec (ip y) (ip d)) as [A|A]; [destruct (Z_le_dec (iq d) (iq y)) as [B|B]; [lia|]|];
      exfalso; (apply (IH y); [unfold finite in *; lia|exact Hy|exact Py|]); intros (z & Hz & Nz); apply NM; exists z; (split; [exact Hz|]);
      apply nests_trans with y; [unfold nests; lia|exact Nz|unfold nests; lia|exact Nz].
Qed.
Lemma met_and A B d : (met (sem_and A B) d -> met A d /\ met B d) /\ (finite d -> met A d -> met B d -> ~ ~ met (sem_and A B) d).
Proof.
  split.
  - intros (x & (_ & _ & ((a & Ha & Na) & (b & Hb & Nb)) & _) & Nx). split; [exists a|exists b]; (split; [assumption|]); apply nests_trans with x; assumption.
  - intros Hd MA MB. apply innermost_inside; [|exact Hd|exact (conj MA MB)].
    intros x y E1 E2 [(a & Ha & Na) (b & Hb & Nb)]. split; [exists a|exists b]; (split; [assumption|]); unfold nests in *; rewrite <- E1, <- E2; assumption.
Qed.
Lemma met_or A B d : (met (sem_or A B) d -> met A d \/ met B d) /\ (finite d -> met A d \/ met B d -> ~ ~ met (sem_or A B) d).
Proof.
  split.
  - intros (x & (_ & _ & [(a & Ha & Na)|(b & Hb & Nb)] & _) & Nx); [left; exists a|right; exists b]; (split; [assumption|]); apply nests_trans with x; assumption.
  - intros Hd MA. apply innermost_inside; [|exact Hd|exact MA].
    intros x y E1 E2 [(a & Ha & Na)|(b & Hb & Nb)]; [left; exists a|right; exists b]; (split; [assumption|]); unfold nests in *; rewrite <- E1, <- E2; assumption.
Qed.
Definition followed (A B : iv -> Prop) (d : iv) : Prop := exists a b, A a /\ B b /\ nests d a /\ nests d b /\ iq a < ip b.
Lemma met_fby A B d : (met (sem_fby A B) d -> followed A B d) /\ (finite d -> followed A B d -> ~ ~ met (sem_fby A B) d).
Proof.
  split.
  - intros (x & (_ & _ & (a & b & Ha & Hb & Na & Nb & L) & _) & Nx). exists a, b. repeat split; try assumption; unfold nests in *; lia.
  - intros Hd M. apply innermost_inside; [|exact Hd|exact M].
    intros x y E1 E2 (a & b & Ha & Hb & Na & Nb & L). exists a, b. repeat split; try assumption; unfold nests in *; lia.
Qed.
Lemma met_ands d : forall Ts T, (met (fold_left sem_and Ts T) d -> met T d /\ Forall (fun S => met S d) Ts) /\
  (finite d -> met T d -> Forall (fun S => met S d) Ts -> ~ ~ met (fold_left sem_and Ts T) d).
Proof.
  induction Ts as [|U Ts IH]; intros T; cbn [fold_left].
  - split; [intros H; split; [exact H|constructor]|]. intros _ H _ NM. exact (NM H).
  - destruct (IH (sem_and T U)) as [I1 I2], (met_and T U d) as [A1 A2]. split.
    + intros H. apply I1 in H. destruct H as [H HF]. apply A1 in H. destruct H. split; [assumption|]. constructor; assumption.
    + intros Hd HT HF NM. inversion HF; subst. apply (A2 Hd); [assumption|assumption|]. intros M. exact (I2 Hd M ltac:(assumption) NM).
Qed.
Lemma met_ors d : forall Ts T, (met (fold_left sem_or Ts T) d -> Exists (fun S => met S d) (T :: Ts)) /\
  (finite d -> Exists (fun S => met S d) (T :: Ts) -> ~ ~ met (fold_left sem_or Ts T) d).
Proof.
  induction Ts as [|U Ts IH]; intros T; cbn [fold_left].
  - split; [intros H; left; exact H|]. intros _ H NM. inversion H as [? ? X|? ? X]; subst; [exact (NM X)|inversion X].
  - destruct (IH (sem_or T U)) as [I1 I2], (met_or T U d) as [A1 A2]. split.
    + intros H. apply I1 in H. inversion H as [? ? X|? ? X]; subst; [|right; right; exact X]. apply A1 in X. destruct X; [left; assumption|right; left; assumption].
    + intros Hd HE NM. inversion HE as [? ? X|? ? X]; subst; [apply (A2 Hd); [left; exact X|]; intros M; apply (I2 Hd); [left; exact M|exact NM]|].
      inversion X as [? ? Y|? ? Y]; subst; [apply (A2 Hd); [right; exact Y|]; intros M; apply (I2 Hd); [left; exact M|exact NM]|].
      apply (I2 Hd); [right; exact Y|exact NM].
Qed.

Lemma nn_list {A} (P Q : A -> Prop) l : (forall x, In x l -> P x -> ~ ~ Q x) -> Exists P l -> ~ ~ Exists Q l.
Proof.
  intros H HE. induction HE as [x l Hx|x l HE IH]; intros N.
  - apply (H x (or_introl eq_refl) Hx). intros Qx. apply N. left. exact Qx.
  - apply IH; [intros y Hy; apply H; right; exact Hy|]. intros X. apply N. right. exact X.
Qed.
Lemma meaning_words E l : map (meaning E) (map word_query l) = map E l.
Proof. rewrite map_map. reflexivity. Qed.
Lemma set_met E c d : c <> [] -> (met (meaning E (set_query c)) d -> holds E d c) /\ (finite d -> holds E d c -> ~ ~ met (meaning E (set_query c)) d).
Proof.
  intros Hn. destruct c as [|t [|u c]]; [contradiction| |].
  - exact (met_fby (E t) (E t) d).
  - assert (meaning E (set_query (t :: u :: c)) = fold_left sem_and (map E (u :: c)) (E t)) as ->.
    { cbn. rewrite meaning_words. reflexivity. }
    destruct (met_ands d (map E (u :: c)) (E t)) as [A B]. split.
    + intros H. apply A in H. destruct H as [H1 H2]. intros x [<-|Hx]; [exact H1|]. rewrite Forall_map, Forall_forall in H2. exact (H2 x Hx).
    + intros Hd H. apply B; [exact Hd|apply H; left; reflexivity|]. apply Forall_map. apply Forall_forall. intros x Hx. apply H. right. exact Hx.
Qed.
Lemma tier_met E g d : g <> [] -> (forall c, In c g -> c <> []) ->
  (met (meaning E (tier_query g)) d -> exists c, In c g /\ holds E d c) /\
  (finite d -> (exists c, In c g /\ holds E d c) -> ~ ~ met (meaning E (tier_query g)) d).
Proof.
  intros Hn Hc. destruct g as [|c [|c' g]]; [contradiction| |].
  - destruct (set_met E c d (Hc c (or_introl eq_refl))) as [A B]. split.
    + intros H. exists c. split; [left; reflexivity|exact (A H)].
    + intros Hd (x & [<-|[]] & H). exact (B Hd H).
  - assert (meaning E (tier_query (c :: c' :: g)) = fold_left sem_or (map (fun c => meaning E (set_query c)) (c' :: g)) (meaning E (set_query c))) as ->.
    { cbn. rewrite map_map. reflexivity. }
    destruct (met_ors d (map (fun c => meaning E (set_query c)) (c' :: g)) (meaning E (set_query c))) as [A B].
    change (meaning E (set_query c) :: map (fun c => meaning E (set_query c)) (c' :: g)) with (map (fun c => meaning E (set_query c)) (c :: c' :: g)) in *.
    set (G := c :: c' :: g) in *. split.
    + intros H. apply A in H. apply Exists_exists in H. destruct H as (S & HS & M). apply in_map_iff in HS. destruct HS as (x & <- & Hx).
      exists x. split; [exact Hx|]. apply (set_met E x d (Hc x Hx)). exact M.
    + intros Hd (x & Hx & H) NM.
      apply (proj2 (set_met E x d (Hc x Hx)) Hd H). intros M. apply (B Hd); [|exact NM]. apply Exists_exists.
      exists (meaning E (set_query x)). split; [apply in_map_iff; exists x; auto|exact M].
Qed.

(** A hopper finds out whether it has an interval inside. *)
Lemma answers_tau C c S : answers C c S -> forall k, minf < k <= maxf -> exists r, tau_spec S k r.
Proof.
  intros [G I] k Hk. destruct (I [(Mtau, k)]) as (rs & E & HF); [constructor; [cbn; lia|constructor]|].
  inversion HF; subst. eexists. eassumption.
Qed.
Lemma met_dec C c S d : answers C c S -> finite d -> met S d \/ ~ met S d.
Proof.
  intros A Hd. pose proof A as [[G1 G2] _]. unfold finite in Hd. destruct (answers_tau C c S A (ip d)) as (r & [[H _]|[_ [(Sr & L & M)|[_ H]]]]); [lia|lia| |].
  - destruct (Z_le_dec (iq r) (iq d)) as [Q|Q]; [left; exists r; split; [exact Sr|unfold nests; lia]|]. right. intros (x & Sx & N).
    pose proof (M x Sx) as Mx. unfold nests in N. assert (r = x) by (apply G2; [assumption|assumption|unfold nests; lia]). subst. lia.
  - right. intros (x & Sx & N). specialize (H x Sx). unfold nests in N. lia.
Qed.
(** The intervals of a hopper can be listed. *)
Lemma answers_listed C c S : answers C c S -> exists xs, listed S xs.
Proof.
  intros A. pose proof A as [[G1 G2] _].
  assert (forall n k, minf < k <= maxf -> (Z.to_nat (maxf - k) <= n)%nat -> exists xs, gclist xs /\ forall x, In x xs <-> S x /\ k <= ip x) as H.
  { induction n as [|n IH]; intros k Hk Hn.
    - exists []. split; [exact I|]. intros x. split; [contradiction|]. intros [Sx L]. apply G1 in Sx. unfold finite in Sx. lia.
    - destruct (answers_tau C c S A k Hk) as (r & [[H _]|[_ [(Sr & L & M)|[_ H]]]]); [lia| |].
      + pose proof (G1 r Sr) as Fr. destruct (IH (ip r + 1)) as (xs & HG & HX); [unfold finite in Fr; lia|unfold finite in Fr; lia|].
        exists (r :: xs). split.
        * cbn [gclist]. split; [exact Fr|]. split; [|exact HG]. destruct xs as [|y xs]; [exact I|].
          destruct (proj1 (HX y) (or_introl eq_refl)) as [Sy Ly]. split; [lia|]. destruct (Z_lt_dec (iq r) (iq y)); [assumption|].
          exfalso. assert (r = y) by (apply G2; [assumption|assumption|unfold nests; lia]). subst. lia.
        * intros x. cbn [In]. rewrite HX. split; [intros [<-|[Sx Lx]]; [auto|split; [exact Sx|lia]]|]. intros [Sx Lx].
          specialize (M x Sx Lx). destruct (Z.eq_dec (ip x) (ip r)) as [E|E]; [|right; split; [exact Sx|lia]]. left.
          destruct (Z_le_dec (iq x) (iq r)); [apply G2|symmetry; apply G2]; try assumption; unfold nests; lia.
      + exists []. split; [exact I|]. intros x. split; [contradiction|]. intros [Sx Lx]. specialize (H x Sx). lia. }
  destruct (H (Z.to_nat (maxf - (minf + 1))) (minf + 1)) as (xs & HG & HX); [unfold minf, maxf; lia|lia|].
  exists xs. split; [exact HG|]. intros x. rewrite HX. split; [tauto|]. intros Sx. split; [exact Sx|]. apply G1 in Sx. unfold finite in Sx. lia.
Qed.

(** Solutions do not start before the first word of the text. *)
Definition nonneg (S : iv -> Prop) : Prop := forall x, S x -> 0 <= ip x.
Lemma innermost_nonneg (P : iv -> Prop) : (forall x, finite x -> P x -> 0 <= iq x /\ (ip x < 0 -> P (Iv 0 (iq x) 0))) -> nonneg (innermost P).
Proof.
  intros H x (Fx & _ & Px & M). destruct (H x Fx Px) as [Q K]. destruct (Z_lt_dec (ip x) 0) as [L|L]; [|lia].
  assert (nests (Iv 0 (iq x) 0) x) as N by (apply M; [unfold finite, minf, maxf in *; cbn; lia|auto|unfold nests; cbn; lia]).
  unfold nests in N. cbn in N. lia.
Qed.
Definition proper (S : iv -> Prop) : Prop := forall x, S x -> 0 <= ip x <= iq x.
Lemma inner_proper P : nonneg (innermost P) -> proper (innermost P).
Proof. intros H x Hx. split; [auto|]. destruct Hx as (F & _). unfold finite in F. lia. Qed.
Lemma nests_clip x a : nests x a -> 0 <= ip a -> nests (Iv 0 (iq x) 0) a.
Proof. unfold nests. cbn. lia. Qed.
Lemma and_proper A B : proper A -> proper B -> proper (sem_and A B).
Proof.
  intros HA HB. apply inner_proper, innermost_nonneg. intros x Fx [(a & Ha & Na) (b & Hb & Nb)]. pose proof (HA a Ha). pose proof (HB b Hb).
  split; [unfold nests in *; lia|]. intros L. split; [exists a|exists b]; (split; [assumption|]); apply nests_clip; try assumption; lia.
Qed.
Lemma or_proper A B : proper A -> proper B -> proper (sem_or A B).
Proof.
  intros HA HB. apply inner_proper, innermost_nonneg. intros x Fx [(a & Ha & Na)|(b & Hb & Nb)].
  - pose proof (HA a Ha). split; [unfold nests in *; lia|]. intros L. left. exists a. split; [assumption|]. apply nests_clip; [assumption|lia].
  - pose proof (HB b Hb). split; [unfold nests in *; lia|]. intros L. right. exists b. split; [assumption|]. apply nests_clip; [assumption|lia].
Qed.
Lemma fby_proper A B : proper A -> proper B -> proper (sem_fby A B).
Proof.
  intros HA HB. apply inner_proper, innermost_nonneg. intros x Fx (a & b & Ha & Hb & Na & Nb & L). pose proof (HA a Ha). pose proof (HB b Hb).
  split; [unfold nests in *; lia|]. intros _. exists a, b. repeat split; try assumption; unfold nests in *; cbn; lia.
Qed.
Lemma fold_proper (f : (iv -> Prop) -> (iv -> Prop) -> iv -> Prop) : (forall A B, proper A -> proper B -> proper (f A B)) ->
  forall Ts T, proper T -> Forall proper Ts -> proper (fold_left f Ts T).
Proof. intros Hf. induction Ts as [|U Ts IH]; intros T HT HF; [exact HT|]. inversion HF; subst. apply IH; auto. Qed.
Lemma set_proper E c : c <> [] -> (forall t, proper (E t)) -> proper (meaning E (set_query c)).
Proof.
  intros Hn HE. destruct c as [|t [|u c]]; [contradiction|apply fby_proper; apply HE|].
  change (meaning E (set_query (t :: u :: c))) with (fold_left sem_and (map (meaning E) (map word_query (u :: c))) (E t)). rewrite meaning_words.
  apply fold_proper; [exact and_proper|apply HE|]. apply Forall_map, Forall_forall. intros x _. apply HE.
Qed.
Lemma tier_proper E g : g <> [] -> (forall c, In c g -> c <> []) -> (forall t, proper (E t)) -> proper (meaning E (tier_query g)).
Proof.
  intros Hn Hc HE. destruct g as [|c [|c' g]]; [contradiction|apply set_proper; [apply Hc; left; reflexivity|exact HE]|].
  change (meaning E (tier_query (c :: c' :: g))) with (fold_left sem_or (map (meaning E) (map set_query (c' :: g))) (meaning E (set_query c))).
  apply fold_proper; [exact or_proper|apply set_proper; [apply Hc; left; reflexivity|exact HE]|]. rewrite map_map. apply Forall_map, Forall_forall. intros x Hx.
  apply set_proper; [apply Hc; right; exact Hx|exact HE].
Qed.
