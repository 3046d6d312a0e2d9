(** What the threads of trec do, on every schedule. *)
From Verif Require Import Base Bytes HopperModel GclSpec HopperProofs ArrayProofs UnaryProofs AnswerProofs RankModel RankSpec RankSsr RankDocs RankerSpec RankerProofs RankerText TrecModel.
From Verif Require Import RecipeModel RecipeProofs.
From Coq Require Import Sorting.Sorted Permutation.

(** * Ids *)
(** The first id that starts in the container or after it, if it ends in the container. *)
Definition ids_in {F} (translate : Z -> Z -> bytes) (items : list iv) (ranking : list (@result F)) : list bytes :=
  flat_map (fun r => match filter (fun x => rcp r <=? ip x) items with
                     | x :: _ => if iq x <=? rcq r then [translate (ip x) (iq x)] else []
                     | [] => [] end) ranking.
Theorem topic_ids_ok {F} C SC IC (HC : hop_ok C SC IC) translate items (HL : listed SC items) (ranking : list (@result F)) :
  Forall (fun r => minf < rcp r <= maxf /\ rcq r < maxf) ranking -> forall h, IC h ->
  exists h', topic_ids C translate h ranking = Ok (h', ids_in translate items ranking) /\ IC h'.
Proof.
  induction ranking as [|r l IH]; intros FA h I; [exists h; split; [reflexivity|exact I]|]. apply Forall_cons_iff in FA. destruct FA as [[P Q] FA]. cbn [topic_ids].
  pose proof (hop_tau HC h (rcp r) I ltac:(lia)) as W. apply wp_exists in W. destruct W as ([h1 x] & E & I1 & T). rewrite E. cbn [bind].
  destruct (IH FA h1 I1) as (h2 & E2 & I2). rewrite E2. cbn [bind]. exists h2. split; [|exact I2]. f_equal. f_equal. change (ids_in translate items (r :: l)) with ((match filter (fun x => rcp r <=? ip x) items with x :: _ => if iq x <=? rcq r then [translate (ip x) (iq x)] else [] | [] => [] end) ++ ids_in translate items l).
  pose proof (tau_next SC items (rcp r) x HL ltac:(lia) T) as X. unfold next in X. destruct (filter _ items) as [|y ys]; cbn [hd] in X; subst x.
  - cbn [iq maxr]. replace (maxf <=? rcq r) with false by (symmetry; apply Z.leb_gt; lia). reflexivity.
  - destruct (iq y <=? rcq r); reflexivity.
Qed.

(** * Lists *)
Lemma set_nth_length {A} n (x : A) l : length (set_nth n x l) = length l.
Proof. revert n. induction l as [|y l IH]; intros [|n]; cbn; auto. Qed.
Lemma set_nth_same {A} n (x : A) l : (n < length l)%nat -> nth_error (set_nth n x l) n = Some x.
Proof. revert n. induction l as [|y l IH]; intros [|n] L; cbn in *; try lia; auto. apply IH. lia. Qed.
Lemma set_nth_other {A} n m (x : A) l : n <> m -> nth_error (set_nth n x l) m = nth_error l m.
Proof. revert n m. induction l as [|y l IH]; intros [|n] [|m] N; cbn; auto; try congruence. Qed.
Lemma nth_lt {A} (l : list A) n x : nth_error l n = Some x -> (n < length l)%nat.
Proof. intro E. apply nth_error_Some. congruence. Qed.
Lemma set_nth_in {A} n (x y : A) l : In y (set_nth n x l) -> y = x \/ exists m, m <> n /\ nth_error l m = Some y.
Proof.
  intros I. apply In_nth_error in I. destruct I as [m E]. destruct (Nat.eq_dec n m) as [->|N].
  - left. pose proof (nth_lt _ _ _ E) as L. rewrite set_nth_length in L. rewrite set_nth_same in E by exact L. congruence.
  - right. exists m. rewrite set_nth_other in E by exact N. auto.
Qed.

Section Trec.
Context {H : Type} (h0 : H) (solve : H -> bytes -> res (H * list bytes)) (I : H -> Prop) (ans : bytes -> list bytes).
Context (I0 : I h0) (SOL : forall h q, I h -> exists h', solve h q = Ok (h', ans q) /\ I h').
Context (work : list (bytes * bytes)) (MW : a_map work) (threads : nat) (T0 : (0 < threads)%nat).
Notation state := (@state H).
Local Notation step := (step h0 solve work threads).
Local Notation steps := (steps h0 solve work threads).
(** Each topic of [results] has its ids. *)
Definition sound (results : list (bytes * list bytes)) : Prop := a_map results /\ forall t ids, In (t, ids) results -> exists q, In (t, q) work /\ ids = ans q.
Definition stored (results : list (bytes * list bytes)) (i : nat) : Prop := forall t q, nth_error work i = Some (t, q) -> In (t, ans q) results.
Definition before_ (n j : nat) (results : list (bytes * list bytes)) : Prop := forall k, (n + k * threads < j)%nat -> stored results (n + k * threads).
Definition fine (results : list (bytes * list bytes)) (n : nat) (p : @place H) : Prop :=
  match p with
  | Cloning | SettingUp | Failing => True
  | Testing j h => I h /\ (exists k, j = n + k * threads)%nat /\ before_ n j results
  | Storing j h t ids => I h /\ (exists k, j = n + k * threads)%nat /\ before_ n j results /\ exists q, nth_error work j = Some (t, q) /\ ids = ans q
  | Gone => before_ n (length work) results
  end.
Definition inv (s : state) : Prop :=
  length (s_workers s) = threads /\ sound (s_results s) /\
  (s_stop s = false -> forall n p, nth_error (s_workers s) n = Some p -> fine (s_results s) n p).
Lemma topic_once t q q' : In (t, q) work -> In (t, q') work -> q = q'.
Proof. intros A B. apply (get_in t q work MW) in A. apply (get_in t q' work MW) in B. congruence. Qed.
Lemma put_sound t q results : sound results -> In (t, q) work -> sound (put t (ans q) results) /\ forall i, stored results i -> stored (put t (ans q) results) i.
Proof.
  intros [M S] J. destruct (put_sets t (ans q) results M) as [M' P]. split.
  - split; [exact M'|]. intros t' ids X. apply P in X. destruct X as [[-> ->]|[_ X]]; eauto.
  - intros i St t' q' E. apply P. destruct (list_eq_dec Z.eq_dec t' t) as [->|N]; [left|right; split; [exact N|apply St, E]].
    split; [reflexivity|]. f_equal. apply (topic_once t); [apply (nth_error_In _ _ E)|exact J].
Qed.
Lemma fine_mono results results' n p : (forall i, stored results i -> stored results' i) -> fine results n p -> fine results' n p.
Proof.
  intros S. unfold fine, before_. destruct p; try tauto.
  - intros (A & B & C). split; [exact A|]. split; [exact B|]. intros k L. apply S, C, L.
  - intros (A & B & C & D). split; [exact A|]. split; [exact B|]. split; [|exact D]. intros k L. apply S, C, L.
  - intros C k L. apply S, C, L.
Qed.
Lemma move_inv s n p p' : inv s -> nth_error (s_workers s) n = Some p -> (s_stop s = false -> fine (s_results s) n p') -> inv (move s n p').
Proof.
  intros (L & S & Fi) E X. unfold inv, move. cbn [s_workers s_results s_stop]. split; [rewrite set_nth_length; exact L|]. split; [exact S|].
  intros NS m v Ev. destruct (Nat.eq_dec n m) as [<-|N].
  - rewrite set_nth_same in Ev by (apply (nth_lt _ _ _ E)). assert (v = p') as -> by congruence. apply X, NS.
  - rewrite set_nth_other in Ev by exact N. apply (Fi NS m v Ev).
Qed.
(** Every step keeps the invariant, and none goes wrong. *)
Lemma step_ok n ok s : inv s -> exists o, step n ok s = Ok o /\ forall s', o = Some s' -> inv s'.
Proof.
  intros V. pose proof V as (L & S & Fi). unfold TrecModel.step. destruct (nth_error (s_workers s) n) as [p|] eqn:E; [|exists None; split; [reflexivity|discriminate]].
  assert (OUT : forall p', (s_stop s = false -> fine (s_results s) n p') -> exists o, Ok (Some (move s n p')) = Ok o /\ forall s', o = Some s' -> inv s').
  { intros p' X. eexists. split; [reflexivity|]. intros s' Y. assert (s' = move s n p') as -> by congruence. apply (move_inv s n p p' V E X). }
  assert (NO : exists o : option state, Ok None = Ok o /\ forall s', o = Some s' -> inv s') by (exists None; split; [reflexivity|discriminate]).
  destruct p as [| | |j h|j h t ids|].
  - destruct (s_stop s) eqn:ST; [destruct ok; [apply OUT; discriminate|exact NO]|]. apply OUT. intros _. destruct ok; exact Logic.I.
  - apply OUT. intros _. destruct ok; [|exact Logic.I]. split; [exact I0|]. split; [exists 0%nat; lia|]. intros k X. lia.
  - destruct ok; [|exact NO]. eexists. split; [reflexivity|]. intros s' Y. assert (s' = State true (s_results s) (set_nth n Gone (s_workers s))) as -> by congruence.
    unfold inv. cbn. split; [rewrite set_nth_length; exact L|]. split; [exact S|discriminate].
  - destruct ok; cbn [negb]; [|exact NO]. destruct (nth_error work j) as [[t q]|] eqn:EJ.
    + destruct (s_stop s) eqn:ST; [apply OUT; discriminate|]. destruct (Fi eq_refl n _ E) as (Ih & K & B). destruct (SOL h q Ih) as (h' & -> & Ih'). cbn [bind].
      apply OUT. intros _. split; [exact Ih'|]. split; [exact K|]. split; [exact B|]. exists q. split; [exact EJ|reflexivity].
    + apply OUT. intros ST. destruct (Fi ST n _ E) as (_ & _ & B). apply nth_error_None in EJ. intros k X. apply B. lia.
  - destruct ok; cbn [negb]; [|exact NO]. destruct (s_stop s) eqn:ST; [apply OUT; discriminate|]. destruct (Fi eq_refl n _ E) as (Ih & K & B & q & EJ & ->).
    destruct (put_sound t q (s_results s) S (nth_error_In _ _ EJ)) as [S' MO]. eexists. split; [reflexivity|]. intros s' Y.
    assert (s' = State false (put t (ans q) (s_results s)) (set_nth n (Testing (j + threads) h) (s_workers s))) as -> by congruence.
    unfold inv. cbn [s_workers s_results s_stop]. split; [rewrite set_nth_length; exact L|]. split; [exact S'|].
    intros _ m v Ev. destruct (Nat.eq_dec n m) as [<-|N].
    + rewrite set_nth_same in Ev by (apply (nth_lt _ _ _ E)). assert (v = Testing (j + threads) h) as -> by congruence. destruct K as [k K]. split; [exact Ih|]. split; [exists (Datatypes.S k); lia|].
      intros k' X. destruct (Nat.lt_ge_cases (n + k' * threads) j) as [Y1|Z]; [apply MO, B, Y1|].
      assert (k' = k) as -> by nia. rewrite <- K. intros t' q' E'. assert (t' = t /\ q' = q) as [-> ->] by (split; congruence).
      destruct S as [M _]. apply (put_sets t (ans q) (s_results s) M). left. split; reflexivity.
    + rewrite set_nth_other in Ev by exact N. apply (fine_mono _ _ _ _ MO), (Fi eq_refl m v Ev).
  - exact NO.
Qed.
Lemma steps_ok l : forall s, inv s -> exists o, steps l s = Ok o /\ forall s', o = Some s' -> inv s'.
Proof.
  induction l as [|[n ok] l IH]; intros s V; cbn [TrecModel.steps].
  - exists (Some s). split; [reflexivity|]. intros s' X. assert (s' = s) as -> by congruence. exact V.
  - destruct (step_ok n ok s V) as (o & -> & X). cbn [bind]. destruct o as [s1|]; [apply IH, X; reflexivity|]. exists None. split; [reflexivity|discriminate].
Qed.
Lemma start_inv : inv (start threads).
Proof.
  unfold inv, start. cbn. split; [apply repeat_length|]. split; [split; [constructor|intros t ids []]|]. intros _ n p E. apply nth_error_In, repeat_spec in E. subst p. exact Logic.I.
Qed.
(** Failing. *)
Definition failing (s : state) : Prop := s_stop s = true \/ exists n, nth_error (s_workers s) n = Some Failing.
Lemma move_failing s n p p' : nth_error (s_workers s) n = Some p -> p <> Failing -> p' <> Failing -> (failing (move s n p') <-> failing s).
Proof.
  intros E N N'. unfold failing, move. cbn [s_stop s_workers]. split; (intros [X|[m X]]; [left; exact X|right]).
  - destruct (Nat.eq_dec n m) as [<-|D]; [rewrite set_nth_same in X by (apply (nth_lt _ _ _ E)); congruence|]. rewrite set_nth_other in X by exact D. eauto.
  - exists m. destruct (Nat.eq_dec n m) as [<-|D]; [congruence|]. rewrite set_nth_other by exact D. exact X.
Qed.
Lemma step_failing n ok s s' : step n ok s = Ok (Some s') -> (failing s' <-> failing s \/ ok = false).
Proof.
  unfold TrecModel.step. destruct (nth_error (s_workers s) n) as [p|] eqn:E; [|discriminate].
  assert (MV : forall p', p <> Failing -> p' <> Failing -> Ok (Some (move s n p')) = Ok (Some s') -> ok = true -> (failing s' <-> failing s \/ ok = false)).
  { intros p' N N' X ->. assert (s' = move s n p') as -> by congruence. rewrite (move_failing s n p p' E N N'). intuition discriminate. }
  assert (FL : Ok (Some (move s n Failing)) = Ok (Some s') -> ok = false -> (failing s' <-> failing s \/ ok = false)).
  { intros X ->. assert (s' = move s n Failing) as -> by congruence. split; [auto|]. intros _. right. exists n. cbn. apply set_nth_same, (nth_lt _ _ _ E). }
  destruct p as [| | |j h|j h t ids|].
  - destruct (s_stop s) eqn:ST; destruct ok; try discriminate; intros X; try (eapply MV; [discriminate| |exact X|reflexivity]; discriminate). apply (FL X eq_refl).
  - destruct ok; intros X; [eapply MV; [discriminate| |exact X|reflexivity]; discriminate|apply (FL X eq_refl)].
  - destruct ok; [|discriminate]. intros X. assert (s' = State true (s_results s) (set_nth n Gone (s_workers s))) as -> by congruence. split; [intros _; left; right; eauto|intros _; left; reflexivity].
  - destruct ok; cbn [negb]; [|discriminate]. destruct (nth_error work j) as [[t q]|]; [|intros X; eapply MV; [discriminate| |exact X|reflexivity]; discriminate].
    destruct (s_stop s); [intros X; eapply MV; [discriminate| |exact X|reflexivity]; discriminate|]. destruct (solve h q) as [[h' ids]| |]; try discriminate. cbn [bind]. intros X. eapply MV; [discriminate| |exact X|reflexivity]; discriminate.
  - destruct ok; cbn [negb]; [|discriminate]. destruct (s_stop s) eqn:ST; [intros X; eapply MV; [discriminate| |exact X|reflexivity]; discriminate|].
    intros X. assert (s' = State false (put t ids (s_results s)) (set_nth n (Testing (j + threads) h) (s_workers s))) as -> by congruence.
    unfold failing. cbn [s_stop s_workers]. rewrite ST. split.
    + intros [X'|[m X']]; [discriminate|]. left. right. exists m. destruct (Nat.eq_dec n m) as [<-|D]; [rewrite set_nth_same in X' by (apply (nth_lt _ _ _ E)); discriminate|]. rewrite set_nth_other in X' by exact D. exact X'.
    + intros [[X'|[m X']]|X']; try discriminate. right. exists m. destruct (Nat.eq_dec n m) as [<-|D]; [congruence|]. rewrite set_nth_other by exact D. exact X'.
  - discriminate.
Qed.
Lemma steps_failing l : forall s s', steps l s = Ok (Some s') -> (failing s' <-> failing s \/ In false (map snd l)).
Proof.
  induction l as [|[n ok] l IH]; intros s s' X; cbn [TrecModel.steps] in X.
  - assert (s' = s) as -> by congruence. cbn. tauto.
  - destruct (step n ok s) as [[s1|]| |] eqn:E; try discriminate. cbn [bind] in X. rewrite (IH s1 s' X), (step_failing n ok s s1 E). cbn [map snd In]. tauto.
Qed.
Lemma joined_gone (s : state) n p : joined s = true -> nth_error (s_workers s) n = Some p -> p = Gone.
Proof. intros J E. unfold joined in J. rewrite forallb_forall in J. specialize (J _ (nth_error_In _ _ E)). destruct p; try discriminate. reflexivity. Qed.
Lemma joined_stop l s : steps l (start threads) = Ok (Some s) -> joined s = true -> (s_stop s = true <-> In false (map snd l)).
Proof.
  intros X J. pose proof (steps_failing l _ _ X) as Y. assert (NS : ~ failing (start threads)).
  { unfold failing, start. cbn. intros [Z|[n Z]]; [discriminate|]. apply nth_error_In, repeat_spec in Z. discriminate. }
  split; [intros S; apply Y in NS || idtac; destruct (proj1 Y (or_introl S)) as [Z|Z]; [contradiction|exact Z]|].
  intros Z. destruct (proj2 Y (or_intror Z)) as [S|[n E]]; [exact S|]. apply (joined_gone _ _ _ J) in E. discriminate.
Qed.
(** All is stored when all are gone. *)
Lemma all_stored s : inv s -> joined s = true -> s_stop s = false -> forall t q, In (t, q) work -> In (t, ans q) (s_results s).
Proof.
  intros (L & _ & Fi) J ST t q W. apply In_nth_error in W. destruct W as [i E]. pose proof (Nat.mod_upper_bound i threads ltac:(lia)) as M. pose proof (Nat.div_mod i threads ltac:(lia)) as D.
  destruct (nth_error (s_workers s) (i mod threads)) as [p|] eqn:P; [|apply nth_error_None in P; lia].
  pose proof (joined_gone _ _ _ J P) as ->. pose proof (Fi ST _ _ P) as B. cbn [fine] in B. unfold before_ in B. specialize (B (i / threads)%nat).
  assert (X : (i mod threads + i / threads * threads = i)%nat) by lia. rewrite X in B. apply (B (nth_lt _ _ _ E)). exact E.
Qed.
(** * Ending *)
Definition left_ (j : nat) : nat := ((length work + threads - 1 - j) / threads)%nat.
Lemma left_next j : (j < length work)%nat -> left_ j = S (left_ (j + threads)).
Proof.
  intros L. unfold left_. destruct (Nat.le_gt_cases threads (length work - 1 - j)) as [G|G].
  - replace (length work + threads - 1 - j)%nat with ((length work + threads - 1 - (j + threads)) + 1 * threads)%nat by lia. rewrite Nat.div_add by lia. lia.
  - replace (length work + threads - 1 - j)%nat with ((length work - 1 - j) + 1 * threads)%nat by lia. rewrite Nat.div_add by lia. rewrite Nat.div_small by lia.
    rewrite Nat.div_small by lia. reflexivity.
Qed.
Definition weight (n : nat) (p : @place H) : nat :=
  match p with
  | Cloning => (3 + 2 * left_ n)%nat | SettingUp => (2 + 2 * left_ n)%nat | Failing => 1%nat
  | Testing j _ => (1 + 2 * left_ j)%nat | Storing j _ _ _ => (2 + 2 * left_ (j + threads))%nat | Gone => 0%nat
  end.
Fixpoint weights (n : nat) (l : list (@place H)) : nat := match l with [] => 0%nat | p :: r => (weight n p + weights (S n) r)%nat end.
Lemma weights_set l : forall n m p p', nth_error l m = Some p -> (weights n (set_nth m p' l) + weight (n + m) p = weights n l + weight (n + m) p')%nat.
Proof.
  induction l as [|v l IH]; intros n [|m] p p' E; try discriminate; cbn [set_nth weights].
  - injection E as ->. rewrite Nat.add_0_r. lia.
  - specialize (IH (S n) m p p' E). replace (S n + m)%nat with (n + S m)%nat in IH by lia. lia.
Qed.
Lemma step_weight n ok s s' : step n ok s = Ok (Some s') -> (weights 0 (s_workers s') < weights 0 (s_workers s))%nat.
Proof.
  unfold TrecModel.step. destruct (nth_error (s_workers s) n) as [p|] eqn:E; [|discriminate].
  assert (MV : forall st r p', (weight n p' < weight n p)%nat -> (weights 0 (s_workers (State st r (set_nth n p' (s_workers s)))) < weights 0 (s_workers s))%nat).
  { intros st r p' X. cbn [s_workers]. pose proof (weights_set (s_workers s) 0 n p p' E) as Y. cbn [Nat.add] in Y. lia. }
  destruct p as [| | |j h|j h t ids|]; cbn [weight] in MV.
  - destruct (s_stop s) eqn:ST; destruct ok; try discriminate; intros X; injection X as <-; apply MV; cbn; lia.
  - destruct ok; intros X; injection X as <-; apply MV; cbn; lia.
  - destruct ok; [|discriminate]. intros X; injection X as <-; apply MV; cbn; lia.
  - destruct ok; cbn [negb]; [|discriminate]. destruct (nth_error work j) as [[t q]|] eqn:EJ; [|intros X; injection X as <-; apply MV; cbn; lia].
    destruct (s_stop s); [intros X; injection X as <-; apply MV; cbn; lia|]. destruct (solve h q) as [[h' ids]| |]; try discriminate. cbn [bind]. intros X; injection X as <-; apply MV; cbn [weight].
    rewrite (left_next j (nth_lt _ _ _ EJ)). lia.
  - destruct ok; cbn [negb]; [|discriminate]. destruct (s_stop s); intros X; injection X as <-; apply MV; cbn [weight]; lia.
  - discriminate.
Qed.
Lemma steps_weight l : forall s s', steps l s = Ok (Some s') -> (length l + weights 0 (s_workers s') <= weights 0 (s_workers s))%nat.
Proof.
  induction l as [|[n ok] l IH]; intros s s' X; cbn [TrecModel.steps] in X.
  - assert (s' = s) as -> by congruence. cbn. lia.
  - destruct (step n ok s) as [[s1|]| |] eqn:E; try discriminate. cbn [bind] in X. apply step_weight in E. apply IH in X. cbn [length]. lia.
Qed.
Lemma left_le j : (left_ j <= length work)%nat.
Proof.
  unfold left_. destruct (length work) as [|m]; [rewrite Nat.div_small by lia; lia|]. apply Nat.div_le_upper_bound; [lia|].
  assert (m <= threads * m)%nat by (rewrite <- (Nat.mul_1_l m) at 1; apply Nat.mul_le_mono_r; lia). rewrite Nat.mul_succ_r. lia.
Qed.
Lemma repeat_weight k : forall n, (weights n (repeat Cloning k) <= (3 + 2 * length work) * k)%nat.
Proof. induction k as [|k IH]; intros n; cbn [repeat weights weight]; [lia|]. specialize (IH (S n)). pose proof (left_le n). lia. Qed.
Lemma goes_on s : inv s -> joined s = false -> exists n s', step n true s = Ok (Some s').
Proof.
  intros (L & S & Fi) J. assert (A : exists n p, nth_error (s_workers s) n = Some p /\ p <> Gone).
  { unfold joined in J. clear L Fi. induction (s_workers s) as [|p l IH]; [discriminate|]. cbn [forallb] in J. destruct p; try (exists 0%nat; eexists; split; [reflexivity|discriminate]).
    destruct (IH J) as (n & p & E & N). exists (Datatypes.S n), p. auto. }
  destruct A as (n & p & E & N). exists n. unfold TrecModel.step. rewrite E. destruct p as [| | |j h|j h t ids|]; cbn [negb].
  - destruct (s_stop s); eauto.
  - eauto.
  - eauto.
  - destruct (nth_error work j) as [[t q]|]; [|eauto]. destruct (s_stop s) eqn:ST; [eauto|]. destruct (Fi eq_refl n _ E) as (Ih & _). destruct (SOL h q Ih) as (h' & -> & _). cbn [bind]. eauto.
  - destruct (s_stop s); eauto.
  - congruence.
Qed.
End Trec.
