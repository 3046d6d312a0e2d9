(** The choice of merges is sound, and without a choice there is nothing left to do. *)
From Verif Require Import Base Bytes StoreModel SchedModel SchedSpec.

Lemma run_app a b s n : run_at a s n -> run_at (a ++ b) s n.
Proof. intros [H K]. split; [rewrite app_length; lia|]. intros k Hk. rewrite app_nth1 by lia. apply K. lia. Qed.
Lemma run_less a x s n : run_at (a ++ [x]) s n -> (s + n <= length a)%nat -> run_at a s n.
Proof. intros [H K] L. split; [exact L|]. intros k Hk. rewrite <- (K k Hk), app_nth1 by lia. reflexivity. Qed.
Lemma run_split_at a s n : run_at a s (S n) -> run_at a s n.
Proof. intros [H K]. split; [lia|]. intros k Hk. apply K. lia. Qed.

Definition seq_inv (p : list bool) (cs cl bl bs : nat) : Prop :=
  let i := length p in
  (cl <= i)%nat /\ (cl <> 0 -> cs = i - cl)%nat /\ run_at p (i - cl) cl /\ (cl < i -> nth (i - cl - 1) p false = false)%nat /\
  (bl = 0 \/ (3 <= bl /\ run_at p bs bl))%nat /\ (forall s n, run_at p s n -> 3 <= n -> n <= bl \/ i - cl <= s)%nat /\
  (forall s, 3 <= bl -> s < bs -> ~ run_at p s bl)%nat.
Definition seq_ok (a : list bool) (r : nat * nat) : Prop :=
  (fst r = 0 \/ (3 <= fst r /\ run_at a (snd r) (fst r)))%nat /\ (forall s n, run_at a s n -> 3 <= n -> n <= fst r)%nat /\
  (forall s, 3 <= fst r -> s < snd r -> ~ run_at a s (fst r))%nat.
Lemma sequence_loop_spec r : forall p cs cl bl bs, seq_inv p cs cl bl bs -> seq_ok (p ++ r) (sequence_loop r (length p) cs cl bl bs).
Proof.
  induction r as [|[] r IH]; intros p cs cl bl bs (I1 & I2 & I3 & I4 & I5 & I6 & I7); cbn [sequence_loop].
  - rewrite app_nil_r. destruct (Nat.leb_spec 3 cl); destruct (Nat.ltb_spec bl cl); cbn [andb]; unfold seq_ok; cbn [fst snd].
    + rewrite (I2 ltac:(lia)). split; [right; split; [lia|exact I3]|]. split.
      * intros s n R N. destruct (I6 s n R N) as [K|K]; [lia|]. destruct R; lia.
      * intros s _ S R. destruct (I6 s cl R ltac:(lia)); lia.
    + split; [exact I5|]. split; [|exact I7]. intros s n R N. destruct (I6 s n R N) as [K|K]; [exact K|]. destruct R; lia.
    + split; [exact I5|]. split; [|exact I7]. intros s n R N. destruct (I6 s n R N) as [K|K]; [exact K|]. destruct R; lia.
    + split; [exact I5|]. split; [|exact I7]. intros s n R N. destruct (I6 s n R N) as [K|K]; [exact K|]. destruct R; lia.
  - replace (p ++ true :: r) with ((p ++ [true]) ++ r) by (rewrite <- app_assoc; reflexivity).
    replace (S (length p)) with (length (p ++ [true])) by (rewrite app_length; cbn; lia). apply IH.
    unfold seq_inv. rewrite app_length. cbn [length]. replace (length p + 1 - S cl)%nat with (length p - cl)%nat by lia.
    split; [lia|]. split; [intros _; destruct (Nat.eqb_spec cl 0); [lia|apply I2; lia]|]. split.
    { destruct I3 as [J1 J2]. split; [rewrite app_length; cbn; lia|]. intros k Hk. destruct (Nat.eq_dec k (length p)) as [->|].
      - rewrite app_nth2, Nat.sub_diag by lia. reflexivity.
      - rewrite app_nth1 by lia. apply J2. lia. }
    split; [intros H; rewrite app_nth1 by lia; apply I4; lia|]. split; [destruct I5 as [K|[K R]]; [left; exact K|right; split; [exact K|apply run_app; exact R]]|]. split.
    + intros s n R N. destruct (le_lt_dec (length p - cl) s) as [L|L]; [right; exact L|]. left.
      destruct (le_lt_dec (s + n) (length p)) as [M|M]; [destruct (I6 s n (run_less _ _ _ _ R M) N); lia|].
      exfalso. destruct R as [R1 R2]. specialize (R2 (length p - cl - 1)%nat ltac:(lia)). rewrite app_nth1 in R2 by lia. rewrite I4 in R2 by lia. discriminate.
    + intros s B S R. destruct I5 as [K|[K R0]]; [lia|]. apply (I7 s B S). apply run_less with true; [exact R|]. destruct R0; lia.
  - replace (p ++ false :: r) with ((p ++ [false]) ++ r) by (rewrite <- app_assoc; reflexivity).
    replace (S (length p)) with (length (p ++ [false])) by (rewrite app_length; cbn; lia).
    assert (Ru : forall s n, run_at (p ++ [false]) s n -> (3 <= n)%nat -> run_at p s n).
    { intros s n R N. apply run_less with false; [exact R|]. destruct (le_lt_dec (s + n) (length p)); [assumption|]. exfalso. destruct R as [R1 R2]. rewrite app_length in R1. cbn in R1.
      specialize (R2 (length p) ltac:(lia)). rewrite app_nth2, Nat.sub_diag in R2 by lia. discriminate. }
    assert (Next : forall b0 s0, (b0 = 0 \/ (3 <= b0 /\ run_at p s0 b0))%nat -> (forall s n, run_at p s n -> 3 <= n -> n <= b0)%nat -> (forall s, 3 <= b0 -> s < s0 -> ~ run_at p s b0)%nat -> seq_inv (p ++ [false]) cs 0 b0 s0).
    { intros b0 s0 A B C. unfold seq_inv. rewrite app_length. cbn [length]. split; [lia|]. split; [lia|]. split; [split; [rewrite app_length; cbn; lia|lia]|].
      split; [intros _; replace (length p + 1 - 0 - 1)%nat with (length p) by lia; rewrite app_nth2, Nat.sub_diag by lia; reflexivity|].
      split; [destruct A as [K|[K R]]; [left; exact K|right; split; [exact K|apply run_app; exact R]]|]. split; [intros s n R N; left; apply (B s n); auto|].
      intros s S T R. apply (C s S T). apply Ru; auto. }
    destruct (Nat.leb_spec 3 cl); destruct (Nat.ltb_spec bl cl); cbn [andb]; apply IH; apply Next; auto.
    + right. split; [lia|]. rewrite (I2 ltac:(lia)). exact I3.
    + intros s n R N. destruct (I6 s n R N) as [K|K]; [lia|]. destruct R; lia.
    + intros s _ S R. rewrite I2 in S by lia. destruct (I6 s cl R ltac:(lia)); lia.
    + intros s n R N. destruct (I6 s n R N) as [K|K]; [exact K|]. destruct R; lia.
    + intros s n R N. destruct (I6 s n R N) as [K|K]; [exact K|]. destruct R; lia.
    + intros s n R N. destruct (I6 s n R N) as [K|K]; [exact K|]. destruct R; lia.
Qed.
Theorem find_sequence_spec a : match find_sequence a with
  | Some (s, e) => (s + 2 <= e)%nat /\ run_at a s (e - s + 1) /\ (forall s' n, run_at a s' n -> n <= e - s + 1)%nat /\ (forall s', (s' < s)%nat -> ~ run_at a s' (e - s + 1))
  | None => forall s n, run_at a s n -> (n < 3)%nat
  end.
Proof.
  unfold find_sequence. assert (H : seq_inv [] 0 0 0 0).
  { unfold seq_inv. cbn. split; [lia|]. split; [lia|]. split; [split; cbn; [lia|lia]|]. split; [lia|]. split; [auto|]. split; [intros; right; lia|lia]. }
  pose proof (sequence_loop_spec a [] 0 0 0 0 H) as K. cbn [app length] in K. destruct (sequence_loop a 0 0 0 0 0) as [n s]. unfold seq_ok in K. cbn [fst snd] in K. destruct K as (K1 & K2 & K3).
  destruct (Nat.leb_spec 3 n) as [L|L].
  - destruct K1 as [K1|[_ K1]]; [lia|]. replace (s + n - 1 - s + 1)%nat with n by lia. split; [lia|]. split; [exact K1|]. split; [|intros s' S; apply K3; lia].
    intros s' n' R. destruct (le_lt_dec 3 n') as [M|M]; [apply (K2 s' n' R M)|lia].
  - intros s' n' R. destruct (le_lt_dec 3 n') as [M|M]; [specialize (K2 s' n' R M); lia|lia].
Qed.

Lemma pair_loop_spec {A} (ok : A -> A -> bool) w (l : list A) : forall i best, match pair_loop ok w l i best with
  | None => best = None /\ forall x y, neighbours l x y -> ok x y = false
  | Some (j, s) => (best = Some (j, s) \/ exists p x y q, l = p ++ x :: y :: q /\ j = (i + length p)%nat /\ ok x y = true /\ s = w x + w y) /\
      (forall x y, neighbours l x y -> ok x y = true -> s <= w x + w y) /\ (forall b, best = Some b -> s <= snd b)
  end.
Proof.
  induction l as [|x [|y r] IH]; intros i best.
  - cbn. destruct best as [[j s]|]; [split; [auto|split; [intros x y (p & q & E); destruct p; discriminate|intros b E; injection E as <-; cbn; lia]]|split; [reflexivity|intros x y (p & q & E); destruct p; discriminate]].
  - cbn. destruct best as [[j s]|]; [split; [auto|split; [intros a b (p & q & E); destruct p as [|? [|? ?]]; discriminate|intros b E; injection E as <-; cbn; lia]]|split; [reflexivity|intros a b (p & q & E); destruct p as [|? [|? ?]]; discriminate]].
  - change (pair_loop ok w (x :: y :: r) i best) with (pair_loop ok w (y :: r) (S i) (if ok x y && match best with None => true | Some (_, s) => w x + w y <? s end then Some (i, w x + w y) else best)).
    match goal with |- context [pair_loop ok w (y :: r) (S i) ?b] => set (b1 := b) end. specialize (IH (S i) b1).
    assert (Nb : forall a b, neighbours (x :: y :: r) a b -> (a = x /\ b = y) \/ neighbours (y :: r) a b).
    { intros a b (p & q & E). destruct p as [|c p]; [left; injection E as -> -> _; auto|]. injection E as <- E. right. exists p, q. exact E. }
    destruct (pair_loop ok w (y :: r) (S i) b1) as [[j s]|].
    + destruct IH as (H1 & H2 & H3). split; [|split].
      * destruct H1 as [H1|(p & a & b & q & E & H1)]; [|right; exists (x :: p), a, b, q; rewrite E; cbn; split; [reflexivity|]; destruct H1 as (-> & O & ->); split; [lia|auto]].
        unfold b1 in H1. destruct (ok x y) eqn:O; cbn [andb] in H1; [|left; exact H1]. destruct (match best with None => true | Some (_, t) => w x + w y <? t end); [|left; exact H1].
        injection H1 as <- <-. right. exists [], x, y, r. cbn. split; [reflexivity|]. split; [lia|auto].
      * intros a b N O. apply Nb in N. destruct N as [[-> ->]|N]; [|apply H2; assumption]. unfold b1 in H3. rewrite O in H3. cbn [andb] in H3. destruct best as [[j0 t]|].
        -- destruct (Z.ltb_spec (w x + w y) t); [specialize (H3 _ eq_refl); exact H3|specialize (H3 _ eq_refl); cbn in H3; lia].
        -- specialize (H3 _ eq_refl). exact H3.
      * intros b E. subst best. destruct b as [j0 t]. unfold b1 in H3. destruct (ok x y); cbn [andb] in H3; [|apply H3; reflexivity].
        destruct (Z.ltb_spec (w x + w y) t); specialize (H3 _ eq_refl); cbn in *; lia.
    + destruct IH as (H1 & H2). unfold b1 in H1. destruct best as [[j0 t]|]; [destruct (ok x y && _); discriminate|]. rewrite andb_true_r in H1. destruct (ok x y) eqn:O; [discriminate|]. split; [reflexivity|].
      intros a b N. apply Nb in N. destruct N as [[-> ->]|N]; auto.
Qed.

Section Sched.
Variables (m : mem) (size : entry -> Z) (recoveries : list (list (Z * Z))) (max_workers : nat).
Notation el := (eligible m).
Notation find_merge_action := (find_merge_action m size recoveries max_workers).
Definition idle_fivers (sel : list entry) : Prop := Forall (fun e => el e = true /\ is_fiver e = true) sel.
Definition idle_hazels (sel : list entry) : Prop := Forall (fun e => el e = true /\ is_hazel e = true) sel.

Lemma part_one {A} (p : list A) x q : part (p ++ x :: q) (length p) (length p) [x].
Proof. exists p, q. split; [reflexivity|]. split; [reflexivity|]. cbn. lia. Qed.
Lemma lone_sound l0 l : forall p fiver hz sm s e, l0 = p ++ l -> (forall k, fiver = Some (k, true) -> exists x, part l0 k k [x] /\ el x = true /\ is_fiver x = true) ->
  lone_loop m size l (length p) fiver hz sm = Some (s, e) -> exists x, part l0 s e [x] /\ el x = true /\ is_fiver x = true.
Proof.
  induction l as [|a r IH]; intros p fiver hz sm s e E F H; cbn [lone_loop] in H.
  - destruct fiver as [[k []]|]; try discriminate. destruct (_ || _); [|discriminate]. injection H as <- <-. apply F. reflexivity.
  - assert (E' : l0 = (p ++ [a]) ++ r) by (rewrite <- app_assoc; exact E). assert (Lp : S (length p) = length (p ++ [a])) by (rewrite app_length; cbn; lia). rewrite Lp in H.
    destruct (is_fiver a) eqn:Fa.
    + destruct fiver; [discriminate|]. apply (IH _ _ _ _ _ _ E') in H; [exact H|]. intros k K. injection K as <- K. exists a. split; [rewrite E; apply part_one|auto].
    + destruct (is_hazel a); [|discriminate]. apply (IH _ _ _ _ _ _ E') in H; [exact H|exact F].
Qed.
Lemma stranded_sound l0 l : forall p s e, l0 = p ++ l -> stranded_loop m l (length p) = Some (s, e) -> exists x, part l0 s e [x] /\ el x = true /\ is_fiver x = true.
Proof.
  induction l as [|a r IH]; intros p s e E H; [discriminate|]. destruct r as [|b [|c r]]; try discriminate.
  assert (E' : l0 = (p ++ [a]) ++ b :: c :: r) by (rewrite <- app_assoc; exact E). assert (Lp : S (length p) = length (p ++ [a])) by (rewrite app_length; cbn; lia).
  change (stranded_loop m (a :: b :: c :: r) (length p)) with (if is_hazel a && is_fiver b && is_hazel c && el b then Some (S (length p), S (length p)) else stranded_loop m (b :: c :: r) (S (length p))) in H.
  rewrite Lp in H. destruct (is_hazel a && is_fiver b && is_hazel c && el b) eqn:K; [|apply (IH _ _ _ E' H)]. injection H as <- <-.
  rewrite !andb_true_iff in K. destruct K as [[[_ K1] _] K2]. exists b. split; [rewrite E'; apply part_one|auto].
Qed.
Lemma large_sound l0 l : forall p s e, l0 = p ++ l -> large_loop m size l (length p) = Some (s, e) -> exists x, part l0 s e [x] /\ el x = true /\ is_fiver x = true.
Proof.
  induction l as [|a r IH]; intros p s e E H; cbn [large_loop] in H; [discriminate|]. assert (E' : l0 = (p ++ [a]) ++ r) by (rewrite <- app_assoc; exact E). assert (Lp : S (length p) = length (p ++ [a])) by (rewrite app_length; cbn; lia).
  destruct (el a && is_fiver a && (medium_shard <=? size a)) eqn:K; [|rewrite Lp in H; apply (IH _ _ _ E' H)]. injection H as <- <-. rewrite !andb_true_iff in K. destruct K as [[K1 K2] _]. exists a. split; [rewrite E; apply part_one|auto].
Qed.
Lemma run_part (f : entry -> bool) l s e : (s <= e)%nat -> run_at (map f l) s (e - s + 1) -> exists sel, part l s e sel /\ Forall (fun x => f x = true) sel.
Proof.
  intros L [R1 R2]. rewrite map_length in R1. exists (firstn (e - s + 1) (skipn s l)). split.
  - exists (firstn s l), (skipn (e - s + 1) (skipn s l)). split; [rewrite !firstn_skipn; reflexivity|]. split; [rewrite firstn_length; lia|rewrite firstn_length, skipn_length; lia].
  - apply Forall_forall. intros x Hx. apply (In_nth _ _ x) in Hx. destruct Hx as (k & Hk & Ex). rewrite firstn_length, skipn_length in Hk.
    assert (En : nth k (firstn (e - s + 1) (skipn s l)) x = nth (s + k) l x).
    { rewrite <- (firstn_skipn s l) at 2. rewrite app_nth2 by (rewrite firstn_length; lia). rewrite firstn_length. replace (s + k - Nat.min s (length l))%nat with k by lia.
      rewrite <- (firstn_skipn (e - s + 1) (skipn s l)) at 2. rewrite app_nth1 by (rewrite firstn_length, skipn_length; lia). reflexivity. }
    specialize (R2 (s + k)%nat ltac:(lia)). rewrite (nth_indep _ false (f x)) in R2 by (rewrite map_length; lia). rewrite map_nth in R2.
    rewrite <- En, Ex in R2. exact R2.
Qed.
Lemma map_pair_part (f : entry -> Z) l p x y q : map f l = p ++ x :: y :: q -> exists a b, part l (length p) (S (length p)) [a; b] /\ f a = x /\ f b = y.
Proof.
  intros E. apply map_eq_app in E. destruct E as (l1 & l2 & -> & <- & E). destruct l2 as [|a [|b l2]]; try discriminate. injection E as <- <- _. exists a, b.
  split; [|auto]. exists l1, l2. split; [reflexivity|]. split; [rewrite map_length; reflexivity|]. rewrite map_length. cbn. lia.
Qed.
Lemma sources_sound l0 src l : forall p s e, l0 = p ++ l -> (2 <= length src)%nat -> sources_loop m src l (length p) = Some (s, e) -> exists sel, part l0 s e sel /\ idle_hazels sel /\ map (fun x => (e_start x, e_end x)) sel = src.
Proof.
  assert (M : forall ss l, sources_match m ss l = true -> exists sel q, l = sel ++ q /\ length sel = length ss /\ idle_hazels sel /\ map (fun x => (e_start x, e_end x)) sel = ss).
  { induction ss as [|[a b] ss IH]; intros [|e r] H; cbn [sources_match] in H; try discriminate.
    - exists [], []. split; [reflexivity|]. split; [reflexivity|]. split; [constructor|reflexivity].
    - exists [], (e :: r). split; [reflexivity|]. split; [reflexivity|]. split; [constructor|reflexivity].
    - rewrite !andb_true_iff in H. destruct H as [[H1 H2] H3]. unfold same_sequence in H2. cbn [fst snd] in H2. rewrite !andb_true_iff, !Z.eqb_eq in H2. destruct H2 as [[H2 ->] ->].
      destruct (IH r H3) as (sel & q & -> & K1 & K2 & K3). exists (e :: sel), q. split; [reflexivity|]. split; [cbn; lia|]. split; [constructor; auto|cbn; rewrite K3; reflexivity]. }
  induction l as [|a r IH]; intros p s e E N H; cbn [sources_loop] in H.
  - destruct (Nat.ltb_spec (length (@nil entry)) (length src)) as [L|L]; [discriminate|cbn in L; lia].
  - destruct (Nat.ltb_spec (length (a :: r)) (length src)); [discriminate|]. destruct (sources_match m src (a :: r)) eqn:K.
    + injection H as <- <-. destruct (M _ _ K) as (sel & q & E1 & K1 & K2 & K3). exists sel. split; [|auto]. exists p, q. rewrite E, E1. split; [reflexivity|]. split; [reflexivity|]. lia.
    + assert (E' : l0 = (p ++ [a]) ++ r) by (rewrite <- app_assoc; exact E). assert (Lp : S (length p) = length (p ++ [a])) by (rewrite app_length; cbn; lia). rewrite Lp in H. apply (IH _ _ _ E' N H).
Qed.
Lemma recovered_sound l rs s e : recovered_loop m rs l = Some (s, e) -> exists sel, part l s e sel /\ idle_hazels sel /\ (2 <= length sel)%nat /\ In (map (fun x => (e_start x, e_end x)) sel) rs.
Proof.
  induction rs as [|r rs IH]; cbn [recovered_loop]; [discriminate|]. destruct (Nat.ltb_spec (length r) 2) as [L|L].
  - intros H. destruct (IH H) as (sel & A & B & C & D). exists sel. do 3 (split; [assumption|]). right. exact D.
  - destruct (sources_loop m r l 0) as [[a b]|] eqn:K.
    + intros H. injection H as <- <-. destruct (sources_sound l r l [] a b eq_refl L K) as (sel & A & B & C). exists sel. do 2 (split; [assumption|]). split; [rewrite <- C, map_length in L; exact L|]. left. symmetry. exact C.
    + intros H. destruct (IH H) as (sel & A & B & C & D). exists sel. do 3 (split; [assumption|]). right. exact D.
Qed.
(** Whatever is chosen is a run of idle fivers, or of at least two idle hazels. *)
Theorem action_sound l s e : find_merge_action l = Some (s, e) -> exists sel, part l s e sel /\ ((idle_fivers sel /\ sel <> []) \/ (idle_hazels sel /\ (2 <= length sel)%nat)).
Proof.
  assert (One : (exists x, part l s e [x] /\ el x = true /\ is_fiver x = true) -> exists sel, part l s e sel /\ ((idle_fivers sel /\ sel <> []) \/ (idle_hazels sel /\ (2 <= length sel)%nat))).
  { intros (x & P & X1 & X2). exists [x]. split; [exact P|]. left. split; [constructor; [auto|constructor]|discriminate]. }
  unfold SchedModel.find_merge_action, find_fiver_action, orelse.
  destruct (find_lone_fiver_cleanup m size l) as [x|] eqn:L1; [intros E; injection E as ->; apply One; apply (lone_sound l l [] None 0 0 s e eq_refl); [discriminate|exact L1]|].
  destruct (find_tiny_fiver_run m size l) as [x|] eqn:L2.
  { intros E. injection E as ->. unfold find_tiny_fiver_run in L2. pose proof (find_sequence_spec (map (fun e => el e && is_fiver e && (size e <? small_shard)) l)) as K. rewrite L2 in K. destruct K as (K1 & K2 & _).
    apply run_part in K2; [|lia]. destruct K2 as (sel & P & K2). exists sel. split; [exact P|]. left. split.
    - apply Forall_forall. intros y Hy. rewrite Forall_forall in K2. specialize (K2 y Hy). cbn in K2. rewrite !andb_true_iff in K2. tauto.
    - intros ->. destruct P as (p & q & _ & _ & P). cbn in P. lia. }
  destruct (find_stranded_fiver_conversion m l) as [x|] eqn:L3; [intros E; injection E as ->; apply One; apply (stranded_sound l l [] s e eq_refl L3)|].
  destruct (find_oldest_large_fiver_conversion m size l) as [x|] eqn:L4; [intros E; injection E as ->; apply One; apply (large_sound l l [] s e eq_refl L4)|].
  destruct (find_smallest_fiver_pair m size l) as [x|] eqn:L5.
  { intros E. injection E as ->. unfold find_smallest_fiver_pair in L5. match type of L5 with pair_at (pair_loop ?ok ?w l 0 None) = _ => pose proof (pair_loop_spec ok w l 0 None) as K; destruct (pair_loop ok w l 0 None) as [[j t]|]; [|discriminate] end.
    cbn [pair_at] in L5. injection L5 as <- <-. destruct K as ([K|(p & x & y & q & -> & -> & O & _)] & _); [discriminate|]. rewrite !andb_true_iff in O. exists [x; y]. cbn [plus]. split; [|left; split; [constructor; [tauto|constructor; [tauto|constructor]]|discriminate]].
    exists p, q. split; [reflexivity|]. split; [reflexivity|]. cbn. lia. }
  unfold find_hazel_action. destruct (hazel_merge_okay m max_workers l); [|discriminate]. unfold find_recovered_hazel_merge. destruct (recovered_loop m recoveries l) as [x|] eqn:L6.
  { intros E. injection E as ->. destruct (recovered_sound _ _ _ _ L6) as (sel & A & B & C & _). exists sel. split; [exact A|]. right. auto. }
  unfold find_smallest_hazel_pair, find_smallest_pair. intros E. match type of E with pair_at (pair_loop ?ok ?w ?k 0 None) = _ => pose proof (pair_loop_spec ok w k 0 None) as K; destruct (pair_loop ok w k 0 None) as [[j t]|]; [|discriminate] end.
  cbn [pair_at] in E. injection E as <- <-. destruct K as ([K|(p & x & y & q & K & -> & O & _)] & _); [discriminate|]. cbn [plus]. apply map_pair_part in K. destruct K as (a & b & P & Ka & Kb).
  rewrite andb_true_iff, !Z.leb_le in O. exists [a; b]. split; [exact P|]. right. split; [|cbn; lia].
  destruct (el a && is_hazel a) eqn:Ea; [|lia]. destruct (el b && is_hazel b) eqn:Eb; [|lia]. rewrite andb_true_iff in Ea, Eb. constructor; [exact Ea|constructor; [exact Eb|constructor]].
Qed.
Lemma part_slice {A} (l : list A) s e sel : part l s e sel -> sel <> [] -> (s <= e < length l)%nat /\ firstn (e - s + 1) (skipn s l) = sel.
Proof.
  intros (p & q & -> & <- & E) N. destruct sel as [|x sel]; [contradiction|]. cbn [length] in E. split; [rewrite !app_length; cbn [length]; lia|].
  rewrite skipn_app, skipn_all2, Nat.sub_diag by lia. cbn [app skipn]. replace (e - length p + 1)%nat with (length (x :: sel) + 0)%nat by (cbn; lia).
  change (x :: sel ++ q) with ((x :: sel) ++ q). rewrite firstn_app_2. cbn [firstn]. rewrite app_nil_r. reflexivity.
Qed.
(** The checks made on the choice only ever turn down hazels whose numbers are not
    consecutive. *)
Theorem decide_none l : l = cleanup (m_entries m) -> decide m size recoveries max_workers = None -> find_merge_action l = None \/
  exists s e sel, find_merge_action l = Some (s, e) /\ part l s e sel /\ idle_hazels sel /\ contiguous sel = false.
Proof.
  intros -> H. unfold decide in H. destruct (SchedModel.find_merge_action m size recoveries max_workers (cleanup (m_entries m))) as [[s e]|] eqn:F; [|left; reflexivity]. right. destruct (action_sound _ _ _ F) as (sel & P & K).
  assert (Ne : sel <> []) by (destruct K as [[_ K]|[_ K]]; [exact K|intros ->; cbn in K; lia]). destruct (part_slice _ _ _ _ P Ne) as (B & Sl). rewrite Sl in H.
  destruct (Nat.ltb_spec e s); [lia|]. destruct (Nat.leb_spec (length (cleanup (m_entries m))) e); [lia|]. cbn [orb] in H.
  assert (El : forallb el sel = true) by (apply forallb_forall; intros x Hx; destruct K as [[K _]|[K _]]; unfold idle_fivers, idle_hazels in K; rewrite Forall_forall in K; apply K; exact Hx). rewrite El in H.
  assert (Al : forall k, Forall (fun x => el x = true /\ kind_eqb (e_kind x) k = true) sel -> forallb (fun x => kind_eqb (e_kind x) k && el x) sel = true).
  { intros k Q. apply forallb_forall. intros x Hx. rewrite Forall_forall in Q. destruct (Q x Hx) as [-> ->]. reflexivity. }
  destruct K as [[K _]|[K K2]].
  - exfalso. apply Al in K. unfold validate in H. rewrite K in H. destruct sel as [|x [|y t]]; [contradiction|discriminate|discriminate].
  - exists s, e, sel. split; [reflexivity|]. do 2 (split; [assumption|]). pose proof (Al HazelK K) as Ka. unfold validate in H. rewrite Ka in H. destruct sel as [|x [|y t]]; [contradiction|cbn in K2; lia|].
    destruct (forallb _ _); [discriminate|]. cbn [andb] in H. destruct (contiguous (x :: y :: t)); [discriminate|reflexivity].
Qed.
(** What is decided is one of the choices of StoreModel. *)
Theorem decide_choice w s n a : m_workers m w = WIdle -> decide m size recoveries max_workers = Some (s, n, a) ->
  exists m' sel, choose m w s n = Some m' /\ m_workers m' w = WChosen a sel /\ sel = firstn n (skipn s (cleanup (m_entries m))) /\ part (cleanup (m_entries m)) s (s + n - 1) sel.
Proof.
  intros W H. unfold decide in H. destruct (SchedModel.find_merge_action m size recoveries max_workers (cleanup (m_entries m))) as [[s0 e]|] eqn:F; [|discriminate]. destruct (action_sound _ _ _ F) as (sel & P & K).
  assert (Ne : sel <> []) by (destruct K as [[_ K]|[_ K]]; [exact K|intros ->; cbn in K; lia]). destruct (part_slice _ _ _ _ P Ne) as (B & Sl). rewrite Sl in H.
  destruct (_ || _); [discriminate|]. destruct (forallb _ _); [|discriminate]. destruct (validate m sel) as [act|] eqn:V; [|discriminate]. injection H as <- <- <-.
  unfold choose. rewrite W, Sl, V. eexists. exists sel. split; [reflexivity|]. split; [cbn; unfold upd; rewrite Nat.eqb_refl; reflexivity|]. split; [reflexivity|]. replace (s0 + (e - s0 + 1) - 1)%nat with e by lia. exact P.
Qed.
(** * Rest *)
Theorem rest l : (2 <= max_workers)%nat -> (forall e, In e l -> el e = true /\ visible e = true /\ 0 <= size e) -> find_merge_action l = None ->
  l = [] \/ (exists x, l = [x]) \/ exists f h f', l = [f; h; f'] /\ is_fiver f = true /\ is_hazel h = true /\ is_fiver f' = true.
Proof.
  intros Mw V. unfold SchedModel.find_merge_action, find_fiver_action, orelse.
  destruct (find_lone_fiver_cleanup m size l) as [x|] eqn:L1; [discriminate|]. destruct (find_tiny_fiver_run m size l) as [x|]; [discriminate|].
  destruct (find_stranded_fiver_conversion m l) as [x|] eqn:L3; [discriminate|]. destruct (find_oldest_large_fiver_conversion m size l) as [x|] eqn:L4; [discriminate|].
  destruct (find_smallest_fiver_pair m size l) as [x|] eqn:L5; [discriminate|]. unfold find_hazel_action.
  assert (Hk : hazel_merge_okay m max_workers l = true).
  { unfold hazel_merge_okay. assert (E : filter (fun e => negb (el e) && is_hazel e) l = []) by (clear - V; induction l as [|a l IH]; [reflexivity|]; cbn; destruct (V a (or_introl eq_refl)) as [-> _]; apply IH; intros e He; apply V; right; exact He).
    rewrite E. change (length (@nil entry) + 1)%nat with 1%nat. apply Nat.ltb_lt. lia. }
  rewrite Hk. destruct (find_recovered_hazel_merge m recoveries l); [discriminate|]. intros L6.
  assert (Kd : forall e, In e l -> is_fiver e = true \/ is_hazel e = true) by (intros e He; destruct (V e He) as (_ & Q & _); unfold visible in Q; apply orb_true_iff in Q; exact Q).
  assert (Small : forall e, In e l -> is_fiver e = true -> size e < medium_shard).
  { unfold find_oldest_large_fiver_conversion in L4. clear - L4 V. revert L4. generalize 0%nat. induction l as [|a l IH]; intros i L4 e He F; [contradiction|]. cbn [large_loop] in L4. destruct (el a && is_fiver a && (medium_shard <=? size a)) eqn:K; [discriminate|].
    destruct He as [<-|He]; [|apply (IH (fun x Hx => V x (or_intror Hx)) _ L4 e He F)]. destruct (V a (or_introl eq_refl)) as (Ea & _). rewrite Ea, F in K. cbn in K. lia. }
  assert (NF : forall x y, neighbours l x y -> is_fiver x = true -> is_fiver y = true -> False).
  { intros x y N Fx Fy. unfold find_smallest_fiver_pair in L5. match type of L5 with pair_at (pair_loop ?ok ?w l 0 None) = _ => pose proof (pair_loop_spec ok w l 0 None) as K; destruct (pair_loop ok w l 0 None) as [[j t]|]; [discriminate|] end.
    destruct K as [_ K]. specialize (K x y N). destruct N as (p & q & E). assert (Ix : In x l) by (rewrite E, in_app_iff; cbn; auto). assert (Iy : In y l) by (rewrite E, in_app_iff; cbn; auto).
    destruct (V x Ix) as (E1 & _ & S1). destruct (V y Iy) as (E2 & _ & S2). pose proof (Small x Ix Fx). pose proof (Small y Iy Fy). cbn in K. rewrite E1, E2, Fx, Fy in K. cbn [andb] in K.
    destruct (Z.leb_spec 0 (size x)); [|lia]. destruct (Z.leb_spec 0 (size y)); [|lia]. destruct (Z.ltb_spec (size x) medium_shard); [|lia]. destruct (Z.ltb_spec (size y) medium_shard); [|lia]. discriminate. }
  assert (NH : forall x y, neighbours l x y -> is_hazel x = true -> is_hazel y = true -> False).
  { intros x y (p & q & E) Fx Fy. unfold find_smallest_hazel_pair, find_smallest_pair in L6. match type of L6 with pair_at (pair_loop ?ok ?w ?k 0 None) = _ => pose proof (pair_loop_spec ok w k 0 None) as K; destruct (pair_loop ok w k 0 None) as [[j t]|]; [discriminate|] end.
    destruct K as [_ K]. assert (Ix : In x l) by (rewrite E, in_app_iff; cbn; auto). assert (Iy : In y l) by (rewrite E, in_app_iff; cbn; auto). destruct (V x Ix) as (E1 & _ & S1). destruct (V y Iy) as (E2 & _ & S2).
    specialize (K (size x) (size y)). cbn in K. assert (Nb : neighbours (map (fun e => if el e && is_hazel e then size e else -1) l) (size x) (size y)).
    { exists (map (fun e => if el e && is_hazel e then size e else -1) p), (map (fun e => if el e && is_hazel e then size e else -1) q). rewrite E, map_app. cbn [map]. rewrite E1, E2, Fx, Fy. reflexivity. }
    specialize (K Nb). destruct (Z.leb_spec 0 (size x)); [|lia]. destruct (Z.leb_spec 0 (size y)); [|lia]. discriminate. }
  assert (Ns : forall p x y z q, l = p ++ x :: y :: z :: q -> is_hazel x = true -> is_fiver y = true -> is_hazel z = true -> False).
  { intros p x y z q E X Y Z0. assert (Ey : el y = true) by (apply V; rewrite E, in_app_iff; cbn; auto). unfold find_stranded_fiver_conversion in L3. rewrite E in L3. clear - L3 X Y Z0 Ey. revert L3. generalize 0%nat.
    induction p as [|a p IH]; intros i L3.
    - cbn [app stranded_loop] in L3. rewrite X, Y, Z0, Ey in L3. discriminate.
    - destruct p as [|b [|c p]]; cbn [app] in L3, IH; (match type of L3 with stranded_loop m (?a :: ?b :: ?c :: ?r) i = None => change (stranded_loop m (a :: b :: c :: r) i) with (if is_hazel a && is_fiver b && is_hazel c && el b then Some (S i, S i) else stranded_loop m (b :: c :: r) (S i)) in L3 end);
        destruct (is_hazel a && _ && _ && _); try discriminate; apply (IH (S i)); exact L3. }
  assert (FH : forall e, is_fiver e = true -> is_hazel e = false) by (intros e; unfold is_fiver, is_hazel; destruct (e_kind e); cbn; intros; congruence).
  destruct l as [|a [|b [|c [|e l]]]]; [left; reflexivity|right; left; exists a; reflexivity| | |]; right.
  - exfalso. assert (Ia : In a [a; b]) by (cbn; auto). assert (Ib : In b [a; b]) by (cbn; auto). assert (Nb : neighbours [a; b] a b) by (exists [], []; reflexivity).
    unfold find_lone_fiver_cleanup in L1. cbn [lone_loop] in L1. destruct (V a Ia) as (Ea & _ & _). destruct (V b Ib) as (Eb & _ & _).
    destruct (Kd a Ia) as [Fa|Fa], (Kd b Ib) as [Fb|Fb]; [apply (NF a b Nb Fa Fb)| | |apply (NH a b Nb Fa Fb)].
    + rewrite Fa in L1. destruct (is_fiver b) eqn:Q; [apply FH in Q; congruence|]. rewrite Fb, Ea in L1. cbn in L1. discriminate.
    + destruct (is_fiver a) eqn:Q; [apply FH in Q; congruence|]. rewrite Fa, Fb, Eb in L1. cbn in L1. discriminate.
  - right. exists a, b, c. split; [reflexivity|]. assert (N1 : neighbours [a; b; c] a b) by (exists [], [c]; reflexivity). assert (N2 : neighbours [a; b; c] b c) by (exists [a], []; reflexivity).
    destruct (Kd a ltac:(cbn; auto)) as [Fa|Fa], (Kd b ltac:(cbn; auto)) as [Fb|Fb], (Kd c ltac:(cbn; auto)) as [Fc|Fc]; auto; exfalso; eauto. apply (Ns [] a b c [] eq_refl); assumption.
  - exfalso. set (w := a :: b :: c :: e :: l) in *. assert (N1 : neighbours w a b) by (exists [], (c :: e :: l); reflexivity). assert (N2 : neighbours w b c) by (exists [a], (e :: l); reflexivity). assert (N3 : neighbours w c e) by (exists [a; b], l; reflexivity).
    destruct (Kd a ltac:(cbn; auto)) as [Fa|Fa], (Kd b ltac:(cbn; auto)) as [Fb|Fb], (Kd c ltac:(cbn; auto)) as [Fc|Fc], (Kd e ltac:(cbn; auto)) as [Fe|Fe]; eauto.
    + apply (Ns [a] b c e l eq_refl); assumption.
    + apply (Ns [] a b c (e :: l) eq_refl); assumption.
Qed.
End Sched.
Theorem smallest_pair_spec a : match find_smallest_pair a with
  | Some (s, e) => e = S s /\ exists p x y q, a = p ++ x :: y :: q /\ length p = s /\ 0 <= x /\ 0 <= y /\ forall x' y', neighbours a x' y' -> 0 <= x' -> 0 <= y' -> x + y <= x' + y'
  | None => forall x y, neighbours a x y -> x < 0 \/ y < 0
  end.
Proof.
  unfold find_smallest_pair. pose proof (pair_loop_spec (fun x y => (0 <=? x) && (0 <=? y)) (fun x : Z => x) a 0 None) as K. destruct (pair_loop _ _ a 0 None) as [[j s]|]; cbn [pair_at].
  - split; [reflexivity|]. destruct K as ([K|(p & x & y & q & E & -> & O & ->)] & M & _); [discriminate|]. apply andb_true_iff in O. destruct O as [O1 O2]. exists p, x, y, q. split; [exact E|]. split; [reflexivity|]. split; [lia|]. split; [lia|].
    intros x' y' N X Y. apply M; [exact N|]. apply andb_true_iff. split; lia.
  - destruct K as [_ K]. intros x y N. specialize (K x y N). apply andb_false_iff in K. destruct K; lia.
Qed.
