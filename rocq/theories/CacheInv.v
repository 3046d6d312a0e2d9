(** What stays true of the caches whatever the threads do. *)
From Coq Require Import Permutation.
From Verif Require Import Base HopperModel ArrayDefs CodecModel PostingModel CacheModel CacheSpec.

(** * Lists *)
Fixpoint cnt {A} (p : A -> bool) (l : list A) : nat :=
  match l with [] => O | x :: l => ((if p x then 1 else 0) + cnt p l)%nat end.
Lemma cnt_app {A} (p : A -> bool) l1 l2 : cnt p (l1 ++ l2) = (cnt p l1 + cnt p l2)%nat.
Proof. induction l1; cbn; [reflexivity|]. rewrite IHl1. lia. Qed.
Lemma cnt_perm {A} (p : A -> bool) l1 l2 : Permutation l1 l2 -> cnt p l1 = cnt p l2.
Proof. induction 1; cbn; lia. Qed.
Lemma cnt_pos {A} (p : A -> bool) l x : In x l -> p x = true -> (0 < cnt p l)%nat.
Proof. induction l; cbn; [easy|]. intros [->|H] Hp; [rewrite Hp; lia|]. specialize (IHl H Hp). lia. Qed.
Lemma cnt_has {A} (p : A -> bool) l : (0 < cnt p l)%nat -> exists x, In x l /\ p x = true.
Proof.
  induction l; cbn; [lia|]. destruct (p a) eqn:E; [intros _; exists a; auto|].
  intros H. destruct IHl as (x & Hx & Hp); [lia|]. eauto.
Qed.
Lemma cnt_zero {A} (p : A -> bool) l x : cnt p l = O -> In x l -> p x = false.
Proof. intros H Hx. destruct (p x) eqn:E; [|reflexivity]. pose proof (cnt_pos p l x Hx E). lia. Qed.
Lemma update_split {A} (f : A -> A) l : forall i t, nth_error l i = Some t ->
  exists l1 l2, l = l1 ++ t :: l2 /\ length l1 = i /\ update i f l = l1 ++ f t :: l2.
Proof.
  induction l as [|x l IH]; intros [|i] t H; cbn in H; try discriminate.
  - injection H as <-. exists [], l. auto.
  - destruct (IH i t H) as (l1 & l2 & -> & Hl & E). exists (x :: l1), l2. cbn. rewrite E, Hl. auto.
Qed.
Lemma update_nth {A} (f : A -> A) l : forall i j,
  nth_error (update i f l) j = if Nat.eqb i j then match nth_error l j with Some x => Some (f x) | None => None end else nth_error l j.
Proof.
  induction l as [|x l IH]; intros [|i] [|j]; cbn; try reflexivity; try (destruct (Nat.eqb i j); reflexivity).
  apply IH.
Qed.
Lemma update_map {A B} (g : A -> B) (f : A -> A) l : (forall x, g (f x) = g x) -> forall i, map g (update i f l) = map g l.
Proof. intros H. induction l as [|x l IH]; intros [|i]; cbn; rewrite ?H, ?IH; reflexivity. Qed.
Lemma key_eqb_iff a b : key_eqb a b = true <-> a = b.
Proof.
  destruct a as [a x], b as [b y]. unfold key_eqb. cbn. rewrite andb_true_iff, Nat.eqb_eq, Z.eqb_eq.
  split; [intros [-> ->]; reflexivity|intros [= -> ->]; auto].
Qed.

Section Inv.
Variable direct : key -> option posting.
Variable deps : key -> list key.
Variable combine : key -> list posting -> posting.
Variable rank : key -> nat.
Hypothesis ranked : forall k k', In k' (deps k) -> (rank k' < rank k)%nat.
Local Notation value := (value direct deps combine rank).

Lemma value_at_enough : forall n m k, (rank k <= n)%nat -> (rank k <= m)%nat ->
  value_at direct deps combine n k = value_at direct deps combine m k.
Proof.
  induction n as [|n IH]; intros m k Hn Hm.
  - destruct m as [|m]; [reflexivity|]. cbn. destruct (direct k); [reflexivity|].
    destruct (deps k) as [|k' d] eqn:E; [reflexivity|].
    exfalso. specialize (ranked k k'). rewrite E in ranked. specialize (ranked (or_introl eq_refl)). lia.
  - destruct m as [|m].
    + cbn. destruct (direct k); [reflexivity|].
      destruct (deps k) as [|k' d] eqn:E; [reflexivity|].
      exfalso. specialize (ranked k k'). rewrite E in ranked. specialize (ranked (or_introl eq_refl)). lia.
    + cbn. destruct (direct k); [reflexivity|]. f_equal. f_equal. apply map_ext_in.
      intros k' Hk. apply ranked in Hk. apply IH; lia.
Qed.
Lemma value_eq k : value k =
  match direct k with Some p => p | None => labelled k (combine k (map value (deps k))) end.
Proof.
  unfold CacheSpec.value. destruct (rank k) as [|n] eqn:E.
  - cbn. destruct (direct k); [reflexivity|].
    destruct (deps k) as [|k' d] eqn:Ed; [reflexivity|].
    exfalso. specialize (ranked k k'). rewrite Ed in ranked. specialize (ranked (or_introl eq_refl)). lia.
  - cbn [value_at]. destruct (direct k); [reflexivity|]. f_equal. f_equal. apply map_ext_in.
    intros k' Hk. apply ranked in Hk. apply value_at_enough; lia.
Qed.

(** * One frame *)
Definition fills (r : nat) (f : frame) : bool :=
  match f with
  | Get _ _ (Leaving r' true) | Get _ _ (Left r' true) | Fill _ r' _ _ | Merge _ r' _ _ | Write _ r' _ _ | Opening _ r' =>
      Nat.eqb r' r
  | _ => false
  end.
Definition holds (c : nat) (f : frame) : bool :=
  match f with
  | Get k _ Locked | Get k _ Missed | Get k _ (Leaving _ _) => Nat.eqb (fst k) c
  | _ => false
  end.
Definition asleep (r : nat) (f : frame) : bool := match f with Wait _ r' Asleep => Nat.eqb r' r | _ => false end.
Definition notifies (r : nat) (f : frame) : bool := match f with Notifying _ r' => Nat.eqb r' r | _ => false end.

Definition line_at (g : shared) (r : nat) (k : key) : Prop := exists l, nth_error (lines g) r = Some l /\ l_key l = k.
Definition fresh (g : shared) (r : nat) (k : key) : Prop :=
  data g r = posting_from_feature (snd k) /\ ~ In k (loads g).
Definition child_ok (g : shared) (k : key) (c : child) : Prop :=
  match c with
  | Alone p => direct k = Some p
  | Shared r => direct k = None /\ line_at g r k /\ is_open g r = true
  end.
Definition partly (n : nat) (k : key) (d : posting) : posting :=
  Posting (snd k) [] (match n with O => [] | _ => qostings d end) (match n with O | S O => [] | _ => fostings d end).

Definition frame_ok (g : shared) (f : frame) : Prop :=
  match f with
  | Get k _ w =>
      direct k = None /\
      match w with
      | Leaving r cr | Left r cr => line_at g r k /\ (cr = true -> fresh g r k)
      | _ => True
      end
  | Wait k r _ => direct k = None /\ line_at g r k
  | Fill k r todo got =>
      direct k = None /\ line_at g r k /\ fresh g r k /\
      exists before, deps k = before ++ todo /\ Forall2 (child_ok g) before got
  | Merge k r todo got =>
      direct k = None /\ line_at g r k /\ fresh g r k /\
      exists before rest, deps k = before ++ rest /\ got = map value before /\ Forall2 (child_ok g) rest todo
  | Write k r n d =>
      direct k = None /\ line_at g r k /\ labelled k d = value k /\ (n <= 2)%nat /\ data g r = partly n k d
  | Opening k r => direct k = None /\ line_at g r k /\ data g r = value k
  | Notifying k r => direct k = None /\ line_at g r k /\ is_open g r = true
  end.

(** Lines are only added; open ones never change. *)
Definition grows (g g' : shared) : Prop :=
  forall r l, nth_error (lines g) r = Some l ->
    exists l', nth_error (lines g') r = Some l' /\ l_key l' = l_key l /\ (l_open l = true -> l' = l).
Lemma grows_refl g : grows g g.
Proof. intros r l H. exists l. auto. Qed.
Lemma grows_same g g' : lines g' = lines g -> grows g g'.
Proof. intros E r l H. exists l. rewrite E. auto. Qed.
Lemma grows_line g g' r k : grows g g' -> line_at g r k -> line_at g' r k.
Proof. intros G (l & H & <-). destruct (G _ _ H) as (l' & H' & E & _). exists l'. auto. Qed.
Lemma grows_open g g' r : grows g g' -> is_open g r = true -> is_open g' r = true /\ data g' r = data g r.
Proof.
  intros G. unfold is_open, data. destruct (nth_error (lines g) r) as [l|] eqn:E; [|discriminate].
  intros Ho. destruct (G _ _ E) as (l' & H' & _ & Hl). rewrite H', (Hl Ho). auto.
Qed.
Lemma grows_child g g' k c : grows g g' -> child_ok g k c -> child_ok g' k c.
Proof.
  intros G. destruct c; cbn; [auto|]. intros (? & ? & ?). split; [assumption|].
  split; [eapply grows_line; eauto|]. eapply grows_open; eauto.
Qed.
Lemma grows_children g g' ks cs : grows g g' -> Forall2 (child_ok g) ks cs -> Forall2 (child_ok g') ks cs.
Proof. intros G. induction 1; constructor; [eapply grows_child; eauto|assumption]. Qed.

Definition filling (f : frame) : option (key * nat) :=
  match f with
  | Get k _ (Leaving r true) | Get k _ (Left r true) | Fill k r _ _ | Merge k r _ _ | Write k r _ _ | Opening k r => Some (k, r)
  | _ => None
  end.
Lemma fills_filling r f : fills r f = true <-> exists k, filling f = Some (k, r).
Proof.
  destruct f as [k s [| | |r' [|]|r' [|]]|k r' w|k r' td gt|k r' td gt|k r' n d|k r'|k r']; cbn;
    rewrite ?Nat.eqb_eq; (split; [intros; try discriminate; subst; eauto|intros (k0 & [= <- <-]); reflexivity || fail]) || idtac.
  all: try (split; [intros ->; eauto|intros (k0 & E); injection E as <- <-; reflexivity]).
  all: split; [discriminate|intros (k0 & E); discriminate].
Qed.

Lemma frame_grows g g' f : grows g g' ->
  (forall k r, filling f = Some (k, r) -> line_at g r k ->
     data g' r = data g r /\ (In k (loads g') -> In k (loads g))) ->
  frame_ok g f -> frame_ok g' f.
Proof.
  intros G H. destruct f as [k s w|k r w|k r todo got|k r todo got|k r n d|k r|k r]; cbn [frame_ok filling] in *.
  - intros (Hd & Hw). split; [assumption|].
    destruct w as [| | |r cr|r cr]; auto; destruct Hw as (Hl & Hf); (split; [eapply grows_line; eauto|]);
      intros ->; destruct (Hf eq_refl) as (Ha & Hb); destruct (H k r eq_refl Hl) as (Hc & Hi);
      (split; [congruence|auto]).
  - intros (? & ?). split; [assumption|]. eapply grows_line; eauto.
  - intros (? & Hl & (Ha & Hb) & before & ? & ?). destruct (H k r eq_refl Hl) as (Hc & Hi).
    split; [assumption|]. split; [eapply grows_line; eauto|]. split; [split; [congruence|auto]|].
    exists before. split; [assumption|]. eapply grows_children; eauto.
  - intros (? & Hl & (Ha & Hb) & before & rest & ? & ? & ?). destruct (H k r eq_refl Hl) as (Hc & Hi).
    split; [assumption|]. split; [eapply grows_line; eauto|]. split; [split; [congruence|auto]|].
    exists before, rest. split; [assumption|]. split; [assumption|]. eapply grows_children; eauto.
  - intros (? & Hl & ? & ? & ?). destruct (H k r eq_refl Hl) as (Hc & Hi).
    split; [assumption|]. split; [eapply grows_line; eauto|]. split; [assumption|]. split; [assumption|congruence].
  - intros (? & Hl & ?). destruct (H k r eq_refl Hl) as (Hc & Hi).
    split; [assumption|]. split; [eapply grows_line; eauto|congruence].
  - intros (? & ? & Ho). split; [assumption|]. split; [eapply grows_line; eauto|]. eapply grows_open; eauto.
Qed.
Lemma frame_same g g' f : lines g' = lines g -> loads g' = loads g -> frame_ok g f -> frame_ok g' f.
Proof.
  intros El Eo. apply frame_grows; [apply grows_same; assumption|].
  intros k r _ _. unfold data. rewrite El, Eo. auto.
Qed.

(** * All frames *)
Definition width (g : shared) (r : nat) : nat :=
  match nth_error (lines g) r with Some l => if l_open l then 0 else 1 | None => 0 end.

Record sound (woken : option nat) (g : shared) (F : list frame) : Prop := {
  so_cache : forall k r, In (k, r) (cache g) <-> line_at g r k;
  so_keys : NoDup (map l_key (lines g));
  so_lines : forall r l, nth_error (lines g) r = Some l -> l_open l = true -> l_data l = value (l_key l);
  so_fill : forall r, cnt (fills r) F = width g r;
  so_held : forall c, cnt (holds c) F = count_occ Nat.eq_dec (held g) c;
  so_once : NoDup (held g);
  so_sleep : forall r, woken <> Some r -> is_open g r = true -> (0 < cnt (asleep r) F)%nat -> (0 < cnt (notifies r) F)%nat;
  so_loads : NoDup (loads g);
  so_loaded : forall k, In k (loads g) -> exists r, line_at g r k;
  so_missed : forall k s, In (Get k s Missed) F -> forall r, ~ line_at g r k;
  so_frames : Forall (frame_ok g) F
}.

Lemma sound_perm w g F F' : Permutation F F' -> sound w g F -> sound w g F'.
Proof.
  intros P [H1 H2 H3 H4 H5 H6 H7 H8 H9 H10 H11]. constructor; auto.
  - intros r. rewrite <- H4. symmetry. apply cnt_perm, P.
  - intros c. rewrite <- H5. symmetry. apply cnt_perm, P.
  - intros r Hr Ho. rewrite <- !(cnt_perm _ _ _ P). apply H7; assumption.
  - intros k s Hi. apply (H10 k s). eapply Permutation_in; [apply Permutation_sym, P|assumption].
  - eapply Permutation_Forall; eauto.
Qed.

Lemma found_iff w g F k : sound w g F -> match found (cache g) k with
  | Some r => line_at g r k
  | None => forall r, ~ line_at g r k
  end.
Proof.
  intros S. unfold found. destruct (find _ (cache g)) as [[k' r]|] eqn:E.
  - apply find_some in E as (Hi & He). cbn in *. apply key_eqb_iff in He as ->. apply (so_cache _ _ _ S). assumption.
  - intros r Hl. apply (so_cache _ _ _ S) in Hl. apply (find_none _ _ E) in Hl. cbn in Hl.
    assert (key_eqb k k = true) by (apply key_eqb_iff; reflexivity). congruence.
Qed.
Lemma line_unique w g F r r' k : sound w g F -> line_at g r k -> line_at g r' k -> r = r'.
Proof.
  intros S (l & H & E) (l' & H' & E'). pose proof (so_keys _ _ _ S) as N.
  rewrite NoDup_nth_error in N. apply N.
  - rewrite map_length. apply nth_error_Some. congruence.
  - rewrite (map_nth_error l_key r (lines g) H), (map_nth_error l_key r' (lines g) H'). congruence.
Qed.
Lemma line_key g r k k' : line_at g r k -> line_at g r k' -> k = k'.
Proof. intros (l & H & <-) (l' & H' & <-). congruence. Qed.
Lemma closed_while_filling w g F f r : sound w g F -> In f F -> fills r f = true ->
  exists l, nth_error (lines g) r = Some l /\ l_open l = false.
Proof.
  intros S Hi Hf. pose proof (so_fill _ _ _ S r) as Hc. pose proof (cnt_pos _ _ _ Hi Hf) as Hp.
  unfold width in Hc. destruct (nth_error (lines g) r) as [l|]; [|lia].
  exists l. destruct (l_open l); [lia|auto].
Qed.

(** A frame makes way for another and nothing shared changes. *)
Lemma sound_swap w g f f' F :
  sound w g (f :: F) ->
  (forall r, fills r f' = fills r f) -> (forall c, holds c f' = holds c f) ->
  (forall r, asleep r f' = true -> is_open g r = false) ->
  (forall r, notifies r f = true -> notifies r f' = true) ->
  (forall k s, f' = Get k s Missed -> forall r, ~ line_at g r k) ->
  frame_ok g f' -> sound w g (f' :: F).
Proof.
  intros [H1 H2 H3 H4 H5 H6 H7 H8 H9 H10 H11] A B C D E G. constructor; auto.
  - intros r. rewrite <- H4. cbn. rewrite A. reflexivity.
  - intros c. rewrite <- H5. cbn. rewrite B. reflexivity.
  - intros r Hr Ho Hc. specialize (H7 r Hr Ho). cbn in *.
    destruct (asleep r f') eqn:Ea; [rewrite (C r Ea) in Ho; discriminate|].
    specialize (D r). destruct (notifies r f); [rewrite D; [|reflexivity]; lia|]. destruct (notifies r f'); lia.
  - intros k s [->|Hi]; [apply (E k s eq_refl)|]. apply (H10 k s). right. assumption.
  - inversion H11; subst. constructor; assumption.
Qed.
(** A frame that fills nothing, holds nothing and wakes nobody comes or goes. *)
Lemma sound_push w g f F : sound w g F ->
  (forall r, fills r f = false) -> (forall c, holds c f = false) -> (forall r, asleep r f = false) ->
  (forall k s, f <> Get k s Missed) -> frame_ok g f -> sound w g (f :: F).
Proof.
  intros [H1 H2 H3 H4 H5 H6 H7 H8 H9 H10 H11] A B C E G. constructor; auto.
  - intros r. rewrite <- H4. cbn. rewrite A. reflexivity.
  - intros c. rewrite <- H5. cbn. rewrite B. reflexivity.
  - intros r Hr Ho Hc. cbn in *. rewrite C in Hc. specialize (H7 r Hr Ho Hc). lia.
  - intros k s [->|Hi]; [destruct (E k s eq_refl)|]. apply (H10 k s). assumption.
Qed.
Lemma sound_pop w g f F : sound w g (f :: F) ->
  (forall r, fills r f = false) -> (forall c, holds c f = false) -> (forall r, notifies r f = false) ->
  sound w g F.
Proof.
  intros [H1 H2 H3 H4 H5 H6 H7 H8 H9 H10 H11] A B C. constructor; auto.
  - intros r. rewrite <- H4. cbn. rewrite A. reflexivity.
  - intros c. rewrite <- H5. cbn. rewrite B. reflexivity.
  - intros r Hr Ho Hc. specialize (H7 r Hr Ho). cbn in H7. rewrite C in H7. destruct (asleep r f); lia.
  - intros k s Hi. apply (H10 k s). right. assumption.
  - apply Forall_inv_tail in H11. assumption.
Qed.
Lemma sound_notify g k r F : sound None g (Notifying k r :: F) -> sound (Some r) g F.
Proof.
  clear ranked.
  intros [H1 H2 H3 H4 H5 H6 H7 H8 H9 H10 H11]. constructor; auto.
  - intros r' Hr Ho Hc. specialize (H7 r' ltac:(discriminate) Ho). cbn in H7.
    destruct (Nat.eqb_spec r r'); [subst; congruence|]. lia.
  - intros k' s Hi. apply (H10 k' s). right. assumption.
  - apply Forall_inv_tail in H11. assumption.
Qed.
Lemma sound_some w g F : sound None g F -> sound w g F.
Proof.
  intros [H1 H2 H3 H4 H5 H6 H7 H8 H9 H10 H11]. constructor; auto. intros r _. apply H7. discriminate.
Qed.

End Inv.
