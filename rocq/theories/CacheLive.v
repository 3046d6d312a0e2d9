(** Clients get to the end of their calls: somebody can always go on, and nobody goes on
    for ever. *)
From Coq Require Import Permutation.
From Verif Require Import Base HopperModel ArrayDefs CodecModel PostingModel CacheModel CacheSpec CacheInv CacheSteps CacheThreads CacheAll.

Section Live.
Variable fallback : bool.
Variable direct : key -> option posting.
Variable deps : key -> list key.
Variable combine : key -> list posting -> posting.
Variable rank : key -> nat.
Hypothesis ranked : forall k k', In k' (deps k) -> (rank k' < rank k)%nat.
Local Notation value := (value direct deps combine rank).
Local Notation answers := (answers direct deps combine rank).
Local Notation sound := (sound direct deps combine rank).
Local Notation frame_ok := (frame_ok direct deps combine rank).
Local Notation thread_ok := (thread_ok direct deps combine rank).
Local Notation good := (good direct deps combine rank).
Local Notation local_step := (local_step fallback direct deps combine).
Local Notation step := (step fallback direct deps combine).
Local Notation run := (run fallback direct deps combine).
Local Notation cost := (cost deps rank).
Local Notation call_cost := (call_cost deps rank).
Local Notation program_cost := (program_cost deps rank).

(** * What clients have seen *)
Definition client (p : list call) (t : thread) : Prop :=
  map fst (seen t) ++ reads_from (map h_key (handles t)) (calls t) = reads p.

Lemma deliver_client p g t f st k r : stack t = f :: st -> f = Notifying k r \/ (exists v, f = Wait k r v) ->
  thread_ok g t -> client p t -> client p (deliver k r t st).
Proof.
  intros Est Hf [_ _ (Hc & Hs)] H. rewrite Est in Hc, Hs. unfold client in *. destruct st as [|b st].
  - cbn [deliver]. destruct (calls t) as [|[k'|k'|h] cs] eqn:Ec.
    + cbn. rewrite Ec. exact H.
    + cbn. rewrite Ec. exact H.
    + unfold answered. cbn. rewrite Ec. cbn. rewrite map_app. cbn.
      destruct Hs as (_ & [Hs|(st' & f0 & Hs & Hk)]); [discriminate|].
      destruct st' as [|x st']; [|destruct st'; discriminate]. injection Hs as <-.
      assert (k = k') as ->; [|exact H]. destruct Hf as [->|(v & ->)]; exact Hk.
    + cbn. rewrite update_map by reflexivity. exact H.
  - destruct Hc as ((k0 & r0 & todo & got & ->) & _). exact H.
Qed.
Lemma local_client sp g t g' t' new w p : thread_ok g t -> client p t ->
  local_step sp g t = Some (g', t', new, w) -> client p t' /\ Forall (client []) new.
Proof.
  intros T H. unfold CacheModel.local_step. destruct (stack t) as [|f st] eqn:Est.
  - destruct sp; [discriminate|]. unfold user_step, here. unfold client in *.
    destruct (calls t) as [|[k|k|h] cs] eqn:Ec; [discriminate| | |].
    + destruct (direct k); intros [= <- <- <- <-]; (split; [|constructor]); cbn; rewrite Ec; [|exact H].
      cbn. rewrite map_app. exact H.
    + destruct (direct k); intros [= <- <- <- <-]; (split; [|constructor]); cbn; rewrite Ec; [|exact H].
      cbn. rewrite map_app. exact H.
    + cbn in H. rewrite nth_error_map in H.
      destruct (nth_error (handles t) h) as [x|] eqn:En; [|intros [= <- <- <- <-]; split; [exact H|constructor]].
      cbn [option_map] in H.
      destruct (h_child x) as [q|r]; [intros [= <- <- <- <-]; split; [|constructor]|destruct (h_ready x); intros [= <- <- <- <-]; (split; [|constructor])]; cbn.
      * rewrite map_app, <- app_assoc. exact H.
      * rewrite map_app, <- app_assoc. exact H.
      * rewrite Ec. cbn. rewrite nth_error_map, En. exact H.
  - assert (Hst : forall st', client p (with_stack t st')) by (intros; exact H).
    assert (Hde : forall k r, f = Notifying k r \/ (exists v, f = Wait k r v) -> client p (deliver k r t st)).
    { intros k r Hf. eapply deliver_client; eauto. }
    destruct f as [k s v|k r v|k r todo got|k r todo got|k r n d|k r|k r]; cbn; unfold here.
    + destruct sp; [discriminate|]. destruct v as [| | |r0 cr|r0 cr]; cbn; unfold here.
      * destruct (existsb _ _); [discriminate|]. intros [= <- <- <- <-]. auto.
      * intros [= <- <- <- <-]. auto.
      * intros [= <- <- <- <-]. auto.
      * intros [= <- <- <- <-]. auto.
      * destruct s; [intros [= <- <- <- <-]; auto|]. intros [= <- <- <- <-]. split.
        -- unfold client, answered in *. cbn.
           destruct T as [_ _ (_ & Hs)]. rewrite Est in Hs.
           destruct (calls t) as [|[k'|k'|h] cs].
           ++ inversion_clear Hs. destruct H0.
           ++ destruct Hs as [Hs|(w & Hs)]; [discriminate|]. injection Hs as -> _ _. cbn. rewrite map_app. exact H.
           ++ destruct Hs as (Hs & _). inversion_clear Hs. destruct H0.
           ++ destruct Hs as [Hs|(x & r' & w' & _ & _ & Hs)]; discriminate.
        -- destruct cr; repeat constructor.
    + assert (E : forall o, (o = Some (g, deliver k r t st, [], None) \/ exists v', o = Some (g, with_stack t (Wait k r v' :: st), [], None)) ->
        o = Some (g', t', new, w) -> client p t' /\ Forall (client []) new).
      { intros o [->|(v' & ->)] [= <- <- <- <-]; split; auto. apply Hde. eauto. }
      intros Hw. apply (E _) in Hw; [exact Hw|].
      destruct sp; destruct v; cbn in *; unfold here in *; try discriminate;
        try (destruct (is_open g r)); try (left; reflexivity); right; eexists; reflexivity.
    + destruct todo; (destruct sp; [discriminate|]); [intros [= <- <- <- <-]; auto|].
      destruct (direct k0); intros [= <- <- <- <-]; auto.
    + destruct todo; (destruct sp; [discriminate|]); intros [= <- <- <- <-]; auto.
    + destruct sp; [discriminate|]. intros [= <- <- <- <-]; auto.
    + destruct sp; [discriminate|]. intros [= <- <- <- <-]; auto.
    + destruct sp; [discriminate|]. intros [= <- <- <- <-]. split; [|constructor]. apply Hde. auto.
Qed.
Definition clients (ps : list (list call)) (s : state) : Prop :=
  exists m, Forall2 client (ps ++ repeat [] m) (threads s).
Lemma Forall2_nth {A B} (R : A -> B -> Prop) l1 l2 i a : Forall2 R l1 l2 -> nth_error l1 i = Some a ->
  exists b, nth_error l2 i = Some b /\ R a b.
Proof.
  intros H. revert i. induction H; intros [|i] E; cbn in *; try discriminate.
  - injection E as ->. eauto.
  - auto.
Qed.
Lemma Forall2_mid {A B} (R : A -> B -> Prop) l l1 t l2 : Forall2 R l (l1 ++ t :: l2) ->
  exists a1 a a2, l = a1 ++ a :: a2 /\ Forall2 R a1 l1 /\ R a t /\ Forall2 R a2 l2.
Proof.
  intros H. apply Forall2_app_inv_r in H as (a1 & a' & H1 & H2 & ->). inversion H2 as [|a ? a2 ? ? ? E1 E2]; subst.
  exists a1, a, a2. auto.
Qed.
Lemma client_wake p w t : client p t -> client p (wake w t).
Proof. destruct w; auto. Qed.
Lemma step_clients ps s a s' : good s -> clients ps s -> step s a = Some s' -> clients ps s'.
Proof.
  intros (_ & T) (m & C) H. apply step_split in H as (l1 & t & l2 & g' & t' & new & w & E1 & _ & El & ->).
  rewrite E1 in C, T. apply Forall2_mid in C as (a1 & p & a2 & E2 & H1 & H2 & H3).
  apply Forall_app in T as (_ & T). apply Forall_inv in T.
  destruct (local_client _ _ _ _ _ _ _ _ T H2 El) as (H4 & H5).
  exists (m + length new)%nat. cbn [threads]. rewrite repeat_app, app_assoc, E2. apply Forall2_app.
  - assert (H6 : Forall2 client (a1 ++ p :: a2) (l1 ++ t' :: l2)) by (apply Forall2_app; [assumption|constructor; assumption]).
    clear - H6. induction H6; constructor; [apply client_wake|]; assumption.
  - clear - H5. induction H5; cbn; constructor; assumption.
Qed.
Lemma run_clients ps l : forall s s', good s -> clients ps s -> run s l = Some s' -> clients ps s'.
Proof.
  induction l as [|a l IH]; intros s s' G C; cbn; [intros [= <-]; exact C|].
  destruct (step s a) as [s1|] eqn:E; [|discriminate]. apply IH.
  - eapply step_good; eauto.
  - eapply step_clients; eauto.
Qed.
Lemma start_clients ps : clients ps (start ps).
Proof.
  exists O. cbn. rewrite app_nil_r. induction ps; cbn; constructor; [reflexivity|assumption].
Qed.
Lemma seen_values l : Forall (fun x : key * posting => snd x = value (fst x)) l -> l = map (fun k => (k, value k)) (map fst l).
Proof. induction 1 as [|[k d] l H _ IH]; [reflexivity|]. cbn in *. rewrite <- IH, <- H. reflexivity. Qed.
Lemma seen_ok ps l s i p : run (start ps) l = Some s -> nth_error ps i = Some p ->
  exists t, nth_error (threads s) i = Some t /\ (exists later, answers p = seen t ++ later) /\
    (finished t = true -> seen t = answers p).
Proof.
  intros H Hp. pose proof (reach_good _ _ _ _ _ ranked _ _ _ H) as (_ & T).
  destruct (run_clients ps l _ _ (start_good _ _ _ _ _) (start_clients ps) H) as (m & C).
  assert (Hp' : nth_error (ps ++ repeat [] m) i = Some p).
  { rewrite nth_error_app1; [assumption|]. apply nth_error_Some. congruence. }
  destruct (Forall2_nth _ _ _ _ _ C Hp') as (t & Ht & Hc). exists t. split; [assumption|].
  rewrite Forall_forall in T. pose proof (T t (nth_error_In _ _ Ht)) as [_ Hs _].
  unfold CacheSpec.answers. unfold client in Hc. rewrite <- Hc, map_app, <- (seen_values _ Hs). split; [eauto|].
  unfold finished. destruct (calls t); [|discriminate]. intros _. cbn. rewrite app_nil_r. reflexivity.
Qed.

(** * Somebody can go on *)
Definition goes (s : state) : Prop := exists i s', step s (Run i) = Some s'.
Lemma local_goes s t : In t (threads s) -> local_step false (glob s) t <> None -> goes s.
Proof.
  intros Hi H. apply In_nth_error in Hi as (i & Hi). exists i. unfold CacheModel.step. rewrite Hi.
  destruct (local_step false (glob s) t) as [[[[g' t'] new] w]|]; [|congruence]. eauto.
Qed.
Definition stops (f : frame) : bool :=
  match f with Get _ _ Want => true | Wait _ _ Asleep => true | _ => false end.
Lemma top_goes g t f st : stack t = f :: st -> stops f = false -> local_step false g t <> None.
Proof.
  intros E H. unfold CacheModel.local_step. rewrite E.
  destruct f as [k s v|k r v|k r todo got|k r todo got|k r n d|k r|k r]; cbn; unfold here; try discriminate.
  - destruct v as [| | |r0 cr|r0 cr]; cbn; unfold here; try discriminate. destruct s; discriminate.
  - destruct v; cbn in *; unfold here; try discriminate; destruct (is_open g r); discriminate.
  - destruct todo; [discriminate|]. destruct (direct k0); discriminate.
  - destruct todo; discriminate.
Qed.
Lemma not_top st : chain st -> forall f, In f (tl st) -> exists k r k' todo got, f = Fill k r (k' :: todo) got.
Proof.
  induction st as [|x st IH]; cbn [tl]; [intros _ f []|]. intros (Ha & Hc) f Hi.
  destruct st as [|b st]; [destruct Hi|]. destruct Hi as [<-|Hi].
  - destruct Ha as (k0 & r0 & todo & got & ->). exists k0, r0, (subject x), todo, got. reflexivity.
  - apply IH; assumption.
Qed.
Lemma below_rank g : forall st, chain st -> Forall (frame_ok g) st -> forall x f, hd_error st = Some x -> In f (tl st) ->
  (rank (subject x) < rank (subject f))%nat.
Proof.
  induction st as [|y st IH]; intros Hc Hf x f Hx Hi; [discriminate|]. injection Hx as <-. cbn in Hi.
  destruct Hc as (Ha & Hc). inversion_clear Hf as [|? ? H1 H2].
  destruct st as [|b st]; [destruct Hi|]. destruct Ha as (k0 & r0 & todo & got & ->).
  assert (Hr : (rank (subject y) < rank k0)%nat).
  { pose proof (Forall_inv H2) as (_ & _ & _ & before & E & _). apply ranked. rewrite E. apply in_elt. }
  destruct Hi as [<-|Hi]; [exact Hr|]. specialize (IH Hc H2 _ f eq_refl Hi). cbn in IH. lia.
Qed.

Lemma good_stack s t : good s -> In t (threads s) -> chain (stack t) /\ Forall (frame_ok (glob s)) (stack t).
Proof.
  intros (S & T) Hi. split.
  - rewrite Forall_forall in T. destruct (T t Hi) as [_ _ (Hc & _)]. exact Hc.
  - pose proof (so_frames _ _ _ _ _ _ _ S) as F. rewrite Forall_forall in *. intros f Hf. apply F.
    apply in_flat_map. eauto.
Qed.
(** Whoever holds a lock can go on. *)
Lemma lock_goes s k sn st t : good s -> In t (threads s) -> stack t = Get k sn Want :: st -> goes s.
Proof.
  intros G Hi E. pose proof G as (S & T).
  destruct (local_step false (glob s) t) eqn:El; [eapply local_goes; [exact Hi|congruence]|].
  unfold CacheModel.local_step in El. rewrite E in El. cbn in El. unfold here in El.
  destruct (existsb (Nat.eqb (fst k)) (held (glob s))) eqn:Eh; [|discriminate].
  apply existsb_exists in Eh as (c & Hc & Ec). apply Nat.eqb_eq in Ec as <-.
  pose proof (so_held _ _ _ _ _ _ _ S (fst k)) as Hh.
  assert (Hp : (0 < cnt (holds (fst k)) (flat_map stack (threads s)))%nat).
  { rewrite Hh. apply (count_occ_In Nat.eq_dec). exact Hc. }
  apply cnt_has in Hp as (f & Hf & Hho). apply in_flat_map in Hf as (u & Hu & Hf).
  destruct (good_stack s u G Hu) as (Hch & _). destruct (stack u) as [|x su] eqn:Eu; [destruct Hf|].
  destruct Hf as [<-|Hf].
  - eapply local_goes; [exact Hu|]. eapply top_goes; [exact Eu|].
    destruct x as [k0 s0 [| | | |]| | | | | |]; try discriminate; reflexivity.
  - apply (not_top (x :: su) Hch) in Hf as (k1 & r1 & k2 & todo & got & ->). discriminate.
Qed.
(** Whoever a sleeper waits for can go on, or sleeps for a list of lower rank. *)
Lemma sleep_goes s : good s -> forall n k r st t, (rank k < n)%nat -> In t (threads s) -> stack t = Wait k r Asleep :: st -> goes s.
Proof.
  intros G. pose proof G as (S & T).
  assert (Hin : forall t f, In t (threads s) -> In f (stack t) -> In f (flat_map stack (threads s))).
  { intros t f Ht Hf. apply in_flat_map. eauto. }
  induction n as [|n IH]; intros k r st t Hr Ht E; [lia|].
  destruct (good_stack s t G Ht) as (_ & Hf). rewrite E in Hf. apply Forall_inv in Hf. destruct Hf as (_ & Hl).
  destruct Hl as (l & Hl & Hk).
  destruct (l_open l) eqn:Eo.
  - assert (Hp : (0 < cnt (notifies r) (flat_map stack (threads s)))%nat).
    { apply (so_sleep _ _ _ _ _ _ _ S); [discriminate|unfold is_open; rewrite Hl; assumption|].
      apply (cnt_pos _ _ (Wait k r Asleep)); [apply (Hin t); [assumption|rewrite E; left; reflexivity]|apply Nat.eqb_refl]. }
    apply cnt_has in Hp as (f & Hf & Hno). apply in_flat_map in Hf as (u & Hu & Hf).
    destruct (good_stack s u G Hu) as (Hch & _). destruct (stack u) as [|x su] eqn:Eu; [destruct Hf|].
    destruct Hf as [<-|Hf].
    + eapply local_goes; [exact Hu|]. eapply top_goes; [exact Eu|]. destruct x; try discriminate; reflexivity.
    + apply (not_top (x :: su) Hch) in Hf as (k1 & r1 & k2 & todo & got & ->). discriminate.
  - assert (Hp : (0 < cnt (fills r) (flat_map stack (threads s)))%nat).
    { rewrite (so_fill _ _ _ _ _ _ _ S). unfold width. rewrite Hl, Eo. lia. }
    apply cnt_has in Hp as (f & Hf & Hfi). apply in_flat_map in Hf as (u & Hu & Hf).
    destruct (good_stack s u G Hu) as (Hch & Hfr). destruct (stack u) as [|x su] eqn:Eu; [destruct Hf|].
    destruct Hf as [<-|Hf].
    + eapply local_goes; [exact Hu|]. eapply top_goes; [exact Eu|].
      destruct x as [k0 s0 [| | | |]| | | | | |]; try discriminate; reflexivity.
    + pose proof (below_rank _ _ Hch Hfr x f eq_refl Hf) as Hlt.
      assert (Hs : subject f = k).
      { apply fills_filling in Hfi as (kf & Hfi).
        assert (Hla : line_at (glob s) r kf).
        { rewrite Forall_forall in Hfr. specialize (Hfr f (or_intror Hf)).
          destruct f as [k0 s0 [| | |r0 [|]|r0 [|]]| | | | | |]; cbn in Hfi; try discriminate; injection Hfi as -> ->;
            cbn in Hfr; tauto. }
        apply (not_top (x :: su) Hch) in Hf as (k1 & r1 & k2 & todo & got & ->). injection Hfi as -> ->. cbn.
        destruct Hla as (l' & Hl' & <-). congruence. }
      destruct (stops x) eqn:Es; [|eapply local_goes; [exact Hu|eapply top_goes; eauto]].
      destruct x as [k0 s0 v|k0 r0 v| | | | | ]; try discriminate.
      * destruct v; try discriminate. eapply lock_goes; eauto.
      * destruct v; try discriminate. apply (IH k0 r0 su u); auto. cbn in Hlt. rewrite Hs in Hlt. lia.
Qed.
Lemma good_goes s t : good s -> In t (threads s) -> finished t = false -> goes s.
Proof.
  intros G Hi Hn. destruct (stack t) as [|f st] eqn:E.
  - unfold finished in Hn. rewrite E in Hn. eapply local_goes; [exact Hi|]. unfold CacheModel.local_step. rewrite E.
    unfold user_step, here. destruct (calls t) as [|[k|k|h] cs]; [discriminate| | |].
    + destruct (direct k); discriminate.
    + destruct (direct k); discriminate.
    + destruct (nth_error (handles t) h) as [x|]; [|discriminate].
      destruct (h_child x); [discriminate|]. destruct (h_ready x); discriminate.
  - destruct (stops f) eqn:Es; [|eapply local_goes; [exact Hi|eapply top_goes; eauto]].
    destruct f as [k0 s0 v|k0 r0 v| | | | | ]; try discriminate; destruct v; try discriminate.
    + eapply lock_goes; eauto.
    + eapply (sleep_goes s G (S (rank k0))); eauto.
Qed.

(** * Nobody goes on for ever *)
Lemma cost_enough : forall n m k, (rank k <= n)%nat -> (rank k <= m)%nat -> cost_at deps n k = cost_at deps m k.
Proof.
  induction n as [|n IH]; intros m k Hn Hm; (destruct m as [|m]; [|]); cbn; try reflexivity.
  - destruct (deps k) as [|k' d] eqn:E; [reflexivity|].
    exfalso. specialize (ranked k k'). rewrite E in ranked. specialize (ranked (or_introl eq_refl)). lia.
  - destruct (deps k) as [|k' d] eqn:E; [reflexivity|].
    exfalso. specialize (ranked k k'). rewrite E in ranked. specialize (ranked (or_introl eq_refl)). lia.
  - do 24 f_equal. f_equal. apply map_ext_in. intros k' Hk. apply ranked in Hk. rewrite (IH m k'); lia.
Qed.
Definition dep_cost (k : key) : nat := (8 + cost k)%nat.
Fixpoint deps_cost (l : list key) : nat := match l with [] => O | k :: l => (dep_cost k + deps_cost l)%nat end.
Lemma deps_sum l : deps_cost l = list_sum (map dep_cost l).
Proof. induction l; cbn; [reflexivity|]. rewrite IHl. reflexivity. Qed.
Lemma cost_eq k : cost k = (24 + deps_cost (deps k))%nat.
Proof.
  rewrite deps_sum. unfold CacheSpec.cost, dep_cost. destruct (rank k) as [|n] eqn:E.
  - cbn. destruct (deps k) as [|k' d] eqn:Ed; [reflexivity|].
    exfalso. specialize (ranked k k'). rewrite Ed in ranked. specialize (ranked (or_introl eq_refl)). lia.
  - cbn [cost_at]. f_equal. f_equal. apply map_ext_in. intros k' Hk. apply ranked in Hk.
    unfold CacheSpec.cost. rewrite (cost_enough n (rank k') k'); lia.
Qed.

Definition wait_weight (open : bool) (w : waiting) : nat :=
  match open, w with
  | true, Check => 2 | true, Block => 3 | true, Asleep => 4 | true, Woken => 3 | true, Recheck => 2
  | false, Check => 9 | false, Block => 8 | false, Asleep => 7 | false, Woken => 11 | false, Recheck => 10
  end.
Definition weight (g : shared) (f : frame) : nat :=
  match f with
  | Get k _ w => (match w with Want => 6 | Locked => 5 | Missed => 4 | Leaving _ _ => 3 | Left _ _ => 2 end + cost k)%nat
  | Wait _ r w => wait_weight (is_open g r) w
  | Fill _ _ todo got => (10 + deps_cost todo + length got)%nat
  | Merge _ _ todo _ => (8 + length todo)%nat
  | Write _ _ n _ => (4 + (2 - n))%nat
  | Opening _ _ => 3%nat
  | Notifying _ _ => 2%nat
  end.
(** A frame that waits for the one above it. *)
Definition weight_below (f : frame) : nat :=
  match f with Fill _ _ todo got => (11 + deps_cost (tl todo) + length got)%nat | _ => O end.
Fixpoint below (st : list frame) : nat := match st with [] => O | f :: st => (weight_below f + below st)%nat end.
Definition stack_weight (g : shared) (st : list frame) : nat :=
  match st with [] => O | f :: st => (weight g f + below st)%nat end.
Definition call_weight (hs : list handle) (c : call) : nat :=
  match c with
  | UseAt h => match nth_error hs h with
               | Some (Handle _ (Alone _) _) | Some (Handle _ _ true) => 1%nat
               | _ => 13%nat
               end
  | _ => call_cost c
  end.
Fixpoint calls_weight (hs : list handle) (cs : list call) : nat :=
  match cs with [] => O | c :: cs => (call_weight hs c + calls_weight hs cs)%nat end.
Definition thread_weight (g : shared) (t : thread) : nat :=
  match stack t with
  | [] => calls_weight (handles t) (calls t)
  | st => (stack_weight g st +
           match calls t with
           | [] => 0
           | UseAt _ :: cs => 1 + calls_weight (handles t) cs
           | _ :: cs => calls_weight (handles t) cs
           end)%nat
  end.
Fixpoint threads_weight (g : shared) (ts : list thread) : nat :=
  match ts with [] => O | t :: ts => (thread_weight g t + threads_weight g ts)%nat end.
Definition total (s : state) : nat := threads_weight (glob s) (threads s).

Lemma call_more hs h c : (call_weight (hs ++ [h]) c <= call_weight hs c)%nat.
Proof.
  destruct c as [k|k|i]; cbn; [lia|lia|].
  destruct (nth_error hs i) as [x|] eqn:E.
  - rewrite nth_error_app1 by (apply nth_error_Some; congruence). rewrite E. lia.
  - destruct (nth_error (hs ++ [h]) i) as [[k [p|r] [|]]|]; lia.
Qed.
Lemma calls_more hs h cs : (calls_weight (hs ++ [h]) cs <= calls_weight hs cs)%nat.
Proof. induction cs; cbn [calls_weight]; [lia|]. pose proof (call_more hs h a). lia. Qed.
Lemma call_ready hs i c : (call_weight (update i (fun x => Handle (h_key x) (h_child x) true) hs) c <= call_weight hs c)%nat.
Proof.
  destruct c as [k|k|j]; cbn; [lia|lia|]. rewrite update_nth.
  destruct (Nat.eqb i j); [|lia]. destruct (nth_error hs j) as [[k [p|r] [|]]|]; cbn; lia.
Qed.
Lemma calls_ready hs i cs : (calls_weight (update i (fun x => Handle (h_key x) (h_child x) true) hs) cs <= calls_weight hs cs)%nat.
Proof. induction cs; cbn [calls_weight]; [lia|]. pose proof (call_ready hs i a). lia. Qed.

Lemma wait_open w : (wait_weight true w <= wait_weight false w)%nat.
Proof. destruct w; cbn; lia. Qed.
Lemma weight_grows g g' f : grows g g' -> (weight g' f <= weight g f)%nat.
Proof.
  intros G. destruct f as [| k r w | | | | | ]; cbn; try lia.
  destruct (is_open g r) eqn:E; [destruct (grows_open _ _ _ G E) as (-> & _); lia|].
  destruct (is_open g' r); [apply wait_open|lia].
Qed.
Lemma thread_weight_grows g g' t : grows g g' -> (thread_weight g' t <= thread_weight g t)%nat.
Proof.
  intros G. unfold thread_weight. destruct (stack t) as [|f st]; [lia|]. cbn. pose proof (weight_grows g g' f G). lia.
Qed.

Lemma deliver_weight g t f st k r :
  stack t = f :: st -> f = Notifying k r \/ (exists v, f = Wait k r v /\ is_open g r = true) ->
  thread_ok g t -> (thread_weight g (deliver k r t st) + 2 <= thread_weight g t)%nat.
Proof.
  intros Est Hf [_ _ (Hc & Hs)]. rewrite Est in Hc, Hs. unfold thread_weight at 2. rewrite Est.
  assert (Hw : (2 <= weight g f)%nat).
  { destruct Hf as [->|(v & -> & Ho)]; cbn; [lia|]. rewrite Ho. destruct v; cbn; lia. }
  destruct st as [|b st].
  - cbn [deliver stack_weight below]. destruct (calls t) as [|[k'|k'|h] cs] eqn:Ec.
    + unfold thread_weight. cbn [with_stack stack handles calls]. rewrite Ec. cbn [calls_weight]. lia.
    + exfalso. destruct Hs as [Hs|(w' & Hs)]; [discriminate|]. injection Hs as ->. destruct Hf as [Hf|(v & Hf & _)]; discriminate.
    + unfold thread_weight, answered. cbn [stack handles calls]. rewrite Ec. cbn [tl].
      pose proof (calls_more (handles t) (Handle k (Shared r) true) cs). lia.
    + unfold thread_weight. cbn [stack calls handles].
      destruct Hs as [Hs|(x & r' & w' & Hn & Hr & Hs)]; [discriminate|].
      assert (E : call_weight (update h (fun x => Handle (h_key x) (h_child x) true) (handles t)) (UseAt h) = 1%nat).
      { cbn [call_weight]. rewrite update_nth, Nat.eqb_refl, Hn. cbn. rewrite Hr. reflexivity. }
      cbn [calls_weight]. rewrite E. pose proof (calls_ready (handles t) h cs) as Hle. lia.
  - destruct Hc as ((k0 & r0 & todo & got & ->) & _). cbn [deliver].
    unfold thread_weight. cbn [with_stack stack calls handles stack_weight below weight weight_below].
    rewrite app_length. cbn [length]. lia.
Qed.
Lemma local_weight sp g t g' t' new w : thread_ok g t -> grows g g' ->
  local_step sp g t = Some (g', t', new, w) ->
  (thread_weight g' t' + threads_weight g' new + (if sp then 0 else 1) <= thread_weight g t + (if sp then 4 else 0))%nat.
Proof.
  intros T G H.
  assert (Hs : forall f f' st, stack t = f :: st -> (weight g' f' + (if sp then 0 else 1) <= weight g f + (if sp then 4 else 0))%nat ->
    (thread_weight g' (with_stack t (f' :: st)) + threads_weight g' [] + (if sp then 0 else 1) <= thread_weight g t + (if sp then 4 else 0))%nat).
  { intros f f' st E Hw. unfold thread_weight. rewrite E. cbn [with_stack stack calls handles stack_weight threads_weight]. destruct sp; lia. }
  unfold CacheModel.local_step in H. destruct (stack t) as [|f st] eqn:Est.
  - destruct sp; [discriminate|]. unfold user_step, here in H. unfold thread_weight at 2. rewrite Est.
    destruct (calls t) as [|[k|k|h] cs] eqn:Ec; [discriminate| | |].
    + destruct (direct k); injection H as <- <- <- <-; unfold thread_weight;
        cbn [with_stack answered stack calls handles stack_weight below weight threads_weight calls_weight call_weight]; rewrite Ec; cbn [tl].
      * pose proof (calls_more (handles t) (Handle k (Alone p) true) cs) as Hm. cbn [CacheSpec.call_cost]. lia.
      * cbn [CacheSpec.call_cost]. lia.
    + destruct (direct k); injection H as <- <- <- <-; unfold thread_weight;
        cbn [with_stack answered stack calls handles stack_weight below weight threads_weight calls_weight call_weight]; rewrite Ec; cbn [tl].
      * pose proof (calls_more (handles t) (Handle k (Alone p) true) cs) as Hm. cbn [CacheSpec.call_cost]. lia.
      * cbn [CacheSpec.call_cost]. lia.
    + cbn [calls_weight call_weight]. destruct (nth_error (handles t) h) as [[kx cx rx]|] eqn:En.
      * cbn [h_child h_ready h_key] in H. destruct cx as [p|r]; [|destruct rx]; injection H as <- <- <- <-; unfold thread_weight;
          cbn [with_stack stack calls handles stack_weight below weight threads_weight]; rewrite ?Ec; try lia.
        destruct (is_open g r); cbn [wait_weight]; lia.
      * injection H as <- <- <- <-. unfold thread_weight; cbn [stack calls handles threads_weight]. lia.
  - destruct f as [k s v|k r v|k r todo got|k r todo got|k r n d|k r|k r]; cbn [frame_step] in H; unfold here in H.
    + destruct sp; [discriminate|]. destruct v as [| | |r0 cr|r0 cr]; cbn [get_step] in H; unfold here in H.
      * destruct (existsb _ _); [discriminate|]. injection H as <- <- <- <-. eapply Hs; [reflexivity|]. cbn [weight]. lia.
      * injection H as <- <- <- <-. eapply Hs; [reflexivity|]. destruct (found (cache g) k); cbn [weight]; lia.
      * injection H as <- <- <- <-. eapply Hs; [reflexivity|]. cbn [weight]. lia.
      * injection H as <- <- <- <-. eapply Hs; [reflexivity|]. cbn [weight]. lia.
      * pose proof (cost_eq k) as Hc. destruct s.
        -- injection H as <- <- <- <-. eapply Hs; [reflexivity|]. destruct cr; cbn [weight length]; [lia|].
           destruct (is_open g r0); cbn [wait_weight]; lia.
        -- injection H as <- <- <- <-. destruct T as [_ _ (_ & Hsh)]. rewrite Est in Hsh.
           destruct (calls t) as [|[k'|k'|h] cs] eqn:Ec.
           ++ inversion_clear Hsh. destruct H.
           ++ destruct Hsh as [Hsh|(w & Hsh)]; [discriminate|]. injection Hsh as -> _ ->.
              unfold thread_weight at 1 2. unfold answered. cbn [stack handles calls]. rewrite Est, Ec. cbn [tl].
              pose proof (calls_more (handles t) (Handle k' (Shared r0) false) cs) as Hm.
              destruct cr; cbn [threads_weight stack_weight weight below]; [|lia].
              unfold thread_weight. cbn [stack calls stack_weight weight below length]. lia.
           ++ destruct Hsh as (Hsh & _). inversion_clear Hsh. destruct H.
           ++ destruct Hsh as [Hsh|(x & r' & w' & _ & _ & Hsh)]; discriminate.
    + assert (Hd : is_open g r = true -> g' = g -> t' = deliver k r t st -> new = [] ->
        (thread_weight g' t' + threads_weight g' new + (if sp then 0 else 1) <= thread_weight g t + (if sp then 4 else 0))%nat).
      { intros Ho -> -> ->. pose proof (deliver_weight g t (Wait k r v) st k r Est) as Hde.
        specialize (Hde (or_intror (ex_intro _ v (conj eq_refl Ho))) T). cbn [threads_weight]. destruct sp; lia. }
      destruct sp; destruct v; cbn [wait_step] in H; unfold here in H; try discriminate.
      * injection H as <- <- <- <-. eapply Hs; [reflexivity|]. cbn [weight]. destruct (is_open g r); cbn; lia.
      * destruct (is_open g r) eqn:Eo; injection H as <- <- <- <-; [apply Hd; reflexivity|].
        eapply Hs; [reflexivity|]. cbn [weight]. rewrite Eo. cbn. lia.
      * destruct (is_open g r) eqn:Eo; injection H as <- <- <- <-; (eapply Hs; [reflexivity|]); cbn [weight]; rewrite Eo; cbn; lia.
      * injection H as <- <- <- <-. eapply Hs; [reflexivity|]. cbn [weight]. destruct (is_open g r); cbn; lia.
      * destruct (is_open g r) eqn:Eo; injection H as <- <- <- <-; [apply Hd; reflexivity|].
        eapply Hs; [reflexivity|]. cbn [weight]. rewrite Eo. destruct fallback; cbn; lia.
    + destruct todo as [|k0 todo]; (destruct sp; [discriminate|]).
      * injection H as <- <- <- <-. eapply Hs; [reflexivity|]. cbn [weight deps_cost]. lia.
      * destruct (direct k0); injection H as <- <- <- <-.
        -- eapply Hs; [reflexivity|]. cbn [weight deps_cost]. rewrite app_length. unfold dep_cost. cbn [length]. lia.
        -- unfold thread_weight. rewrite Est. cbn [with_stack stack calls handles stack_weight below weight weight_below tl threads_weight deps_cost].
           unfold dep_cost. lia.
    + destruct todo; (destruct sp; [discriminate|]); injection H as <- <- <- <-; (eapply Hs; [reflexivity|]); cbn [weight length]; lia.
    + destruct sp; [discriminate|]. injection H as <- <- <- <-. eapply Hs; [reflexivity|].
      destruct n as [|[|n]]; cbn [Nat.leb weight]; lia.
    + destruct sp; [discriminate|]. injection H as <- <- <- <-. eapply Hs; [reflexivity|]. cbn [weight]. lia.
    + destruct sp; [discriminate|]. injection H as <- <- <- <-.
      pose proof (deliver_weight g t (Notifying k r) st k r Est (or_introl eq_refl) T). cbn [threads_weight]. lia.
Qed.

Lemma threads_app g l1 l2 : threads_weight g (l1 ++ l2) = (threads_weight g l1 + threads_weight g l2)%nat.
Proof. induction l1; cbn [app threads_weight]; lia. Qed.
Lemma threads_grows g g' ts : grows g g' -> (threads_weight g' ts <= threads_weight g ts)%nat.
Proof. intros G. induction ts; cbn [threads_weight]; [lia|]. pose proof (thread_weight_grows g g' a G). lia. Qed.
Lemma below_wake r st : below (map (wake_frame r) st) = below st.
Proof.
  induction st as [|f st IH]; cbn [map below]; [reflexivity|]. rewrite IH.
  destruct (wake_cases r f) as [->|(k & -> & ->)]; reflexivity.
Qed.
Lemma wake_weight g r t : is_open g r = true -> (thread_weight g (wake (Some r) t) <= thread_weight g t)%nat.
Proof.
  intros Ho. unfold thread_weight. cbn [wake with_stack stack calls handles]. destruct (stack t) as [|f st]; cbn [map]; [lia|].
  cbn [stack_weight]. rewrite below_wake.
  destruct (wake_cases r f) as [->|(k & -> & ->)]; [lia|]. cbn [weight]. rewrite Ho. cbn. lia.
Qed.
Lemma local_woken sp g t g' t' new r : Forall (frame_ok g) (stack t) ->
  local_step sp g t = Some (g', t', new, Some r) -> g' = g /\ is_open g r = true.
Proof.
  intros F. unfold CacheModel.local_step. destruct (stack t) as [|f st] eqn:Est.
  - destruct sp; [discriminate|]. unfold user_step, here. intros H.
    destruct (calls t) as [|[k|k|h] cs]; [discriminate| | |].
    1,2: destruct (direct k); discriminate.
    destruct (nth_error (handles t) h) as [x|]; [|discriminate].
    destruct (h_child x); [discriminate|]. destruct (h_ready x); discriminate.
  - apply Forall_inv in F.
    destruct f as [k s w|k r' w|k r' todo got|k r' todo got|k r' n d|k r'|k r']; cbn; unfold here; intros H.
    + destruct sp; [discriminate|]. destruct w as [| | |r0 cr|r0 cr]; cbn in H; unfold here in H; try discriminate.
      * destruct (existsb _ _); discriminate.
      * destruct s; discriminate.
    + destruct sp; destruct w; cbn in H; unfold here in H; try discriminate; destruct (is_open g r'); discriminate.
    + destruct todo; (destruct sp; [discriminate|]); [discriminate|]. destruct (direct k0); discriminate.
    + destruct todo; (destruct sp; [discriminate|]); discriminate.
    + destruct sp; discriminate.
    + destruct sp; discriminate.
    + destruct sp; [discriminate|]. injection H as <- <- <- <-. split; [reflexivity|]. apply F.
Qed.
Lemma step_weight s a s' : good s -> step s a = Some s' ->
  match a with Run _ => (total s' + 1 <= total s)%nat | Spurious _ => (total s' <= total s + 4)%nat end.
Proof.
  intros G0 H. pose proof G0 as (S & T).
  apply step_split in H as (l1 & t & l2 & g' & t' & new & w & E1 & _ & El & ->).
  assert (Hi : In t (threads s)) by (rewrite E1; apply in_elt).
  destruct (good_stack s t G0 Hi) as (_ & Hfr).
  rewrite E1 in S, T. apply Forall_app in T as (T1 & T2). inversion_clear T2 as [|? ? Tt T3].
  apply (sound_perm _ _ _ _ _ _ _ _ (frames_split l1 t l2)) in S.
  destruct (local_kept fallback direct deps combine rank ranked _ _ _ _ _ _ _ _ Tt S El) as (_ & _ & _ & G).
  pose proof (local_weight _ _ _ _ _ _ _ Tt G El) as Hw.
  unfold total. cbn [glob threads]. rewrite E1, threads_app.
  assert (Hle : (threads_weight g' (map (wake w) (l1 ++ t' :: l2)) <= threads_weight g' (l1 ++ t' :: l2))%nat).
  { destruct w as [r|]; [|replace (map (wake None) (l1 ++ t' :: l2)) with (l1 ++ t' :: l2) by (symmetry; apply map_id); lia].
    destruct (local_woken _ _ _ _ _ _ _ Hfr El) as (-> & Ho).
    induction (l1 ++ t' :: l2) as [|x l IH]; cbn [map threads_weight]; [lia|]. pose proof (wake_weight (glob s) r x Ho). lia. }
  rewrite !threads_app in *. cbn [threads_weight] in *.
  pose proof (threads_grows _ _ l1 G). pose proof (threads_grows _ _ l2 G).
  destruct a; cbn [turn_of snd] in Hw; lia.
Qed.
Lemma run_weight l : forall s s', good s -> run s l = Some s' -> (runs l + total s' <= total s + 4 * spurious l)%nat.
Proof.
  induction l as [|a l IH]; intros s s' G; cbn [CacheModel.run]; [intros [= <-]; unfold runs, spurious; cbn; lia|].
  destruct (step s a) as [s1|] eqn:E; [|discriminate]. intros H.
  specialize (IH s1 s' (step_good _ _ _ _ _ ranked _ _ _ G E) H). pose proof (step_weight _ _ _ G E) as Hw.
  unfold runs, spurious in *. destruct a; cbn [filter length] in *; lia.
Qed.
Lemma start_calls p : calls_weight [] p = program_cost p.
Proof.
  clear ranked. induction p as [|c p IH]; [reflexivity|]. cbn [calls_weight]. rewrite IH.
  destruct c as [k|k|[|h]]; reflexivity.
Qed.
Lemma start_weight ps : total (start ps) = list_sum (map program_cost ps).
Proof.
  clear ranked. unfold total, start. cbn [glob threads].
  induction ps as [|p ps IH]; [reflexivity|]. cbn [map threads_weight]. rewrite IH.
  change (list_sum (program_cost p :: map program_cost ps)) with (program_cost p + list_sum (map program_cost ps))%nat.
  rewrite <- start_calls. reflexivity.
Qed.
Lemma run_bounded ps l s : run (start ps) l = Some s -> (runs l <= list_sum (map program_cost ps) + 4 * spurious l)%nat.
Proof.
  intros H. pose proof (run_weight l _ _ (start_good _ _ _ _ _) H) as Hw. rewrite start_weight in Hw. lia.
Qed.
Lemma loaded_once ps l s : run (start ps) l = Some s -> NoDup (loads (glob s)).
Proof. intros H. exact (so_loads _ _ _ _ _ _ _ (proj1 (reach_good _ _ _ _ _ ranked _ _ _ H))). Qed.
Lemma never_race ps l s : run (start ps) l = Some s -> ~ race s.
Proof. intros H. exact (good_no_race _ _ _ _ _ (reach_good _ _ _ _ _ ranked _ _ _ H)). Qed.
Lemma always_goes ps l s t : run (start ps) l = Some s -> In t (threads s) -> finished t = false -> goes s.
Proof. intros H. exact (good_goes s t (reach_good _ _ _ _ _ ranked _ _ _ H)). Qed.
End Live.
