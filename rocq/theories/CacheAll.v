(** All threads together: the order of the caches holds in every state that can be
    reached, no two accesses clash, and clients see complete lists. *)
From Coq Require Import Permutation.
From Verif Require Import Base HopperModel ArrayDefs CodecModel PostingModel CacheModel CacheSpec CacheInv CacheSteps CacheThreads.

Section All.
Variable fallback : bool.
Variable direct : key -> option posting.
Variable deps : key -> list key.
Variable combine : key -> list posting -> posting.
Variable rank : key -> nat.
Hypothesis ranked : forall k k', In k' (deps k) -> (rank k' < rank k)%nat.
Local Notation value := (value direct deps combine rank).
Local Notation sound := (sound direct deps combine rank).
Local Notation frame_ok := (frame_ok direct deps combine rank).
Local Notation thread_ok := (thread_ok direct deps combine rank).
Local Notation local_step := (local_step fallback direct deps combine).
Local Notation step := (step fallback direct deps combine).
Local Notation run := (run fallback direct deps combine).

Definition good (s : state) : Prop :=
  sound None (glob s) (flat_map stack (threads s)) /\ Forall (thread_ok (glob s)) (threads s).

(** * Waking *)
Lemma wake_cases r f : wake_frame r f = f \/ exists k, f = Wait k r Asleep /\ wake_frame r f = Wait k r Woken.
Proof.
  destruct f as [| k r' w | | | | | ]; auto. destruct w; auto. cbn. destruct (Nat.eqb_spec r' r) as [->|]; [|auto].
  right. eauto.
Qed.
Lemma cnt_wake p r F : (forall f, p (wake_frame r f) = p f) -> cnt p (map (wake_frame r) F) = cnt p F.
Proof. intros H. induction F; cbn; [reflexivity|]. rewrite H, IHF. reflexivity. Qed.
Lemma sound_wake r g F : sound (Some r) g F -> sound None g (map (wake_frame r) F).
Proof.
  intros [H1 H2 H3 H4 H5 H6 H7 H8 H9 H10 H11]. constructor; auto.
  - intros r'. rewrite cnt_wake; [apply H4|]. intros f. destruct (wake_cases r f) as [->|(k & -> & ->)]; reflexivity.
  - intros c. rewrite cnt_wake; [apply H5|]. intros f. destruct (wake_cases r f) as [->|(k & -> & ->)]; reflexivity.
  - intros r' _ Ho Hc. rewrite cnt_wake; [|intros f; destruct (wake_cases r f) as [->|(k & -> & ->)]; reflexivity].
    destruct (Nat.eq_dec r r') as [<-|Hn].
    + exfalso. apply cnt_has in Hc as (f & Hf & Ha). apply in_map_iff in Hf as (f0 & <- & _).
      destruct f0 as [| k r0 w | | | | | ]; try discriminate. destruct w; try discriminate.
      cbn in Ha. destruct (Nat.eqb r0 r) eqn:E; [discriminate|]. cbn in Ha. congruence.
    + apply H7; [congruence|assumption|]. rewrite cnt_wake in Hc; [assumption|].
      intros f. destruct (wake_cases r f) as [->|(k & -> & ->)]; [reflexivity|]. cbn.
      destruct (Nat.eqb_spec r r'); [congruence|reflexivity].
  - intros k s Hi. apply in_map_iff in Hi as (f & E & Hf). apply (H10 k s).
    destruct (wake_cases r f) as [E'|(k' & -> & E')]; rewrite E' in E; [congruence|discriminate].
  - rewrite Forall_map. revert H11. apply Forall_impl. intros f.
    destruct (wake_cases r f) as [->|(k & -> & ->)]; auto.
Qed.
Lemma thread_wake r g t : thread_ok g t -> thread_ok g (wake (Some r) t).
Proof.
  intros [A B (C & D)]. constructor; cbn; auto. split.
  - clear D. induction (stack t) as [|f st IH]; cbn; [exact I|]. destruct C as (Ha & Hc). split; [|auto].
    destruct st as [|b st]; [exact I|]. destruct Ha as (k0 & r0 & todo & got & ->). cbn.
    exists k0, r0, todo, got. destruct (wake_cases r f) as [->|(k & -> & ->)]; reflexivity.
  - assert (Hsy : Forall sync (stack t) -> Forall sync (map (wake_frame r) (stack t))).
    { intros H. rewrite Forall_map. revert H. apply Forall_impl. intros f.
      destruct (wake_cases r f) as [->|(k & -> & ->)]; auto. }
    destruct (calls t) as [|[k|k|h] cs]; auto.
    + destruct D as [->|(w & ->)]; cbn; eauto.
    + destruct D as (Hs & D). split; [apply Hsy, Hs|]. destruct D as [->|(st' & f & -> & Hk)]; [left; reflexivity|right].
      rewrite map_app. cbn. exists (map (wake_frame r) st'), (wake_frame r f). split; [reflexivity|].
      destruct (wake_cases r f) as [->|(k' & -> & ->)]; exact Hk.
    + destruct D as [->|(x & r' & w & Hn & Hc & ->)]; [left; reflexivity|right]. cbn.
      destruct w; try (eexists x, r', _; split; [eassumption|]; split; [eassumption|]; reflexivity).
      destruct (Nat.eqb r' r); eexists x, r', _; (split; [eassumption|]; split; [eassumption|]; reflexivity).
Qed.
Lemma stack_wake w ts : flat_map stack (map (wake w) ts) =
  match w with Some r => map (wake_frame r) (flat_map stack ts) | None => flat_map stack ts end.
Proof.
  induction ts as [|t ts IH]; [destruct w; reflexivity|]. cbn. rewrite IH. destruct w; cbn; [rewrite map_app|]; reflexivity.
Qed.

(** Only the step that wakes others wakes; it starts no thread. *)
Lemma wakes_alone sp g t g' t' new r : local_step sp g t = Some (g', t', new, Some r) -> new = [].
Proof.
  unfold CacheModel.local_step. destruct (stack t) as [|f st].
  - destruct sp; [discriminate|]. unfold user_step, here.
    destruct (calls t) as [|[k|k|h] cs]; [discriminate| | |].
    1,2: destruct (direct k); intros [= <- <- <-].
    destruct (nth_error (handles t) h) as [x|]; [|intros [= <- <- <-]].
    destruct (h_child x); [intros [= <- <- <-]|]. destruct (h_ready x); intros [= <- <- <-].
  - destruct f as [k s w|k r' w|k r' todo got|k r' todo got|k r' n d|k r'|k r']; cbn; unfold here.
    + destruct sp; [discriminate|]. destruct w as [| | |r0 cr|r0 cr]; cbn; unfold here; intros H.
      * destruct (existsb _ _); discriminate.
      * injection H as _ _ H. discriminate.
      * injection H as _ _ H. discriminate.
      * injection H as _ _ H. discriminate.
      * destruct s; injection H as _ _ H; discriminate.
    + destruct sp; destruct w; cbn; unfold here; try discriminate; destruct (is_open g r'); discriminate.
    + destruct todo; (destruct sp; [discriminate|]); [discriminate|]. destruct (direct k0); discriminate.
    + destruct todo; (destruct sp; [discriminate|]); discriminate.
    + destruct sp; discriminate.
    + destruct sp; discriminate.
    + destruct sp; [discriminate|]. intros [= <- <- <- <-]. reflexivity.
Qed.

Lemma frames_split l1 t l2 : Permutation (flat_map stack (l1 ++ t :: l2)) (stack t ++ flat_map stack l1 ++ flat_map stack l2).
Proof.
  rewrite flat_map_app. cbn. rewrite !app_assoc. apply Permutation_app_tail. apply Permutation_app_comm.
Qed.

Definition turn_of (a : turn) : nat * bool := match a with Run i => (i, false) | Spurious i => (i, true) end.
(** A turn in terms of the thread that takes it. *)
Lemma step_split s a s' : step s a = Some s' ->
  exists l1 t l2 g' t' new w, threads s = l1 ++ t :: l2 /\ length l1 = fst (turn_of a) /\
    local_step (snd (turn_of a)) (glob s) t = Some (g', t', new, w) /\
    s' = State g' (map (wake w) (l1 ++ t' :: l2) ++ new).
Proof.
  unfold CacheModel.step. intros H.
  assert (E : (let (i, sp) := turn_of a in
    match nth_error (threads s) i with
    | None => None
    | Some t => match local_step sp (glob s) t with
                | None => None
                | Some (g, t', new, w) => Some (State g (map (wake w) (update i (fun _ => t') (threads s)) ++ new))
                end
    end) = Some s') by (destruct a; exact H).
  clear H. destruct (turn_of a) as [i sp]. destruct (nth_error (threads s) i) as [t|] eqn:Hn; [|discriminate].
  destruct (local_step sp (glob s) t) as [[[[g' t'] new] w]|] eqn:El; [|discriminate]. injection E as <-.
  destruct (update_split (fun _ => t') _ _ _ Hn) as (l1 & l2 & E1 & E2 & E3).
  exists l1, t, l2, g', t', new, w. rewrite E3. auto.
Qed.

Lemma step_good s a s' : good s -> step s a = Some s' -> good s'.
Proof.
  intros (S & T) H. apply step_split in H as (l1 & t & l2 & g' & t' & new & w & E1 & _ & El & ->).
  rewrite E1 in S, T. apply Forall_app in T as (T1 & T2). inversion_clear T2 as [|? ? Tt T3].
  apply (sound_perm _ _ _ _ _ _ _ _ (frames_split l1 t l2)) in S.
  destruct (local_kept fallback direct deps combine rank ranked _ _ _ _ _ _ _ _ Tt S El) as (S' & T' & Tn & G).
  assert (Tall : Forall (thread_ok g') (l1 ++ t' :: l2)).
  { apply Forall_app. split; [revert T1; apply Forall_impl; intros x; apply thread_grows, G|].
    constructor; [exact T'|]. revert T3. apply Forall_impl. intros x. apply thread_grows, G. }
  assert (S2 : sound w g' (flat_map stack (l1 ++ t' :: l2) ++ flat_map stack new)).
  { apply (sound_perm direct deps combine rank w g' _ _) with (2 := S').
    rewrite (frames_split l1 t' l2). rewrite <- app_assoc. apply Permutation_app_head. apply Permutation_app_comm. }
  unfold good. cbn [glob threads]. rewrite flat_map_app, stack_wake. split.
  - destruct w as [r|]; [|exact S2]. rewrite (wakes_alone _ _ _ _ _ _ _ El) in *. cbn in *. rewrite app_nil_r in *.
    apply sound_wake, S2.
  - apply Forall_app. split; [|exact Tn]. rewrite Forall_map. revert Tall. apply Forall_impl. intros x.
    destruct w as [r|]; [apply thread_wake|auto].
Qed.
Lemma run_good l : forall s s', good s -> run s l = Some s' -> good s'.
Proof.
  induction l as [|a l IH]; intros s s' G; cbn; [intros [= <-]; exact G|].
  destruct (step s a) as [s1|] eqn:E; [|discriminate]. apply IH. eapply step_good; eauto.
Qed.
Lemma start_good ps : good (start ps).
Proof.
  unfold good, start. cbn. split.
  - assert (E : flat_map stack (map (fun p => Thread p [] [] []) ps) = []) by (induction ps; cbn; auto).
    rewrite E. constructor; cbn; auto.
    + intros k r. split; [intros []|]. intros (l & Hl & _). destruct r; discriminate.
    + constructor.
    + intros [|r]; discriminate.
    + intros [|r]; reflexivity.
    + constructor.
    + constructor.
    + intros k [].
  - rewrite Forall_map. apply Forall_forall. intros p _. constructor; cbn; auto.
    split; [exact I|]. destruct p as [|[k|k|h] p]; auto.
Qed.
Lemma reach_good ps l s : run (start ps) l = Some s -> good s.
Proof. apply run_good, start_good. Qed.

(** * No race *)
Lemma touch_read s t r : good s -> In t (threads s) -> touches t = Some (r, false) -> is_open (glob s) r = true.
Proof.
  intros (S & T) Hi H. rewrite Forall_forall in T. pose proof (T t Hi) as [Hh _ _]. unfold touches in H.
  destruct (stack t) as [|f st] eqn:E.
  - destruct (calls t) as [|[k|k|h] cs]; try discriminate.
    destruct (nth_error (handles t) h) as [[k [p|r'] [|]]|] eqn:En; try discriminate. injection H as ->.
    rewrite Forall_forall in Hh. apply nth_error_In in En. specialize (Hh _ En). cbn in Hh. destruct Hh as (_ & _ & Ho). auto.
  - destruct f as [| | |k r' todo got| | | ]; try discriminate.
    destruct todo as [|[p|r''] todo]; try discriminate. injection H as ->.
    pose proof (so_frames _ _ _ _ _ _ _ S) as F. rewrite Forall_forall in F.
    specialize (F (Merge k r' (Shared r :: todo) got)).
    destruct F as (_ & _ & _ & before & rest & _ & _ & Hc).
    { apply in_flat_map. exists t. rewrite E. split; [assumption|left; reflexivity]. }
    inversion_clear Hc as [|? ? ? ? Hr]. destruct Hr as (_ & _ & Ho). exact Ho.
Qed.
Lemma touch_write t r : touches t = Some (r, true) -> exists f, In f (stack t) /\ fills r f = true.
Proof.
  unfold touches. destruct (stack t) as [|f st].
  - destruct (calls t) as [|[k|k|h] cs]; try discriminate.
    destruct (nth_error (handles t) h) as [[k [p|r'] [|]]|]; discriminate.
  - destruct f as [| | |k r' todo got|k r' n d| | ]; try discriminate.
    + destruct todo as [|[p|r''] todo]; discriminate.
    + intros [= ->]. eexists. split; [left; reflexivity|]. apply Nat.eqb_refl.
Qed.
Lemma two_threads (ts : list thread) i j t u : i <> j -> nth_error ts i = Some t -> nth_error ts j = Some u ->
  forall p : frame -> bool, (cnt p (stack t) + cnt p (stack u) <= cnt p (flat_map stack ts))%nat.
Proof.
  revert i j. induction ts as [|x ts IH]; intros [|i] [|j] Hn Hi Hj p; cbn in *; try discriminate; try congruence.
  - injection Hi as <-. rewrite cnt_app. apply nth_error_In in Hj.
    assert (cnt p (stack u) <= cnt p (flat_map stack ts))%nat; [|lia].
    clear - Hj. induction ts as [|y ts IH]; [destruct Hj|]. cbn. rewrite cnt_app. destruct Hj as [->|Hj]; [lia|].
    specialize (IH Hj). lia.
  - injection Hj as <-. rewrite cnt_app. apply nth_error_In in Hi.
    assert (cnt p (stack t) <= cnt p (flat_map stack ts))%nat; [|lia].
    clear - Hi. induction ts as [|y ts IH]; [destruct Hi|]. cbn. rewrite cnt_app. destruct Hi as [->|Hi]; [lia|].
    specialize (IH Hi). lia.
  - rewrite cnt_app. specialize (IH i j ltac:(lia) Hi Hj p). lia.
Qed.
Lemma good_no_race s : good s -> ~ race s.
Proof.
  intros G (i & j & t & u & r & a & b & Hn & Hi & Hj & Ht & Hu & Hab).
  assert (W : forall i j t u b, i <> j -> nth_error (threads s) i = Some t -> nth_error (threads s) j = Some u ->
    touches t = Some (r, true) -> touches u = Some (r, b) -> False).
  { clear i j t u a b Hn Hi Hj Ht Hu Hab. intros i j t u b Hn Hi Hj Ht Hu.
    destruct (touch_write _ _ Ht) as (f & Hf & Hfi). destruct G as (S & T).
    assert (Hin : In f (flat_map stack (threads s))).
    { apply in_flat_map. exists t. split; [eapply nth_error_In; eauto|assumption]. }
    destruct (closed_while_filling _ _ _ _ _ _ _ _ _ S Hin Hfi) as (l & Hl & Ho).
    destruct b.
    - destruct (touch_write _ _ Hu) as (f' & Hf' & Hfi').
      pose proof (two_threads _ _ _ _ _ Hn Hi Hj (fills r)) as H2.
      pose proof (cnt_pos _ _ _ Hf Hfi). pose proof (cnt_pos _ _ _ Hf' Hfi').
      pose proof (so_fill _ _ _ _ _ _ _ S r) as H3. unfold width in H3. rewrite Hl, Ho in H3. lia.
    - pose proof (touch_read s u r (conj S T) (nth_error_In _ _ Hj) Hu) as Hop. unfold is_open in Hop.
      rewrite Hl in Hop. congruence. }
  destruct a; [eapply (W i j); eauto|]. destruct b; [|discriminate]. apply (W j i u t false); auto.
Qed.
End All.
