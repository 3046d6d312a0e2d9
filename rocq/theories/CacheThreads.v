(** Every step keeps the caches in order and every client on its way. *)
From Coq Require Import Permutation.
From Verif Require Import Base HopperModel ArrayDefs CodecModel PostingModel CacheModel CacheSpec CacheInv CacheSteps.

Section Threads.
Variable fallback : bool.
Variable direct : key -> option posting.
Variable deps : key -> list key.
Variable combine : key -> list posting -> posting.
Variable rank : key -> nat.
Hypothesis ranked : forall k k', In k' (deps k) -> (rank k' < rank k)%nat.
Local Notation value := (value direct deps combine rank).
Local Notation sound := (sound direct deps combine rank).
Local Notation frame_ok := (frame_ok direct deps combine rank).
Local Notation local_step := (local_step fallback direct deps combine).

Definition subject (f : frame) : key :=
  match f with
  | Get k _ _ | Wait k _ _ | Fill k _ _ _ | Merge k _ _ _ | Write k _ _ _ | Opening k _ | Notifying k _ => k
  end.
Definition sync (f : frame) : Prop := match f with Get _ false _ => False | _ => True end.
(** Whatever a frame works on is what the frame below waits for. *)
Definition awaits (st : list frame) (k : key) : Prop :=
  match st with [] => True | b :: _ => exists k0 r todo got, b = Fill k0 r (k :: todo) got end.
Fixpoint chain (st : list frame) : Prop :=
  match st with [] => True | f :: st => awaits st (subject f) /\ chain st end.

Definition handle_ok (g : shared) (x : handle) : Prop :=
  match h_child x with
  | Alone p => direct (h_key x) = Some p
  | Shared r => direct (h_key x) = None /\ line_at g r (h_key x) /\ (h_ready x = true -> is_open g r = true)
  end.
Definition shape (cs : list call) (hs : list handle) (st : list frame) : Prop :=
  chain st /\
  match cs with
  | [] => Forall sync st
  | AskHopper k :: _ => st = [] \/ exists w, st = [Get k false w]
  | AskPosting k :: _ => Forall sync st /\ (st = [] \/ exists st' f, st = st' ++ [f] /\ subject f = k)
  | UseAt h :: _ => st = [] \/ exists x r w, nth_error hs h = Some x /\ h_child x = Shared r /\ st = [Wait (h_key x) r w]
  end.
Record thread_ok (g : shared) (t : thread) : Prop := {
  to_handles : Forall (handle_ok g) (handles t);
  to_seen : Forall (fun x => snd x = value (fst x)) (seen t);
  to_shape : shape (calls t) (handles t) (stack t)
}.

Lemma handle_grows g g' x : grows g g' -> handle_ok g x -> handle_ok g' x.
Proof.
  intros G. unfold handle_ok. destruct (h_child x); [auto|]. intros (? & ? & Ho). split; [assumption|].
  split; [eapply grows_line; eauto|]. intros E. eapply grows_open; eauto.
Qed.
Lemma thread_grows g g' t : grows g g' -> thread_ok g t -> thread_ok g' t.
Proof.
  intros G [A B C]. constructor; auto. revert A. apply Forall_impl. intros x. apply handle_grows, G.
Qed.

(** The top of the stack makes way for a frame on the same feature. *)
Lemma shape_swap cs hs f f' st : shape cs hs (f :: st) -> subject f' = subject f ->
  (forall k w, f = Get k false w -> exists w', f' = Get k false w') ->
  (sync f -> sync f') ->
  (forall k r w, f = Wait k r w -> exists w', f' = Wait k r w') ->
  shape cs hs (f' :: st).
Proof.
  intros ((Ha & Hc) & Hs) Es Hg Hy Hw. split.
  - cbn. rewrite Es. auto.
  - destruct cs as [|[k|k|h] cs].
    + inversion_clear Hs. constructor; auto.
    + right. destruct Hs as [Hs|(w & Hs)]; [discriminate|]. injection Hs as -> ->.
      destruct (Hg k w eq_refl) as (w' & ->). eauto.
    + destruct Hs as (Hs & Hb). split; [inversion_clear Hs; constructor; auto|]. right.
      destruct Hb as [Hb|(st' & f0 & Hb & Hk)]; [discriminate|].
      destruct st' as [|x st']; injection Hb as -> ->.
      * exists [], f'. split; [reflexivity|congruence].
      * exists (f' :: st'), f0. auto.
    + right. destruct Hs as [Hs|(x & r & w & Hn & Hr & Hs)]; [discriminate|]. injection Hs as -> ->.
      destruct (Hw _ _ _ eq_refl) as (w' & ->). exists x, r, w'. auto.
Qed.
(** A wait may only be followed by something else when the stack is not that of a hopper. *)
Lemma shape_swap' cs hs f f' st : shape cs hs (f :: st) -> subject f' = subject f ->
  sync f -> (forall k r w, f <> Wait k r w) -> sync f' -> shape cs hs (f' :: st).
Proof.
  intros H Es Hf Hn Hs. apply (shape_swap cs hs f); auto.
  - intros k w ->. destruct Hf.
  - intros k r w ->. destruct (Hn k r w eq_refl).
Qed.
Lemma shape_push cs hs f st : shape cs hs st -> st <> [] -> awaits st (subject f) -> sync f -> shape cs hs (f :: st).
Proof.
  intros (Hc & Hs) Hn Ha Hy. split; [cbn; auto|].
  destruct st as [|b st]; [congruence|]. destruct Ha as (k0 & r0 & todo & got & ->).
  destruct cs as [|[k|k|h] cs].
  - constructor; assumption.
  - destruct Hs as [Hs|(w & Hs)]; discriminate.
  - destruct Hs as (Hs & Hb). split; [constructor; assumption|]. right.
    destruct Hb as [Hb|(st' & f0 & -> & Hk)]; [discriminate|]. exists (f :: st'), f0. auto.
  - destruct Hs as [Hs|(x & r & w & _ & _ & Hs)]; discriminate.
Qed.

(** The list that was waited for is delivered. *)
Lemma deliver_ok w g t f st F k r :
  stack t = f :: st -> f = Notifying k r \/ (exists v, f = Wait k r v) ->
  thread_ok g t -> sound w g (st ++ F) -> child_ok direct g k (Shared r) ->
  sound w g (stack (deliver k r t st) ++ F) /\ thread_ok g (deliver k r t st).
Proof.
  intros Est Hf [Hh Hse Hsh] S (Hd & Hl & Ho). rewrite Est in Hsh.
  assert (Ek : subject f = k) by (destruct Hf as [->|(v & ->)]; reflexivity).
  destruct Hsh as ((Ha & Hc) & Hs). rewrite Ek in Ha. destruct st as [|b st].
  - cbn [deliver]. destruct (calls t) as [|[k'|k'|h] cs] eqn:Ec.
    + split; [exact S|]. constructor; cbn; auto. rewrite Ec. split; [exact I|constructor].
    + exfalso. destruct Hs as [Hs|(w' & Hs)]; [discriminate|]. injection Hs as ->.
      destruct Hf as [Hf|(v & Hf)]; discriminate.
    + split; [exact S|]. unfold answered. rewrite Ec. cbn [tl]. constructor; cbn; auto.
      * apply Forall_app. split; [assumption|]. constructor; [|constructor]. cbn. auto.
      * split; [exact I|]. destruct cs as [|[k1|k1|h1] cs]; auto.
    + split; [exact S|].
      destruct Hs as [Hs|(x & r' & w' & Hn & Hr & Hs)]; [discriminate|]. injection Hs as ->.
      assert (r' = r /\ h_key x = k) as (-> & <-).
      { destruct Hf as [Hf|(v & Hf)]; [discriminate|]. injection Hf as -> -> _. auto. }
      constructor; cbn; auto.
      * apply update_split with (f := fun x => Handle (h_key x) (h_child x) true) in Hn as (l1 & l2 & E & _ & ->).
        rewrite E in Hh. apply Forall_app in Hh as (H1 & H2). apply Forall_app. split; [assumption|].
        inversion_clear H2 as [|? ? Hx H3]. constructor; [|assumption].
        unfold handle_ok in *. cbn. rewrite Hr in *. destruct Hx as (? & ? & ?). auto.
      * split; [exact I|]. left. reflexivity.
  - destruct Ha as (k0 & r0 & todo & got & ->). cbn [deliver tl].
    pose proof (so_frames _ _ _ _ _ _ _ S) as Hok. cbn in Hok. apply Forall_inv in Hok. cbn in Hok.
    destruct Hok as (Hd0 & Hl0 & Hf0 & before & Eb & Hb).
    split.
    + cbn. cbn in S. eapply sound_swap; [exact S|..]; try reflexivity; cbn.
      * discriminate.
      * auto.
      * discriminate.
      * split; [assumption|]. split; [assumption|]. split; [assumption|].
        exists (before ++ [k]). rewrite <- app_assoc. split; [exact Eb|].
        apply Forall2_app; [assumption|]. constructor; [|constructor]. cbn. auto.
    + constructor; cbn; auto.
      assert (Hsh : shape (calls t) (handles t) (Fill k0 r0 (k :: todo) got :: st)).
      { split; [exact Hc|]. destruct (calls t) as [|[k'|k'|h] cs].
        - apply Forall_inv_tail in Hs. exact Hs.
        - exfalso. destruct Hs as [Hs|(w' & Hs)]; discriminate.
        - destruct Hs as (Hs & [Hb'|(st' & f0 & Hb' & Hk)]); [discriminate|]. split; [apply Forall_inv_tail in Hs; exact Hs|].
          right. destruct st' as [|x st']; injection Hb' as -> Hb'; [discriminate|]. exists st', f0. auto.
        - exfalso. destruct Hs as [Hs|(x & r' & w' & _ & _ & Hs)]; discriminate. }
      apply (shape_swap' _ _ (Fill k0 r0 (k :: todo) got)); auto; discriminate || exact I.
Qed.

(** One step of one thread; [F] are the frames of the others. *)
Definition kept (w : option nat) (g g' : shared) (t' : thread) (new : list thread) (F : list frame) : Prop :=
  sound w g' (stack t' ++ flat_map stack new ++ F) /\ thread_ok g' t' /\ Forall (thread_ok g') new /\ grows g g'.

Lemma kept_here w g g' t' F : sound w g' (stack t' ++ F) -> thread_ok g' t' -> grows g g' -> kept w g g' t' [] F.
Proof. intros A B C. split; [exact A|]. split; [exact B|]. split; [constructor|exact C]. Qed.

Lemma get_kept g t k s w st F g' t' new wk :
  stack t = Get k s w :: st -> thread_ok g t -> sound None g (stack t ++ F) ->
  get_step deps g t k s w st = Some (g', t', new, wk) -> kept wk g g' t' new F.
Proof.
  intros Est T S H. pose proof T as [Hh Hse Hsh]. rewrite Est in S, Hsh. cbn in S.
  pose proof (Forall_inv (so_frames _ _ _ _ _ _ _ S)) as Hok. cbn in Hok. destruct Hok as (Hd & Hw).
  assert (Hsw : forall w', shape (calls t) (handles t) (Get k s w' :: st)).
  { intros w'. apply (shape_swap _ _ (Get k s w)); auto.
    - intros k0 w0 [= -> -> ->]. eauto.
    - discriminate. }
  destruct w as [| | |r cr|r cr]; cbn [get_step] in H.
  - destruct (existsb (Nat.eqb (fst k)) (held g)) eqn:E; [discriminate|]. injection H as <- <- <- <-.
    apply kept_here; cbn.
    + apply sound_lock; [exact S|]. intros Hi.
      assert (existsb (Nat.eqb (fst k)) (held g) = true); [|congruence].
      apply existsb_exists. exists (fst k). split; [assumption|apply Nat.eqb_refl].
    + apply (thread_grows g); [apply grows_same; reflexivity|]. constructor; cbn; auto.
    + apply grows_same. reflexivity.
  - injection H as <- <- <- <-.
    pose proof (found_iff _ _ _ _ _ _ _ k S) as Hfd. apply kept_here; cbn.
    + destruct (found (cache g) k) as [r|]; (eapply sound_swap; [exact S|..]); try reflexivity; cbn; auto; try discriminate.
      * split; [assumption|]. split; [exact Hfd|discriminate].
      * intros k0 s0 [= -> ->]. exact Hfd.
    + constructor; cbn; auto.
    + apply grows_refl.
  - injection H as <- <- <- <-. pose proof (sound_create _ _ _ _ _ _ _ _ _ S) as S'.
    assert (G : grows g (Glob (held g) ((k, length (lines g)) :: cache g)
                (lines g ++ [Line k false (posting_from_feature (snd k))]) (loads g))).
    { intros r l Hl. exists l. cbn. split; [|auto]. rewrite nth_error_app1; [assumption|]. apply nth_error_Some. congruence. }
    apply kept_here; cbn; auto.
    apply (thread_grows g); [exact G|]. constructor; cbn; auto.
  - injection H as <- <- <- <-. apply kept_here; cbn.
    + apply sound_unlock. exact S.
    + apply (thread_grows g); [apply grows_same; reflexivity|]. constructor; cbn; auto.
    + apply grows_same. reflexivity.
  - destruct Hw as (Hl & Hf). destruct s.
    + injection H as <- <- <- <-. apply kept_here; cbn.
      * destruct cr; (eapply sound_swap; [exact S|..]); try reflexivity; cbn; auto; try discriminate.
        split; [assumption|]. split; [assumption|]. split; [auto|]. exists []. split; [reflexivity|constructor].
      * constructor; cbn; auto. destruct cr; (eapply shape_swap'; [exact Hsh|reflexivity|exact I|discriminate|exact I]).
      * apply grows_refl.
    + injection H as <- <- <- <-.
      assert (st = [] /\ exists cs, calls t = AskHopper k :: cs) as (-> & cs & Ec).
      { destruct Hsh as ((Ha & _) & Hs). destruct (calls t) as [|[k'|k'|h] cs].
        - inversion_clear Hs. destruct H.
        - destruct Hs as [Hs|(w & Hs)]; [discriminate|]. injection Hs as -> _ ->. eauto.
        - destruct Hs as (Hs & _). inversion_clear Hs. destruct H.
        - destruct Hs as [Hs|(x & r' & w' & _ & _ & Hs)]; discriminate. }
      assert (T' : thread_ok g (answered t (Handle k (Shared r) false))).
      { constructor; cbn; auto.
        - apply Forall_app. split; [assumption|]. constructor; [|constructor]. cbn. split; [assumption|]. split; [assumption|discriminate].
        - rewrite Ec. cbn. split; [exact I|]. destruct cs as [|[k1|k1|h1] cs]; auto. }
      cbn in S. destruct cr.
      * split; [|split; [exact T'|split; [|apply grows_refl]]].
        -- cbn. eapply sound_swap; [exact S|..]; try reflexivity; cbn; auto; try discriminate.
           split; [assumption|]. split; [assumption|]. split; [auto|]. exists []. split; [reflexivity|constructor].
        -- constructor; [|constructor]. constructor; cbn; auto. split; [cbn; auto|]. repeat constructor.
      * apply kept_here; [|exact T'|apply grows_refl]. cbn. eapply sound_pop; [exact S|..]; reflexivity.
Qed.

Lemma wait_kept sp g t k r w st F g' t' new wk :
  stack t = Wait k r w :: st -> thread_ok g t -> sound None g (stack t ++ F) ->
  wait_step fallback sp g t k r w st = Some (g', t', new, wk) -> kept wk g g' t' new F.
Proof.
  intros Est T S H. pose proof T as [Hh Hse Hsh]. rewrite Est in S, Hsh. cbn in S.
  pose proof (Forall_inv (so_frames _ _ _ _ _ _ _ S)) as Hok. cbn in Hok. destruct Hok as (Hd & Hl).
  assert (Hst : forall w', (w' = Asleep -> is_open g r = false) ->
    kept None g g (with_stack t (Wait k r w' :: st)) [] F).
  { intros w' Ho. apply kept_here; cbn.
    - eapply sound_swap; [exact S|..]; try reflexivity; cbn; auto; try discriminate.
      intros r'. destruct w'; try discriminate. intros E. apply Nat.eqb_eq in E as <-. auto.
    - constructor; cbn; auto. apply (shape_swap _ _ (Wait k r w)); auto.
      + discriminate.
      + intros k0 r0 w0 [= -> -> ->]. eauto.
    - apply grows_refl. }
  assert (Hde : is_open g r = true -> kept None g g (deliver k r t st) [] F).
  { intros Ho. destruct (deliver_ok None g t (Wait k r w) st F k r Est) as (S' & T'); auto.
    - eauto.
    - eapply sound_pop; [exact S|..]; reflexivity.
    - cbn. auto.
    - apply kept_here; auto. apply grows_refl. }
  destruct w; cbn [wait_step] in H.
  - destruct (is_open g r) eqn:E; injection H as <- <- <- <-; [auto|apply Hst; discriminate].
  - destruct (is_open g r) eqn:E; injection H as <- <- <- <-; apply Hst; congruence.
  - destruct sp; [|discriminate]. injection H as <- <- <- <-. apply Hst. discriminate.
  - injection H as <- <- <- <-. apply Hst. discriminate.
  - destruct (is_open g r) eqn:E; injection H as <- <- <- <-; [auto|apply Hst; auto].
Qed.

Lemma child_value g F w k c : sound w g F -> child_ok direct g k c ->
  match c with Alone p => p | Shared r' => data g r' end = value k.
Proof.
  intros S. destruct c as [p|r]; cbn.
  - intros E. rewrite (value_eq direct deps combine rank ranked k), E. reflexivity.
  - intros (_ & (l & Hl & <-) & Ho). unfold is_open in Ho. unfold data. rewrite Hl in *.
    apply (so_lines _ _ _ _ _ _ _ S r); assumption.
Qed.

Lemma frame_kept sp g t f st F g' t' new wk :
  stack t = f :: st -> thread_ok g t -> sound None g (stack t ++ F) ->
  frame_step fallback direct deps combine sp g t f st = Some (g', t', new, wk) -> kept wk g g' t' new F.
Proof.
  intros Est T S H.
  destruct f as [k s w|k r w|k r todo got|k r todo got|k r n d|k r|k r]; cbn [frame_step] in H.
  - destruct sp; [discriminate|]. eapply get_kept; eauto.
  - destruct sp; [destruct w; try discriminate|]; eapply wait_kept; eauto.
  - pose proof T as [Hh Hse Hsh]. rewrite Est in S, Hsh. cbn in S.
    pose proof (Forall_inv (so_frames _ _ _ _ _ _ _ S)) as (Hd & Hl & Hf & before & Eb & Hb).
    destruct todo as [|k' todo]; (destruct sp; [discriminate|]).
    + injection H as <- <- <- <-. apply kept_here; cbn.
      * eapply sound_swap; [exact S|..]; try reflexivity; cbn; auto; try discriminate.
        split; [assumption|]. split; [assumption|]. split; [assumption|].
        exists [], before. rewrite app_nil_r in Eb. auto.
      * constructor; cbn; auto. apply (shape_swap' _ _ (Fill k r [] got)); auto; discriminate || exact I.
      * apply grows_refl.
    + destruct (direct k') as [p|] eqn:Ek; injection H as <- <- <- <-; apply kept_here; cbn; try apply grows_refl.
      * eapply sound_swap; [exact S|..]; try reflexivity; cbn; auto; try discriminate.
        split; [assumption|]. split; [assumption|]. split; [assumption|].
        exists (before ++ [k']). rewrite <- app_assoc. split; [exact Eb|].
        apply Forall2_app; [assumption|]. constructor; [exact Ek|constructor].
      * constructor; cbn; auto. apply (shape_swap' _ _ (Fill k r (k' :: todo) got)); auto; discriminate || exact I.
      * apply sound_push; [exact S|..]; try reflexivity; cbn; auto. discriminate.
      * constructor; cbn; auto. apply shape_push; auto; [discriminate| |exact I].
        cbn. exists k, r, todo, got. reflexivity.
  - pose proof T as [Hh Hse Hsh]. rewrite Est in S, Hsh. cbn in S.
    pose proof (Forall_inv (so_frames _ _ _ _ _ _ _ S)) as (Hd & Hl & Hf & before & rest & Eb & Eg & Hc).
    destruct todo as [|c todo]; (destruct sp; [discriminate|]); injection H as <- <- <- <-; apply kept_here; cbn;
      try apply grows_refl; try (apply grows_same; reflexivity).
    + apply sound_load; [exact ranked|exact S].
    + apply (thread_grows g); [apply grows_same; reflexivity|]. constructor; cbn; auto.
      apply (shape_swap' _ _ (Merge k r [] got)); auto; discriminate || exact I.
    + eapply sound_swap; [exact S|..]; try reflexivity; cbn; auto; try discriminate.
      split; [assumption|]. split; [assumption|]. split; [assumption|].
      inversion Hc as [|k1 c1 rest1 todo1 H1 H2]; subst.
      exists (before ++ [k1]), rest1. rewrite <- app_assoc. split; [exact Eb|]. split; [|assumption].
      rewrite map_app. cbn. f_equal. f_equal. eapply child_value; eauto.
    + constructor; cbn; auto. apply (shape_swap' _ _ (Merge k r (c :: todo) got)); auto; discriminate || exact I.
  - pose proof T as [Hh Hse Hsh]. rewrite Est in S, Hsh. cbn in S.
    destruct sp; [discriminate|]. injection H as <- <- <- <-.
    pose proof (sound_write _ _ _ _ _ _ _ _ _ _ _ S) as S'.
    destruct (closed_while_filling _ _ _ _ _ _ _ _ _ S (or_introl eq_refl) (Nat.eqb_refl r)) as (l & Hl & Ho).
    assert (G : grows g (set_data r (write_part n d) g)).
    { intros r' l' Hl'. cbn. rewrite update_nth, Hl'. destruct (Nat.eqb_spec r r') as [<-|]; eexists;
        (split; [reflexivity|]); cbn; (split; [reflexivity|auto]). rewrite Hl in Hl'. injection Hl' as <-. congruence. }
    apply kept_here; cbn; auto. apply (thread_grows g); [exact G|]. constructor; cbn; auto.
    destruct n as [|[|n]]; cbn; (eapply shape_swap'; [exact Hsh|reflexivity|exact I|discriminate|exact I]).
  - pose proof T as [Hh Hse Hsh]. rewrite Est in S, Hsh. cbn in S.
    destruct sp; [discriminate|]. injection H as <- <- <- <-.
    pose proof (sound_open _ _ _ _ _ _ _ _ _ S) as S'.
    destruct (closed_while_filling _ _ _ _ _ _ _ _ _ S (or_introl eq_refl) (Nat.eqb_refl r)) as (l & Hl & Ho).
    assert (G : grows g (set_open r g)).
    { intros r' l' Hl'. cbn. rewrite update_nth, Hl'. destruct (Nat.eqb_spec r r') as [<-|]; eexists;
        (split; [reflexivity|]); cbn; (split; [reflexivity|auto]). rewrite Hl in Hl'. injection Hl' as <-. congruence. }
    apply kept_here; cbn; auto. apply (thread_grows g); [exact G|]. constructor; cbn; auto.
    apply (shape_swap' _ _ (Opening k r)); [exact Hsh|reflexivity|exact I|discriminate|exact I].
  - pose proof T as T0. destruct T as [Hh Hse Hsh]. rewrite Est in S. cbn in S.
    destruct sp; [discriminate|]. injection H as <- <- <- <-.
    pose proof (Forall_inv (so_frames _ _ _ _ _ _ _ S)) as (Hd & Hl & Ho).
    destruct (deliver_ok (Some r) g t (Notifying k r) st F k r Est) as (S' & T'); auto.
    + eapply sound_notify. exact S.
    + cbn. auto.
    + apply kept_here; auto. apply grows_refl.
Qed.

Lemma user_kept g t F g' t' new wk :
  stack t = [] -> thread_ok g t -> sound None g (stack t ++ F) ->
  user_step direct g t = Some (g', t', new, wk) -> kept wk g g' t' new F.
Proof.
  intros Est T S H. pose proof T as [Hh Hse Hsh]. rewrite Est in S, Hsh. cbn in S.
  assert (Hidle : forall hs cs, shape cs hs []).
  { intros hs cs. split; [exact I|]. destruct cs as [|[k|k|h] cs]; auto. }
  unfold user_step in H. destruct (calls t) as [|[k|k|h] cs] eqn:Ec; [discriminate| | |].
  - destruct (direct k) as [p|] eqn:Ed; injection H as <- <- <- <-; apply kept_here; cbn; try apply grows_refl; try exact S.
    + constructor; cbn; auto. apply Forall_app. split; [assumption|]. constructor; [|constructor]. exact Ed.
    + apply sound_push; [exact S|..]; try reflexivity; cbn; auto. discriminate.
    + constructor; cbn; auto. rewrite Ec. split; [cbn; auto|]. right. eauto.
  - destruct (direct k) as [p|] eqn:Ed; injection H as <- <- <- <-; apply kept_here; cbn; try apply grows_refl; try exact S.
    + constructor; cbn; auto. apply Forall_app. split; [assumption|]. constructor; [|constructor]. exact Ed.
    + apply sound_push; [exact S|..]; try reflexivity; cbn; auto. discriminate.
    + constructor; cbn; auto. rewrite Ec. split; [cbn; auto|]. split; [repeat constructor|]. right.
      exists [], (Get k true Want). auto.
  - destruct (nth_error (handles t) h) as [x|] eqn:En.
    + assert (Hx : handle_ok g x) by (rewrite Forall_forall in Hh; apply Hh; eapply nth_error_In; eauto).
      unfold handle_ok in Hx. destruct (h_child x) as [p|r] eqn:Eh.
      * injection H as <- <- <- <-; apply kept_here; cbn; try apply grows_refl; try exact S.
        constructor; cbn; auto. apply Forall_app. split; [assumption|]. constructor; [|constructor]. cbn.
        rewrite (value_eq direct deps combine rank ranked), Hx. reflexivity.
      * destruct Hx as (Hd & Hl & Ho). destruct (h_ready x) eqn:Er; injection H as <- <- <- <-; apply kept_here; cbn; try apply grows_refl; try exact S.
        -- constructor; cbn; auto. apply Forall_app. split; [assumption|]. constructor; [|constructor]. cbn.
           apply (child_value g F None (h_key x) (Shared r) S). cbn. auto.
        -- apply sound_push; [exact S|..]; try reflexivity; cbn; auto. discriminate.
        -- constructor; cbn; auto. rewrite Ec. split; [cbn; auto|]. right. exists x, r, Check. auto.
    + injection H as <- <- <- <-; apply kept_here; cbn; try apply grows_refl; try exact S. constructor; cbn; auto.
Qed.

Lemma local_kept sp g t F g' t' new wk :
  thread_ok g t -> sound None g (stack t ++ F) ->
  local_step sp g t = Some (g', t', new, wk) -> kept wk g g' t' new F.
Proof.
  intros T S H. unfold CacheModel.local_step in H. destruct (stack t) as [|f st] eqn:E.
  - destruct sp; [discriminate|]. eapply user_kept; eauto. rewrite E. exact S.
  - eapply frame_kept; eauto. rewrite E. exact S.
Qed.
End Threads.
