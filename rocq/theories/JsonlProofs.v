(** What the threads of append_jsonl do with the lines of a file, on every schedule. *)
From Verif Require Import Base Bytes JsonlModel JsonlSpec.
From Coq Require Import List Lia Permutation.
Import ListNotations.

(** * Lines *)
Lemma cut_line_some s l r : cut_line s = Some (l, r) -> s = l ++ 10 :: r /\ ~ In 10 l.
Proof.
  revert l r. induction s as [|c s IH]; intros l r; cbn; [discriminate|]. destruct (c =? 10) eqn:E.
  - intro H. injection H as <- <-. apply Z.eqb_eq in E. subst c. split; [reflexivity | intros []].
  - destruct (cut_line s) as [[l' t]|] eqn:E'; [|discriminate]. intro H. injection H as <- <-.
    destruct (IH _ _ eq_refl) as [-> N]. apply Z.eqb_neq in E. split; [reflexivity|]. intros [X|X]; [lia | tauto].
Qed.
Lemma cut_line_none s : cut_line s = None -> ~ In 10 s.
Proof.
  induction s as [|c s IH]; cbn; [intros _ []|]. destruct (c =? 10) eqn:E; [discriminate|].
  destruct (cut_line s) as [[l' t]|]; [discriminate|]. intros _ [X|X]; [apply Z.eqb_neq in E; lia | exact (IH eq_refl X)].
Qed.
Lemma cut_line_app l r : ~ In 10 l -> cut_line (l ++ 10 :: r) = Some (l, r).
Proof.
  induction l as [|c l IH]; cbn; intro N; [reflexivity|]. destruct (c =? 10) eqn:E; [apply Z.eqb_eq in E; subst; tauto|].
  rewrite IH by tauto. reflexivity.
Qed.
Lemma cut_line_no l : ~ In 10 l -> cut_line l = None.
Proof.
  induction l as [|c l IH]; cbn; intro N; [reflexivity|]. destruct (c =? 10) eqn:E; [apply Z.eqb_eq in E; subst; tauto|].
  rewrite IH by tauto. reflexivity.
Qed.
Lemma file_lines_unique t l : file_lines t l -> forall l', file_lines t l' -> l = l'.
Proof.
  induction 1 as [|l N E|l r ls N F IH]; intros l' H'.
  - inversion H' as [|? ? E|l0 r ? ? ? E]; subst; auto; [congruence | destruct l0; discriminate].
  - inversion H' as [|? ? ?|l0 r ? ? ? X]; subst; auto; [congruence|]. exfalso. apply N, in_or_app. right. left. reflexivity.
  - inversion H' as [X|l0 N0 E0 X|l0 r0 ls0 N0 F0 X]; subst.
    + destruct l; discriminate.
    + exfalso. apply N0, in_or_app. right. left. reflexivity.
    + pose proof (cut_line_app l0 r0 N0) as Y. rewrite X, (cut_line_app l r N) in Y. injection Y as <- <-. f_equal. auto.
Qed.
Lemma file_lines_ex_aux n t : (length t <= n)%nat -> exists l, file_lines t l.
Proof.
  revert t. induction n as [|n IH]; intros t L.
  - destruct t; [|cbn in L; lia]. exists []. constructor.
  - destruct (cut_line t) as [[l r]|] eqn:E.
    + destruct (cut_line_some _ _ _ E) as [-> N]. destruct (IH r) as [ls F]; [rewrite app_length in L; cbn in L; lia|].
      exists (l :: ls). constructor; auto.
    + destruct t as [|c t]; [exists []; constructor|]. exists [c :: t]. constructor; [apply cut_line_none; auto | discriminate].
Qed.
Lemma file_lines_ex t : exists l, file_lines t l.
Proof. eapply file_lines_ex_aux. reflexivity. Qed.
(** Reading takes the first line. *)
Lemma getline_some bad s line r ls : getline bad s = Some (line, r) -> file_lines s ls -> exists ls', ls = line :: ls' /\ file_lines r ls'.
Proof.
  unfold getline. destruct (cut_line s) as [[l t]|] eqn:E.
  - intro H. injection H as -> ->. intro F. destruct (cut_line_some _ _ _ E) as [-> N].
    destruct (file_lines_ex r) as [ls' F']. exists ls'. split; auto. eapply file_lines_unique; eauto. constructor; auto.
  - destruct bad; [discriminate|]. destruct s as [|c s]; [discriminate|]. intro H. injection H as <- <-. intro F. exists []. split; [|constructor].
    eapply file_lines_unique; eauto. constructor; [apply cut_line_none; auto | discriminate].
Qed.
Lemma getline_none bad s : getline bad s = None -> bad = true \/ s = [].
Proof. unfold getline. destruct (cut_line s) as [[? ?]|]; [discriminate|]. destruct bad; auto. destruct s; [auto|discriminate]. Qed.

(** * Lists *)
Lemma set_nth_length {A} n (x : A) l : length (set_nth n x l) = length l.
Proof. revert n. induction l as [|y l IH]; intros [|n]; cbn; auto. Qed.
Lemma set_nth_same {A} n (x : A) l : (n < length l)%nat -> nth_error (set_nth n x l) n = Some x.
Proof. revert n. induction l as [|y l IH]; intros [|n] L; cbn in *; try lia; auto. apply IH. lia. Qed.
Lemma set_nth_other {A} n m (x : A) l : n <> m -> nth_error (set_nth n x l) m = nth_error l m.
Proof. revert n m. induction l as [|y l IH]; intros [|n] [|m] N; cbn; auto; try congruence. Qed.
Lemma owned_snoc n owner lines o l : length owner = length lines ->
  owned n (owner ++ [o]) (lines ++ [l]) = owned n owner lines ++ (if Nat.eqb o n then [l] else []).
Proof.
  revert lines. induction owner as [|o' owner IH]; intros [|l' lines] L; cbn in *; try discriminate; [destruct (Nat.eqb o n); reflexivity|].
  rewrite IH by lia. destruct (Nat.eqb o' n); reflexivity.
Qed.

(** * The invariant *)
Definition pending (w : worker) : list bytes := match w_place w with Scribing l => [l] | _ => [] end.
Definition over (p : place) : bool := match p with Finish | Gone _ => true | _ => false end.
Definition good (p : place) : bool := match p with Gone false => false | _ => true end.
Definition inv (bad : bool) (lines : list bytes) (threads : nat) (s : state) : Prop :=
  length (s_workers s) = threads /\
  (s_failed s = true -> s_done s = true) /\
  (s_failed s = false ->
    (s_done s = true -> bad = false /\ s_input s = []) /\
    (forall n w, nth_error (s_workers s) n = Some w -> good (w_place w) = true /\ (over (w_place w) = true -> s_done s = true)) /\
    exists taken rest owner, lines = taken ++ rest /\ file_lines (s_input s) rest /\ length owner = length taken /\
      Forall (fun o => (o < threads)%nat) owner /\
      forall n w, nth_error (s_workers s) n = Some w -> w_lines w ++ pending w = owned n owner taken).
Lemma inv_start bad text lines threads : file_lines text lines -> inv bad lines threads (start text threads).
Proof.
  intro F. unfold inv, start. cbn. split; [apply repeat_length|]. split; [discriminate|]. intros _. split; [discriminate|]. split.
  - intros n w E. apply nth_error_In, repeat_spec in E. subst w. cbn. split; [reflexivity | discriminate].
  - exists [], lines, []. repeat split; auto. intros n w E. apply nth_error_In, repeat_spec in E. subst w. reflexivity.
Qed.
Lemma nth_lt {A} (l : list A) n x : nth_error l n = Some x -> (n < length l)%nat.
Proof. intro E. apply nth_error_Some. congruence. Qed.
Lemma failed_inv bad lines threads s : length (s_workers s) = threads -> s_failed s = true -> s_done s = true -> inv bad lines threads s.
Proof. intros L F D. split; auto. split; auto. intro X. congruence. Qed.
Lemma inv_step bad lines threads n ok s s' : inv bad lines threads s -> step bad n ok s = Some s' -> inv bad lines threads s'.
Proof.
  intros [L [FD I]] H. unfold step in H. destruct (nth_error (s_workers s) n) as [w|] eqn:E; [|discriminate].
  pose proof (nth_lt _ _ _ E) as Ln. destruct s as [i d f ws]. cbn [s_workers s_input s_done s_failed] in *.
  assert (FF : forall i' w', f = true -> inv bad lines threads (put (State i d f ws) i' d f n w')).
  { intros i' w' F. apply failed_inv; cbn; auto. rewrite set_nth_length. auto. }
  assert (TT : forall i' w', inv bad lines threads (put (State i d f ws) i' true true n w')).
  { intros i' w'. apply failed_inv; cbn; auto. rewrite set_nth_length. auto. }
  destruct f.
  { destruct (w_place w) as [|line| |r]; try discriminate.
    - destruct ok; [|discriminate]. cbn [negb] in H. rewrite (FD eq_refl) in H. injection H as <-. rewrite (FD eq_refl) in FF. auto.
    - destruct ok; injection H as <-; auto.
    - destruct ok; injection H as <-; auto. }
  destruct (I eq_refl) as [ID [IG [taken [rest [owner [-> [FL [LO [FO IW]]]]]]]]]. clear I FF.
  destruct (IG n w E) as [G O].
  (* a worker moves on without a new line *)
  assert (MV : forall i' d' w', (d = true -> d' = true) -> (d' = true -> bad = false /\ i' = []) -> i' = i ->
     good (w_place w') = true -> (over (w_place w') = true -> d' = true) -> w_lines w' ++ pending w' = w_lines w ++ pending w ->
     inv bad (taken ++ rest) threads (put (State i d false ws) i' d' false n w')).
  { intros i' d' w' D1 D2 -> G' O' W'. split; [cbn; rewrite set_nth_length; auto|]. split; [discriminate|]. intros _. cbn.
    split; auto. split.
    - intros m v Ev. destruct (Nat.eq_dec n m) as [<-|Nm].
      + rewrite set_nth_same in Ev by auto. injection Ev as <-. auto.
      + rewrite set_nth_other in Ev by auto. destruct (IG m v Ev). auto.
    - exists taken, rest, owner. repeat split; auto. intros m v Ev. destruct (Nat.eq_dec n m) as [<-|Nm].
      + rewrite set_nth_same in Ev by auto. injection Ev as <-. rewrite W'. auto.
      + rewrite set_nth_other in Ev by auto. auto. }
  destruct (w_place w) as [|line| |r] eqn:P; try discriminate.
  - destruct ok; [|discriminate]. cbn [negb] in H. destruct d.
    + injection H as <-. apply MV; auto. unfold pending. rewrite P. reflexivity.
    + destruct (getline bad i) as [[line r]|] eqn:GL.
      * injection H as <-. destruct (getline_some _ _ _ _ _ GL FL) as [rest' [-> FL']].
        split; [cbn; rewrite set_nth_length; auto|]. split; [discriminate|]. intros _. cbn. split; [discriminate|]. split.
        -- intros m v Ev. destruct (Nat.eq_dec n m) as [<-|Nm].
           ++ rewrite set_nth_same in Ev by auto. injection Ev as <-. cbn. split; [reflexivity | discriminate].
           ++ rewrite set_nth_other in Ev by auto. exact (IG m v Ev).
        -- exists (taken ++ [line]), rest', (owner ++ [n]). rewrite <- app_assoc. split; [reflexivity|]. split; [exact FL'|].
           split; [rewrite !app_length; cbn; lia|]. split; [apply Forall_app; split; auto; constructor; [lia|constructor]|].
           intros m v Ev. rewrite owned_snoc by auto. destruct (Nat.eq_dec n m) as [<-|Nm].
           ++ rewrite set_nth_same in Ev by auto. injection Ev as <-. rewrite Nat.eqb_refl, <- (IW n w E). unfold pending. rewrite P. cbn.
              rewrite app_nil_r. reflexivity.
           ++ rewrite set_nth_other in Ev by auto. rewrite (proj2 (Nat.eqb_neq n m) Nm), app_nil_r. auto.
      * destruct (getline_none _ _ GL) as [->| ->].
        -- injection H as <-. apply TT.
        -- destruct bad; injection H as <-; [apply TT|]. apply MV; auto. unfold pending. rewrite P. reflexivity.
  - destruct ok; injection H as <-; [|apply TT]. apply MV; auto.
    unfold pending. rewrite P. cbn. apply app_nil_r.
  - destruct ok; injection H as <-; [|apply TT]. apply MV; auto. unfold pending. rewrite P. reflexivity.
Qed.
Lemma inv_steps bad lines threads l : forall s s', inv bad lines threads s -> steps bad l s = Some s' -> inv bad lines threads s'.
Proof.
  induction l as [|[n ok] l IH]; intros s s' I H; cbn in H; [injection H as <-; auto|].
  destruct (step bad n ok s) as [s1|] eqn:E; [|discriminate]. exact (IH _ _ (inv_step _ _ _ _ _ _ _ I E) H).
Qed.

(** * The end *)
Lemma joined_gone s n w : joined s = true -> nth_error (s_workers s) n = Some w -> exists r, w_place w = Gone r.
Proof.
  intros J E. apply nth_error_In in E. unfold joined in J. rewrite forallb_forall in J. specialize (J _ E). destruct (w_place w); try discriminate. eauto.
Qed.
Lemma joined_all bad lines threads s : (0 < threads)%nat -> inv bad lines threads s -> joined s = true -> s_failed s = false ->
  bad = false /\ shared_out lines (map w_lines (s_workers s)) /\ forallb (fun w => match w_place w with Gone true => true | _ => false end) (s_workers s) = true.
Proof.
  intros T [L [_ I]] J F. destruct (I F) as [ID [IG [taken [rest [owner [-> [FL [LO [FO IW]]]]]]]]].
  assert (A : exists w, nth_error (s_workers s) 0 = Some w). { destruct (s_workers s) as [|w ws]; [cbn in L; lia | exists w; reflexivity]. }
  destruct A as [w0 E0]. destruct (joined_gone _ _ _ J E0) as [r0 R0]. destruct (IG _ _ E0) as [_ O]. rewrite R0 in O.
  destruct (ID (O eq_refl)) as [B EI]. split; auto. rewrite EI in FL. rewrite (file_lines_unique _ _ FL [] FL_none), app_nil_r. split.
  - exists owner. split; auto. split; [rewrite map_length, L; auto|]. intro n. destruct (nth_error (s_workers s) n) as [w|] eqn:E.
    + rewrite (nth_error_nth (map w_lines (s_workers s)) n [] (map_nth_error w_lines n _ E)), <- (IW n w E).
      destruct (joined_gone _ _ _ J E) as [r R]. unfold pending. rewrite R, app_nil_r. reflexivity.
    + rewrite nth_overflow by (rewrite map_length; apply nth_error_None; auto). apply nth_error_None in E. rewrite L in E.
      clear - FO E. revert taken. induction FO as [|o os X FO IH]; intros [|t ts]; cbn; auto.
      destruct (Nat.eqb_spec o n); [lia|]. apply IH.
  - apply forallb_forall. intros w Iw. apply In_nth_error in Iw. destruct Iw as [n E]. destruct (joined_gone _ _ _ J E) as [r R].
    destruct (IG _ _ E) as [G _]. rewrite R in *. destruct r; auto.
Qed.
(** Something fails exactly when a call fails or the file cannot be read. *)
Lemma failed_step bad n ok s s' : step bad n ok s = Some s' ->
  (ok = false -> s_failed s' = true) /\ (s_failed s = true -> s_failed s' = true) /\ (ok = true -> bad = false -> s_failed s' = s_failed s).
Proof.
  unfold step. destruct (nth_error (s_workers s) n) as [w|]; [|discriminate]. destruct s as [i d f ws]. cbn.
  intro H. destruct (w_place w) as [|line| |r]; try discriminate H; destruct ok; cbn [negb] in H; try discriminate H.
  - destruct d; [injection H as <-; cbn; repeat split; auto; discriminate|]. destruct (getline bad i) as [[line r]|]; [injection H as <-; cbn; repeat split; auto; discriminate|].
    destruct bad; injection H as <-; cbn; repeat split; auto; discriminate.
  - injection H as <-; cbn. repeat split; auto. discriminate.
  - destruct f; injection H as <-; cbn; repeat split; auto; discriminate.
  - injection H as <-; cbn. repeat split; auto. discriminate.
  - destruct f; injection H as <-; cbn; repeat split; auto; discriminate.
Qed.
Lemma failed_steps bad l : forall s s', steps bad l s = Some s' ->
  (In false (map snd l) \/ s_failed s = true -> s_failed s' = true) /\ (~ In false (map snd l) -> bad = false -> s_failed s' = s_failed s).
Proof.
  induction l as [|[n ok] l IH]; intros s s' H; cbn in H; [injection H as <-; cbn; tauto|].
  destruct (step bad n ok s) as [s1|] eqn:E; [|discriminate]. destruct (IH _ _ H) as [A B]. destruct (failed_step _ _ _ _ _ E) as [X [Y V]].
  cbn. split.
  - intros [[C|C]|C]; auto.
  - intros N Bd. destruct ok; [|tauto]. rewrite B, V; auto.
Qed.
Lemma failed_exactly bad text threads sched s : (0 < threads)%nat -> steps bad sched (start text threads) = Some s -> joined s = true ->
  (s_failed s = true <-> bad = true \/ In false (map snd sched)).
Proof.
  intros T H J. destruct (failed_steps _ _ _ _ H) as [A B]. destruct (file_lines_ex text) as [lines FL].
  pose proof (inv_steps _ _ _ _ _ _ (inv_start bad text lines threads FL) H) as I. split.
  - intro F. destruct bad; [auto|]. right. destruct (in_dec Bool.bool_dec false (map snd sched)) as [X|X]; auto.
    rewrite (B X eq_refl) in F. discriminate.
  - intros [->|X]; auto. destruct (s_failed s) eqn:F; auto. destruct (joined_all _ _ _ _ T I J F). discriminate.
Qed.

(** * Ending *)
Definition weight (w : worker) : nat := match w_place w with Fetch => 2 | Scribing _ => 3 | Finish => 1 | Gone _ => 0 end.
Definition weights (ws : list worker) : nat := fold_right (fun w a => (weight w + a)%nat) 0%nat ws.
Lemma weights_set n w w' ws : nth_error ws n = Some w -> (weights (set_nth n w' ws) + weight w = weights ws + weight w')%nat.
Proof.
  revert n. induction ws as [|v ws IH]; intros [|n] E; try discriminate; cbn [set_nth weights fold_right].
  - injection E as ->. unfold weights. lia.
  - specialize (IH n E). unfold weights in *. cbn [fold_right]. lia.
Qed.
Local Arguments weights : simpl never.
Lemma step_weight bad n ok s s' rest : file_lines (s_input s) rest -> step bad n ok s = Some s' -> exists rest', file_lines (s_input s') rest' /\
  (weights (s_workers s') + 2 * length rest' < weights (s_workers s) + 2 * length rest)%nat.
Proof.
  intros FL H. unfold step in H. destruct (nth_error (s_workers s) n) as [w|] eqn:E; [|discriminate]. destruct s as [i d f ws]. cbn in *.
  assert (W : forall d' f' w', (weight w' < weight w)%nat -> exists rest', file_lines (s_input (put (State i d f ws) i d' f' n w')) rest' /\
     (weights (s_workers (put (State i d f ws) i d' f' n w')) + 2 * length rest' < weights ws + 2 * length rest)%nat).
  { intros d' f' w' X. exists rest. split; [exact FL|]. cbn. pose proof (weights_set n w w' ws E). lia. }
  destruct (w_place w) as [|line| |r] eqn:P; try discriminate; destruct ok; cbn [negb] in H; try discriminate.
  - destruct d; [injection H as <-; apply W; unfold weight; rewrite P; cbn; lia|].
    destruct (getline bad i) as [[line r]|] eqn:G.
    + injection H as <-. destruct (getline_some _ _ _ _ _ G FL) as [rest' [-> FL']]. exists rest'. split; [exact FL'|].
      pose proof (weights_set n w (Worker (Scribing line) (w_lines w)) ws E) as X. unfold weight in X. rewrite P in X. cbn in X |- *. lia.
    + destruct bad; injection H as <-; apply W; unfold weight; rewrite P; cbn; lia.
  - injection H as <-; apply W; unfold weight; rewrite P; cbn; lia.
  - destruct f; injection H as <-; apply W; unfold weight; rewrite P; cbn; lia.
  - injection H as <-; apply W; unfold weight; rewrite P; cbn; lia.
  - destruct f; injection H as <-; apply W; unfold weight; rewrite P; cbn; lia.
Qed.
Lemma steps_weight bad l : forall s s' rest, file_lines (s_input s) rest -> steps bad l s = Some s' ->
  (length l <= weights (s_workers s) + 2 * length rest)%nat.
Proof.
  induction l as [|[n ok] l IH]; intros s s' rest FL H; cbn in *; [lia|]. destruct (step bad n ok s) as [s1|] eqn:E; [|discriminate].
  destruct (step_weight _ _ _ _ _ _ FL E) as [rest' [FL' X]]. specialize (IH _ _ _ FL' H). lia.
Qed.
Lemma weights_repeat w n : weights (repeat w n) = (n * weight w)%nat.
Proof. induction n as [|n IH]; cbn [repeat]; [reflexivity|]. unfold weights in *. cbn [fold_right]. rewrite IH. lia. Qed.
Lemma steps_bound bad text lines threads sched s : file_lines text lines -> steps bad sched (start text threads) = Some s ->
  (length sched <= 2 * length lines + 2 * threads)%nat.
Proof. intros F H. pose proof (steps_weight bad sched (start text threads) s lines F H) as X. cbn in X. rewrite weights_repeat in X. cbn in X. lia. Qed.
Lemma goes_on bad s : joined s = false -> exists n s', step bad n true s = Some s'.
Proof.
  unfold joined. intro J.
  assert (A : exists w, In w (s_workers s) /\ (match w_place w with Gone _ => true | _ => false end) = false).
  { induction (s_workers s) as [|w ws IH]; cbn in J; [discriminate|]. destruct (w_place w) eqn:P; try (exists w; rewrite P; split; [left|]; reflexivity).
    destruct (IH J) as [v [X Y]]. exists v. split; [right|]; auto. }
  destruct A as [w [X P]]. apply In_nth_error in X. destruct X as [n E]. exists n. unfold step. rewrite E. destruct s as [i d f ws].
  destruct (w_place w); try discriminate; cbn.
  - destruct d; [eauto|]. destruct (getline bad i) as [[line r]|]; eauto. destruct bad; eauto.
  - eauto.
  - eauto.
Qed.

(** * The outcomes *)
Lemma fails writes bad text threads sched s : (0 < threads)%nat -> steps bad sched (start text threads) = Some s -> joined s = true ->
  bad = true \/ In false (map snd sched) -> finish writes s = Answer false [].
Proof. intros T H J F. apply (failed_exactly _ _ _ _ _ T H J) in F. unfold finish. rewrite F. reflexivity. Qed.
Lemma succeeds writes text lines threads sched s : (0 < threads)%nat -> file_lines text lines -> steps false sched (start text threads) = Some s -> joined s = true ->
  ~ In false (map snd sched) -> exists shares, length shares = threads /\ shared_out lines shares /\
  finish writes s = if forallb (existsb writes) shares then Answer true shares else Stops.
Proof.
  intros T FL H J N. pose proof (inv_steps _ _ _ _ _ _ (inv_start false text lines threads FL) H) as I.
  assert (F : s_failed s = false). { destruct (s_failed s) eqn:F; auto. apply (failed_exactly _ _ _ _ _ T H J) in F. destruct F; [discriminate | tauto]. }
  destruct (joined_all _ _ _ _ T I J F) as [_ [Sh G]]. exists (map w_lines (s_workers s)). split; [rewrite map_length; apply I|]. split; auto.
  unfold finish. rewrite F. replace (forallb (existsb writes) (map w_lines (s_workers s))) with
    (forallb (fun w => match w_place w with Gone true => existsb writes (w_lines w) | _ => false end) (s_workers s)); auto.
  clear - G. induction (s_workers s) as [|w ws IH]; cbn in *; auto. apply andb_true_iff in G. destruct G as [G1 G2].
  rewrite (IH G2). destruct (w_place w) as [| | |[]]; try discriminate. reflexivity.
Qed.
(** The shares of fewer lines than workers: some worker has none. *)
Lemma owned_nil_after n owner lines : ~ In n owner -> owned n owner lines = [].
Proof.
  revert lines. induction owner as [|o os IH]; intros [|l ls] N; cbn; auto. destruct (Nat.eqb_spec o n); [exfalso; apply N; left; auto|].
  apply IH. intro X. apply N. right. auto.
Qed.
Lemma missing (owner : list nat) k : (length owner < k)%nat -> exists n, (n < k)%nat /\ ~ In n owner.
Proof.
  intro L. destruct (Forall_Exists_dec (fun n => In n owner) (fun n => in_dec Nat.eq_dec n owner) (seq 0 k)) as [F|E].
  - exfalso. pose proof (NoDup_incl_length (seq_NoDup k 0) (proj1 (Forall_forall _ _) F)) as X. rewrite seq_length in X. lia.
  - apply Exists_exists in E. destruct E as [n [I N]]. apply in_seq in I. exists n. split; auto. lia.
Qed.
Lemma few_lines writes text lines threads sched s : file_lines text lines -> (length lines < threads)%nat ->
  steps false sched (start text threads) = Some s -> joined s = true -> ~ In false (map snd sched) -> finish writes s = Stops.
Proof.
  intros FL L H J N. destruct (succeeds writes _ _ _ _ _ (Nat.le_lt_trans _ _ _ (Nat.le_0_l _) L) FL H J N) as [shares [Ls [[owner [Lo [FO W]]] ->]]].
  destruct (missing owner threads) as [n [Ln Nn]]; [lia|].
  destruct (forallb (existsb writes) shares) eqn:E; auto. rewrite forallb_forall in E. specialize (E (nth n shares [])).
  rewrite W, owned_nil_after in E by auto. cbn in E. exfalso. discriminate E. rewrite <- (owned_nil_after n owner lines Nn), <- W. apply nth_In. lia.
Qed.
(** One worker has all the lines. *)
Lemma one_share lines shares : shared_out lines shares -> length shares = 1%nat -> shares = [lines].
Proof.
  intros [owner [L [F W]]] O. destruct shares as [|x [|y r]]; try discriminate. specialize (W 0%nat). cbn in W. subst x. f_equal.
  rewrite O in F. clear O. revert lines L. induction F as [|o os X F IH]; intros [|l ls] L; cbn in *; try discriminate; auto.
  destruct o; [|lia]. cbn. f_equal. apply IH. lia.
Qed.
(** Each line is in just one share, once for each time it is in the file. *)
Lemma owned_perm k : forall owner lines, length owner = length lines -> Forall (fun o => (o < k)%nat) owner ->
  Permutation (concat (map (fun n => owned n owner lines) (seq 0 k))) lines.
Proof.
  induction owner as [|o os IH]; intros [|l ls] L F; cbn in L; try discriminate.
  - replace (concat _) with (@nil bytes); [constructor|]. generalize (seq 0 k). intro q. induction q; cbn; auto.
  - apply Forall_cons_iff in F. destruct F as [Fo F]. specialize (IH ls ltac:(lia) F).
    apply (perm_trans (l' := l :: concat (map (fun n => owned n os ls) (seq 0 k)))); [|constructor; exact IH].
    assert (I : In o (seq 0 k)) by (apply in_seq; lia). pose proof (seq_NoDup k 0) as ND. revert I ND. generalize (seq 0 k). intro q.
    induction q as [|x q IHq]; intros I ND; [destruct I|]. inversion ND as [|? ? Nx ND']; subst. cbn [map concat owned].
    destruct (Nat.eqb_spec o x) as [->|Ne].
    + cbn [app]. constructor. apply Permutation_app_head. match goal with |- Permutation ?A ?B => enough (A = B) as ->; [reflexivity|] end.
      f_equal. apply map_ext_in. intros a Ia. destruct (Nat.eqb_spec x a); [subst; tauto | reflexivity].
    + destruct I as [->|I]; [congruence|]. apply (perm_trans (l' := owned x os ls ++ l :: concat (map (fun n => owned n os ls) q))).
      * apply Permutation_app_head. apply IHq; auto.
      * symmetry. apply Permutation_middle.
Qed.
Lemma shares_perm lines shares : shared_out lines shares -> Permutation (concat shares) lines.
Proof.
  intros [owner [L [F W]]]. rewrite <- (owned_perm (length shares) owner lines L F). replace shares with (map (fun n => nth n shares []) (seq 0 (length shares))) at 1.
  - erewrite map_ext; [reflexivity|]. exact W.
  - clear. induction shares as [|x r IH]; [reflexivity|]. cbn [length seq map nth]. f_equal. rewrite <- seq_shift, map_map. exact IH.
Qed.
Lemma answered_false writes s : finish writes s = Answer false [] -> s_failed s = true.
Proof. unfold finish. destruct (s_failed s); auto. destruct (forallb _ _); discriminate. Qed.
