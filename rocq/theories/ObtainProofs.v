(** Proofs: the cache of decompressed chunks. *)
From Verif Require Import Base Bytes ObtainModel ObtainSpec.

Definition b2n (b : bool) : nat := if b then 1%nat else 0%nat.
Fixpoint cnt (f : user -> bool) (l : list user) : nat :=
  match l with [] => 0%nat | x :: l => (b2n (f x) + cnt f l)%nat end.
Lemma cnt_update f t t' : forall l i, nth_error l i = Some t ->
  (cnt f (update i (fun _ => t') l) + b2n (f t) = cnt f l + b2n (f t'))%nat.
Proof.
  induction l as [|x l IH]; intros [|i] H; try discriminate; cbn [update cnt].
  - injection H as ->. lia.
  - specialize (IH i H). lia.
Qed.
Lemma cnt_two f : forall l i j t u, i <> j -> nth_error l i = Some t -> nth_error l j = Some u -> f t = true -> f u = true -> (2 <= cnt f l)%nat.
Proof.
  assert (One : forall l i t, nth_error l i = Some t -> f t = true -> (1 <= cnt f l)%nat).
  { induction l as [|x l IH]; intros [|i] t H Hf; try discriminate; cbn [cnt]; [injection H as ->; rewrite Hf; cbn; lia|]. specialize (IH i t H Hf). lia. }
  induction l as [|x l IH]; intros [|i] [|j] t u N Hi Hj Ht Hu; try discriminate; [congruence| | |]; cbn [cnt].
  - injection Hi as ->. rewrite Ht. pose proof (One l j u Hj Hu). cbn. lia.
  - injection Hj as ->. rewrite Hu. pose proof (One l i t Hi Ht). cbn. lia.
  - assert (i <> j) by congruence. specialize (IH i j t u H Hi Hj Ht Hu). lia.
Qed.
Lemma nth_update {A} (f : A -> A) : forall l i j, nth_error (update i f l) j = if Nat.eqb i j then option_map f (nth_error l j) else nth_error l j.
Proof.
  induction l as [|x l IH]; intros [|i] [|j]; cbn [update nth_error Nat.eqb]; try reflexivity; [|apply IH].
  destruct (Nat.eqb i j); reflexivity.
Qed.
Lemma length_update {A} (f : A -> A) : forall l i, length (update i f l) = length l.
Proof. induction l as [|x l IH]; intros [|i]; cbn; [reflexivity|reflexivity|reflexivity|]. f_equal. apply IH. Qed.

Section Proofs.
Variable raw : nat -> bytes.
Variable n : nat.

(** Holds the lock. *)
Definition owns (t : user) : bool :=
  match todo t, at_ t with _ :: _, Third _ | _ :: _, Put _ | _ :: _, Publish | _ :: _, Unlock => true | _, _ => false end.
Definition at_ok (es : list entry) (k : nat) (p : phase) : Prop :=
  match p with
  | Out | First | Load => True
  | Second r | Lock r | Third r => r = raw k
  | Put r => r = raw k /\ is_present es k = false
  | Publish => is_present es k = false /\ bytes_of es k = Some (raw k)
  | Unlock | Use => is_present es k = true
  end.
Definition user_ok (b : bool) (es : list entry) (p : list nat) (t : user) : Prop :=
  (exists past, p = past ++ todo t /\ Forall2 (fun k r => r = Some (raw k) \/ (b = true /\ r = None)) past (saw t)) /\
  match todo t with
  | [] => at_ t = Out
  | k :: _ => (k < n)%nat /\ at_ok es k (at_ t)
  end.
Record good (b : bool) (ps : list (list nat)) (s : text) : Prop := {
  go_size : length (entries s) = n;
  go_data : forall k, is_present (entries s) k = true -> bytes_of (entries s) k = Some (raw k);
  go_lock : cnt owns (users s) = b2n (locked s);
  go_users : Forall2 (user_ok b (entries s)) ps (users s) }.

Lemma start_good b ps : Forall (Forall (fun k => (k < n)%nat)) ps -> good b ps (start n ps).
Proof.
  intros Hp. split; cbn [start entries locked users].
  - apply repeat_length.
  - intros k. unfold is_present. destruct (nth_error (repeat (Entry false None) n) k) as [e|] eqn:E; [|discriminate].
    apply nth_error_In, repeat_spec in E. subst e. discriminate.
  - clear Hp. induction ps as [|p ps IH]; [reflexivity|]. cbn [map cnt]. rewrite IH. unfold owns. cbn [todo at_]. destruct p; reflexivity.
  - induction Hp as [|p ps H Hp IH]; cbn [map]; constructor; [|exact IH]. split; [exists []; split; [reflexivity|constructor]|].
    cbn [todo at_]. destruct H as [|k p H1 H2]; [reflexivity|]. split; [exact H1|exact I].
Qed.
Lemma users_change b es es' t' : forall ps us i,
  Forall2 (user_ok b es) ps us ->
  (forall p t, nth_error ps i = Some p -> nth_error us i = Some t -> user_ok b es p t -> user_ok b es' p t') ->
  (forall j p t, j <> i -> nth_error us j = Some t -> user_ok b es p t -> user_ok b es' p t) ->
  Forall2 (user_ok b es') ps (update i (fun _ => t') us).
Proof.
  intros ps us i F. revert i. induction F as [|p t ps us Hp F IH]; intros i H1 H2; [destruct i; constructor|].
  assert (Rest : forall (H : forall j q u, nth_error us j = Some u -> user_ok b es q u -> user_ok b es' q u), Forall2 (user_ok b es') ps us).
  { clear - F. intros H. induction F as [|q u ps us Hq F IH]; constructor; [exact (H O q u eq_refl Hq)|]. apply IH. intros j q0 u0 Hj. exact (H (S j) q0 u0 Hj). }
  destruct i as [|i]; cbn [update]; constructor.
  - exact (H1 p t eq_refl eq_refl Hp).
  - apply Rest. intros j q u Hj. exact (H2 (S j) q u ltac:(congruence) Hj).
  - exact (H2 O p t ltac:(congruence) eq_refl Hp).
  - apply IH; [intros q u; exact (H1 q u)|]. intros j q u N. exact (H2 (S j) q u ltac:(congruence)).
Qed.
Lemma keep_other b s i t k : good b [] s \/ True -> cnt owns (users s) = b2n (locked s) -> nth_error (users s) i = Some t -> owns t = true ->
  forall es', (forall j, is_present (entries s) j = true -> is_present es' j = true) ->
    (forall j, j <> k -> is_present es' j = is_present (entries s) j /\ bytes_of es' j = bytes_of (entries s) j) ->
  forall j p u, j <> i -> nth_error (users s) j = Some u -> user_ok b (entries s) p u -> user_ok b es' p u.
Proof.
  intros _ Hl Hi Ho es' Hm Hk j p u N Hj (Hp & Ha). split; [exact Hp|].
  assert (Hu : owns u = false).
  { destruct (owns u) eqn:E; [|reflexivity]. pose proof (cnt_two owns _ i j t u ltac:(congruence) Hi Hj Ho E) as H2. rewrite Hl in H2. destruct (locked s); cbn in H2; lia. }
  unfold owns in Hu. destruct (todo u) as [|k' r]; [exact Ha|]. destruct Ha as (Hn & Ha). split; [exact Hn|].
  destruct (at_ u); cbn [at_ok] in *; try exact Ha; try discriminate. apply Hm, Ha.
Qed.
Lemma returned_ok b es p t k ks r : todo t = k :: ks -> user_ok b es p t -> r = Some (raw k) \/ (b = true /\ r = None) ->
  Forall (fun k => (k < n)%nat) p -> user_ok b es p (returned r t).
Proof.
  intros Et ((past & Ep & F) & _) Hr Hp. split.
  - exists (past ++ [k]). cbn [returned todo saw]. rewrite Et in *. cbn [tl]. split; [rewrite <- app_assoc; exact Ep|].
    apply Forall2_app; [exact F|]. constructor; [exact Hr|constructor].
  - cbn [returned todo at_]. rewrite Et. cbn [tl]. rewrite Et in Ep. destruct ks as [|k' ks]; [reflexivity|]. split; [|exact I].
    rewrite Ep in Hp. apply Forall_app in Hp as (_ & Hp). inversion_clear Hp as [|? ? _ Hp']. exact (Forall_inv Hp').
Qed.
Lemma present_update (f : entry -> entry) es k j : (k < length es)%nat ->
  is_present (update k f es) j = if Nat.eqb k j then match nth_error es k with Some e => present (f e) | None => false end else is_present es j.
Proof.
  intros H. unfold is_present. rewrite nth_update. destruct (Nat.eqb k j) eqn:E; [|reflexivity]. apply Nat.eqb_eq in E. subst j. destruct (nth_error es k); reflexivity.
Qed.
Lemma bytes_update (f : entry -> entry) es k j : (k < length es)%nat ->
  bytes_of (update k f es) j = if Nat.eqb k j then match nth_error es k with Some e => content (f e) | None => None end else bytes_of es j.
Proof.
  intros H. unfold bytes_of. rewrite nth_update. destruct (Nat.eqb k j) eqn:E; [|reflexivity]. apply Nat.eqb_eq in E. subst j. destruct (nth_error es k); reflexivity.
Qed.

Lemma step_good b ps s a s' : Forall (Forall (fun k => (k < n)%nat)) ps -> (failed a = true -> b = true) ->
  good b ps s -> step raw s a = Some s' -> good b ps s'.
Proof.
  intros Hps Hb [Gs Gd Gl Gu] H. destruct a as [i ok]. cbn [step] in H.
  destruct (nth_error (users s) i) as [t|] eqn:Hi; [|discriminate].
  destruct (local_step raw ok (entries s) (locked s) t) as [[[es l] t']|] eqn:El; [|discriminate]. injection H as <-.
  unfold local_step in El. destruct (todo t) as [|k ks] eqn:Et; [discriminate|].
  pose proof (cnt_update owns t t' _ _ Hi) as C.
  assert (Pin : forall p, nth_error ps i = Some p -> Forall (fun k => (k < n)%nat) p).
  { intros p Hp. apply nth_error_In in Hp. rewrite Forall_forall in Hps. exact (Hps p Hp). }
  (* steps that change no entry *)
  assert (Quiet : es = entries s -> owns t' = owns t \/ (owns t = false /\ owns t' = true /\ locked s = false /\ l = true) \/ (owns t = true /\ owns t' = false /\ l = false) ->
    (owns t' = owns t -> l = locked s) ->
    (forall p, Forall (fun k => (k < n)%nat) p -> user_ok b (entries s) p t -> user_ok b (entries s) p t') -> good b ps (Text es l (update i (fun _ => t') (users s)))).
  { intros -> Ho Hl' Hu. split; cbn [entries locked users]; [exact Gs|exact Gd| |].
    - destruct Ho as [Ho|[(O1 & O2 & O3 & ->)|(O1 & O2 & ->)]].
      + rewrite (Hl' Ho). rewrite Ho in C. lia.
      + rewrite O1, O2 in C. rewrite O3 in Gl. cbn in *. lia.
      + rewrite O1, O2 in C. destruct (locked s); cbn in *; lia.
    - apply (users_change b (entries s)); [exact Gu| |].
      + intros p t0 Hp Hi0 Ht. rewrite Hi in Hi0. injection Hi0 as <-. exact (Hu p (Pin p Hp) Ht).
      + intros j p u _ _ Hu'. exact Hu'. }
  assert (Move : forall ph, t' = goto ph t -> at_ok (entries s) k ph \/ ~ at_ok (entries s) k (at_ t) -> forall p, user_ok b (entries s) p t -> user_ok b (entries s) p t').
  { intros ph -> Hph p (Hp & Ha). split; [exact Hp|]. cbn [goto todo at_]. rewrite Et in *. destruct Ha as (Hn & Ha). split; [exact Hn|]. destruct Hph as [Hph|Hph]; [exact Hph|contradiction]. }
  assert (Own : forall ph, owns (goto ph t) = match ph with Third _ | Put _ | Publish | Unlock => true | _ => false end).
  { intros ph. unfold owns. cbn [goto todo at_]. rewrite Et. reflexivity. }
  assert (OwnT : owns t = match at_ t with Third _ | Put _ | Publish | Unlock => true | _ => false end).
  { unfold owns. rewrite Et. reflexivity. }
  assert (T : exists p, nth_error ps i = Some p /\ user_ok b (entries s) p t).
  { clear - Gu Hi. revert i Hi. induction Gu as [|p x ps us Hp F IH]; intros [|i] E; try discriminate; [injection E as <-; exists p; split; [reflexivity|exact Hp]|exact (IH i E)]. }
  destruct T as (p0 & _ & (Hp0 & Ha0)). rewrite Et in Ha0. destruct Ha0 as (Hk & Ha0).
  assert (OwnR : forall r, owns (returned r t) = false).
  { intros r. unfold owns. cbn [returned todo at_]. destruct (tl (todo t)); reflexivity. }
  destruct (at_ t) as [| | |r|r|r|r| | |] eqn:E; cbn [at_ok] in Ha0.
  - injection El as <- <- <-. apply Quiet; [reflexivity| |reflexivity|].
    + left. rewrite Own, OwnT. reflexivity.
    + intros p _. apply (Move First eq_refl). left. exact I.
  - injection El as <- <- <-. destruct (is_present (entries s) k) eqn:Ep.
    + apply Quiet; [reflexivity| |reflexivity|]; [left; rewrite Own, OwnT; reflexivity|]. intros p _. apply (Move Use eq_refl). left. exact Ep.
    + apply Quiet; [reflexivity| |reflexivity|]; [left; rewrite Own, OwnT; reflexivity|]. intros p _. apply (Move Load eq_refl). left. exact I.
  - injection El as <- <- <-. destruct ok.
    + apply Quiet; [reflexivity| |reflexivity|]; [left; rewrite Own, OwnT; reflexivity|]. intros p _. apply (Move (Second (raw k)) eq_refl). left. reflexivity.
    + apply Quiet; [reflexivity| |reflexivity|]; [left; rewrite OwnR, OwnT; reflexivity|]. intros p Hp Ht. apply (returned_ok b _ p t k ks); [exact Et|exact Ht| |exact Hp].
      right. split; [apply Hb; reflexivity|reflexivity].
  - injection El as <- <- <-. destruct (is_present (entries s) k) eqn:Ep.
    + apply Quiet; [reflexivity| |reflexivity|]; [left; rewrite Own, OwnT; reflexivity|]. intros p _. apply (Move Use eq_refl). left. exact Ep.
    + apply Quiet; [reflexivity| |reflexivity|]; [left; rewrite Own, OwnT; reflexivity|]. intros p _. apply (Move (Lock r) eq_refl). left. exact Ha0.
  - destruct (locked s) eqn:Elk; [discriminate|]. injection El as <- <- <-. apply Quiet; [reflexivity| | |].
    + right. left. rewrite Own, OwnT. auto.
    + rewrite Own, OwnT. discriminate.
    + intros p _. apply (Move (Third r) eq_refl). left. exact Ha0.
  - injection El as <- <- <-. destruct (is_present (entries s) k) eqn:Ep.
    + apply Quiet; [reflexivity| |reflexivity|]; [left; rewrite Own, OwnT; reflexivity|]. intros p _. apply (Move Unlock eq_refl). left. exact Ep.
    + apply Quiet; [reflexivity| |reflexivity|]; [left; rewrite Own, OwnT; reflexivity|]. intros p _. apply (Move (Put r) eq_refl). left. split; [exact Ha0|exact Ep].
  - injection El as <- <- <-. destruct Ha0 as (-> & Ep). assert (Hk' : (k < length (entries s))%nat) by lia.
    assert (Pr : forall j, is_present (update k (fun e => Entry (present e) (Some (raw k))) (entries s)) j = is_present (entries s) j).
    { intros j. rewrite present_update by exact Hk'. destruct (Nat.eqb k j) eqn:Ej; [|reflexivity]. apply Nat.eqb_eq in Ej. subst j. unfold is_present. destruct (nth_error (entries s) k); reflexivity. }
    assert (Bk : bytes_of (update k (fun e => Entry (present e) (Some (raw k))) (entries s)) k = Some (raw k)).
    { rewrite bytes_update, Nat.eqb_refl by exact Hk'. destruct (nth_error (entries s) k) as [e|] eqn:Ee; [reflexivity|]. apply nth_error_None in Ee. lia. }
    assert (Bo : forall j, j <> k -> bytes_of (update k (fun e => Entry (present e) (Some (raw k))) (entries s)) j = bytes_of (entries s) j).
    { intros j Nj. rewrite bytes_update by exact Hk'. destruct (Nat.eqb k j) eqn:Ej; [apply Nat.eqb_eq in Ej; congruence|reflexivity]. }
    split; cbn [entries locked users].
    + rewrite length_update. exact Gs.
    + intros j Hj. rewrite Pr in Hj. destruct (Nat.eq_dec j k) as [->|Nj]; [exact Bk|]. rewrite Bo by exact Nj. exact (Gd j Hj).
    + rewrite Own, OwnT in C. lia.
    + apply (users_change b (entries s)); [exact Gu| |].
      * intros p t0 Hp Hi0 (Hpa & _). rewrite Hi in Hi0. injection Hi0 as <-. split; [exact Hpa|]. cbn [goto todo at_]. rewrite Et. split; [exact Hk|]. cbn [at_ok].
        rewrite Pr. split; [exact Ep|exact Bk].
      * apply (keep_other b s i t k); [right; exact I|exact Gl|exact Hi|exact OwnT| |].
        -- intros j Hj. rewrite Pr. exact Hj.
        -- intros j Nj. split; [apply Pr|apply Bo, Nj].
  - injection El as <- <- <-. destruct Ha0 as (Ep & Eb). assert (Hk' : (k < length (entries s))%nat) by lia.
    assert (Pk : is_present (update k (fun e => Entry true (content e)) (entries s)) k = true).
    { rewrite present_update, Nat.eqb_refl by exact Hk'. destruct (nth_error (entries s) k) as [e|] eqn:Ee; [reflexivity|]. apply nth_error_None in Ee. lia. }
    assert (Po : forall j, j <> k -> is_present (update k (fun e => Entry true (content e)) (entries s)) j = is_present (entries s) j).
    { intros j Nj. rewrite present_update by exact Hk'. destruct (Nat.eqb k j) eqn:Ej; [apply Nat.eqb_eq in Ej; congruence|reflexivity]. }
    assert (Ba : forall j, bytes_of (update k (fun e => Entry true (content e)) (entries s)) j = bytes_of (entries s) j).
    { intros j. rewrite bytes_update by exact Hk'. destruct (Nat.eqb k j) eqn:Ej; [|reflexivity]. apply Nat.eqb_eq in Ej. subst j. unfold bytes_of. destruct (nth_error (entries s) k); reflexivity. }
    split; cbn [entries locked users].
    + rewrite length_update. exact Gs.
    + intros j Hj. rewrite Ba. destruct (Nat.eq_dec j k) as [->|Nj]; [exact Eb|]. rewrite Po in Hj by exact Nj. exact (Gd j Hj).
    + rewrite Own, OwnT in C. lia.
    + apply (users_change b (entries s)); [exact Gu| |].
      * intros p t0 Hp Hi0 (Hpa & _). rewrite Hi in Hi0. injection Hi0 as <-. split; [exact Hpa|]. cbn [goto todo at_]. rewrite Et. split; [exact Hk|]. exact Pk.
      * apply (keep_other b s i t k); [right; exact I|exact Gl|exact Hi|exact OwnT| |].
        -- intros j Hj. destruct (Nat.eq_dec j k) as [->|Nj]; [exact Pk|]. rewrite Po by exact Nj. exact Hj.
        -- intros j Nj. split; [apply Po, Nj|apply Ba].
  - injection El as <- <- <-. apply Quiet; [reflexivity| | |].
    + right. right. rewrite Own, OwnT. auto.
    + rewrite Own, OwnT. discriminate.
    + intros p _. apply (Move Use eq_refl). left. exact Ha0.
  - injection El as <- <- <-. apply Quiet; [reflexivity| |reflexivity|].
    + left. rewrite OwnR, OwnT. reflexivity.
    + intros p Hp Ht. apply (returned_ok b _ p t k ks); [exact Et|exact Ht| |exact Hp]. left. apply Gd, Ha0.
Qed.
Lemma run_good b ps l : Forall (Forall (fun k => (k < n)%nat)) ps -> forall s s', (existsb failed l = true -> b = true) -> good b ps s -> run raw s l = Some s' -> good b ps s'.
Proof.
  intros Hps. induction l as [|a l IH]; intros s s' Hb G; cbn [run]; [intros [= <-]; exact G|].
  destruct (step raw s a) as [s1|] eqn:E; [|discriminate]. cbn [existsb] in Hb. apply IH.
  - intros H. apply Hb. rewrite H. apply orb_true_r.
  - apply (step_good b ps s a s1 Hps); [intros H; apply Hb; rewrite H; reflexivity|exact G|exact E].
Qed.
Lemma Forall2_nth {A B} (R : A -> B -> Prop) l m i x : Forall2 R l m -> nth_error l i = Some x -> exists y, nth_error m i = Some y /\ R x y.
Proof.
  intros F. revert i. induction F as [|a b l m H F IH]; intros [|i] E; try discriminate.
  - injection E as <-. exists b. split; [reflexivity|exact H].
  - exact (IH i E).
Qed.
Lemma Forall2_nth_r {A B} (R : A -> B -> Prop) l m i y : Forall2 R l m -> nth_error m i = Some y -> exists x, nth_error l i = Some x /\ R x y.
Proof.
  intros F. revert i. induction F as [|a b l m H F IH]; intros [|i] E; try discriminate.
  - injection E as <-. exists a. split; [reflexivity|exact H].
  - exact (IH i E).
Qed.
Theorem obtain_results ps l s i p : Forall (Forall (fun k => (k < n)%nat)) ps -> run raw (start n ps) l = Some s -> nth_error ps i = Some p ->
  exists t past, nth_error (users s) i = Some t /\ p = past ++ todo t /\
    Forall2 (fun k r => r = None \/ r = Some (raw k)) past (saw t) /\
    (existsb failed l = false -> saw t = map (fun k => Some (raw k)) past).
Proof.
  intros Hps H Hp. pose proof (run_good (existsb failed l) ps l Hps _ _ (fun h => h) (start_good _ ps Hps) H) as [_ _ _ Gu].
  destruct (Forall2_nth _ _ _ _ _ Gu Hp) as (t & Ht & (past & Ep & F) & _). exists t, past. split; [exact Ht|]. split; [exact Ep|]. split.
  - clear - F. induction F as [|k r past rs Hq F IH]; constructor; [|exact IH]. destruct Hq as [->|(_ & ->)]; [right|left]; reflexivity.
  - intros Hb. rewrite Hb in F. clear - F. induction F as [|k r past rs Hq F IH]; [reflexivity|]. cbn [map]. rewrite IH. f_equal.
    destruct Hq as [->|(X & _)]; [reflexivity|discriminate].
Qed.
Theorem obtain_no_race ps l s : Forall (Forall (fun k => (k < n)%nat)) ps -> run raw (start n ps) l = Some s -> ~ race s.
Proof.
  intros Hps H (i & j & t & u & k & a & b & N & Hi & Hj & Ta & Tb & Hab).
  pose proof (run_good true ps l Hps _ _ (fun _ => eq_refl) (start_good _ ps Hps) H) as [_ _ Gl Gu].
  assert (K : forall i j t u b, i <> j -> nth_error (users s) i = Some t -> nth_error (users s) j = Some u -> touches t = Some (k, true) -> touches u = Some (k, b) -> False).
  { clear - Gl Gu. intros i j t u b N Hi Hj Ta Tb. unfold touches in Ta, Tb.
    destruct (todo t) as [|k1 r1] eqn:E1; [discriminate|]. destruct (at_ t) eqn:A1; try discriminate. injection Ta as ->.
    destruct (todo u) as [|k2 r2] eqn:E2; [discriminate|].
    destruct (Forall2_nth_r _ _ _ _ _ Gu Hi) as (p1 & _ & _ & K1). rewrite E1, A1 in K1. destruct K1 as (_ & _ & K1).
    assert (Ot : owns t = true) by (unfold owns; rewrite E1, A1; reflexivity).
    destruct (at_ u) eqn:A2; try discriminate; injection Tb as -> <-.
    - assert (Ou : owns u = true) by (unfold owns; rewrite E2, A2; reflexivity).
      pose proof (cnt_two owns _ i j t u N Hi Hj Ot Ou) as C. rewrite Gl in C. destruct (locked s); cbn in C; lia.
    - destruct (Forall2_nth_r _ _ _ _ _ Gu Hj) as (p2 & _ & _ & K2). rewrite E2, A2 in K2. destruct K2 as (_ & K2). cbn in K2. congruence. }
  destruct a; [exact (K i j t u b N Hi Hj Ta Tb)|]. destruct b; [|discriminate]. exact (K j i u t false ltac:(congruence) Hj Hi Tb Ta).
Qed.
Theorem obtain_goes ps l s t : Forall (Forall (fun k => (k < n)%nat)) ps -> run raw (start n ps) l = Some s -> In t (users s) -> finished t = false ->
  exists a s', step raw s a = Some s'.
Proof.
  intros Hps H Hi Hf. pose proof (run_good true ps l Hps _ _ (fun _ => eq_refl) (start_good _ ps Hps) H) as [_ _ Gl Gu].
  apply In_nth_error in Hi as (i & Hi).
  assert (Go : forall j u, nth_error (users s) j = Some u -> todo u <> [] -> (locked s = true -> owns u = true) -> exists a s', step raw s a = Some s').
  { intros j u Hj Hu Ho. exists (Run j true). cbn [step]. rewrite Hj. unfold local_step. unfold owns in Ho. destruct (todo u) as [|k ks]; [congruence|].
    destruct (at_ u); try (eexists; reflexivity). destruct (locked s); [specialize (Ho eq_refl); discriminate|]. eexists; reflexivity. }
  destruct (locked s) eqn:El.
  - assert (K : exists j u, nth_error (users s) j = Some u /\ owns u = true).
    { clear - Gl. induction (users s) as [|x us IH]; cbn [cnt] in Gl; [discriminate|]. destruct (owns x) eqn:E; [exists O, x; auto|].
      destruct (IH Gl) as (j & u & Hj & Ho). exists (S j), u. auto. }
    destruct K as (j & u & Hj & Ho). apply (Go j u Hj); [|intros _; exact Ho]. unfold owns in Ho. intros E. rewrite E in Ho. discriminate.
  - apply (Go i t Hi); [|discriminate]. unfold finished in Hf. intros E. rewrite E in Hf. discriminate.
Qed.
(** Every obtain takes at most ten steps. *)
Definition left_of (p : phase) : nat :=
  match p with Out => 10 | First => 9 | Load => 8 | Second _ => 7 | Lock _ => 6 | Third _ => 5 | Put _ => 4 | Publish => 3 | Unlock => 2 | Use => 1 end%nat.
Definition weight (t : user) : nat := match todo t with [] => 0 | _ :: r => left_of (at_ t) + 10 * length r end%nat.
Fixpoint weights (l : list user) : nat := match l with [] => O | t :: l => (weight t + weights l)%nat end.
Lemma weights_update t t' : forall l i, nth_error l i = Some t -> (weights (update i (fun _ => t') l) + weight t = weights l + weight t')%nat.
Proof.
  induction l as [|x l IH]; intros [|i] H; try discriminate; cbn [update weights].
  - injection H as ->. lia.
  - specialize (IH i H). lia.
Qed.
Lemma returned_weight r t k ks : todo t = k :: ks -> weight (returned r t) = (10 * length ks)%nat.
Proof. intros E. unfold weight. cbn [returned todo at_]. rewrite E. cbn [tl]. destruct ks; cbn [length left_of]; lia. Qed.
Lemma step_weight s a s' : step raw s a = Some s' -> (weights (users s') + 1 <= weights (users s))%nat.
Proof.
  destruct a as [i ok]. cbn [step]. destruct (nth_error (users s) i) as [t|] eqn:Hi; [|discriminate].
  destruct (local_step raw ok (entries s) (locked s) t) as [[[es l] t']|] eqn:El; [|discriminate]. intros [= <-]. cbn [users].
  pose proof (weights_update t t' _ _ Hi) as W. enough (weight t' + 1 <= weight t)%nat by lia. clear W.
  unfold local_step in El. destruct (todo t) as [|k ks] eqn:Et; [discriminate|].
  assert (G : forall p, weight (goto p t) = (left_of p + 10 * length ks)%nat) by (intros p; unfold weight; cbn [goto todo at_]; rewrite Et; reflexivity).
  assert (Wt : weight t = (left_of (at_ t) + 10 * length ks)%nat) by (unfold weight; rewrite Et; reflexivity).
  rewrite Wt. clear Wt. destruct (at_ t) as [| | |r|r|r|r| | |]; cbn [left_of].
  - injection El as <- <- <-. rewrite G. cbn [left_of]. lia.
  - injection El as <- <- <-. rewrite G. destruct (is_present _ _); cbn [left_of]; lia.
  - injection El as <- <- <-. destruct ok; [rewrite G; cbn [left_of]; lia|]. rewrite (returned_weight _ _ _ _ Et). lia.
  - injection El as <- <- <-. rewrite G. destruct (is_present _ _); cbn [left_of]; lia.
  - destruct (locked s); [discriminate|]. injection El as <- <- <-. rewrite G. cbn [left_of]. lia.
  - injection El as <- <- <-. rewrite G. destruct (is_present _ _); cbn [left_of]; lia.
  - injection El as <- <- <-. rewrite G. cbn [left_of]. lia.
  - injection El as <- <- <-. rewrite G. cbn [left_of]. lia.
  - injection El as <- <- <-. rewrite G. cbn [left_of]. lia.
  - injection El as <- <- <-. rewrite (returned_weight _ _ _ _ Et). lia.
Qed.
Theorem obtain_bounded ps l s : run raw (start n ps) l = Some s -> (length l <= 10 * list_sum (map (@length nat) ps))%nat.
Proof.
  intros H. assert (K : forall s s', run raw s l = Some s' -> (length l + weights (users s') <= weights (users s))%nat).
  { clear - n. induction l as [|a l IH]; intros s s'; cbn [run length]; [intros [= <-]; lia|].
    destruct (step raw s a) as [s1|] eqn:E; [|discriminate]. intros H. specialize (IH _ _ H). pose proof (step_weight _ _ _ E). lia. }
  specialize (K _ _ H). enough (weights (users (start n ps)) = 10 * list_sum (map (@length nat) ps))%nat by lia.
  cbn [start users]. clear. induction ps as [|p ps IH]; [reflexivity|]. cbn [map weights]. rewrite IH.
  change (list_sum (length p :: map (@length nat) ps)) with (length p + list_sum (map (@length nat) ps))%nat.
  unfold weight. cbn [todo at_ left_of]. destruct p; cbn [length]; lia.
Qed.
End Proofs.
