(** Proofs: the gate that limits readers. *)
From Verif Require Import Base HopperModel ArrayDefs Bytes CodecModel PostingModel GateModel GateSpec.

Definition b2n (b : bool) : nat := if b then 1%nat else 0%nat.
Fixpoint cnt (f : reader -> bool) (l : list reader) : nat :=
  match l with [] => 0%nat | x :: l => (b2n (f x) + cnt f l)%nat end.
Lemma cnt_filter f l : cnt f l = length (filter f l).
Proof. induction l as [|x l IH]; cbn [cnt filter]; [reflexivity|]. rewrite IH. destruct (f x); reflexivity. Qed.
Lemma cnt_update f t t' : forall l i, nth_error l i = Some t ->
  (cnt f (update i (fun _ => t') l) + b2n (f t) = cnt f l + b2n (f t'))%nat.
Proof.
  induction l as [|x l IH]; intros [|i] H; try discriminate; cbn [update cnt].
  - injection H as ->. lia.
  - specialize (IH i H). lia.
Qed.
Lemma cnt_pos f l : (0 < cnt f l)%nat -> exists i t, nth_error l i = Some t /\ f t = true.
Proof.
  induction l as [|x l IH]; cbn [cnt]; [lia|]. destruct (f x) eqn:E; intros H.
  - exists O, x. split; [reflexivity|exact E].
  - destruct (IH H) as (i & t & Hn & Hf). exists (S i), t. split; assumption.
Qed.
Lemma cnt_in f l i t : nth_error l i = Some t -> f t = true -> (0 < cnt f l)%nat.
Proof.
  revert i. induction l as [|x l IH]; intros [|i] H Hf; try discriminate; cbn [cnt].
  - injection H as ->. rewrite Hf. cbn. lia.
  - specialize (IH i H Hf). lia.
Qed.
Lemma existsb_cnt f l : existsb f l = false -> cnt f l = 0%nat.
Proof. induction l as [|x l IH]; cbn [existsb cnt]; [reflexivity|]. destruct (f x); [discriminate|]. intros H. cbn. apply IH, H. Qed.
Lemma update_const f i : forall l t, nth_error l i = Some t -> update i f l = update i (fun _ => f t) l.
Proof.
  induction i as [|i IH]; intros [|x l] t H; try discriminate; cbn [update].
  - injection H as ->. reflexivity.
  - f_equal. exact (IH l t H).
Qed.
Lemma update_other t' : forall l i j, i <> j -> nth_error (update i (fun _ => t') l) j = nth_error l j.
Proof. induction l as [|x l IH]; intros [|i] [|j] N; try reflexivity; [congruence|]. cbn. apply IH. congruence. Qed.
Lemma update_same t' : forall l i t, nth_error l i = Some t -> nth_error (update i (fun _ => t') l) i = Some t'.
Proof. induction l as [|x l IH]; intros [|i] t H; try discriminate; [reflexivity|]. exact (IH i t H). Qed.
Lemma wake_iff l j l' : wake l j = Some l' -> exists t, nth_error l j = Some t /\ is_asleep t = true /\ l' = update j (fun _ => with_phase Enter t) l.
Proof.
  unfold wake. destruct (nth_error l j) as [t|] eqn:E; [|discriminate]. destruct (is_asleep t) eqn:Ea; [|discriminate].
  intros [= <-]. exists t. split; [reflexivity|]. split; [exact Ea|]. exact (update_const _ _ _ _ E).
Qed.

Definition looks (t : reader) : bool := match at_ t with Looking => true | _ => false end.
Definition enters (t : reader) : bool := match at_ t with Enter => true | _ => false end.
Definition owns (t : reader) : bool := match at_ t with Looking | Raising _ => true | _ => false end.
Definition tells (t : reader) : bool := match at_ t with Notifying _ => true | _ => false end.

Section Proofs.
Variable file : bytes.

Record orderly (n : nat) (s : gate) : Prop := {
  or_permits : (available s + cnt permitted (readers s) = n)%nat;
  or_mutex : cnt owns (readers s) = b2n (locked s);
  or_wake : (0 < cnt is_asleep (readers s))%nat ->
    (available s <= cnt tells (readers s) + cnt enters (readers s) + cnt looks (readers s))%nat }.

Lemma start_orderly n ps : orderly n (start n ps).
Proof.
  assert (Z0 : forall f : reader -> bool, (forall p, f (Reader p [] Outside) = false) ->
     cnt f (map (fun p => Reader p [] Outside) ps) = 0%nat).
  { intros f Hf. induction ps as [|p ps IH]; cbn [map cnt]; [reflexivity|]. rewrite Hf, IH. reflexivity. }
  split; cbn [start available locked readers].
  - rewrite Z0 by reflexivity. lia.
  - rewrite Z0 by reflexivity. reflexivity.
  - rewrite Z0 by reflexivity. lia.
Qed.
Ltac counts Hn t' :=
  pose proof (cnt_update permitted _ t' _ _ Hn); pose proof (cnt_update owns _ t' _ _ Hn); pose proof (cnt_update is_asleep _ t' _ _ Hn);
  pose proof (cnt_update tells _ t' _ _ Hn); pose proof (cnt_update enters _ t' _ _ Hn); pose proof (cnt_update looks _ t' _ _ Hn).
Ltac reckon E := unfold permitted, owns, is_asleep, tells, enters, looks in *; cbn [at_ with_phase returned] in *; rewrite ?E in *; cbn [b2n] in *.
Lemma wake_counts l j l' : wake l j = Some l' ->
  (cnt permitted l' = cnt permitted l /\ cnt owns l' = cnt owns l /\ cnt is_asleep l' + 1 = cnt is_asleep l /\
   cnt tells l' = cnt tells l /\ cnt enters l' = cnt enters l + 1 /\ cnt looks l' = cnt looks l)%nat.
Proof.
  intros H. apply wake_iff in H as (t & Hn & Ha & ->). unfold is_asleep in Ha. destruct (at_ t) eqn:E; try discriminate.
  counts Hn (with_phase Enter t). reckon E. lia.
Qed.
Lemma step_orderly n s a s' : orderly n s -> step file s a = Some s' -> orderly n s'.
Proof.
  intros [P M W] H. destruct a as [i|i r|i j|j]; cbn [step] in H.
  - destruct (nth_error (readers s) i) as [t|] eqn:Hn; [|discriminate].
    unfold local_step in H. destruct (at_ t) as [| | | |d|r|r|r] eqn:E; try discriminate.
    + destruct (todo t) as [|[o m] rs] eqn:Et; [discriminate|]. injection H as <-.
      destruct ((o <? 0) || (m <? 0)).
      * counts Hn (returned None t). split; cbn [available locked readers]; reckon E; lia.
      * counts Hn (with_phase Enter t). split; cbn [available locked readers]; reckon E; lia.
    + destruct (locked s) eqn:El; [discriminate|]. injection H as <-. counts Hn (with_phase Looking t).
      split; cbn [available locked readers]; reckon E; lia.
    + pose proof (cnt_in owns _ _ _ Hn) as Ho. unfold owns at 1 in Ho. rewrite E in Ho. specialize (Ho eq_refl).
      assert (El : locked s = true) by (destruct (locked s); [reflexivity|cbn in M; lia]). rewrite El in M.
      destruct (available s) as [|a] eqn:Ea; injection H as <-.
      * counts Hn (with_phase Asleep t). split; cbn [available locked readers]; reckon E; lia.
      * counts Hn (with_phase (Reading []) t). split; cbn [available locked readers]; reckon E; lia.
    + destruct (todo t) as [|[o m] rs] eqn:Et; [discriminate|]. destruct (len d <? m); [discriminate|]. injection H as <-.
      counts Hn (with_phase (Leave (Some d)) t). split; cbn [available locked readers]; reckon E; lia.
    + destruct (locked s) eqn:El; [discriminate|]. injection H as <-. counts Hn (with_phase (Raising r) t).
      split; cbn [available locked readers]; reckon E; lia.
    + pose proof (cnt_in owns _ _ _ Hn) as Ho. unfold owns at 1 in Ho. rewrite E in Ho. specialize (Ho eq_refl).
      assert (El : locked s = true) by (destruct (locked s); [reflexivity|cbn in M; lia]). rewrite El in M.
      injection H as <-. counts Hn (with_phase (Notifying r) t). split; cbn [available locked readers]; reckon E; lia.
  - destruct (nth_error (readers s) i) as [t|] eqn:Hn; [|discriminate].
    unfold pread_step in H. destruct (at_ t) as [| | | |d| | |] eqn:E; try discriminate.
    destruct (todo t) as [|[o m] rs] eqn:Et; [discriminate|]. destruct (len d <? m); [|discriminate].
    assert (K : forall t', (match at_ t' with Reading _ | Leave _ => True | _ => False end) ->
       orderly n (Gate (available s) (locked s) (update i (fun _ => t') (readers s)))).
    { intros t' Ht. counts Hn t'. split; cbn [available locked readers]; reckon E; destruct (at_ t'); try contradiction; cbn [b2n] in *; lia. }
    destruct r as [| |k].
    + injection H as <-. apply K. rewrite E. exact I.
    + injection H as <-. apply K. exact I.
    + destruct (k =? 0).
      * destruct (len file <=? o + len d); [|discriminate]. injection H as <-. apply K. exact I.
      * destruct (_ && _); [|discriminate]. injection H as <-. apply K. exact I.
  - destruct (nth_error (readers s) i) as [t|] eqn:Hn; [|discriminate].
    destruct (at_ t) as [| | | | | | |r] eqn:E; try discriminate. counts Hn (returned r t).
    destruct j as [j|].
    + destruct (wake _ j) as [l'|] eqn:Ew; [|discriminate]. injection H as <-. apply wake_counts in Ew.
      split; cbn [available locked readers]; reckon E; lia.
    + destruct (existsb is_asleep _) eqn:Ee; [discriminate|]. injection H as <-. apply existsb_cnt in Ee.
      split; cbn [available locked readers]; reckon E; lia.
  - destruct (wake _ j) as [l'|] eqn:Ew; [|discriminate]. injection H as <-. apply wake_counts in Ew.
    split; cbn [available locked readers]; lia.
Qed.
Lemma run_orderly n l : forall s s', orderly n s -> run file s l = Some s' -> orderly n s'.
Proof.
  induction l as [|a l IH]; intros s s' O; cbn [run]; [intros [= <-]; exact O|].
  destruct (step file s a) as [s1|] eqn:E; [|discriminate]. apply IH. exact (step_orderly _ _ _ _ O E).
Qed.
Theorem gate_limit n ps l s : run file (start n ps) l = Some s -> (inside s <= n)%nat.
Proof.
  intros H. pose proof (or_permits _ _ (run_orderly n l _ _ (start_orderly n ps) H)) as P.
  unfold inside. rewrite <- cnt_filter. lia.
Qed.

(** * What the reads return *)
Definition result_ok (b : bool) (q : Z * Z) (r : option bytes) : Prop :=
  r = part file (fst q) (snd q) \/ (b = true /\ r = None).
Definition phase_ok (b : bool) (t : reader) : Prop :=
  match at_ t with
  | Outside => True
  | _ => exists o n rs, todo t = (o, n) :: rs /\ 0 <= o /\ 0 <= n /\
      match at_ t with
      | Reading d => len d <= n /\ (d = [] \/ o + len d <= len file) /\ d = slice file o (len d)
      | Leave r | Raising r | Notifying r => result_ok b (o, n) r
      | _ => True
      end
  end.
Definition reader_ok (b : bool) (p : list (Z * Z)) (t : reader) : Prop :=
  (exists past, p = past ++ todo t /\ Forall2 (result_ok b) past (results t)) /\ phase_ok b t.

Lemma len_skipn (b : bytes) o : 0 <= o <= len b -> len (skipn (Z.to_nat o) b) = len b - o.
Proof. intros H. unfold len in *. rewrite skipn_length. lia. Qed.
Lemma len_slice (b : bytes) o n : 0 <= o -> 0 <= n -> o + n <= len b -> len (slice b o n) = n.
Proof. intros Ho Hn H. unfold slice, len in *. rewrite firstn_length, skipn_length. lia. Qed.
Lemma firstn_plus {A} (a b : nat) (l : list A) : firstn (a + b) l = firstn a l ++ firstn b (skipn a l).
Proof. revert l. induction a as [|a IH]; intros [|x l]; cbn; [reflexivity|reflexivity|destruct b; reflexivity|]. f_equal. apply IH. Qed.
Lemma skipn_plus {A} (a b : nat) (l : list A) : skipn a (skipn b l) = skipn (b + a) l.
Proof. revert l. induction b as [|b IH]; intros [|x l]; cbn; [reflexivity|reflexivity|destruct a; reflexivity|]. apply IH. Qed.
Lemma slice_more (b : bytes) o n m : 0 <= o -> 0 <= n -> 0 <= m -> slice b o n ++ slice b (o + n) m = slice b o (n + m).
Proof.
  intros Ho Hn Hm. unfold slice. rewrite (Z2Nat.inj_add n m), (Z2Nat.inj_add o n) by lia.
  rewrite firstn_plus, skipn_plus. reflexivity.
Qed.

Lemma start_readers n b ps : Forall2 (reader_ok b) ps (readers (start n ps)).
Proof.
  cbn [start readers]. induction ps as [|p ps IH]; cbn [map]; constructor; [|exact IH].
  split; [|exact I]. exists []. split; [reflexivity|constructor].
Qed.
Lemma readers_update b t' ps : forall l i, Forall2 (reader_ok b) ps l ->
  (forall p t, nth_error ps i = Some p -> nth_error l i = Some t -> reader_ok b p t -> reader_ok b p t') ->
  Forall2 (reader_ok b) ps (update i (fun _ => t') l).
Proof.
  intros l i F. revert i. induction F as [|p t ps l Hp F IH]; intros i H; [destruct i; constructor|].
  destruct i as [|i]; cbn [update]; constructor.
  - exact (H p t eq_refl eq_refl Hp).
  - exact F.
  - exact Hp.
  - apply IH. intros p' t0. exact (H p' t0).
Qed.
Lemma returned_ok b p t r : (exists past, p = past ++ todo t /\ Forall2 (result_ok b) past (results t)) ->
  (exists q rs, todo t = q :: rs /\ result_ok b q r) -> reader_ok b p (returned r t).
Proof.
  intros (past & -> & F) (q & rs & E & R). split; [|exact I]. exists (past ++ [q]). cbn [returned todo results]. rewrite E. cbn [tl].
  split; [rewrite <- app_assoc; reflexivity|]. apply Forall2_app; [exact F|]. constructor; [exact R|constructor].
Qed.
Lemma step_readers b s a s' ps : (disk_error a = true -> b = true) -> Forall2 (reader_ok b) ps (readers s) -> step file s a = Some s' ->
  Forall2 (reader_ok b) ps (readers s').
Proof.
  intros Hb F H.
  assert (Wk : forall l j l', Forall2 (reader_ok b) ps l -> wake l j = Some l' -> Forall2 (reader_ok b) ps l').
  { intros l j l' Fl Hw. apply wake_iff in Hw as (t & Hn & Ha & ->). apply readers_update; [exact Fl|].
    intros p t0 _ Hn0 (Hp & Ph). rewrite Hn in Hn0. injection Hn0 as <-. split; [exact Hp|].
    unfold is_asleep in Ha. unfold phase_ok in *. cbn [with_phase at_ todo]. destruct (at_ t); try discriminate.
    destruct Ph as (o & n & rs & E & Ho & Hl & _). exists o, n, rs. auto. }
  destruct a as [i|i r|i j|j]; cbn [step] in H.
  - destruct (nth_error (readers s) i) as [t|] eqn:Hn; [|discriminate].
    destruct (local_step _ _ t) as [[[a l] t']|] eqn:El; [|discriminate]. injection H as <-. cbn [readers].
    apply readers_update; [exact F|]. intros p t0 _ Hn0 (Hp & Ph). rewrite Hn in Hn0. injection Hn0 as <-.
    unfold local_step in El. unfold phase_ok in Ph. destruct (at_ t) as [| | | |d|r|r|r] eqn:E; try discriminate.
    + destruct (todo t) as [|[o m] rs] eqn:Et; [discriminate|]. injection El as <- <- <-.
      destruct ((o <? 0) || (m <? 0)) eqn:En.
      * apply returned_ok; [rewrite Et; exact Hp|]. exists (o, m), rs. split; [exact Et|]. left. unfold part. cbn [fst snd]. rewrite En. reflexivity.
      * split; [cbn [with_phase todo results]; rewrite Et; exact Hp|]. unfold phase_ok. cbn [with_phase at_ todo]. exists o, m, rs.
        apply orb_false_elim in En. split; [exact Et|]. lia.
    + destruct (locked s); [discriminate|]. injection El as <- <- <-. split; [exact Hp|]. exact Ph.
    + destruct Ph as (o & m & rs & Et & Ho & Hm & _). destruct (available s); injection El as <- <- <-; (split; [exact Hp|]);
        unfold phase_ok; cbn [with_phase at_ todo]; exists o, m, rs; (split; [exact Et|]); (split; [exact Ho|]); (split; [exact Hm|]); [exact I|].
      split; [exact Hm|]. split; [left; reflexivity|]. reflexivity.
    + destruct Ph as (o & m & rs & Et & Ho & Hm & Hd1 & Hd2 & Hd3). rewrite Et in El. destruct (len d <? m) eqn:El2; [discriminate|]. injection El as <- <- <-.
      split; [exact Hp|]. unfold phase_ok. cbn [with_phase at_ todo]. exists o, m, rs. split; [exact Et|]. split; [exact Ho|]. split; [exact Hm|].
      assert (Em : len d = m) by lia. left. unfold part. cbn [fst snd].
      replace ((o <? 0) || (m <? 0)) with false by (symmetry; apply orb_false_intro; lia).
      destruct (Z.eqb_spec m 0) as [E0|N0].
      * rewrite Em, E0 in Hd3. rewrite Hd3. reflexivity.
      * destruct Hd2 as [->|Hd2]; [unfold len in Em; cbn in Em; lia|]. replace (len file <? o + m) with false by lia. rewrite Em in Hd3. rewrite <- Hd3. reflexivity.
    + destruct (locked s); [discriminate|]. injection El as <- <- <-. split; [exact Hp|]. exact Ph.
    + injection El as <- <- <-. split; [exact Hp|]. exact Ph.
  - destruct (nth_error (readers s) i) as [t|] eqn:Hn; [|discriminate].
    destruct (pread_step file r t) as [t'|] eqn:El; [|discriminate]. injection H as <-. cbn [readers].
    apply readers_update; [exact F|]. intros p t0 _ Hn0 (Hp & Ph). rewrite Hn in Hn0. injection Hn0 as <-.
    unfold pread_step in El. pose proof Ph as Ph0. unfold phase_ok in Ph. destruct (at_ t) as [| | | |d| | |] eqn:E; try discriminate.
    destruct Ph as (o & m & rs & Et & Ho & Hm & Hd1 & Hd2 & Hd3). rewrite Et in El. destruct (len d <? m) eqn:El2; [|discriminate].
    assert (Hl : 0 <= len d) by (unfold len; lia).
    destruct r as [| |k].
    + injection El as <-. split; [exact Hp|exact Ph0].
    + injection El as <-. split; [exact Hp|]. unfold phase_ok. cbn [with_phase at_ todo]. exists o, m, rs. split; [exact Et|]. split; [exact Ho|]. split; [exact Hm|].
      right. split; [apply Hb; reflexivity|reflexivity].
    + destruct (k =? 0) eqn:Ek.
      * destruct (len file <=? o + len d) eqn:Ef; [|discriminate]. injection El as <-.
        split; [exact Hp|]. unfold phase_ok. cbn [with_phase at_ todo]. exists o, m, rs. split; [exact Et|]. split; [exact Ho|]. split; [exact Hm|].
        left. unfold part. cbn [fst snd]. replace ((o <? 0) || (m <? 0)) with false by (symmetry; apply orb_false_intro; lia).
        replace (m =? 0) with false by lia. replace (len file <? o + m) with true by lia. reflexivity.
      * destruct ((0 <? k) && (k <=? m - len d) && (o + len d + k <=? len file)) eqn:Ec; [|discriminate]. injection El as <-.
        split; [exact Hp|]. unfold phase_ok. cbn [with_phase at_ todo]. exists o, m, rs. split; [exact Et|]. split; [exact Ho|]. split; [exact Hm|].
        assert (Es : d ++ slice file (o + len d) k = slice file o (len d + k)) by (rewrite <- slice_more by lia; rewrite <- Hd3; reflexivity).
        assert (Eln : len (slice file o (len d + k)) = len d + k) by (apply len_slice; lia).
        rewrite Es, Eln. split; [lia|]. split; [right; lia|reflexivity].
  - destruct (nth_error (readers s) i) as [t|] eqn:Hn; [|discriminate].
    destruct (at_ t) as [| | | | | | |r] eqn:E; try discriminate.
    assert (F1 : Forall2 (reader_ok b) ps (update i (fun _ => returned r t) (readers s))).
    { apply readers_update; [exact F|]. intros p t0 _ Hn0 (Hp & Ph). rewrite Hn in Hn0. injection Hn0 as <-.
      unfold phase_ok in Ph. rewrite E in Ph. destruct Ph as (o & m & rs & Et & _ & _ & R). apply returned_ok; [exact Hp|]. exists (o, m), rs. auto. }
    destruct j as [j|].
    + destruct (wake _ j) as [l'|] eqn:Ew; [|discriminate]. injection H as <-. exact (Wk _ _ _ F1 Ew).
    + destruct (existsb _ _); [discriminate|]. injection H as <-. exact F1.
  - destruct (wake _ j) as [l'|] eqn:Ew; [|discriminate]. injection H as <-. exact (Wk _ _ _ F Ew).
Qed.
Lemma run_readers b l : forall s s' ps, (existsb disk_error l = true -> b = true) -> Forall2 (reader_ok b) ps (readers s) -> run file s l = Some s' ->
  Forall2 (reader_ok b) ps (readers s').
Proof.
  induction l as [|a l IH]; intros s s' ps Hb F; cbn [run]; [intros [= <-]; exact F|].
  destruct (step file s a) as [s1|] eqn:E; [|discriminate]. cbn [existsb] in Hb.
  apply IH; [intros H; apply Hb; rewrite H; apply orb_true_r|].
  apply (step_readers b s a s1); [intros H; apply Hb; rewrite H; reflexivity|exact F|exact E].
Qed.
Lemma Forall2_nth {A B} (R : A -> B -> Prop) l m i x : Forall2 R l m -> nth_error l i = Some x -> exists y, nth_error m i = Some y /\ R x y.
Proof.
  intros F. revert i. induction F as [|a b l m H F IH]; intros [|i] E; try discriminate.
  - injection E as <-. exists b. split; [reflexivity|exact H].
  - exact (IH i E).
Qed.
Theorem gate_results n ps l s i p : run file (start n ps) l = Some s -> nth_error ps i = Some p ->
  exists t past, nth_error (readers s) i = Some t /\ p = past ++ todo t /\
    Forall2 (fun q r => r = None \/ r = part file (fst q) (snd q)) past (results t) /\
    (existsb disk_error l = false -> results t = map (fun q => part file (fst q) (snd q)) past).
Proof.
  intros H Hp.
  destruct (Forall2_nth _ _ _ _ _ (run_readers (existsb disk_error l) l _ _ ps (fun h => h) (start_readers n _ ps) H) Hp) as (t & Ht & (past & Ep & F) & _).
  exists t, past. split; [exact Ht|]. split; [exact Ep|]. split.
  - clear - F. induction F as [|q r past rs Hq F IH]; constructor; [|exact IH]. destruct Hq as [->|(_ & ->)]; [right|left]; reflexivity.
  - intros Hb. rewrite Hb in F. clear - F. induction F as [|q r past rs Hq F IH]; [reflexivity|]. cbn [map]. rewrite IH. f_equal.
    destruct Hq as [->|(X & _)]; [reflexivity|discriminate].
Qed.

(** * Nobody is stuck *)
Lemma phase_goes b n s ps i t : orderly n s -> Forall2 (reader_ok b) ps (readers s) -> nth_error (readers s) i = Some t ->
  finished t = false -> locked s = false -> is_asleep t = false -> exists a s', outside_turn a = false /\ step file s a = Some s'.
Proof.
  intros O F Hn Hf Hl Ha.
  assert (K : exists p, reader_ok b p t).
  { clear - F Hn. revert i Hn. induction F as [|p x ps l Hp F IH]; intros [|i] E; try discriminate; [injection E as <-; exists p; exact Hp|exact (IH i E)]. }
  destruct K as (p & _ & Ph). unfold phase_ok in Ph. unfold finished in Hf. unfold is_asleep in Ha.
  destruct (at_ t) as [| | | |d|r|r|r] eqn:E; try discriminate.
  - destruct (todo t) as [|[o m] rs] eqn:Et; [discriminate|].
    exists (Run i). cbn [step]. rewrite Hn. unfold local_step. rewrite E, Et. eexists. split; reflexivity.
  - exists (Run i). cbn [step]. rewrite Hn. unfold local_step. rewrite E, Hl. eexists. split; reflexivity.
  - exists (Run i). cbn [step]. rewrite Hn. unfold local_step. rewrite E. destruct (available s); eexists; split; reflexivity.
  - destruct Ph as (o & m & rs & Et & Ho & Hm & Hd1 & Hd2 & Hd3). destruct (len d <? m) eqn:El.
    + destruct (Z.leb_spec (len file) (o + len d)) as [Le|Gt].
      * exists (Pread i (Got 0)). cbn [step]. rewrite Hn. unfold pread_step. rewrite E, Et, El. cbn [Z.eqb]. replace (len file <=? o + len d) with true by lia.
        eexists. split; reflexivity.
      * exists (Pread i (Got 1)). cbn [step]. rewrite Hn. unfold pread_step. rewrite E, Et, El. change (1 =? 0) with false. cbv iota.
        replace ((0 <? 1) && (1 <=? m - len d) && (o + len d + 1 <=? len file)) with true; [eexists; split; reflexivity|].
        symmetry. apply andb_true_intro. split; [apply andb_true_intro; split; lia|lia].
    + exists (Run i). cbn [step]. rewrite Hn. unfold local_step. rewrite E, Et, El. eexists. split; reflexivity.
  - exists (Run i). cbn [step]. rewrite Hn. unfold local_step. rewrite E, Hl. eexists. split; reflexivity.
  - exists (Run i). cbn [step]. rewrite Hn. unfold local_step. rewrite E. eexists. split; reflexivity.
  - destruct (existsb is_asleep (update i (fun _ => returned r t) (readers s))) eqn:Ee.
    + apply existsb_exists in Ee as (x & Hx & Hax). apply In_nth_error in Hx as (j & Hj).
      exists (Notify i (Some j)). cbn [step]. rewrite Hn, E. unfold wake. rewrite Hj, Hax. eexists. split; reflexivity.
    + exists (Notify i None). cbn [step]. rewrite Hn, E, Ee. eexists. split; reflexivity.
Qed.
Theorem gate_goes n ps l s t : (0 < n)%nat -> run file (start n ps) l = Some s -> In t (readers s) -> finished t = false ->
  exists a s', outside_turn a = false /\ step file s a = Some s'.
Proof.
  intros Hn0 H Hi Hf. pose proof (run_orderly n l _ _ (start_orderly n ps) H) as O.
  pose proof (run_readers true l _ _ ps (fun _ => eq_refl) (start_readers n _ ps) H) as F.
  destruct (locked s) eqn:Hl.
  - pose proof (or_mutex _ _ O) as M. rewrite Hl in M. destruct (cnt_pos owns (readers s)) as (i & u & Hu & Ho); [cbn in M; lia|].
    unfold owns in Ho. exists (Run i). cbn [step]. rewrite Hu. unfold local_step. destruct (at_ u); try discriminate.
    + destruct (available s); eexists; split; reflexivity.
    + eexists. split; reflexivity.
  - destruct (is_asleep t) eqn:Ha.
    + apply In_nth_error in Hi as (i & Hi). pose proof (cnt_in is_asleep _ _ _ Hi Ha) as Hs. pose proof (or_wake _ _ O Hs) as W. pose proof (or_permits _ _ O) as P.
      assert (K : exists j u, nth_error (readers s) j = Some u /\ is_asleep u = false /\ finished u = false).
      { destruct (Nat.eq_dec (available s) 0) as [E|E].
        - destruct (cnt_pos permitted (readers s)) as (j & u & Hu & Hp); [lia|]. exists j, u. split; [exact Hu|].
          unfold permitted in Hp. unfold is_asleep, finished. destruct (at_ u); try discriminate; destruct (todo u); auto.
        - destruct (Nat.eq_dec (cnt tells (readers s)) 0) as [E1|E1]; [destruct (Nat.eq_dec (cnt enters (readers s)) 0) as [E2|E2]|].
          + destruct (cnt_pos looks (readers s)) as (j & u & Hu & Hp); [lia|]. exists j, u. split; [exact Hu|].
            unfold looks in Hp. unfold is_asleep, finished. destruct (at_ u); try discriminate; destruct (todo u); auto.
          + destruct (cnt_pos enters (readers s)) as (j & u & Hu & Hp); [lia|]. exists j, u. split; [exact Hu|].
            unfold enters in Hp. unfold is_asleep, finished. destruct (at_ u); try discriminate; destruct (todo u); auto.
          + destruct (cnt_pos tells (readers s)) as (j & u & Hu & Hp); [lia|]. exists j, u. split; [exact Hu|].
            unfold tells in Hp. unfold is_asleep, finished. destruct (at_ u); try discriminate; destruct (todo u); auto. }
      destruct K as (j & u & Hu & Hau & Hfu). exact (phase_goes true n s ps j u O F Hu Hfu Hl Hau).
    + apply In_nth_error in Hi as (i & Hi). exact (phase_goes true n s ps i t O F Hi Hf Hl Ha).
Qed.

(** * It ends *)
Definition first_length (t : reader) : nat := match todo t with (_, n) :: _ => Z.to_nat n | [] => O end.
Definition weight (t : reader) : nat :=
  match at_ t with
  | Outside => reads_cost (todo t)
  | p => reads_cost (tl (todo t)) +
      match p with
      | Outside => 0 | Enter => 8 + first_length t | Looking => 7 + first_length t | Asleep => 6 + first_length t
      | Reading d => 6 + (first_length t - length d) | Leave _ => 5 | Raising _ => 4 | Notifying _ => 3
      end
  end%nat.
Fixpoint weights (l : list reader) : nat := match l with [] => O | t :: l => (weight t + weights l)%nat end.
Lemma weights_update t t' : forall l i, nth_error l i = Some t -> (weights (update i (fun _ => t') l) + weight t = weights l + weight t')%nat.
Proof.
  induction l as [|x l IH]; intros [|i] H; try discriminate; cbn [update weights].
  - injection H as ->. lia.
  - specialize (IH i H). lia.
Qed.
Lemma weights_wake l j l' : wake l j = Some l' -> (weights l' = weights l + 2)%nat.
Proof.
  intros H. apply wake_iff in H as (t & Hn & Ha & ->). pose proof (weights_update _ (with_phase Enter t) _ _ Hn) as W.
  unfold is_asleep in Ha. unfold weight in W at 1 2. cbn [with_phase at_ todo] in W. unfold first_length in W. cbn [with_phase todo] in W. destruct (at_ t); try discriminate. lia.
Qed.
Lemma reads_cons q p : reads_cost (q :: p) = (read_cost q + reads_cost p)%nat.
Proof. reflexivity. Qed.
Lemma len_pos (d e : bytes) m : len d + m = len e -> 0 < m -> (length d < length e)%nat.
Proof. unfold len. lia. Qed.
Lemma step_weights s a s' b ps : Forall2 (reader_ok b) ps (readers s) -> step file s a = Some s' ->
  (weights (readers s') + (if outside_turn a then 0 else 1) <= weights (readers s) + (if outside_turn a then 2 else 0))%nat.
Proof.
  intros F H.
  assert (K : forall i t, nth_error (readers s) i = Some t -> phase_ok b t).
  { clear - F. intros i t. revert i. induction F as [|p x ps l Hp F IH]; intros [|i] E; try discriminate; [injection E as <-; apply Hp|exact (IH i E)]. }
  destruct a as [i|i r|i j|j]; cbn [step outside_turn] in *.
  - destruct (nth_error (readers s) i) as [t|] eqn:Hn; [|discriminate]. specialize (K i t Hn).
    destruct (local_step _ _ t) as [[[a l] t']|] eqn:El; [|discriminate]. injection H as <-. cbn [readers].
    pose proof (weights_update _ t' _ _ Hn) as W. enough (weight t' + 1 <= weight t)%nat by lia. clear W.
    unfold local_step in El. unfold phase_ok in K. unfold weight at 2. destruct (at_ t) as [| | | |d|r|r|r] eqn:E; try discriminate.
    + destruct (todo t) as [|[o m] rs] eqn:Et; [discriminate|]. injection El as <- <- <-. rewrite reads_cons. unfold read_cost. cbn [snd].
      destruct ((o <? 0) || (m <? 0)); unfold weight, first_length; cbn [with_phase returned at_ todo]; rewrite Et; cbn [tl]; lia.
    + destruct (locked s); [discriminate|]. injection El as <- <- <-. unfold weight, first_length. cbn [with_phase at_ todo]. lia.
    + destruct (available s); injection El as <- <- <-; unfold weight, first_length; cbn [with_phase at_ todo length]; lia.
    + destruct (todo t) as [|[o m] rs] eqn:Et; [discriminate|]. destruct (len d <? m); [discriminate|]. injection El as <- <- <-.
      unfold weight. cbn [with_phase at_ todo]. rewrite Et. lia.
    + destruct (locked s); [discriminate|]. injection El as <- <- <-. unfold weight. cbn [with_phase at_ todo]. lia.
    + injection El as <- <- <-. unfold weight. cbn [with_phase at_ todo]. lia.
  - destruct (nth_error (readers s) i) as [t|] eqn:Hn; [|discriminate]. specialize (K i t Hn).
    destruct (pread_step file r t) as [t'|] eqn:El; [|discriminate]. injection H as <-. cbn [readers].
    pose proof (weights_update _ t' _ _ Hn) as W.
    enough (weight t' + (match r with Interrupted => 0 | _ => 1 end) <= weight t)%nat by (destruct r; lia). clear W.
    unfold pread_step in El. unfold phase_ok in K. destruct (at_ t) as [| | | |d| | |] eqn:E; try discriminate.
    destruct K as (o & m & rs & Et & Ho & Hm & Hd1 & Hd2 & Hd3). rewrite Et in El. destruct (len d <? m) eqn:El2; [|discriminate].
    assert (Hl : (length d < Z.to_nat m)%nat) by (unfold len in El2; lia).
    assert (Wl : forall x, (weight (with_phase (Leave x) t) + 1 <= weight t)%nat).
    { intros x. unfold weight. cbn [with_phase at_ todo]. rewrite E. unfold first_length. rewrite Et. lia. }
    destruct r as [| |k].
    + injection El as <-. lia.
    + injection El as <-. apply Wl.
    + destruct (k =? 0) eqn:Ek.
      * destruct (len file <=? o + len d) eqn:Ef; [|discriminate]. injection El as <-. apply Wl.
      * destruct ((0 <? k) && (k <=? m - len d) && (o + len d + k <=? len file)) eqn:Ec; [|discriminate]. injection El as <-.
        assert (Eln : len (slice file (o + len d) k) = k) by (apply len_slice; unfold len in *; lia).
        unfold weight. cbn [with_phase at_ todo]. rewrite E. unfold first_length. cbn [with_phase todo]. rewrite Et, app_length.
        unfold len in Eln at 1. lia.
  - destruct (nth_error (readers s) i) as [t|] eqn:Hn; [|discriminate].
    destruct (at_ t) as [| | | | | | |r] eqn:E; try discriminate. pose proof (weights_update _ (returned r t) _ _ Hn) as W.
    unfold weight in W at 1 2. rewrite E in W. cbn [returned at_ todo] in W. destruct j as [j|].
    + destruct (wake _ j) as [l'|] eqn:Ew; [|discriminate]. injection H as <-. apply weights_wake in Ew. cbn [readers]. lia.
    + destruct (existsb _ _); [discriminate|]. injection H as <-. cbn [readers]. lia.
  - destruct (wake _ j) as [l'|] eqn:Ew; [|discriminate]. injection H as <-. apply weights_wake in Ew. cbn [readers]. lia.
Qed.
Lemma run_weights l : forall s s' ps, Forall2 (reader_ok true) ps (readers s) -> run file s l = Some s' ->
  (own_turns l + weights (readers s') <= weights (readers s) + 2 * outside_turns l)%nat.
Proof.
  induction l as [|a l IH]; intros s s' ps F; cbn [run]; [intros [= <-]; cbn; lia|].
  destruct (step file s a) as [s1|] eqn:E; [|discriminate]. intros H.
  specialize (IH s1 s' ps (step_readers true s a s1 ps (fun _ => eq_refl) F E) H). pose proof (step_weights s a s1 true ps F E) as W.
  unfold own_turns, outside_turns in *. cbn [filter]. destruct (outside_turn a); cbn [negb length] in *; lia.
Qed.
Theorem gate_bounded n ps l s : run file (start n ps) l = Some s ->
  (own_turns l <= list_sum (map reads_cost ps) + 2 * outside_turns l)%nat.
Proof.
  intros H. pose proof (run_weights l _ _ ps (start_readers n true ps) H) as W.
  assert (E : weights (readers (start n ps)) = list_sum (map reads_cost ps)).
  { cbn [start readers]. clear. induction ps as [|p ps IH]; [reflexivity|]. cbn [map weights]. rewrite IH. reflexivity. }
  lia.
Qed.
End Proofs.
