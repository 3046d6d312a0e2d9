(** Components made of components keep the protocol. *)
From Verif Require Import Base CommitModel CommitSpec.

Scheme node_mut := Induction for node Sort Prop with body_mut := Induction for body Sort Prop.
Combined Scheme node_body_ind from node_mut, body_mut.

Definition flags (p : phase) : bool * bool * bool :=
  match p with Idle => (false, false, false) | Begun => (true, false, false) | Voted ok => (true, true, ok) end.
(** A component is in phase [p], inside and out. *)
Fixpoint at_phase (p : phase) (n : node) : Prop := match n with Node s r v x => (s, r, v) = flags p /\ at_phase_ p x end
with at_phase_ (p : phase) (x : body) : Prop :=
  match x with
  | Leaf _ t => follows t = Some p
  | Two a b => match p with
               | Voted false => (at_phase (Voted false) a /\ at_phase Begun b) \/ (at_phase (Voted true) a /\ at_phase (Voted false) b)
               | _ => at_phase p a /\ at_phase p b
               end
  | One k c => k = false /\ at_phase p c
  end.
Lemma follows_app t e : follows (t ++ [e]) = match follows t with Some p => moves p e | None => None end.
Proof. unfold follows. rewrite fold_left_app. reflexivity. Qed.
Lemma fresh_idle : (forall n, fresh n -> at_phase Idle n) /\ (forall x, fresh_ x -> at_phase_ Idle x).
Proof.
  apply node_body_ind; cbn.
  - intros s r v x IH (-> & -> & -> & H). auto.
  - intros l t ->. reflexivity.
  - intros a IHa b IHb [A B]. auto.
  - intros k c IH [-> C]. auto.
Qed.
Lemma abort_phase : (forall n p, at_phase p n -> at_phase Idle (abort n)) /\ (forall x p, p <> Idle -> at_phase_ p x -> at_phase_ Idle (abort_ x)).
Proof.
  apply node_body_ind.
  - intros s r v x IH p [F H]. cbn. split; [reflexivity|]. destruct p; injection F as -> -> ->; cbn [negb]; [exact H|apply (IH Begun); [discriminate|exact H]|apply (IH (Voted ok)); [discriminate|exact H]].
  - intros l t p N H. cbn in *. rewrite follows_app, H. destruct p as [| |[]]; [contradiction| | |]; reflexivity.
  - intros a IHa b IHb p N H. cbn in *. destruct p as [| |[]]; try destruct H as [[A B]|[A B]]; try destruct H as [A B]; eauto.
  - intros k c IH p N [-> H]. cbn. eauto.
Qed.
Lemma transaction_phase : (forall n, at_phase Idle n -> at_phase (if fst (transaction n) then Begun else Idle) (snd (transaction n))) /\
  (forall x, at_phase_ Idle x -> at_phase_ (if fst (transaction_ x) then Begun else Idle) (snd (transaction_ x))).
Proof.
  apply node_body_ind.
  - intros s r v x IH [F H]. injection F as -> -> ->. cbn. specialize (IH H). destruct (transaction_ x) as [[] x']; cbn in *; auto.
  - intros l t H. cbn in *. rewrite follows_app, H. destruct (answer l); reflexivity.
  - intros a IHa b IHb [A B]. cbn. specialize (IHa A). specialize (IHb B). destruct (transaction a) as [[] a']; cbn in *; [|auto]. destruct (transaction b) as [[] b']; cbn in *; [auto|]. split; [|exact IHb]. apply (proj1 abort_phase a' Begun IHa).
  - intros k c IH [-> H]. cbn. specialize (IH H). destruct (transaction c) as [[] c']; cbn in *; auto.
Qed.
Lemma ready_phase : (forall n, at_phase Begun n -> at_phase (Voted (fst (ready n))) (snd (ready n))) /\
  (forall x, at_phase_ Begun x -> at_phase_ (Voted (fst (ready_ x))) (snd (ready_ x))).
Proof.
  apply node_body_ind.
  - intros s r v x IH [F H]. injection F as -> -> ->. cbn. specialize (IH H). destruct (ready_ x) as [[] x']; cbn in *; auto.
  - intros l t H. cbn in *. rewrite follows_app, H. destruct (answer l); reflexivity.
  - intros a IHa b IHb [A B]. cbn. specialize (IHa A). specialize (IHb B). destruct (ready a) as [[] a']; cbn in *; [|auto]. destruct (ready b) as [[] b']; cbn in *; auto.
  - intros k c IH [-> H]. cbn. specialize (IH H). destruct (ready c) as [[] c']; cbn in *; auto.
Qed.
Lemma commit_phase : (forall n, at_phase (Voted true) n -> exists n', commit n = Some n' /\ at_phase Idle n') /\ (forall x, at_phase_ (Voted true) x -> exists x', commit_ x = Some x' /\ at_phase_ Idle x').
Proof.
  apply node_body_ind.
  - intros s r v x IH [F H]. injection F as -> -> ->. cbn. destruct (IH H) as (x' & -> & H'). eexists. split; [reflexivity|]. cbn. auto.
  - intros l t H. cbn in *. eexists. split; [reflexivity|]. cbn. rewrite follows_app, H. reflexivity.
  - intros a IHa b IHb [A B]. cbn. destruct (IHa A) as (a' & -> & A'). destruct (IHb B) as (b' & -> & B'). eexists. split; [reflexivity|]. cbn. auto.
  - intros k c IH [-> H]. cbn. destruct (IH H) as (c' & -> & H'). eexists. split; [reflexivity|]. cbn. auto.
Qed.
Lemma commit_refused n p : at_phase p n -> p <> Voted true -> commit n = None.
Proof. destruct n as [s r v x]. intros [F _] N. destruct p as [| |[]]; injection F as -> -> ->; try reflexivity. contradiction. Qed.

Lemma call_phase c n p b n' : at_phase p n -> do_call c n = Some (b, n') -> at_phase (caller p c b) n'.
Proof.
  intros H E. destruct c; cbn [do_call] in E.
  - injection E as E. destruct p as [| |ok].
    + pose proof (proj1 transaction_phase n H) as K. rewrite E in K. cbn in K |- *. destruct b; exact K.
    + destruct n as [s r v x]. pose proof H as [F _]. injection F as -> -> ->. cbn in E. injection E as <- <-. exact H.
    + destruct n as [s r v x]. pose proof H as [F _]. injection F as -> -> ->. cbn in E. injection E as <- <-. destruct ok; exact H.
  - injection E as E. destruct p as [| |ok].
    + destruct n as [s r v x]. pose proof H as [F _]. injection F as -> -> ->. cbn in E. injection E as <- <-. exact H.
    + pose proof (proj1 ready_phase n H) as K. rewrite E in K. exact K.
    + destruct n as [s r v x]. pose proof H as [F _]. injection F as -> -> ->. cbn in E. injection E as <- <-. destruct ok; exact H.
  - destruct p as [| |[]]; try (rewrite (commit_refused n _ H) in E by discriminate; discriminate). destruct (proj1 commit_phase n H) as (n1 & E1 & K). rewrite E1 in E. injection E as <- <-. exact K.
  - injection E as <- <-. pose proof (proj1 abort_phase n p H) as K. destruct p as [| |[]]; exact K.
Qed.
Lemma calls_phase cs : forall n p bs n', at_phase p n -> do_calls cs n = Some (bs, n') -> at_phase (told p cs bs) n'.
Proof.
  induction cs as [|c r IH]; intros n p bs n' H E; cbn [do_calls] in E; [injection E as <- <-; exact H|]. destruct (do_call c n) as [[b n1]|] eqn:E1; [|discriminate]. destruct (do_calls r n1) as [[bs1 n2]|] eqn:E2; [|discriminate]. injection E as <- <-.
  cbn. apply (IH n1 _ bs1 n2 (call_phase c n p b n1 H E1) E2).
Qed.
(** Every component is told things in the order of the protocol. *)
Lemma phase_traces : (forall n p t, at_phase p n -> In t (traces n) -> exists q, follows t = Some q) /\ (forall x p t, at_phase_ p x -> In t (traces_ x) -> exists q, follows t = Some q).
Proof.
  apply node_body_ind; cbn.
  - intros s r v x IH p t [_ H] Ht. eauto.
  - intros l t p t' H [<-|[]]. eauto.
  - intros a IHa b IHb p t H Ht. apply in_app_iff in Ht. destruct p as [| |[]]; try destruct H as [[A B]|[A B]]; try destruct H as [A B]; destruct Ht; eauto.
  - intros k c IH p t [_ H] Ht. eauto.
Qed.
(** Except when a vote was no, all components are where the caller is. *)
Lemma phase_exact : (forall n p t, p <> Voted false -> at_phase p n -> In t (traces n) -> follows t = Some p) /\ (forall x p t, p <> Voted false -> at_phase_ p x -> In t (traces_ x) -> follows t = Some p).
Proof.
  apply node_body_ind; cbn.
  - intros s r v x IH p t N [_ H] Ht. eauto.
  - intros l t p t' N H [<-|[]]. exact H.
  - intros a IHa b IHb p t N H Ht. apply in_app_iff in Ht. destruct p as [| |[]]; [| | |contradiction]; destruct H as [A B]; destruct Ht; eauto.
  - intros k c IH p t N [_ H] Ht. eauto.
Qed.
Theorem protocol_kept n cs bs n' t : fresh n -> do_calls cs n = Some (bs, n') -> In t (traces n') -> exists q, follows t = Some q.
Proof. intros F E. apply (proj1 phase_traces n' (told Idle cs bs)). apply (calls_phase cs n Idle bs n' (proj1 fresh_idle n F) E). Qed.
Theorem same_phase n cs bs n' t : fresh n -> do_calls cs n = Some (bs, n') -> told Idle cs bs <> Voted false -> In t (traces n') -> follows t = Some (told Idle cs bs).
Proof. intros F E N. apply (proj1 phase_exact n' _ t N). apply (calls_phase cs n Idle bs n' (proj1 fresh_idle n F) E). Qed.
(** The answers are those of the protocol, and calls out of order change nothing. *)
Theorem out_of_order n cs bs n' c : fresh n -> do_calls cs n = Some (bs, n') ->
  match told Idle cs bs, c with
  | Idle, Transaction | Begun, Ready | Begun, Abort | Voted _, Abort => True
  | Voted true, Commit => exists n'', do_call c n' = Some (true, n'')
  | _, Commit => do_call c n' = None
  | Idle, Abort => do_call c n' = Some (true, n')
  | Voted ok, Ready => do_call c n' = Some (ok, n')
  | _, _ => do_call c n' = Some (false, n')
  end.
Proof.
  intros F E. pose proof (calls_phase cs n Idle bs n' (proj1 fresh_idle n F) E) as H. destruct (told Idle cs bs) as [| |[]], c; auto; destruct n' as [s r v x]; pose proof H as [Fl _]; injection Fl as -> -> ->; try reflexivity.
  cbn [do_call]. destruct (proj1 commit_phase _ H) as (n1 & -> & _). eauto.
Qed.
(** Every component commits exactly when the caller does. *)
Lemma abort_committed : (forall n, map committed (traces (abort n)) = map committed (traces n)) /\ (forall x, map committed (traces_ (abort_ x)) = map committed (traces_ x)).
Proof.
  apply node_body_ind; cbn.
  - intros s r v x IH. destruct s; auto.
  - intros l t. unfold committed. rewrite filter_app. cbn. rewrite app_nil_r. reflexivity.
  - intros a IHa b IHb. rewrite !map_app. congruence.
  - intros k c IH. exact IH.
Qed.
Lemma transaction_committed : (forall n, map committed (traces (snd (transaction n))) = map committed (traces n)) /\ (forall x, map committed (traces_ (snd (transaction_ x))) = map committed (traces_ x)).
Proof.
  apply node_body_ind; cbn.
  - intros s r v x IH. destruct s; [reflexivity|]. destruct (transaction_ x) as [ok x']. exact IH.
  - intros l t. unfold committed. rewrite filter_app. cbn. rewrite app_nil_r. reflexivity.
  - intros a IHa b IHb. destruct (transaction a) as [[] a']; cbn in *; [|rewrite !map_app; congruence]. destruct (transaction b) as [[] b']; cbn in *; rewrite !map_app; [congruence|]. rewrite (proj1 abort_committed). congruence.
  - intros k c IH. destruct (transaction c) as [ok c']. exact IH.
Qed.
Lemma ready_committed : (forall n, map committed (traces (snd (ready n))) = map committed (traces n)) /\ (forall x, map committed (traces_ (snd (ready_ x))) = map committed (traces_ x)).
Proof.
  apply node_body_ind; cbn.
  - intros s r v x IH. destruct s, r; try reflexivity. cbn. destruct (ready_ x) as [ok x']. exact IH.
  - intros l t. unfold committed. rewrite filter_app. cbn. rewrite app_nil_r. reflexivity.
  - intros a IHa b IHb. destruct (ready a) as [[] a']; cbn in *; [|rewrite !map_app; congruence]. destruct (ready b) as [okb b']; cbn in *; rewrite !map_app; congruence.
  - intros k c IH. destruct (ready c) as [ok c']. exact IH.
Qed.
Lemma commit_committed : (forall n n', at_phase (Voted true) n -> commit n = Some n' -> map committed (traces n') = map S (map committed (traces n))) /\
  (forall x x', at_phase_ (Voted true) x -> commit_ x = Some x' -> map committed (traces_ x') = map S (map committed (traces_ x))).
Proof.
  apply node_body_ind; cbn.
  - intros s r v x IH n' [F H] E. injection F as -> -> ->. cbn in E. destruct (commit_ x) as [x'|] eqn:Ex; [|discriminate]. injection E as <-. cbn. auto.
  - intros l t x' H E. injection E as <-. cbn. unfold committed. rewrite filter_app, app_length. cbn. rewrite Nat.add_1_r. reflexivity.
  - intros a IHa b IHb x' [A B] E. destruct (commit a) as [a'|] eqn:Ea; [|discriminate]. destruct (commit b) as [b'|] eqn:Eb; [|discriminate]. injection E as <-. cbn. rewrite !map_app, (IHa _ A eq_refl), (IHb _ B eq_refl). reflexivity.
  - intros k c IH x' [-> H] E. destruct (commit c) as [c'|] eqn:Ec; [|discriminate]. injection E as <-. cbn. auto.
Qed.
Lemma calls_committed cs : forall n p bs n', at_phase p n -> do_calls cs n = Some (bs, n') -> map committed (traces n') = map (fun k => commits cs + k)%nat (map committed (traces n)).
Proof.
  induction cs as [|c r IH]; intros n p bs n' H E; cbn [do_calls] in E; [injection E as <- <-; cbn; rewrite map_id; reflexivity|]. destruct (do_call c n) as [[b n1]|] eqn:E1; [|discriminate]. destruct (do_calls r n1) as [[bs1 n2]|] eqn:E2; [|discriminate]. injection E as <- <-.
  rewrite (IH n1 _ bs1 n2 (call_phase c n p b n1 H E1) E2). destruct c; cbn [do_call] in E1.
  - injection E1 as E1. pose proof (proj1 transaction_committed n) as K. rewrite E1 in K. cbn in K. rewrite K. reflexivity.
  - injection E1 as E1. pose proof (proj1 ready_committed n) as K. rewrite E1 in K. cbn in K. rewrite K. reflexivity.
  - destruct (commit n) as [n3|] eqn:Ec; [|discriminate]. injection E1 as <- <-. assert (Hp : p = Voted true) by (destruct p as [| |[]]; try reflexivity; rewrite (commit_refused n _ H) in Ec by discriminate; discriminate). subst p.
    rewrite (proj1 commit_committed n n3 H Ec), map_map. apply map_ext. intros k. unfold commits. cbn. lia.
  - injection E1 as <- <-. rewrite (proj1 abort_committed). reflexivity.
Qed.
Lemma fresh_committed : (forall n t, fresh n -> In t (traces n) -> t = []) /\ (forall x t, fresh_ x -> In t (traces_ x) -> t = []).
Proof.
  apply node_body_ind; cbn.
  - intros s r v x IH t (_ & _ & _ & H). auto.
  - intros l t t' -> [<-|[]]. reflexivity.
  - intros a IHa b IHb t [A B] Ht. apply in_app_iff in Ht. destruct Ht; auto.
  - intros k c IH t [_ H]. auto.
Qed.
Theorem all_commit n cs bs n' t : fresh n -> do_calls cs n = Some (bs, n') -> In t (traces n') -> committed t = commits cs.
Proof.
  intros F E Ht. pose proof (calls_committed cs n Idle bs n' (proj1 fresh_idle n F) E) as K. apply (in_map committed) in Ht. rewrite K in Ht. apply in_map_iff in Ht. destruct Ht as (k & <- & Ht).
  apply in_map_iff in Ht. destruct Ht as (t0 & <- & Ht). rewrite (proj1 fresh_committed n t0 F Ht). cbn. lia.
Qed.
(** commit_all of scribes that voted yes commits every component of every one, once. *)
Lemma commit_warren_ok n : at_phase (Voted true) n -> (exists k c, inside n = One k c) -> exists n1 n2, commit_warren n = Some n1 /\ commit n1 = Some n2 /\ at_phase Idle n2 /\ map committed (traces n2) = map S (map committed (traces n)).
Proof.
  destruct n as [s r v x]. intros [F H] (k & c & E). cbn in E. subst x. injection F as -> -> ->. destruct H as [-> H]. destruct (proj1 commit_phase c H) as (c' & Ec & Hc).
  cbn [commit_warren]. rewrite Ec. eexists. eexists. split; [reflexivity|]. split; [reflexivity|]. split; [cbn; auto|]. cbn. apply (proj1 commit_committed c c' H Ec).
Qed.
Theorem commit_all_ok l : Forall (fun n => exists n0 cs bs k c, fresh n0 /\ do_calls cs n0 = Some (bs, n) /\ told Idle cs bs = Voted true /\ inside n = One k c) l ->
  exists l', commit_all l = Some l' /\ Forall2 (fun n n' => map committed (traces n') = map S (map committed (traces n)) /\ forall t, In t (traces n') -> follows t = Some Idle) l l'.
Proof.
  unfold commit_all. induction 1 as [|n l (n0 & cs & bs & k & c & F & E & T & I) _ (l' & E' & F')]; [exists []; split; [reflexivity|constructor]|].
  pose proof (calls_phase cs n0 Idle bs n (proj1 fresh_idle n0 F) E) as P. rewrite T in P. destruct (commit_warren_ok n P ltac:(eauto)) as (n1 & n2 & E1 & E2 & P2 & K2).
  cbn [map_option]. rewrite E1. destruct (map_option commit_warren l) as [l1|] eqn:El; [|discriminate]. cbn [map_option]. rewrite E2, E'. exists (n2 :: l'). split; [reflexivity|]. constructor; [|exact F'].
  split; [exact K2|]. intros t Ht. apply (proj1 phase_exact n2 Idle t); [discriminate|exact P2|exact Ht].
Qed.

Lemma files_phase files : forall n, at_phase Idle n -> exists ok n', scribe_files files n = Some (ok, n') /\
  (Forall (fun f => f <> None) files -> ok = true -> at_phase Idle n' /\ map committed (traces n') = map (fun k => length files + k)%nat (map committed (traces n))).
Proof.
  assert (K0 : forall files n, at_phase Begun n -> scribe_files files n = Some (match files with [] => true | _ => false end, n)).
  { intros [|f r] [s r' v x] [F H]; injection F as -> -> ->; reflexivity. }
  induction files as [|f r IH]; intros n H; [exists true, n; split; [reflexivity|]; intros _ _; split; [exact H|]; rewrite map_id; reflexivity|].
  cbn [scribe_files]. pose proof (proj1 transaction_phase n H) as P. pose proof (proj1 transaction_committed n) as C. destruct (transaction n) as [[] n1]; cbn in P, C; cbn [negb]; [|exists false, n1; split; [reflexivity|discriminate]].
  destruct f as [[]|]; [|exists false, n1; split; [reflexivity|discriminate]|exists (match r with [] => true | _ => false end), n1; split; [apply K0, P|]; intros F; inversion F; subst; congruence].
  pose proof (proj1 ready_phase n1 P) as P2. pose proof (proj1 ready_committed n1) as C2. destruct (ready n1) as [[] n2]; cbn in P2, C2; cbn [negb]; [|exists false, n2; split; [reflexivity|discriminate]].
  destruct (proj1 commit_phase n2 P2) as (n3 & E3 & P3). pose proof (proj1 commit_committed n2 n3 P2 E3) as C3. rewrite E3. destruct (IH n3 P3) as (ok & n' & E & K). exists ok, n'. split; [exact E|]. intros F O. inversion F; subst. destruct (K ltac:(assumption) eq_refl) as [K1 K2]. split; [exact K1|]. rewrite K2, C3, C2, C, map_map. apply map_ext. intros k. cbn. lia.
Qed.
Theorem files_committed files n : fresh n -> Forall (fun f => f <> None) files -> exists ok n', scribe_files files n = Some (ok, n') /\ (ok = true -> forall t, In t (traces n') -> committed t = length files /\ follows t = Some Idle).
Proof.
  intros F A. pose proof (proj1 fresh_idle n F) as H. destruct (files_phase files n H) as (ok & n' & E & K). exists ok, n'. split; [exact E|]. intros O t Ht. destruct (K A O) as [P C]. split; [|apply (proj1 phase_exact n' Idle t); [discriminate|exact P|exact Ht]].
  apply (in_map committed) in Ht. rewrite C in Ht. apply in_map_iff in Ht. destruct Ht as (k & <- & Ht). apply in_map_iff in Ht. destruct Ht as (t0 & <- & Ht). rewrite (proj1 fresh_committed n t0 F Ht). cbn. lia.
Qed.
(** Lines that end in a newline, and what is left after the last newline. *)
Lemma lines_exact ls : forall rest, Forall (fun l => ~ In 10 l) ls -> ~ In 10 rest -> jsonl_lines (concat (map (fun l => l ++ [10]) ls) ++ rest) [] = ls.
Proof.
  assert (G : forall l acc tail, ~ In 10 l -> jsonl_lines (l ++ tail) acc = jsonl_lines tail (rev l ++ acc)).
  { induction l as [|c l IH]; intros acc tail N; [reflexivity|]. cbn [app jsonl_lines]. destruct (Z.eqb_spec c 10) as [->|]; [destruct N; left; reflexivity|]. rewrite IH; [cbn; rewrite <- app_assoc; reflexivity|]. intros K. apply N. right. exact K. }
  induction ls as [|l ls IH]; intros rest F N.
  - cbn [map concat app]. rewrite <- (app_nil_r rest), G by exact N. reflexivity.
  - inversion F; subst. cbn [map concat]. rewrite <- !app_assoc, G by assumption. cbn [app jsonl_lines Z.eqb Pos.eqb]. rewrite app_nil_r, rev_involutive. rewrite IH by assumption. reflexivity.
Qed.
