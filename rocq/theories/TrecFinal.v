(** The answers of trec. *)
From Verif Require Import Base Bytes HopperModel GclSpec HopperProofs ArrayProofs UnaryModel UnaryProofs AnswerProofs VectorModel RankModel RankSpec RankWitness RankerSpec RankerProofs RankerText TrecModel TrecProofs.
From Verif Require Import RecipeModel RecipeProofs.

(** What a worker does with a query: rank it and take the ids. *)
Definition solver {F} (C : hcls) (translate : Z -> Z -> bytes) (rank : bytes -> list (@result F)) (h : St C) (query : bytes) : res (St C * list bytes) :=
  topic_ids C translate h (rank query).
Lemma threads_pos hardware desired (q : bytes * bytes) qs : (0 < trec_threads hardware desired (q :: qs))%nat.
Proof.
  unfold trec_threads, allowed_threads. cbn [length]. destruct (Nat.leb hardware 1) eqn:E; [|apply Nat.leb_gt in E]; (destruct (Nat.eqb desired 0) eqn:D; [|apply Nat.eqb_neq in D; destruct (Nat.ltb desired _) eqn:L]); lia.
Qed.
Section Final.
Context {F : Type} (C : hcls) (c : St C) (SC : iv -> Prop) (items : list iv) (translate : Z -> Z -> bytes) (rank : bytes -> list (@result F)).
Context (HC : answers C c SC) (HL : listed SC items) (RK : forall q, Forall (fun r => minf < rcp r <= maxf /\ rcq r < maxf) (rank q)).
Local Notation ans := (fun q => ids_in translate items (rank q)).
Lemma solver_ok : exists I : St C -> Prop, I c /\ forall h q, I h -> exists h', solver C translate rank h q = Ok (h', ans q) /\ I h'.
Proof.
  apply answers_iff in HC. destruct HC as (IC & H & Ic). exists IC. split; [exact Ic|]. intros h q Ih. apply (topic_ids_ok C SC IC H translate items HL (rank q) (RK q) h Ih).
Qed.
Theorem trec_ok hardware desired queries old sched : a_map queries -> queries <> [] ->
  exists o, trec c (solver C translate rank) hardware desired queries old sched = Ok o /\
  forall b results, o = Some (b, results) ->
    (b = false <-> In false (map snd sched)) /\ a_map results /\
    (forall t ids, In (t, ids) results -> exists q, In (t, q) queries /\ ids = ids_in translate items (rank q)) /\
    (b = true -> forall t q, In (t, q) queries -> In (t, ids_in translate items (rank q)) results).
Proof.
  intros MQ NE. destruct solver_ok as (I & I0 & SO). unfold trec. destruct queries as [|q0 qs] eqn:EQ; [congruence|]. rewrite <- EQ in *.
  assert (T0 : (0 < trec_threads hardware desired queries)%nat) by (rewrite EQ; apply threads_pos). set (threads := trec_threads hardware desired queries) in *. clearbody threads.
  destruct (steps_ok c (solver C translate rank) I ans I0 SO queries MQ threads T0 sched (start threads)) as (o & E & V); [apply start_inv|].
  rewrite E. cbn [bind]. destruct o as [s|]; [|exists None; split; [reflexivity|discriminate]]. destruct (joined s) eqn:J; [|exists None; split; [reflexivity|discriminate]].
  eexists. split; [reflexivity|]. intros b results X. assert (b = negb (s_stop s)) as -> by congruence. assert (results = s_results s) as -> by congruence. clear X.
  pose proof (V s eq_refl) as W. pose proof W as (_ & (M & S) & _). pose proof (joined_stop c (solver C translate rank) queries threads sched s E J) as JS.
  split; [|split; [exact M|split; [exact S|]]].
  - rewrite <- JS, negb_false_iff. reflexivity.
  - intros B. apply negb_true_iff in B. eapply all_stored; try eassumption.
Qed.
Theorem trec_ends queries threads sched s : a_map queries -> (0 < threads)%nat ->
  steps c (solver C translate rank) queries threads sched (start threads) = Ok (Some s) ->
  (length sched <= (3 + 2 * length queries) * threads)%nat /\ (joined s = false -> exists n s', step c (solver C translate rank) queries threads n true s = Ok (Some s')).
Proof.
  intros MQ T0 E. destruct solver_ok as (I & I0 & SO). split.
  - apply (steps_weight c (solver C translate rank) I ans I0 SO queries threads T0) in E. pose proof (repeat_weight c (solver C translate rank) I ans I0 SO queries threads T0 threads 0) as B. unfold start in E. cbn [s_workers] in E. lia.
  - intros J. destruct (steps_ok c (solver C translate rank) I ans I0 SO queries MQ threads T0 sched (start threads)) as (o & E' & V); [apply start_inv|].
    assert (o = Some s) as -> by congruence. apply (goes_on c (solver C translate rank) I ans SO queries threads s (V s eq_refl) J).
Qed.
End Final.
(** An example. *)
Definition tids : list iv := [Iv 0 0 0; Iv 10 11 0; Iv 30 30 0].
Definition ttext (p q : Z) : bytes := if p =? 0 then lit "d1" else if p =? 10 then lit "d2" else lit "d4".
Definition trank (q : bytes) : list (result (F := Z)) := if eqb_bytes q (lit "ants") then [Res 12 13 10 19 5; Res 3 4 0 9 3] else [Res 22 22 20 29 4; Res 31 32 30 39 2].
Definition tqueries : list (bytes * bytes) := [(lit "1", lit "ants"); (lit "2", lit "bees"); (lit "3", lit "ants")].
Definition tsched : list (nat * bool) := map (fun n => (n, true)) [1; 0; 0; 1; 0; 1; 0; 0; 0; 1; 1; 0]%nat.
Lemma tids_ok : answers _ (st tids) (set_of tids) /\ listed (set_of tids) tids.
Proof. apply st_answers; [gcl|cbn; lia|repeat constructor]. Qed.
Lemma trank_ok q : Forall (fun r => minf < rcp r <= maxf /\ rcq r < maxf) (trank q).
Proof. unfold trank. destruct (eqb_bytes q (lit "ants")); repeat constructor; cbn; unfold minf, maxf; lia. Qed.
Lemma trec_run : trec (st tids) (solver _ ttext trank) 1 2 tqueries [(lit "9", [])] tsched =
  Ok (Some (true, [(lit "1", [lit "d2"; lit "d1"]); (lit "2", [lit "d4"]); (lit "3", [lit "d2"; lit "d1"])])).
Proof. vm_compute. reflexivity. Qed.
Lemma trec_run_fail : trec (st tids) (solver _ ttext trank) 1 2 tqueries [(lit "9", [])] [(1, true); (0, true); (0, true); (0, true); (1, false); (0, true); (1, true); (0, true)]%nat =
  Ok (Some (false, [(lit "1", [lit "d2"; lit "d1"])])).
Proof. vm_compute. reflexivity. Qed.
