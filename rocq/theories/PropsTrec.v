(** C58: ranking many queries by several threads. *)
From Verif Require Import Base Bytes HopperModel GclSpec RankModel RankSpec RankWitness UnaryModel VectorModel RankerSpec TrecModel TrecProofs TrecFinal.

(** C58: on every schedule that ends, trec answers false exactly if a worker could not be set up;
    each topic of the results has the ids, in order, that the ranking of its query gives, and if
    the answer is true every topic is there. *)
Theorem C58_topics : forall (F : Type) C c SC items translate (rank : bytes -> list (result (F := F))),
  answers C c SC -> listed SC items -> (forall q, Forall (fun r => minf < rcp r <= maxf /\ rcq r < maxf) (rank q)) ->
  forall hardware desired queries old sched, a_map queries -> queries <> [] ->
  exists o, trec c (solver C translate rank) hardware desired queries old sched = Ok o /\
  forall b results, o = Some (b, results) ->
    (b = false <-> In false (map snd sched)) /\ a_map results /\
    (forall t ids, In (t, ids) results -> exists q, In (t, q) queries /\ ids = ids_in translate items (rank q)) /\
    (b = true -> forall t q, In (t, q) queries -> In (t, ids_in translate items (rank q)) results).
Proof. exact (fun F => @trec_ok F). Qed.
Print Assumptions C58_topics.
Example C58_topics_ex : ((answers _ (st tids) (set_of tids) /\ listed (set_of tids) tids) /\ (forall q, Forall (fun r => minf < rcp r <= maxf /\ rcq r < maxf) (trank q))) /\
  trec (st tids) (solver _ ttext trank) 1 2 tqueries [(lit "9", [])] tsched =
  Ok (Some (true, [(lit "1", [lit "d2"; lit "d1"]); (lit "2", [lit "d4"]); (lit "3", [lit "d2"; lit "d1"])])).
Proof. exact (conj (conj tids_ok trank_ok) trec_run). Qed.
Example C58_failure_ex : trec (st tids) (solver _ ttext trank) 1 2 tqueries [(lit "9", [])] [(1, true); (0, true); (0, true); (0, true); (1, false); (0, true); (1, true); (0, true)]%nat =
  Ok (Some (false, [(lit "1", [lit "d2"; lit "d1"])])).
Proof. exact trec_run_fail. Qed.
(** C58: no schedule goes on for ever or gets stuck. *)
Theorem C58_ends : forall (F : Type) C c SC items translate (rank : bytes -> list (result (F := F))),
  answers C c SC -> listed SC items -> (forall q, Forall (fun r => minf < rcp r <= maxf /\ rcq r < maxf) (rank q)) ->
  forall queries threads sched s, a_map queries -> (0 < threads)%nat ->
  steps c (solver C translate rank) queries threads sched (start threads) = Ok (Some s) ->
  (length sched <= (3 + 2 * length queries) * threads)%nat /\ (joined s = false -> exists n s', step c (solver C translate rank) queries threads n true s = Ok (Some s')).
Proof. exact (fun F => @trec_ends F). Qed.
Print Assumptions C58_ends.
Example C58_ends_ex : length tsched = 12%nat /\ (length tsched <= (3 + 2 * length tqueries) * 2)%nat.
Proof. split; [reflexivity|cbn; lia]. Qed.
(** C58: at least one worker is started, and no more than there are topics. *)
Theorem C58_threads : forall hardware desired q qs, (0 < trec_threads hardware desired (q :: qs) <= length (q :: qs))%nat.
Proof. exact (fun hardware desired q qs => conj (threads_pos hardware desired q qs) (Nat.le_min_r _ _)). Qed.
Print Assumptions C58_threads.
(** C58 is false without topics: the results stay what they were. *)
Theorem C58_empty_refuted : forall H (h0 : H) solve hardware desired old sched, trec h0 solve hardware desired [] old sched = Ok (Some (true, old)).
Proof. exact (fun H h0 solve hardware desired old sched => eq_refl). Qed.
Print Assumptions C58_empty_refuted.
