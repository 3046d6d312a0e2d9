(** C38, C40: which merges the background workers choose, and that they come to an end. *)
From Verif Require Import Base Bytes NameModel NameSpec NameWitness RecoverAll StoreModel StoreSpec SchedModel SchedSpec SchedProofs SchedStore StoreWitness SchedWitness.

(** C38: what the scheduler finds is a run of idle shards: fivers, or two or more hazels. *)
Theorem C38_choice_sound : forall m size recoveries max_workers l s e, find_merge_action m size recoveries max_workers l = Some (s, e) ->
  exists sel, part l s e sel /\ (Forall (fun e => eligible m e = true /\ is_fiver e = true) sel /\ sel <> [] \/ Forall (fun e => eligible m e = true /\ is_hazel e = true) sel /\ (2 <= length sel)%nat).
Proof. exact action_sound. Qed.
Print Assumptions C38_choice_sound.
(** C38: and what a worker then does is a step of the model of the store. *)
Theorem C38_choice_covered : forall m size recoveries max_workers w s n a, m_workers m w = WIdle -> decide m size recoveries max_workers = Some (s, n, a) ->
  exists m' sel, choose m w s n = Some m' /\ m_workers m' w = WChosen a sel /\ sel = firstn n (skipn s (cleanup (m_entries m))) /\ part (cleanup (m_entries m)) s (s + n - 1) sel.
Proof. exact decide_choice. Qed.
Print Assumptions C38_choice_covered.
(** C38: the longest run of three or more small shards is found, the first of them. *)
Theorem C38_longest_run : forall a, match find_sequence a with
  | Some (s, e) => (s + 2 <= e)%nat /\ run_at a s (e - s + 1) /\ (forall s' n, run_at a s' n -> n <= e - s + 1)%nat /\ (forall s', (s' < s)%nat -> ~ run_at a s' (e - s + 1))
  | None => forall s n, run_at a s n -> (n < 3)%nat
  end.
Proof. exact find_sequence_spec. Qed.
Print Assumptions C38_longest_run.
(** C38: the smallest pair of neighbours is found, if there is one. *)
Theorem C38_smallest_pair : forall a, match find_smallest_pair a with
  | Some (s, e) => e = S s /\ exists p x y q, a = p ++ x :: y :: q /\ length p = s /\ 0 <= x /\ 0 <= y /\ forall x' y', neighbours a x' y' -> 0 <= x' -> 0 <= y' -> x + y <= x' + y'
  | None => forall x y, neighbours a x y -> x < 0 \/ y < 0
  end.
Proof. exact smallest_pair_spec. Qed.
Print Assumptions C38_smallest_pair.
Example C38_choice_case : obeys small run11 start = true /\ ranges (wsteps false run11 start) = [(FiverK, 0, 2)].
Proof. split; [exact run11_obeys|exact run11_ranges]. Qed.

(** C40: merging ends: the number of merges that are finished is bounded by the shards there
    were and the transactions that became ready since. *)
Theorem C40_bounded : forall sort merge, sorts shard_lt sort -> sorts owsla_lt merge -> forall ls1 ls2 m d g m' d' g', steps sort merge false ls1 start = Some (Up m d g) ->
  steps sort merge false ls2 (Up m d g) = Some (Up m' d' g') -> ~ In LOpen ls2 -> (work m' + installs ls2 <= work m + 2 * places ls2)%nat.
Proof. exact merges_bounded. Qed.
Print Assumptions C40_bounded.
(** C40: when no transaction is under way and no worker finds anything to do, at most three
    shards are left, if no sequence number is missing between them. *)
Theorem C40_rest : forall sort merge, sorts shard_lt sort -> sorts owsla_lt merge -> forall ls m d g size recoveries max_workers, steps sort merge false ls start = Some (Up m d g) ->
  (2 <= max_workers)%nat -> (forall e, 0 <= size e) -> (forall i x, ~ holder m i x) -> (forall w sel, ~ selected m w sel) ->
  (forall x y, neighbours (cleanup (m_entries m)) x y -> e_start y = e_end x + 1) ->
  decide m size recoveries max_workers = None -> (length (cleanup (m_entries m)) <= 3)%nat.
Proof. exact at_rest. Qed.
Print Assumptions C40_rest.
(** C40: a worker gives up only if it finds nothing, or finds hazels with a number missing
    between them. *)
Theorem C40_gives_up : forall m size recoveries max_workers l, l = cleanup (m_entries m) -> decide m size recoveries max_workers = None ->
  find_merge_action m size recoveries max_workers l = None \/
  exists s e sel, find_merge_action m size recoveries max_workers l = Some (s, e) /\ part l s e sel /\ Forall (fun e => eligible m e = true /\ is_hazel e = true) sel /\ contiguous sel = false.
Proof. exact decide_none. Qed.
Print Assumptions C40_gives_up.
Example C40_case : obeys large run10 start = true /\ ranges (wsteps false run10 start) = [(HazelK, 0, 1)] /\ last_decision large (wsteps false run10 start) = None.
Proof. split; [exact run10_obeys|exact run10_ranges]. Qed.
(** C40: one aborted transaction can stop all merging: the smallest pair has a number
    missing, so every worker gives up, though the other pair could be merged. *)
Theorem C40_gap_refuted : exists size ls, obeys size ls start = true /\ ranges (wsteps false ls start) = [(HazelK, 0, 0); (HazelK, 2, 2); (HazelK, 3, 3)] /\
  last_decision size (wsteps false ls start) = None.
Proof. exists large, run9. split; [exact run9_obeys|split; [exact run9_ranges|exact run9_stuck]]. Qed.
Print Assumptions C40_gap_refuted.
