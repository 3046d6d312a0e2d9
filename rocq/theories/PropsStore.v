(** C18, C19, C20, C22, C38: the shared index directory.
    [steps sort merge false ls start = Some s] reads: the calls, background steps and crashes
    [ls], in this order, lead from an empty directory to [s].  [sort] and [merge] are any
    functions that sort (std::sort). *)
From Verif Require Import Base Bytes NameModel NameSpec NameWitness RecoverAll StoreModel StoreSpec StoreTop StoreAddr StoreShards StoreWitness.
From Coq Require Import Sorting.Sorted.

(** C18: no address belongs to two transactions. *)
Theorem C18_disjoint : forall sort merge, sorts shard_lt sort -> sorts owsla_lt merge -> forall ls m d g, steps sort merge false ls start = Some (Up m d g) ->
  StronglySorted (fun x y => forall a b, at_address x a -> at_address y b -> a < b) (shown m) /\
  (forall i x y a, holder m i x -> In y (shown m) -> at_address x a -> ~ at_address y a) /\
  (forall i j x y a, holder m i x -> holder m j y -> at_address x a -> at_address y a -> i = j).
Proof. exact addresses. Qed.
Print Assumptions C18_disjoint.
(** C18: a transaction that becomes ready goes after everything that is there. *)
Theorem C18_ready_order : forall sort merge, sorts shard_lt sort -> sorts owsla_lt merge -> forall ls m d g i s, steps sort merge false ls start = Some (Up m d g) ->
  step sort merge false (LPlace i) (Up m d g) = Some s ->
  exists m' x, s = Up m' d g /\ holder m' i x /\ content x = h_open (notes ls) i /\ (forall y a b, In y (shown m) \/ (exists j, holder m j y) -> at_address y a -> at_address x b -> a < b) /\
    (forall y, In y (shown m) \/ (exists j, holder m j y) -> t_seq y < t_seq x) /\ (forall j y, j <> i -> holder m' j y <-> holder m j y).
Proof. exact placed. Qed.
Print Assumptions C18_ready_order.
(** C18: and the next one directly after it. *)
Theorem C18_no_gap : forall sort merge s i s1 ls s2 j s3, step sort merge false (LPlace i) s = Some s1 -> steps sort merge false ls s1 = Some s2 ->
  (forall l, In l ls -> l <> LOpen /\ forall i, l <> LPlace i) -> step sort merge false (LPlace j) s2 = Some s3 ->
  exists m1 d1 g1 m3 d3 g3 x y, s1 = Up m1 d1 g1 /\ s3 = Up m3 d3 g3 /\ holder m1 i x /\ holder m3 j y /\ t_addr y = t_addr x + t_len x /\ t_seq y = t_seq x + 1.
Proof. exact consecutive. Qed.
Print Assumptions C18_no_gap.
Example C18_case : show (wsteps false run1 start) = Some [Txn 0 0 3 (lit "cat"); Txn 1 3 2 (lit "ox")].
Proof. exact run1_shown. Qed.

(** C19: between start and end a reader reads what was there at start. *)
Theorem C19_snapshot : forall sort merge, sorts shard_lt sort -> sorts owsla_lt merge -> forall ls m d g r es n, steps sort merge false ls start = Some (Up m d g) -> m_readers m r = Some (es, n) ->
  exists ls1 ls2 m1 d1 g1, ls = ls1 ++ LStart r :: ls2 /\ steps sort merge false ls1 start = Some (Up m1 d1 g1) /\ flat_map e_txns es = shown m1 /\ n = m_gen m1 /\
    ~ In (LEnd r) ls2 /\ (forall a b, ls2 = a ++ b -> exists m2 d2 g2, steps sort merge false (ls1 ++ LStart r :: a) start = Some (Up m2 d2 g2)) /\ incl (shown m1) (shown m).
Proof. exact snapshot. Qed.
Print Assumptions C19_snapshot.
(** C19: what is there at start: the transactions whose commit returned, possibly some whose
    commit was called, in the order they became ready. *)
Theorem C19_contents : forall sort merge, sorts shard_lt sort -> sorts owsla_lt merge -> forall ls m d g, steps sort merge false ls start = Some (Up m d g) ->
  exists ts, are (notes ls) ts (shown m) /\ incl (h_acked (notes ls)) ts /\ NoDup (h_acked (notes ls)) /\ incl ts (h_asked (notes ls)) /\
  (forall i x, holder m i x -> content x = nth (h_tick (notes ls) i) (h_placed (notes ls)) (0, []) /\ ~ In (h_tick (notes ls) i) ts).
Proof. exact running. Qed.
Print Assumptions C19_contents.
(** C19: one generation number, one content. *)
Theorem C19_generation : forall sort merge, sorts shard_lt sort -> sorts owsla_lt merge -> forall ls m d g r r' es es' n, steps sort merge false ls start = Some (Up m d g) ->
  m_readers m r = Some (es, n) -> (m_readers m r' = Some (es', n) -> flat_map e_txns es = flat_map e_txns es') /\ (n = m_gen m -> flat_map e_txns es = shown m).
Proof. exact generation. Qed.
Print Assumptions C19_generation.
(** C19: a commit adds its transaction and nothing else. *)
Theorem C19_commit_shows : forall sort merge, sorts shard_lt sort -> sorts owsla_lt merge -> forall ls i m d g m' d' g', steps sort merge false ls start = Some (Up m d g) ->
  step sort merge false (LCommitted i) (Up m d g) = Some (Up m' d' g') ->
  exists x a b, holder m i x /\ shown m = a ++ b /\ shown m' = a ++ x :: b /\ content x = nth (h_tick (notes ls) i) (h_placed (notes ls)) (0, []).
Proof. exact commit_shows. Qed.
Print Assumptions C19_commit_shows.
Example C19_case : read 5 (wsteps false run1 start) = Some [Txn 1 3 2 (lit "ox")] /\ show (wsteps false run1 start) = Some cat_ox.
Proof. split; [exact run1_reader|exact run1_shown]. Qed.
(** C19: a reader can see a later transaction without an earlier one. *)
Theorem C19_prefix_refuted : exists ls, h_acked (notes ls) = [0; 1]%nat /\ read 5 (wsteps false ls start) = Some [Txn 1 3 2 (lit "ox")].
Proof. exists run1. split; [exact (proj1 run1_notes)|exact run1_reader]. Qed.
Print Assumptions C19_prefix_refuted.
(** C19: and one transaction of a commit_all without the other. *)
Theorem C19_batch_refuted : exists ls, h_batches (notes ls) = [[0; 1]%nat] /\ read 2 (wsteps false ls start) = Some [Txn 0 0 3 (lit "cat")].
Proof. exists run4. split; [vm_compute; reflexivity|exact run4_reader]. Qed.
Print Assumptions C19_batch_refuted.

(** C20: whenever the process stops, opening the directory shows every transaction whose
    commit returned and none whose commit was not called, with what was written, in order;
    and of a commit_all everything or nothing. *)
Theorem C20_durable : forall sort merge, sorts shard_lt sort -> sorts owsla_lt merge -> forall ls s, steps sort merge false ls start = Some s ->
  exists l ts, reopened sort merge (disk s) = Some l /\ are (notes ls) ts l /\ incl (h_acked (notes ls)) ts /\ incl ts (h_asked (notes ls)) /\
  forall b, In b (h_batches (notes ls)) -> incl b ts \/ forall t, In t b -> ~ In t ts.
Proof. exact durable. Qed.
Print Assumptions C20_durable.
(** C20: what was shown once is shown for ever, by this process and the ones after it. *)
Theorem C20_nothing_lost : forall sort merge, sorts shard_lt sort -> sorts owsla_lt merge -> forall ls1 ls2 m d g s, steps sort merge false ls1 start = Some (Up m d g) ->
  steps sort merge false (ls1 ++ ls2) start = Some s ->
  (exists l, reopened sort merge (disk s) = Some l /\ incl (shown m) l) /\ (forall m' d' g', s = Up m' d' g' -> incl (shown m) (shown m')).
Proof. exact nothing_lost. Qed.
Print Assumptions C20_nothing_lost.
(** C20: opening can itself be stopped at any point. *)
Theorem C20_opening_interrupted : forall sort merge, sorts shard_lt sort -> sorts owsla_lt merge -> forall ls s k acts m, steps sort merge false ls start = Some s ->
  opening sort merge (disk s) = Some (acts, m) -> reopened sort merge (run (firstn k acts) (disk s)) = reopened sort merge (disk s).
Proof. exact opening_interrupted. Qed.
Print Assumptions C20_opening_interrupted.
(** C20: a commit of a ready transaction that is not empty cannot fail. *)
Theorem C20_commit_succeeds : forall sort merge, sorts shard_lt sort -> sorts owsla_lt merge -> forall ls m d g i id x, steps sort merge false ls start = Some (Up m d g) ->
  m_clones m i = Ready id x None -> t_data x <> [] -> m_lock m = None ->
  exists m' d' g', step sort merge false (LCommit i) (Up m d g) = Some (Up m' d' g') /\ exists m'' d'' g'', step sort merge false (LCommitted i) (Up m' d' g') = Some (Up m'' d'' g'').
Proof. exact commit_succeeds. Qed.
Print Assumptions C20_commit_succeeds.
(** C20: nor can the durable point of a commit_all. *)
Theorem C20_batch_succeeds : forall sort merge, sorts shard_lt sort -> sorts owsla_lt merge -> forall ls m d g k is, steps sort merge false ls start = Some (Up m d g) -> is <> [] -> NoDup is -> m_jobs m k = JNone ->
  (forall i, In i is -> exists id x, m_clones m i = Ready id x None /\ t_data x <> []) ->
  exists m' d', step sort merge false (LScript k is) (Up m d g) = Some (Up m' d' g) /\ exists m'' d'' g'', step sort merge false (LScriptLink k) (Up m' d' g) = Some (Up m'' d'' g'').
Proof. exact batch_written. Qed.
Print Assumptions C20_batch_succeeds.
(** C20: after which all of it is durable. *)
Theorem C20_batch_durable : forall sort merge, sorts shard_lt sort -> sorts owsla_lt merge -> forall ls m d g k is tmp seqs s, steps sort merge false ls start = Some (Up m d g) ->
  m_jobs m k = Job is tmp seqs JTemp -> step sort merge false (LScriptLink k) (Up m d g) = Some s ->
  exists l, reopened sort merge (disk s) = Some l /\ forall i id x, In i is -> m_clones m i = Ready id x (Some k) -> In x l.
Proof. exact batch_durable. Qed.
Print Assumptions C20_batch_durable.
Example C20_case : h_batches (notes run3) = [[0; 1]%nat] /\ after (wsteps false run3 start) = Some (Some cat_ox) /\
  show (wsteps false run2 start) = Some (cat_ox ++ [Txn 2 5 1 (lit "x")]).
Proof. split; [exact run3_batch|]. split; [exact run3_reopened|exact run2_shown]. Qed.
(** C20: the commit of a transaction without annotations stops the process. *)
Theorem C20_empty_refuted : exists ls, is_down (wsteps false (ls ++ [LCommit 1]) start) = true /\ is_down (wsteps false ls start) = false.
Proof. exists (removelast run5). split; vm_compute; reflexivity. Qed.
Print Assumptions C20_empty_refuted.
(** C20: an abort before ready can remove the file of a transaction that is ready (its file
    name is made of numbers that were never initialised: here they happen to be 0). *)
Theorem C20_abort_refuted : exists ls, is_down (wsteps false (ls ++ [LCommit 0]) start) = false /\ is_down (wsteps true (ls ++ [LBegin 1; LAbort 1 0 0] ++ [LCommit 0]) start) = true.
Proof. exists ([LOpen] ++ ready 0 3 (lit "cat")). split; vm_compute; reflexivity. Qed.
Print Assumptions C20_abort_refuted.

(** C22: no step of a background merge changes what is shown, now or after a crash. *)
Theorem C22_invisible : forall sort merge, sorts shard_lt sort -> sorts owsla_lt merge -> forall ls l m d g s', steps sort merge false ls start = Some (Up m d g) ->
  background l = true -> step sort merge false l (Up m d g) = Some s' ->
  exists m' d' g', s' = Up m' d' g' /\ shown m' = shown m /\ reopened sort merge d' = reopened sort merge d /\ exists x, reopened sort merge d = Some x /\ incl (shown m) x.
Proof. exact background_invisible. Qed.
Print Assumptions C22_invisible.
(** C22: over any number of merges and crashes: nothing lost, nothing twice ([are] lists each
    ticket once). *)
Theorem C22_all_crashes : forall sort merge, sorts shard_lt sort -> sorts owsla_lt merge -> forall ls s, steps sort merge false ls start = Some s ->
  exists l ts, reopened sort merge (disk s) = Some l /\ are (notes ls) ts l /\ incl (h_acked (notes ls)) ts /\ incl ts (h_asked (notes ls)) /\
  forall b, In b (h_batches (notes ls)) -> incl b ts \/ forall t, In t b -> ~ In t ts.
Proof. exact durable. Qed.
Print Assumptions C22_all_crashes.
Example C22_case : after (wsteps false run1 start) = Some (Some cat_ox).
Proof. exact run1_reopened. Qed.
(** C22: a merged shard that cannot be written is installed all the same, and its inputs are
    removed. *)
Theorem C22_unwritten_refuted : exists ls, h_acked (notes ls) = [1; 0]%nat /\ after (wsteps true ls start) = Some (Some []).
Proof. exists run6. split; [vm_compute; reflexivity|exact run6_lost]. Qed.
Print Assumptions C22_unwritten_refuted.
(** C22: a conversion that fails after its file is in place leaves a directory that later
    cannot be opened. *)
Theorem C22_late_refuted : exists ls, h_acked (notes ls) = [1; 0]%nat /\ after (wsteps true ls start) = Some None.
Proof. exists run7. split; [vm_compute; reflexivity|exact run7_stuck]. Qed.
Print Assumptions C22_late_refuted.

(** C38: the shards are in sequence order, with disjoint ranges that contain their
    transactions. *)
Theorem C38_ordered : forall sort merge, sorts shard_lt sort -> sorts owsla_lt merge -> forall ls m d g, steps sort merge false ls start = Some (Up m d g) ->
  StronglySorted (fun a b => e_end a < e_start b) (m_entries m) /\ (forall e, In e (m_entries m) -> 0 <= e_start e <= e_end e) /\
  (forall e x, In e (m_entries m) -> visible e = true -> In x (e_txns e) -> e_start e <= t_seq x <= e_end e).
Proof. exact shards_ordered. Qed.
Print Assumptions C38_ordered.
(** C38: no shard is merged by two workers. *)
Theorem C38_one_worker : forall sort merge, sorts shard_lt sort -> sorts owsla_lt merge -> forall ls m d g w w' sel sel' e, steps sort merge false ls start = Some (Up m d g) ->
  selected m w sel -> selected m w' sel' -> In e sel -> In e sel' -> w = w'.
Proof. exact runs_disjoint. Qed.
Print Assumptions C38_one_worker.
(** C38: while a worker merges, its shards stay where they are, side by side. *)
Theorem C38_stays : forall sort merge, sorts shard_lt sort -> sorts owsla_lt merge -> forall ls m d g w sel, steps sort merge false ls start = Some (Up m d g) ->
  selected m w sel -> exists p q, m_entries m = p ++ sel ++ q.
Proof. exact run_stays. Qed.
Print Assumptions C38_stays.
(** C38: the result takes exactly their place, and has all they have. *)
Theorem C38_installed : forall sort merge, sorts shard_lt sort -> sorts owsla_lt merge -> forall ls m d g w sel m' d' g', steps sort merge false ls start = Some (Up m d g) -> selected m w sel ->
  step sort merge false (LInstall w) (Up m d g) = Some (Up m' d' g') ->
  exists p q new, m_entries m = p ++ sel ++ q /\ m_entries m' = p ++ new :: q /\ e_txns new = flat_map e_txns sel /\ visible new = true /\
    (forall x, In x (e_txns new) <-> In x (shown m) /\ e_start new <= t_seq x <= e_end new).
Proof. exact install_exact. Qed.
Print Assumptions C38_installed.
(** C38: it is never turned away. *)
Theorem C38_installs : forall sort merge, sorts shard_lt sort -> sorts owsla_lt merge -> forall ls m d g w a sel, steps sort merge false ls start = Some (Up m d g) ->
  m_workers m w = WOutput a sel -> m_lock m = None ->
  exists m', step sort merge false (LInstall w) (Up m d g) = Some (Up m' d g) /\ m_workers m' w = WDiscard (map ename sel).
Proof. exact install_succeeds. Qed.
Print Assumptions C38_installs.
Example C38_case : match wsteps false (firstn 21 run1) start with Some (Up m _ _) => length (m_entries m) = 2%nat | _ => False end /\
  match wsteps false run1 start with Some (Up m _ _) => map (fun e => (e_start e, e_end e)) (m_entries m) = [(0, 1)] | _ => False end.
Proof. split; vm_compute; reflexivity. Qed.
