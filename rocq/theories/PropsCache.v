(** Property theorems C34: lists loaded on first use, the gate that limits readers, and
    the cache of decompressed text.  Vocabulary: CacheSpec.v, CacheViewSpec.v, GateSpec.v,
    ObtainSpec.v, ShardSpec.v. *)
From Verif Require Import Base HopperModel ArrayDefs GclSpec Bytes CodecModel CodecSpec PostingModel PostingSpec ShardModel ShardSpec
  HazelModel HazelSpec HazelWitness OwslaModel CacheModel CacheSpec CacheAll CacheLive CacheView CacheViewSpec CacheViewProofs CacheWitness.
From Verif Require GateModel GateSpec GateProofs ObtainModel ObtainSpec ObtainProofs.

(** C34: whatever the schedule, a client sees complete lists only: what it has seen is a
    beginning of what it must see, and all of it when it has finished. *)
Theorem C34_complete : forall fallback direct deps combine rank, (forall k k', In k' (deps k) -> (rank k' < rank k)%nat) ->
  forall programs turns s i p, run fallback direct deps combine (start programs) turns = Some s -> nth_error programs i = Some p ->
  exists t, nth_error (threads s) i = Some t /\ (exists later, answers direct deps combine rank p = seen t ++ later) /\
    (finished t = true -> seen t = answers direct deps combine rank p).
Proof. exact seen_ok. Qed.
Print Assumptions C34_complete.
(** C34: no list is loaded twice. *)
Theorem C34_once : forall fallback direct deps combine rank, (forall k k', In k' (deps k) -> (rank k' < rank k)%nat) ->
  forall programs turns s, run fallback direct deps combine (start programs) turns = Some s -> NoDup (loads (glob s)).
Proof. exact loaded_once. Qed.
Print Assumptions C34_once.
(** C34: no two threads are ever about to access one list, one of them to write it. *)
Theorem C34_no_race : forall fallback direct deps combine rank, (forall k k', In k' (deps k) -> (rank k' < rank k)%nat) ->
  forall programs turns s, run fallback direct deps combine (start programs) turns = Some s -> ~ race s.
Proof. exact never_race. Qed.
Print Assumptions C34_no_race.
(** C34: nobody is stuck: while a thread has not finished some thread can take a step,
    without anyone waking up for no reason. *)
Theorem C34_progress : forall fallback direct deps combine rank, (forall k k', In k' (deps k) -> (rank k' < rank k)%nat) ->
  forall programs turns s t, run fallback direct deps combine (start programs) turns = Some s -> In t (threads s) -> finished t = false ->
  exists i s', step fallback direct deps combine s (Run i) = Some s'.
Proof. exact always_goes. Qed.
Print Assumptions C34_progress.
(** C34: and nobody goes on for ever: the number of steps is bounded by the programs, but
    for wakings without reason. *)
Theorem C34_bounded : forall fallback direct deps combine rank, (forall k k', In k' (deps k) -> (rank k' < rank k)%nat) ->
  forall programs turns s, run fallback direct deps combine (start programs) turns = Some s ->
  (runs turns <= list_sum (map (program_cost deps rank) programs) + 4 * spurious turns)%nat.
Proof. exact run_bounded. Qed.
Print Assumptions C34_bounded.
(** C34, for the lists of a snapshot: shards in memory and on disk, merged lists made of
    the lists of the shards.  What any client sees of a feature, under any schedule, is the
    list of the innermost intervals the shards hold of it. *)
Theorem C34_snapshot : forall fallback cp cf chunk os ixs programs turns s i p t f d,
  Forall2 (shard_of cp cf) os ixs -> Forall (sound chunk) ixs -> f <> chunk ->
  run fallback (alone os) (parts os) (made cp cf os) (start programs) turns = Some s ->
  nth_error programs i = Some p -> nth_error (threads s) i = Some t -> In (route os f, d) (seen t) ->
  exists l, feature d = f /\ holds d l /\ gcdup l /\ forall x, In x l <-> innermost_of ixs f x.
Proof. exact view_seen. Qed.
Print Assumptions C34_snapshot.
(** The lists of a snapshot are of the kind the theorems above speak of. *)
Theorem C34_snapshot_ranked : forall os k k', In k' (parts os k) -> (level k' < level k)%nat.
Proof. exact parts_lower. Qed.
Print Assumptions C34_snapshot_ranked.
(** Three clients, five wakings without reason; they finish, with the lists; one list on
    disk is read once and the merged list is made once. *)
Example C34_ex : Forall2 (shard_of wcp wcf) vos vixs /\ Forall (sound wchunk) vixs /\ 7 <> wchunk /\
  Forall (fun fallback => exists s t d, vrun fallback (start vps) (vturns fallback) = Some s /\ forallb finished (threads s) = true /\
    length (threads s) = 4%nat /\ loads (glob s) = [(1%nat, 7); (0%nat, 7)] /\ (0 < spurious (vturns fallback))%nat /\
    nth_error (threads s) 0 = Some t /\ In (route vos 7, d) (seen t) /\ postings d = [1; 6; 9; 15; 40]) [true; false].
Proof.
  split; [exact vshards|]. split; [exact vsound|]. split; [discriminate|].
  repeat constructor; (eexists; eexists; eexists; split; [vm_compute; reflexivity|]; split; [vm_compute; reflexivity|];
    split; [reflexivity|]; split; [reflexivity|]; split; [vm_compute; repeat constructor|]; split; [reflexivity|]; split; [left; reflexivity|reflexivity]).
Qed.

(** * The gate that limits readers *)
(** C34: at most as many threads read at a time as the gate allows. *)
Theorem C34_gate_limit : forall file n programs turns s,
  GateModel.run file (GateModel.start n programs) turns = Some s -> (GateSpec.inside s <= n)%nat.
Proof. exact GateProofs.gate_limit. Qed.
Print Assumptions C34_gate_limit.
(** C34: every read returns exactly the bytes that were asked for or nothing, however
    pread cuts them up; and the bytes, if the file has them and the disk reports no error. *)
Theorem C34_gate_reads : forall file n programs turns s i p,
  GateModel.run file (GateModel.start n programs) turns = Some s -> nth_error programs i = Some p ->
  exists t past, nth_error (GateModel.readers s) i = Some t /\ p = past ++ GateModel.todo t /\
    Forall2 (fun q r => r = None \/ r = GateSpec.part file (fst q) (snd q)) past (GateModel.results t) /\
    (existsb GateSpec.disk_error turns = false -> GateModel.results t = map (fun q => GateSpec.part file (fst q) (snd q)) past).
Proof. exact GateProofs.gate_results. Qed.
Print Assumptions C34_gate_reads.
(** C34: no reader waits for ever: some thread can go on, and the steps are bounded but for
    interrupted calls and wakings without reason. *)
Theorem C34_gate_progress : forall file n programs turns s t, (0 < n)%nat ->
  GateModel.run file (GateModel.start n programs) turns = Some s -> In t (GateModel.readers s) -> GateSpec.finished t = false ->
  exists a s', GateSpec.outside_turn a = false /\ GateModel.step file s a = Some s'.
Proof. exact GateProofs.gate_goes. Qed.
Print Assumptions C34_gate_progress.
Theorem C34_gate_bounded : forall file n programs turns s, GateModel.run file (GateModel.start n programs) turns = Some s ->
  (GateSpec.own_turns turns <= list_sum (map GateSpec.reads_cost programs) + 2 * GateSpec.outside_turns turns)%nat.
Proof. exact GateProofs.gate_bounded. Qed.
Print Assumptions C34_gate_bounded.
Example C34_gate_ex : exists s, GateModel.run gfile (GateModel.start 2 gps) gturns = Some s /\
  existsb GateSpec.disk_error gturns = false /\ forallb GateSpec.finished (GateModel.readers s) = true /\
  map GateModel.results (GateModel.readers s) = [[Some [11; 12; 13]; None]; [Some [10; 11]]; [Some [15]; None; Some []]].
Proof. eexists. split; [vm_compute; reflexivity|]. vm_compute. auto. Qed.

(** * The cache of decompressed text *)
(** C34: every chunk a thread obtains has all its bytes; nothing if reading it failed. *)
Theorem C34_text_complete : forall raw n programs turns s i p, Forall (Forall (fun k => (k < n)%nat)) programs ->
  ObtainModel.run raw (ObtainModel.start n programs) turns = Some s -> nth_error programs i = Some p ->
  exists t past, nth_error (ObtainModel.users s) i = Some t /\ p = past ++ ObtainModel.todo t /\
    Forall2 (fun k r => r = None \/ r = Some (raw k)) past (ObtainModel.saw t) /\
    (existsb ObtainSpec.failed turns = false -> ObtainModel.saw t = map (fun k => Some (raw k)) past).
Proof. exact ObtainProofs.obtain_results. Qed.
Print Assumptions C34_text_complete.
Theorem C34_text_no_race : forall raw n programs turns s, Forall (Forall (fun k => (k < n)%nat)) programs ->
  ObtainModel.run raw (ObtainModel.start n programs) turns = Some s -> ~ ObtainSpec.race s.
Proof. exact ObtainProofs.obtain_no_race. Qed.
Print Assumptions C34_text_no_race.
Theorem C34_text_progress : forall raw n programs turns s t, Forall (Forall (fun k => (k < n)%nat)) programs ->
  ObtainModel.run raw (ObtainModel.start n programs) turns = Some s -> In t (ObtainModel.users s) -> ObtainSpec.finished t = false ->
  exists a s', ObtainModel.step raw s a = Some s'.
Proof. exact ObtainProofs.obtain_goes. Qed.
Print Assumptions C34_text_progress.
Theorem C34_text_bounded : forall raw n programs turns s, ObtainModel.run raw (ObtainModel.start n programs) turns = Some s ->
  (length turns <= 10 * list_sum (map (@length nat) programs))%nat.
Proof. exact ObtainProofs.obtain_bounded. Qed.
Print Assumptions C34_text_bounded.
Example C34_text_ex : Forall (Forall (fun k => (k < 2)%nat)) ops /\
  exists s, ObtainModel.run oraw (ObtainModel.start 2 ops) oturns = Some s /\ existsb ObtainSpec.failed oturns = false /\
    map ObtainModel.saw (ObtainModel.users s) = [[Some [7; 8]; Some [9]]; [Some [7; 8]]; [Some [9]; Some [7; 8]]].
Proof. split; [repeat constructor|]. eexists. split; [vm_compute; reflexivity|]. vm_compute. auto. Qed.
