(** C16 and C17: erasing and background merging as seen through several shards. *)
From Verif Require Import Base Bytes HopperModel GclSpec VectorModel PostingModel PostingSpec QueryModel QuerySpec
  ShardModel ShardSpec ShardProofs ShardQuery ShardWitness.

(** C16, exactly what every query on a feature sees over any sound shards, whatever is
    erased: the innermost annotations of all shards that are not inside an innermost
    erased range. *)
Theorem C16_view : forall chunk ws f, Forall (sound chunk) ws -> null_feature <> chunk -> f <> chunk ->
  room ws f -> room ws null_feature ->
  exists o, bigwig_hopper ws f = Ok o /\
    answers (projT1 o) (projT2 o)
      (if f =? null_feature then innermost_of ws null_feature
       else sem_nin (innermost_of ws f) (innermost_of ws null_feature)).
Proof. exact view_ok. Qed.
Print Assumptions C16_view.
(** C16: separate shards, nothing inside any erased range is seen and everything else is.
    Missing from the full property: erased ranges that contain one another, for which it
    is false (C16_nested_erase_refuted below). *)
Theorem C16_visible_partial : forall chunk ws f, Forall (sound chunk) ws -> null_feature <> chunk ->
  f <> chunk -> f <> null_feature -> room ws f -> room ws null_feature -> erasures_apart ws ->
  exists o, bigwig_hopper ws f = Ok o /\ answers (projT1 o) (projT2 o) (visible ws f).
Proof. exact view_visible. Qed.
Print Assumptions C16_visible_partial.
(** C16: the same when the shards have been merged into one, where erased annotations
    are gone from storage.  Same condition. *)
Theorem C16_merged_partial : forall sort chunk ws m, fiver_merge sort chunk ws = Ok (Some m) -> null_feature <> chunk ->
  Forall (sound chunk) (ixs ws) -> room (ixs ws) null_feature -> erasures_apart (ixs ws) ->
  forall f, f <> chunk -> f <> null_feature -> room (ixs ws) f ->
  exists o, bigwig_hopper [f_index m] f = Ok o /\ answers (projT1 o) (projT2 o) (visible (ixs ws) f).
Proof. exact merged_visible. Qed.
Print Assumptions C16_merged_partial.
(** C16 without the condition: after a range inside it is erased too, a larger erased
    range no longer hides an annotation it contains. *)
Theorem C16_nested_erase_refuted : exists ws f x, Forall (sound 99) (ixs ws) /\ room (ixs ws) f /\ room (ixs ws) null_feature /\
  f <> 99 /\ f <> null_feature /\ stored_by (ixs ws) f x /\ erased (ixs ws) x /\
  look ws f [(Mtau, ip x)] = Ok [x].
Proof. exact nested_erase. Qed.
Print Assumptions C16_nested_erase_refuted.

(** C17: any number of background merges of any runs of adjacent shards, at any time:
    every feature answers every history of calls as before.  Missing from the full
    property: shards where an annotation contains an erased one of its own feature, for
    which it is false (C17_straddle_refuted below), nested erased ranges, and the text
    (C25). *)
Theorem C17_merge_partial : forall sort chunk ws ws', merge_steps sort chunk ws ws' -> null_feature <> chunk ->
  Forall (sound chunk) (ixs ws) -> room (ixs ws) null_feature -> erasures_apart (ixs ws) ->
  forall f, f <> chunk -> f <> null_feature -> room (ixs ws) f -> no_straddle (ixs ws) f ->
  exists o o', bigwig_hopper (ixs ws) f = Ok o /\ bigwig_hopper (ixs ws') f = Ok o' /\
    answers (projT1 o) (projT2 o) (visible (ixs ws) f) /\ answers (projT1 o') (projT2 o') (visible (ixs ws) f) /\
    forall h, Forall (fun mk => minf <= snd mk <= maxf) h ->
      run (projT1 o) (projT2 o) h = run (projT1 o') (projT2 o') h.
Proof. exact merging_invisible. Qed.
Print Assumptions C17_merge_partial.
(** C17 for whole queries. *)
Theorem C17_queries_partial : forall sort chunk ws ws', merge_steps sort chunk ws ws' -> null_feature <> chunk ->
  Forall (sound chunk) (ixs ws) -> room (ixs ws) null_feature -> erasures_apart (ixs ws) ->
  forall (feat : bytes -> Z) e,
  (forall t, In t (terms e) -> feat t <> chunk /\ feat t <> null_feature /\ room (ixs ws) (feat t) /\ no_straddle (ixs ws) (feat t)) ->
  valid (fun t => visible (ixs ws) (feat t)) e ->
  forall idx idx',
  (forall t, In t (terms e) -> bigwig_hopper (ixs ws) (feat t) = Ok (idx t) /\ bigwig_hopper (ixs ws') (feat t) = Ok (idx' t)) ->
  exists o o', to_hopper idx e = Some o /\ to_hopper idx' e = Some o' /\
    answers (projT1 o) (projT2 o) (meaning (fun t => visible (ixs ws) (feat t)) e) /\
    forall h, Forall (fun mk => minf <= snd mk <= maxf) h ->
      run (projT1 o) (projT2 o) h = run (projT1 o') (projT2 o') h.
Proof. exact merging_queries. Qed.
Print Assumptions C17_queries_partial.
(** C17, what holds whatever contains what: no merge hides anything seen before, the
    shards stay sound, and their lists do not grow. *)
Theorem C17_nothing_lost : forall sort chunk ws ws', merge_steps sort chunk ws ws' -> null_feature <> chunk ->
  Forall (sound chunk) (ixs ws) -> room (ixs ws) null_feature -> erasures_apart (ixs ws) ->
  Forall (sound chunk) (ixs ws') /\ room (ixs ws') null_feature /\ erasures_apart (ixs ws') /\
  forall f, f <> chunk -> f <> null_feature -> room (ixs ws) f ->
    room (ixs ws') f /\
    (forall x, visible (ixs ws) f x -> visible (ixs ws') f x) /\
    (no_straddle (ixs ws) f -> no_straddle (ixs ws') f /\ forall x, visible (ixs ws') f x <-> visible (ixs ws) f x).
Proof. exact steps_visible. Qed.
Print Assumptions C17_nothing_lost.
(** C17 without the condition: an annotation appears only because shards were merged. *)
Theorem C17_straddle_refuted : exists ws ws' f x, merge_steps (fun l => l) 99 ws ws' /\
  Forall (sound 99) (ixs ws) /\ room (ixs ws) f /\ room (ixs ws) null_feature /\ erasures_apart (ixs ws) /\
  f <> 99 /\ f <> null_feature /\
  look ws f [(Mtau, 0)] = Ok [Iv maxf maxf 0] /\ look ws' f [(Mtau, 0)] = Ok [x] /\ finite x.
Proof. exact straddle_seen. Qed.
Print Assumptions C17_straddle_refuted.
Example C16_C17_ex : Forall (sound 99) (ixs [wa; wb; wc]) /\ room (ixs [wa; wb; wc]) 42 /\ room (ixs [wa; wb; wc]) null_feature /\
  erasures_apart (ixs [wa; wb; wc]) /\ no_straddle (ixs [wa; wb; wc]) 42 /\
  merge_steps (fun l => l) 99 [wa; wb; wc] [ab; wc] /\ fiver_merge (fun l => l) 99 [wa; wb; wc] = Ok (Some wm) /\
  (stored_by (ixs [wa; wb; wc]) 42 (Iv 4 5 9) /\ erased (ixs [wa; wb; wc]) (Iv 4 5 9)) /\
  look [wa; wb; wc] 42 [(Mtau, 0); (Mtau, 2); (Mtau, 13)] = Ok [Iv 1 3 7; Iv 12 13 6; Iv maxf maxf 0] /\
  look [ab; wc] 42 [(Mtau, 0); (Mtau, 2); (Mtau, 13)] = Ok [Iv 1 3 7; Iv 12 13 6; Iv maxf maxf 0] /\
  look [wm] 42 [(Mtau, 0); (Mtau, 2); (Mtau, 13)] = Ok [Iv 1 3 7; Iv 12 13 6; Iv maxf maxf 0].
Proof. exact shards_ex. Qed.
Example C17_queries_ex : let e := SX ALL_OF [] 0 [SX TERM (lit "x") 0 []; SX TERM (lit "y") 0 []] in
  (forall t, In t (terms e) -> feat2 t <> 99 /\ feat2 t <> null_feature /\ room (ixs [wa; wb; wc]) (feat2 t) /\
     no_straddle (ixs [wa; wb; wc]) (feat2 t)) /\
  valid (fun t => visible (ixs [wa; wb; wc]) (feat2 t)) e.
Proof. exact query_ex. Qed.
