(** Specification vocabulary for shards: what a shard stores is what its postings' get
    answers; what a user should see of several shards. *)
From Verif Require Import Base HopperModel GclSpec VectorModel PostingModel PostingSpec ShardModel.

(** Annotation [x] of feature [f] is stored in a shard, or in one of several. *)
Definition stored_in (w : index) (f : Z) (x : iv) : Prop :=
  exists p i, find_posting w f = Some p /\ get p i = Ok (Some x).
Definition stored_by (ws : list index) (f : Z) (x : iv) : Prop := exists w, In w ws /\ stored_in w f x.
(** The innermost annotations of all shards, values from the latest. *)
Definition innermost_of (ws : list index) (f : Z) : iv -> Prop := sem_inner (map (fun w => stored_in w f) ws).
(** Some erased range contains [x]. *)
Definition erased (ws : list index) (x : iv) : Prop := exists e, stored_by ws null_feature e /\ nests e x.
(** What a query on a feature should see. *)
Definition visible (ws : list index) (f : Z) (x : iv) : Prop := innermost_of ws f x /\ ~ erased ws x.
(** No erased range strictly contains another. *)
Definition erasures_apart (ws : list index) : Prop :=
  forall d e, stored_by ws null_feature d -> stored_by ws null_feature e -> nests d e -> nests e d.
(** No annotation that is not erased contains one of the same feature that is. *)
Definition no_straddle (ws : list index) (f : Z) : Prop :=
  forall x y, stored_by ws f x -> stored_by ws f y -> nests x y -> erased ws y -> erased ws x.

(** A shard as Fiver::ready_ builds it: each posting is a non-empty list of its
    feature, in order, none containing another.  ([chunk] is not looked at.) *)
Definition sound_posting (f : Z) (p : posting) : Prop :=
  feature p = f /\ exists l, holds p l /\ l <> [] /\ gcdup l /\ Forall value_ok l.
Definition sound (chunk : Z) (w : index) : Prop :=
  forall f p, f <> chunk -> find_posting w f = Some p -> sound_posting f p.
(** The lists of one feature fit in memory together. *)
Definition room (ws : list index) (f : Z) : Prop := bigwig_count ws f <= 2305843009213693951.

(** One background merge of a run of adjacent shards, and any number of them. *)
Inductive merge_step (sort : list annotation -> list annotation) (chunk : Z) : list fiver -> list fiver -> Prop :=
| Merge_run : forall before run after m, fiver_merge sort chunk run = Ok (Some m) ->
    merge_step sort chunk (before ++ run ++ after) (before ++ m :: after).
Inductive merge_steps (sort : list annotation -> list annotation) (chunk : Z) : list fiver -> list fiver -> Prop :=
| Merge_none : forall ws, merge_steps sort chunk ws ws
| Merge_more : forall a b c, merge_step sort chunk a b -> merge_steps sort chunk b c -> merge_steps sort chunk a c.
(** What the shards store. *)
Definition ixs (ws : list fiver) : list index := map f_index ws.
