(** The shards of a snapshot and the indexes they hold. *)
From Verif Require Import Base HopperModel ArrayDefs Bytes CodecModel CodecSpec PostingModel PostingSpec ShardModel ShardSpec
  HazelModel HazelSpec OwslaModel.

(** A Fiver with its index, or a Hazel opened from a file into which that index was written. *)
Inductive shard_of (cp cf : compressor) : owsla -> index -> Prop :=
| Shard_memory : forall w t, shard_of cp cf (In_memory w t) (f_index w)
| Shard_disk : forall h x s ix, index_ok ix -> writable cp cf ix -> shelved cp cf ix h -> shard_of cp cf (On_disk h x s) ix.
