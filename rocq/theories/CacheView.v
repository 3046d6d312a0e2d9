(** Model of which lists of a snapshot are shared, and of what they are made: BigwigIdx
    (src/bigwig.cc) over shards in memory (src/fiver.cc) and on disk (src/hazel.cc), as
    the parameters of the machine of CacheModel.v. *)
From Verif Require Import Base HopperModel ArrayDefs Bytes CodecModel PostingModel ShardModel HazelModel OwslaModel CacheModel.

Section View.
Variables cp cf : compressor.
Variable os : list owsla.

(** bigwig.cc:154-160: the shards that have the feature, by their place. *)
Definition contributes (f : Z) (i : nat) : bool :=
  match nth_error os i with
  | Some o => match owsla_count o f with Ok n => 0 <? n | _ => false end
  | None => false
  end.
Definition contributing (f : Z) : list nat := filter (contributes f) (seq 0 (length os)).
(** bigwig.cc:187-201: whose cache a query on the feature uses: the one shard's that has
    it, or the snapshot's. *)
Definition route (f : Z) : key := match contributing f with [i] => (S i, f) | _ => (O, f) end.

(** Lists that no other thread sees: bigwig.cc:193-198; fiver.cc:219-233, 610-617 (the
    postings of a Fiver do not change); hazel.cc:251-265, 288-300.  No list is the empty
    one. *)
Definition alone (k : key) : option posting :=
  let nothing := posting_from_feature (snd k) in
  match fst k with
  | O => match contributing (snd k) with _ :: _ :: _ => None | _ => Some nothing end
  | S i =>
      match nth_error os i with
      | None => Some nothing
      | Some (In_memory w _) => Some (match find_posting (f_index w) (snd k) with Some p => p | None => nothing end)
      | Some (On_disk h _ _) =>
          match locate (hx_dir h) (snd k) with
          | Ok (Some (i, e)) =>
              let s := start_of (hx_dir h) i in
              if s =? en_end e then Some (plain_posting (snd k) (en_val e)) else
              if en_end e <? s then Some nothing else None
          | _ => Some nothing
          end
      end
  end.
(** bigwig.cc:168-173; fill_hazel_posting reads the file only. *)
Definition parts (k : key) : list key :=
  match fst k with O => map (fun i => (S i, snd k)) (contributing (snd k)) | S _ => [] end.
(** hazel.cc:174-179, bigwig.cc:181-184: what is made if the list cannot be read and
    assertions are off. *)
Fixpoint bogus (n : nat) (p : posting) : posting :=
  match n with O => p | S n => push (bogus n p) (Iv (minf + 1 + Z.of_nat n) (minf + 2 + Z.of_nat n) 0) end.
(** bigwig.cc:174-185, hazel.cc:181-199 *)
Definition made (k : key) (ps : list posting) : posting :=
  match fst k with
  | O =>
      match (let* m := posting_from_merge ps in
             match m with Some m => append (posting_from_feature (snd k)) m | None => UB end) with
      | Ok p => p
      | _ => bogus (length (flat_map postings ps)) (posting_from_feature (snd k))
      end
  | S i =>
      match nth_error os i with
      | Some (On_disk h _ _) =>
          match locate (hx_dir h) (snd k) with
          | Ok (Some (i, e)) =>
              let s := start_of (hx_dir h) i in
              match fill cp cf h (snd k) (hx_offset h + s) (en_end e - s) (en_val e) with
              | Ok p => p
              | _ => bogus (Z.to_nat (en_val e)) (posting_from_feature (snd k))
              end
          | _ => posting_from_feature (snd k)
          end
      | _ => posting_from_feature (snd k)
      end
  end.
(** A snapshot's lists are made of lists of its shards. *)
Definition level (k : key) : nat := match fst k with O => 1 | S _ => 0 end.
End View.
