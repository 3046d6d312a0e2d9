(** Specification vocabulary for Hazel indexes: what a blob must answer, and what a
    crash can leave of the checkpoint files of a merge. *)
From Verif Require Import Base HopperModel GclSpec Bytes CodecModel CodecSpec PostingModel PostingSpec ShardModel ShardSpec HazelModel.

(** The rows of a std::map: features strictly increasing. *)
Fixpoint map_order (fs : list Z) : Prop :=
  match fs with
  | f :: ((g :: _) as r) => f < g /\ map_order r
  | _ => True
  end.
(** An index that can be written: every list is not empty, belongs to its feature and
    can be stored by the compressors. *)
Definition writable (cp cf : compressor) (ix : index) : Prop :=
  map_order (map fst ix) /\
  Forall (fun r => feature (snd r) = fst r /\ storable cp cf (snd r) /\
                   exists l, holds (snd r) l /\ l <> [] /\ Forall value_ok l) ix.
(** Two postings that answer every get alike. *)
Definition alike (p q : posting) : Prop := feature p = feature q /\ forall i, get p i = get q i.
(** [h] answers every lookup as the index [ix] in memory does. *)
Definition answers_as (cp cf : compressor) (h : hidx) (ix : index) : Prop :=
  hazel_vocab h = len ix /\
  forall f,
    hazel_count h f = Ok (fiver_count ix f) /\
    match find_posting ix f with
    | None => hazel_posting cp cf h f = Ok None /\ hazel_hopper cp cf h f = Ok empty_obj
    | Some p =>
        (exists q, hazel_posting cp cf h f = Ok (Some q) /\ alike p q) /\
        (sound_posting f p -> psize p <= 2305843009213693951 ->
           exists o, hazel_hopper cp cf h f = Ok o /\ answers (projT1 o) (projT2 o) (stored_in ix f))
    end.
(** [h] is the index loaded from a file in which the blob of [ix] stands. *)
Definition shelved (cp cf : compressor) (ix : index) (h : hidx) : Prop :=
  exists before after blob, write_idx_blob cp cf before ix = Ok (before ++ blob, len before, len blob) /\
    len blob <= maxf /\
    load (before ++ blob ++ after) (len before) (len blob) = Ok (Some h).

(** * Crashes *)
(** What a crash during the actions [l] on the files [s] leaves: some of them are
    done, and of the next, when it appends, a first part. *)
Inductive crashed (s : files) : list act -> files -> Prop :=
| Crash_between : forall done rest, crashed s (done ++ rest) (exec s done)
| Crash_in_pst : forall done b c rest, crashed s (done ++ Append_pst (b ++ c) :: rest) (exec s (done ++ [Append_pst b]))
| Crash_in_dct : forall done b c rest, crashed s (done ++ Append_dct (b ++ c) :: rest) (exec s (done ++ [Append_dct b])).
(** When the machine goes down too, each file may lose its last part, or be lost. *)
Definition lost1 (a b : option bytes) : Prop :=
  match b with None => True | Some y => exists x, a = Some x /\ exists z, x = y ++ z end.
Definition lost (s s' : files) : Prop := lost1 (pst s) (pst s') /\ lost1 (dct s) (dct s').
(** The checkpoint files after any number of attempts at the same merge that ended in
    a crash. *)
Inductive attempts (cp cf : compressor) (chunk : Z) (hs : list hidx) (lengths : list Z) : files -> Prop :=
| First_attempt : attempts cp cf chunk hs lengths (Files None None)
| Crashed_attempt : forall s acts b s', attempts cp cf chunk hs lengths s ->
    idx_merge cp cf chunk hs lengths s = Ok (Some (acts, b)) -> crashed s acts s' ->
    attempts cp cf chunk hs lengths s'
| Lost_data : forall s s', attempts cp cf chunk hs lengths s -> lost s s' -> attempts cp cf chunk hs lengths s'.

(** * What can be merged *)
(** The lists the compressors have to store: in order, from 0 on, with any values. *)
Definition stores_lists (cp cf : compressor) : Prop :=
  forall s l, holds s l -> gcdup l -> Forall (fun x => 0 <= ip x /\ is_addr (ivl x)) l ->
    is_addr (feature s) -> Z.of_nat (length l) <= 288230376151711743 -> storable cp cf s.
(** The rows of an index as Fiver::ready_ and the merges build them. *)
Definition row_ok (r : Z * posting) : Prop :=
  0 <= fst r < maxf /\ sound_posting (fst r) (snd r) /\
  forall i x, get (snd r) i = Ok (Some x) -> 0 <= ip x /\ is_addr (ivl x).
Definition index_ok (ix : index) : Prop := map_order (map fst ix) /\ Forall row_ok ix.
(** The text chunks of several shards one after the other, their values moved by the
    lengths of the texts before them. *)
Fixpoint moved_chunks (chunk : Z) (ixs : list index) (lengths : list Z) (base : Z) (x : iv) : Prop :=
  match ixs, lengths with
  | ix :: r, n :: s => (exists v, ivl x = v + base /\ stored_in ix chunk (Iv (ip x) (iq x) v)) \/
                       moved_chunks chunk r s (base + n) x
  | _, _ => False
  end.
(** Chunks of later shards lie after those of earlier ones. *)
Definition chunks_apart (chunk : Z) (ixs : list index) : Prop :=
  forall i j a b x y, (i < j)%nat -> nth_error ixs i = Some a -> nth_error ixs j = Some b ->
    stored_in a chunk x -> stored_in b chunk y -> ip x < ip y /\ iq x < iq y.
(** Every list fits in memory and the moved values are addresses. *)
Definition merge_fits (chunk : Z) (ixs : list index) (lengths : list Z) : Prop :=
  (forall f, bigwig_count ixs f <= 288230376151711743) /\ length lengths = length ixs /\
  forall x, moved_chunks chunk ixs lengths 0 x -> is_addr (ivl x) /\ value_ok x.
