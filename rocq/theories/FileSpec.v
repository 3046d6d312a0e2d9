(** Specification vocabulary for the files of a shard. *)
From Verif Require Import Base HopperModel Bytes CodecModel CodecSpec PostingModel PostingSpec ShardModel TextModel TextSpec HazelModel FileModel.

(** * Jars *)
(** A shard whose lists and text the compressors can store. *)
Definition can_pickle (cp cf ct : compressor) (w : fiver) : Prop :=
  is_addr (f_start w) /\ is_addr (f_end w) /\
  0 <= extra ct (len (f_text w)) /\ len (f_text w) + extra ct (len (f_text w)) <= maxf /\ lossless ct (f_text w) /\
  Forall (fun r => feature (snd r) = fst r /\ storable cp cf (snd r) /\ exists l, holds (snd r) l) (f_index w).
(** Two shards with the same text, sequence numbers and lists. *)
Definition same_shard (w w' : fiver) : Prop :=
  f_text w' = f_text w /\ f_start w' = f_start w /\ f_end w' = f_end w /\
  forall f, find_posting (f_index w') f = find_posting (f_index w) f.

(** * Dictionaries *)
(** A name that fits, and two sizes. *)
Definition blob_fits (b : blob) : Prop := len (b_name b) <= maxf /\ 0 <= b_offset b <= maxf /\ 0 <= b_length b <= maxf.
(** The last blob with a name. *)
Fixpoint last_named (name : bytes) (bs : list blob) : option blob :=
  match bs with
  | [] => None
  | b :: r => match last_named name r with
              | Some c => Some c
              | None => if eqb_bytes (b_name b) name then Some b else None
              end
  end.
(** Lines, each ended by a newline and none of them empty. *)
Definition text_lines (ls : list bytes) : bytes := concat (map (fun l => l ++ [10]) ls).
Definition no_empty_line (dna : bytes) : Prop :=
  exists ls, dna = text_lines ls /\ Forall (fun l => l <> [] /\ ~ In 10 l) ls.

(** * Text *)
(** The tokens of the text before a token are those before it. *)
Definition cut_law (starts : bytes -> list Z) : Prop :=
  forall s i o, nth_error (starts s) i = Some o -> starts (firstn (Z.to_nat o) s) = firstn i (starts s).
(** A text compressor. *)
Definition stores_text (ct : compressor) : Prop :=
  forall b, Forall is_byte b -> 0 <= extra ct (len b) /\ lossless ct b.
(** Any history of translate calls. *)
Fixpoint hazel_translate_all (ct : compressor) (skip : bytes -> Z -> Z) (t : htxt) (w : tstate) (l : list (Z * Z)) : res (list bytes) :=
  match l with
  | [] => Ok []
  | (p, q) :: r => let* (w, b) := hazel_translate ct skip t w p q in let* bs := hazel_translate_all ct skip t w r in Ok (b :: bs)
  end.
