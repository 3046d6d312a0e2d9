(** Model of SimpleBuilder (src/simple_builder.cc): the index it makes of the tokens of the
    texts and of the annotations it is given.  The text itself is in PlainModel.v.

    Simplified throughout: files can be created, opened and written.  The threads that sort
    and write the batches are joined before their files are read, and each has a file of
    its own, so batches are written at once. *)
From Verif Require Import Base HopperModel ArrayDefs Bytes CodecModel PostingModel ShardModel SingleModel.
From Verif Require TokenModel ChunkModel PlainModel.
From Coq Require Import Permutation Sorted.

(** simple_builder.cc:40-42: the order given to std::sort, and what std::sort may do. *)
Definition tok_lt (a b : Z * Z) : bool := (fst a <? fst b) || ((fst a =? fst b) && (snd a <? snd b)).
Definition tok_sorted (l l' : list (Z * Z)) : Prop :=
  Permutation l l' /\ StronglySorted (fun a b => tok_lt b a = false) l'.

Section Build.
(** The compressors of the lists; std::sort of tokens and of annotations (the order of
    simple_builder.cc:44-46 is that of SingleModel.start_lt); tok_file_size_ and
    ann_file_size_. *)
Variables cp cf : compressor.
Variable tsort : list (Z * Z) -> list (Z * Z).
Variable sort : list annotation -> list annotation.
Variables tok_limit ann_limit : nat.

(** simple_builder.cc:438-443, 465-470 *)
Fixpoint write_tokens (n : nat) (l : list (Z * Z)) : res bytes :=
  let* r := posting_from_tokens l in
  match r with
  | None => Ok []
  | Some (p, rest) =>
      match n with
      | O => NoFuel
      | S n => let* b := write cp cf p in let* r := write_tokens n rest in Ok (b ++ r)
      end
  end.
(** simple_builder.cc:428-476 maybe_flush_tokens: the tokens kept back, and the files in
    tokq_. *)
Definition flush_tokens (force : bool) (toks : list (Z * Z)) (q : list bytes) : res (list (Z * Z) * list bytes) :=
  if (force && negb (Nat.eqb (length toks) 0)) || Nat.ltb tok_limit (length toks) then
    let l := tsort toks in
    let* b := write_tokens (length l) l in Ok ([], q ++ [b])
  else Ok (toks, q).
(** simple_builder.cc:619-666 maybe_flush_annotations *)
Definition flush_notes (force : bool) (l : list annotation) (q : list bytes) : res (list annotation * list bytes) :=
  if (force && negb (Nat.eqb (length l) 0)) || Nat.ltb ann_limit (length l) then
    let l := sort l in
    let* b := write_batch cp cf (length l) l in Ok ([], q ++ [b])
  else Ok (l, q).

(** simple_builder.cc:534-542: the lists of a feature, one after the other. *)
Fixpoint append_all (m : posting) (ps : list posting) : res posting :=
  match ps with [] => Ok m | p :: r => let* m := append m p in append_all m r end.
(** simple_builder.cc:521-554: what is written to idx and pst.  A list that fails the
    assertion is undefined behaviour. *)
Fixpoint build_loop (n : nat) (ss : list stream) (m : list (Z * Z)) (out : bytes) : res (list (Z * Z) * bytes) :=
  match least_feature None ss with
  | None => Ok (m, out)
  | Some f =>
      match n with
      | O => NoFuel
      | S n =>
          let* p := append_all (posting_from_feature f) (with_feature f ss) in
          if negb (invariants p) then UB else
          let* b := write cp cf p in
          let* ss := step_streams cp cf f ss in
          build_loop n ss (m ++ [(f, len (out ++ b))]) (out ++ b)
      end
  end.
(** simple_builder.cc:478-566 build_index: idx and pst, given the files in tokq_ and
    annq_. *)
Definition build_index (tokq annq : list bytes) : res (bytes * bytes) :=
  match tokq with
  | [] => Ok ([], [])
  | _ =>
      let* ss := advance_all cp cf (tokq ++ annq) in
      let* (m, out) := build_loop (length (concat (tokq ++ annq))) ss [] [] in
      Ok (map_bytes m, out)
  end.

(** * The builder *)
Variable c : compressor.
Variable cs : Z.
Variable held : Z -> bool.
Variable tokenize : bytes -> list TokenModel.token.
(** The text with the tokens in tokens_; annotations_, tokq_ and annq_. *)
Record state := State { text : PlainModel.builder; notes : list annotation; tokq : list bytes; annq : list bytes }.
(** simple_builder.cc:360-426 *)
Definition start : res state := let* b := PlainModel.builder_make c cs held in Ok (State b [] [] []).
Definition set_tokens (l : list (Z * Z)) (b : PlainModel.builder) : PlainModel.builder :=
  PlainModel.Builder (PlainModel.b_io b) (PlainModel.b_txt b) (PlainModel.b_address b) (PlainModel.b_offset b) l.

Inductive call := Say (t : bytes) | Note (x : annotation).
(** What add_text answers: p and q. *)
Definition answer := option (Z * Z).
(** simple_builder.cc:568-617 add_text_ (flushing does nothing when there was no token);
    657-666 add_annotation_. *)
Definition call1 (e : call) (s : state) : res (answer * state) :=
  match e with
  | Say t =>
      let* (pq, b) := PlainModel.add_text c cs held tokenize t (text s) in
      let* (toks, q) := flush_tokens false (PlainModel.b_tokens b) (tokq s) in
      Ok (Some pq, State (set_tokens toks b) (notes s) q (annq s))
  | Note x =>
      if negb (afeat x =? null_feature) && (0 <=? ip (aiv x)) && (ip (aiv x) <=? iq (aiv x)) then
        let* (l, q) := flush_notes false (notes s ++ [x]) (annq s) in
        Ok (None, State (text s) l (tokq s) q)
      else Ok (None, s)
  end.
Fixpoint calls (l : list call) (s : state) : res (list answer * state) :=
  match l with
  | [] => Ok ([], s)
  | e :: l => let* (a, s) := call1 e s in let* (r, s) := calls l s in Ok (a :: r, s)
  end.
(** simple_builder.cc:673-691 finalize_: the files of the text store, the records of the
    text, idx and pst.  The dna is left out. *)
Record files := Files { f_disk : ChunkModel.disk; f_txt : list PlainModel.record; f_idx : bytes; f_pst : bytes }.
Definition finalize (s : state) : res files :=
  let* (d, txt) := PlainModel.finalize c cs held (text s) in
  let* (_, tq) := flush_tokens true (PlainModel.b_tokens (text s)) (tokq s) in
  let* (_, aq) := flush_notes true (notes s) (annq s) in
  let* (i, p) := build_index tq aq in
  Ok (Files d txt i p).
Definition build (l : list call) : res (list answer * files) :=
  let* s := start in
  let* (r, s) := calls l s in
  let* f := finalize s in Ok (r, f).
End Build.
