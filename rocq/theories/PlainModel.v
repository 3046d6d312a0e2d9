(** Model of the text of a single-file index: SimpleBuilder (src/simple_builder.cc, the
    part that adds text), SimpleAppender (src/simple_appender.cc) and SimpleTxt
    (src/simple_txt.cc), on the chunked text store of ChunkModel.v.

    Simplified throughout: files can be opened and written, the txt file is a list of
    records, and link, rename and remove do not fail (but link does when the lock is
    taken).  The annotations an appender makes are collected in a list; what becomes of
    them is in SingleModel.v. *)
From Verif Require Import Base Bytes CodecModel ChunkModel TokenModel.
From Verif Require TextModel ShardModel.

(** simple.h:23 *)
Definition TXT_BLOCKING : Z := 1024.
(** simple.h:54-58: TxtRecord *)
Record record := Rec { r_pq : Z; r_start : Z; r_end : Z }.
(** core.h:109 *)
Definition separator : Z -> bool := TextModel.separator.
(** simple_builder.cc:578-581, simple_appender.cc:124-130: the text and, unless it ends in
    a separator, a newline. *)
Definition ended (text : bytes) : bytes := text ++ (if separator (last text 0) then [] else [10]).
(** std::string s = p, for a buffer ended by a NUL. *)
Fixpoint c_string (s : bytes) : bytes :=
  match s with [] => [] | x :: r => if x =? 0 then [] else x :: c_string r end.
(** Division as in C++. *)
Definition div (a b : Z) : res Z := if b =? 0 then UB else Ok (Z.quot a b).

Section Plain.
(** The compressor, the size of chunks and the buffering of the text store; the tokenizer
    with its featurizer. *)
Variable c : compressor.
Variable cs : Z.
Variable held : Z -> bool.
Variable tokenize : bytes -> list token.
Variable skip : bytes -> Z -> Z.
Variable split : bytes -> list bytes.

(** * Calls of the text store *)
Definition io_append (b : bytes) (w : program) : res program :=
  let* (_, w) := run1 c cs held (Append b) w in Ok w.
Definition io_read (p n : Z) (w : program) : res (bytes * program) :=
  let* (a, w) := run1 c cs held (Read p n) w in
  match a with Bytes b => Ok (b, w) | _ => UB end.
Definition io_size (w : program) : Z := size (h (s_ w)).

(** * Building *)
(** The members of SimpleBuilder that have to do with text: io_, txt_, address_, offset_
    and the tokens (feature and address) put aside for the index. *)
Record builder := Builder {
  b_io : program; b_txt : list record; b_address : Z; b_offset : Z; b_tokens : list (Z * Z)
}.
(** simple_builder.cc:398-409 *)
Definition builder_make : res builder :=
  let* w := opened c cs held blank in Ok (Builder w [] 0 0 []).
(** simple_builder.cc:596-611 *)
Fixpoint build_tokens (toks : list token) (last_pq : Z) (b : builder) : builder :=
  match toks with
  | [] => b
  | t :: r =>
      let a := t_address t + b_address b in
      let b := if t_feature t =? ShardModel.null_feature then b
               else Builder (b_io b) (b_txt b) (b_address b) (b_offset b) (b_tokens b ++ [(t_feature t, a)]) in
      if (a mod TXT_BLOCKING =? 0) && negb (a =? last_pq) then
        let x := Rec a (b_offset b + t_offset t) (b_offset b + t_offset t + t_length t - 1) in
        build_tokens r a (Builder (b_io b) (b_txt b ++ [x]) (b_address b) (b_offset b) (b_tokens b))
      else build_tokens r last_pq b
  end.
(** simple_builder.cc:568-617: add_text_; the answers are p and q. *)
Definition add_text (text : bytes) (b : builder) : res ((Z * Z) * builder) :=
  match text with
  | [] => Ok ((b_address b + 1, b_address b), b)
  | _ =>
      let buffer := ended text in
      let* w := io_append buffer (b_io b) in
      let b := Builder w (b_txt b) (b_address b) (b_offset b) (b_tokens b) in
      let toks := tokenize buffer in
      match rev toks with
      | [] => Ok ((b_address b + 1, b_address b), Builder (b_io b) (b_txt b) (b_address b) (b_offset b + len buffer) (b_tokens b))
      | t :: _ =>
          let last_address := b_address b + t_address t in
          let b1 := build_tokens toks (-1) b in
          Ok ((b_address b, last_address),
              Builder (b_io b1) (b_txt b1) (last_address + 1) (b_offset b1 + len buffer) (b_tokens b1))
      end
  end.
(** simple_builder.cc:676-677: finalize_; what is left are the files. *)
Definition finalize (b : builder) : res (disk * list record) :=
  let* (_, w) := run1 c cs held Flush (b_io b) in Ok (dk (s_ w), b_txt b).

(** * Appending *)
(** The members of SimpleAppender, those of Committable (committable.h), and its files.
    [a_io] is io_, or while that is null the files of the text store; [a_txt] is the txt
    file, [a_new] what txt_ has written, [a_lock] whether txt.lock exists. *)
Record appender := Appender {
  a_started : bool; a_readied : bool; a_vote : bool;
  a_failed : bool; a_adding : bool; a_io : program + disk; a_txt : list record; a_new : list record; a_lock : bool;
  a_address : Z; a_offset : Z; a_annotations : list (Z * Z)
}.
(** simple_appender.cc:48-63 *)
Definition appender_make (d : disk) (txt : list record) (lock : bool) : appender :=
  Appender false false false false false (inr d) txt [] lock 0 0 [].
Definition set_io (w : program) (a : appender) : appender :=
  Appender (a_started a) (a_readied a) (a_vote a) (a_failed a) (a_adding a) (inl w) (a_txt a) (a_new a) (a_lock a) (a_address a) (a_offset a) (a_annotations a).
Definition set_lock (b : bool) (a : appender) : appender :=
  Appender (a_started a) (a_readied a) (a_vote a) (a_failed a) (a_adding a) (a_io a) (a_txt a) (a_new a) b (a_address a) (a_offset a) (a_annotations a).
Definition set_failed (a : appender) : appender :=
  Appender (a_started a) (a_readied a) (a_vote a) true (a_adding a) (a_io a) (a_txt a) (a_new a) (a_lock a) (a_address a) (a_offset a) (a_annotations a).
Definition set_adding (b : bool) (a : appender) : appender :=
  Appender (a_started a) (a_readied a) (a_vote a) (a_failed a) b (a_io a) (a_txt a) (a_new a) (a_lock a) (a_address a) (a_offset a) (a_annotations a).
Definition set_new (l : list record) (a : appender) : appender :=
  Appender (a_started a) (a_readied a) (a_vote a) (a_failed a) (a_adding a) (a_io a) (a_txt a) l (a_lock a) (a_address a) (a_offset a) (a_annotations a).
Definition set_txt (l : list record) (a : appender) : appender :=
  Appender (a_started a) (a_readied a) (a_vote a) (a_failed a) (a_adding a) (a_io a) l (a_new a) (a_lock a) (a_address a) (a_offset a) (a_annotations a).
Definition set_place (address offset : Z) (a : appender) : appender :=
  Appender (a_started a) (a_readied a) (a_vote a) (a_failed a) (a_adding a) (a_io a) (a_txt a) (a_new a) (a_lock a) address offset (a_annotations a).
Definition set_protocol (started readied vote : bool) (a : appender) : appender :=
  Appender started readied vote (a_failed a) (a_adding a) (a_io a) (a_txt a) (a_new a) (a_lock a) (a_address a) (a_offset a) (a_annotations a).
Definition set_annotations (l : list (Z * Z)) (a : appender) : appender :=
  Appender (a_started a) (a_readied a) (a_vote a) (a_failed a) (a_adding a) (a_io a) (a_txt a) (a_new a) (a_lock a) (a_address a) (a_offset a) l.

(** io_->abort(), std::remove(lock): the way out when a check fails (simple_appender.cc:235-296). *)
Definition refuse (w : program) (a : appender) : res (bool * appender) :=
  let* (_, w) := run1 c cs held Abort w in
  Ok (false, set_lock false (set_failed (set_io w (set_new [] a)))).
(** simple_appender.cc:176-309: transaction_ *)
Definition appender_transaction_ (a : appender) : res (bool * appender) :=
  if a_failed a then Ok (false, a) else
  if a_lock a then Ok (false, a) else
  let a := set_lock true a in
  let* w := (match a_io a with inl w => Ok w | inr d => opened c cs held d end) in
  let a := set_io w a in
  let* (b, w) := run1 c cs held Begin w in
  let a := set_io w a in
  match b with
  | Flag true =>
      let a := set_new (a_txt a) a in
      let offset := io_size w in
      match rev (a_txt a) with
      | [] => Ok (true, set_adding true (set_place 0 offset a))
      | x :: _ =>
          if offset <=? r_start x then refuse w a else
          let* (tail, w) := io_read (r_start x) (offset - r_start x) w in
          let a := set_io w a in
          if negb (len tail =? offset - r_start x) then refuse w a else
          let n := Z.of_nat (length (split (c_string tail))) in
          if n =? 0 then refuse w a else
          Ok (true, set_adding true (set_place (r_pq x + n) offset a))
      end
  | _ => Ok (false, set_lock false a)
  end.
(** simple_appender.cc:145-167; [last_pq] stays -1.  annotate (annotator.h:26-32) ignores
    the features up to null_feature. *)
Fixpoint append_tokens (toks : list token) (a : appender) : appender :=
  match toks with
  | [] => a
  | t :: r =>
      let x := t_address t + a_address a in
      let a := if t_feature t <=? ShardModel.null_feature then a else set_annotations (a_annotations a ++ [(t_feature t, x)]) a in
      if (x mod TXT_BLOCKING =? 0) && negb (x =? -1) then
        append_tokens r (set_new (a_new a ++ [Rec x (a_offset a + t_offset t) (a_offset a + t_offset t + t_length t - 1)]) a)
      else append_tokens r a
  end.
(** simple_appender.cc:105-174: append_; [None] is an error. *)
Definition append_text (text : bytes) (a : appender) : res (option (Z * Z) * appender) :=
  if a_failed a || negb (a_adding a) then Ok (None, a) else
  match text, a_io a with
  | [], _ => Ok (Some (a_address a + 1, a_address a), a)
  | _, inr _ => UB
  | _, inl w =>
      let buffer := ended text in
      let* w := io_append buffer w in
      let a := set_io w a in
      let toks := tokenize buffer in
      match rev toks with
      | [] => Ok (Some (a_address a + 1, a_address a), set_place (a_address a) (a_offset a + len buffer) a)
      | t :: _ =>
          let last_address := a_address a + t_address t in
          let b := append_tokens toks a in
          Ok (Some (a_address a, last_address), set_place (last_address + 1) (a_offset b + len buffer) b)
      end
  end.
(** simple_appender.cc:311-320: ready_, with what io_->ready does up to its flush. *)
Definition appender_ready_ (a : appender) : res (bool * appender) :=
  if a_failed a || negb (a_adding a) then Ok (false, a) else
  match a_io a with
  | inr _ => UB
  | inl w => let* (_, w) := run1 c cs held Flush w in Ok (true, set_io w a)
  end.
(** simple_appender.cc:322-335: commit_.  Committing the text store flushes it first here,
    which makes no difference unless text was appended after ready. *)
Definition appender_commit_ (a : appender) : res appender :=
  let* a := (match a_io a with
             | inr _ => Ok a
             | inl w => let* (_, w) := run1 c cs held Commit w in Ok (set_io w a)
             end) in
  let a := if negb (a_failed a) && a_adding a then set_lock false (set_new [] (set_txt (a_new a) a)) else a in
  Ok (set_adding false a).
(** simple_appender.cc:337-350: abort_ *)
Definition appender_abort_ (a : appender) : res appender :=
  let* a := (match a_io a with
             | inr _ => Ok a
             | inl w => let* (_, w) := run1 c cs held Abort w in Ok (set_io w a)
             end) in
  let a := if negb (a_failed a) && a_adding a then set_lock false (set_new [] a) else a in
  Ok (set_adding false a).

(** What a program does with an appender: committable.h:20-65 around the above.  The
    answer to a text are its range and the annotations made of its tokens. *)
Inductive call :=
| Transaction
| Text (t : bytes)
| Ready
| Commits
| Aborts
| Restart.                    (* another program opens the files *)
Inductive reply := Nothing | Yes (b : bool) | Range (pq : option (Z * Z)) (annotated : list (Z * Z)).
Definition call1 (e : call) (a : appender) : res (reply * appender) :=
  match e with
  | Transaction =>
      if a_started a then Ok (Yes false, a) else
      let* (b, a) := appender_transaction_ (set_protocol false false false a) in
      Ok (Yes b, set_protocol b false false a)
  | Text t => let* (r, a) := append_text t (set_annotations [] a) in Ok (Range r (a_annotations a), a)
  | Ready =>
      if negb (a_started a) then Ok (Yes false, a) else
      if a_readied a then Ok (Yes (a_vote a), a) else
      let* (b, a) := appender_ready_ a in Ok (Yes b, set_protocol (a_started a) true b a)
  | Commits =>
      if a_started a && a_vote a then
        let* a := appender_commit_ a in Ok (Nothing, set_protocol false false false a)
      else UB
  | Aborts =>
      let* a := (if a_started a then appender_abort_ a else Ok a) in
      Ok (Nothing, set_protocol false false false a)
  | Restart =>
      match a_io a with
      | inr d => Ok (Nothing, appender_make d (a_txt a) (a_lock a))
      | inl w => let* (_, w) := run1 c cs held Flush w in Ok (Nothing, appender_make (dk (s_ w)) (a_txt a) (a_lock a))
      end
  end.
Fixpoint calls (l : list call) (a : appender) : res (list reply * appender) :=
  match l with
  | [] => Ok ([], a)
  | e :: l =>
      let* (r, a) := call1 e a in
      let* (rs, a) := calls l a in Ok (r :: rs, a)
  end.

(** * Reading *)
(** The members of SimpleTxt.  [m_valid] to [m_end] are the memo_ members, [t_computed]
    is computed_tokens_ when that is valid. *)
Record memo := Memo { m_valid : bool; m_offset : Z; m_skip : Z; m_end : Z }.
Record txt := Txt { t_io : program; t_map : list Z; t_blocking : Z; t_memo : memo; t_computed : option Z }.
(** simple_txt.cc:33-53; [None] is the blocking error. *)
Fixpoint check_blocking (l : list record) (last_pq blocking : Z) : option Z :=
  match l with
  | [] => Some blocking
  | x :: r =>
      if -1 <? last_pq then
        let current := r_pq x - last_pq in
        if -1 <? blocking then
          if negb (current =? blocking) then None else check_blocking r (r_pq x) blocking
        else check_blocking r (r_pq x) current
      else check_blocking r (r_pq x) blocking
  end.
(** simple_txt.cc:17-60, 89-126: load_map and make; [None] is nullptr. *)
Definition txt_make (d : disk) (l : list record) : res (option txt) :=
  let* w := opened c cs held d in
  match check_blocking l (-1) (-1) with
  | None => Ok None
  | Some b => Ok (Some (Txt w (map r_start l ++ [io_size w]) b (Memo false 0 0 0) None))
  end.
Definition set_memo (w : program) (m : memo) (x : txt) : txt := Txt w (t_map x) (t_blocking x) m (t_computed x).
(** simple_txt.cc:165-211: translate_ *)
Definition translate (p q : Z) (x : txt) : res (bytes * txt) :=
  if p =? maxf then Ok ([], x) else
  let q := if q =? maxf then q - 1 else q in
  let p := if p <? 0 then 0 else p in
  if q <? p then Ok ([], x) else
  let B := t_blocking x in
  let n := len (t_map x) in
  let* p_block := (if B =? -1 then Ok 0 else div p B) in
  if n - 1 <=? p_block then Ok ([], x) else
  let* offset := idx (t_map x) p_block in
  let* q_block := (if B =? -1 then Ok 1 else let* z := div q B in Ok (z + 1)) in
  let q_block := if n <=? q_block then n - 1 else q_block in
  let* e := idx (t_map x) q_block in
  let size := e - offset in
  let token_skip := p - p_block * B in
  let token_count := q - p + 1 in
  let* token_total := chk (token_skip + token_count) in
  let m := t_memo x in
  let use := m_valid m && (m_offset m =? offset) && (m_skip m <=? token_skip) && (m_end m <=? size) in
  let m' := if use then m else Memo false offset (m_skip m) 0 in
  let o := if use then offset + m_end m else offset in
  let size := if use then size - m_end m else size in
  let token_skip := if use then token_skip - m_skip m else token_skip in
  let off := Memo false (m_offset m') (m_skip m') (m_end m') in
  let* (buffer, w) := io_read o size (t_io x) in
  let size := len buffer in
  if size <=? 0 then Ok ([], set_memo w off x) else
  let start := skip buffer token_skip in
  if size <=? start then Ok ([], set_memo w off x) else
  let end_ := start + skip (skipn (Z.to_nat start) buffer) token_count in
  let m' := if end_ <? size then Memo true (m_offset m') token_total (m_end m' + end_) else off in
  Ok (firstn (Z.to_nat (end_ - start)) (skipn (Z.to_nat start) buffer), set_memo w m' x).
(** simple_txt.cc:213-229: tokens_ *)
Definition tokens (x : txt) : res (Z * txt) :=
  match t_computed x with
  | Some n => Ok (n, x)
  | None =>
      let n := len (t_map x) in
      let full := if n <? 3 then 0 else t_blocking x * (n - 2) in
      let* (tail, x) := translate full maxf x in
      let k := full + Z.of_nat (length (split tail)) in
      Ok (k, Txt (t_io x) (t_map x) (t_blocking x) (t_memo x) (Some k))
  end.
(** Any sequence of these calls. *)
Inductive ask := Translate (p q : Z) | Tokens.
Inductive told := Said (b : bytes) | Counted (n : Z).
Fixpoint asks (l : list ask) (x : txt) : res (list told) :=
  match l with
  | [] => Ok []
  | Translate p q :: l => let* (b, x) := translate p q x in let* r := asks l x in Ok (Said b :: r)
  | Tokens :: l => let* (n, x) := tokens x in let* r := asks l x in Ok (Counted n :: r)
  end.
End Plain.
