(** Model of appending and translating text: FiverAppender, FiverAnnotator, Fiver::ready_
    and FiverTxt (src/fiver.cc), BigwigTxt (src/bigwig.cc). *)
From Verif Require Import Base HopperModel VectorModel Bytes CodecModel PostingModel ShardModel TokenModel.

(** core.h:109 *)
Definition separator (c : Z) : bool := (c =? 32) || (c =? 9) || (c =? 10).
(** fiver.cc:185 *)
Definition CHUNK_SIZE : Z := 512.

(** A transaction: fiver.cc:186-193 and the annotations made so far, oldest first. *)
Record draft := Draft {
  d_text : bytes;
  d_address : Z;
  d_chunk_address : Z;
  d_chunk_offset : Z;
  d_annotations : list annotation }.

Section Text.
(** Tokenizer::tokenize with the featurizer, Tokenizer::skip (the answer as an offset),
    and the features of text_chunk_tag and transaction_tag. *)
Variable tokenize : bytes -> list token.
Variable skip : bytes -> Z -> Z.
Variables chunk transaction : Z.

(** fiver.cc:97-106 *)
Definition draft_init : draft := Draft [] staging staging 0 [].
(** annotator.h:26-46 and fiver.cc:62-66. *)
Definition annotate (f p q v : Z) (d : draft) : draft :=
  if f <=? null_feature then d
  else Draft (d_text d) (d_address d) (d_chunk_address d) (d_chunk_offset d) (d_annotations d ++ [Ann f (Iv p q v)]).
(** fiver.cc:67-70 *)
Definition erase (p q : Z) (d : draft) : draft :=
  Draft (d_text d) (d_address d) (d_chunk_address d) (d_chunk_offset d) (d_annotations d ++ [Ann null_feature (Iv p q 0)]).
(** fiver.cc:136-149; [address] is address_ and [offset] the length of the text before. *)
Fixpoint append_tokens (toks : list token) (address offset : Z) (d : draft) : draft :=
  match toks with
  | [] => d
  | t :: r =>
      let a := t_address t + address in
      let d := annotate (t_feature t) a a 0 d in
      let d := if CHUNK_SIZE <? a - d_chunk_address d then
                 let d := annotate chunk (d_chunk_address d) (a - 1) (d_chunk_offset d) d in
                 Draft (d_text d) (d_address d) a (offset + t_offset t) (d_annotations d)
               else d in
      append_tokens r address offset d
  end.
(** fiver.cc:119-154: FiverAppender::append_; the answers are p and q. *)
Definition append (text : bytes) (d : draft) : draft * (Z * Z) :=
  match text with
  | [] => (d, (d_address d + 1, d_address d))
  | _ =>
      let offset := len (d_text d) in
      let d := Draft (d_text d ++ text ++ (if separator (last text 0) then [] else [10]))
                     (d_address d) (d_chunk_address d) (d_chunk_offset d) (d_annotations d) in
      let toks := tokenize text in
      match rev toks with
      | [] => (d, (d_address d + 1, d_address d))
      | t :: _ =>
          let last_address := d_address d + t_address t in
          let d1 := append_tokens toks (d_address d) offset d in
          (Draft (d_text d1) (last_address + 1) (d_chunk_address d1) (d_chunk_offset d1) (d_annotations d1),
           (d_address d, last_address))
      end
  end.
(** fiver.cc:163-176: FiverAppender::ready_ *)
Definition appender_ready (d : draft) : draft :=
  let text := end_line (d_text d) in
  let d := Draft text (d_address d) (d_chunk_address d) (d_chunk_offset d) (d_annotations d) in
  let d := if staging <? d_address d then annotate transaction staging (d_address d - 1) 0 d else d in
  if d_chunk_address d <? d_address d then
    annotate chunk (d_chunk_address d) (d_address d - 1) (d_chunk_offset d) d
  else d.
(** fiver.cc:667-696: Fiver::ready_ up to pickling; [sort] is std::sort. *)
Fixpoint relocate_all (where_ : Z) (l : list annotation) : res (list annotation) :=
  match l with
  | [] => Ok []
  | a :: r => let* b := relocate_ann where_ a in let* s := relocate_all where_ r in Ok (b :: s)
  end.
Definition ready (sort : list annotation -> list annotation) (where_ seq : Z) (d : draft) : res fiver :=
  let d := appender_ready d in
  let* l := relocate_all where_ (d_annotations d) in
  let s := sort l in
  let* ix := build_index (length s) s [] in
  Ok (Fiver (d_text d) ix seq seq).

(** * Reading text *)
(** fiver.cc:338-341: the hopper over the text chunks and the text. *)
Definition txt : Type := (hobj * bytes)%type.
(** fiver.cc:245-268 (count_ and range_valid_ only save work). *)
Definition fiver_txt (w : fiver) : res txt :=
  let* o := fiver_hopper (f_index w) chunk in Ok (o, f_text w).
(** std::string::substr(s - t, e - s): it throws when s is past the end, and takes
    the rest when e is before s. *)
Definition substr (t : bytes) (s e : Z) : res bytes :=
  if (s <? 0) || (len t <? s) then UB
  else let r := skipn (Z.to_nat s) t in
       Ok (if e <? s then r else firstn (Z.to_nat (e - s)) r).
(** A pointer [i] bytes into the text, then Tokenizer::skip from there. *)
Definition skip_at (t : bytes) (i n : Z) : res Z :=
  if (i <? 0) || (len t <? i) then UB else Ok (i + skip (skipn (Z.to_nat i) t) n).
(** fiver.cc:279-308: FiverTxt::translate_ *)
Definition translate (w : txt) (p q : Z) : res (txt * bytes) :=
  let (o, t) := w in
  let p := if p <? 0 then 0 else p in
  if (p =? maxf) || (q <? p) then Ok (w, []) else
  let* (s1, x0) := h_rho (projT1 o) (projT2 o) p in
  let o1 : hobj := existT _ (projT1 o) s1 in
  if (ip x0 =? maxf) || (q <? ip x0) then Ok ((o1, t), []) else
  let* (s2, x1) := h_ohr (projT1 o) s1 q in
  let o2 : hobj := existT _ (projT1 o) s2 in
  let i := ivl x0 in
  let* s := if ip x0 <? p then skip_at t i (p - ip x0) else Ok i in
  let p := if ip x0 <? p then p else ip x0 in
  let* e := if iq x1 <? q then Ok (len t)
            else if iq x0 =? iq x1 then let* k := chk (q - p + 1) in skip_at t s k
            else let* k := chk (q - ip x1 + 1) in skip_at t (ivl x1) k in
  let* b := substr t s e in
  Ok ((o2, t), b).
(** fiver.cc:309-318: FiverTxt::tokens_ *)
Definition tokens (w : txt) : res Z :=
  let (o, t) := w in
  let* (s0, x0) := h_tau (projT1 o) (projT2 o) 0 in
  loop (fun '(s, x, n) =>
          if ip x <? maxf then
            let* n' := chk (n + (iq x - ip x + 1)) in
            let* k := chk (ip x + 1) in
            let* (s', x') := h_tau (projT1 o) s k in Ok (inl (s', x', n'))
          else Ok (inr n)) (s0, x0, 0).
(** fiver.cc:319-334: FiverTxt::range_ *)
Definition range (w : txt) : res (txt * option (Z * Z)) :=
  let (o, t) := w in
  let* (s0, x0) := h_tau (projT1 o) (projT2 o) (minf + 1) in
  if ip x0 <? maxf then
    let* (s1, x1) := h_uat (projT1 o) s0 (maxf - 1) in
    Ok ((existT _ (projT1 o) s1, t), Some (ip x0, iq x1))
  else Ok ((existT _ (projT1 o) s0, t), None).

(** bigwig.cc:240-245: BigwigTxt::translate_ *)
Fixpoint bigwig_translate (ws : list txt) (p q : Z) : res (list txt * bytes) :=
  match ws with
  | [] => Ok ([], [])
  | w :: r =>
      let* (w', b) := translate w p q in
      let* (r', c) := bigwig_translate r p q in Ok (w' :: r', b ++ c)
  end.
(** bigwig.cc:246-251 *)
Fixpoint bigwig_tokens (ws : list txt) : res Z :=
  match ws with
  | [] => Ok 0
  | w :: r => let* n := tokens w in let* m := bigwig_tokens r in chk (n + m)
  end.
End Text.
