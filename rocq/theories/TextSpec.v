(** Specification vocabulary for text. *)
From Verif Require Import Base Bytes HopperModel CodecModel PostingModel ShardModel TokenModel TextModel.

(** What the store relies on about a tokenizer.  [starts s] are the offsets of the tokens
    of [s]; [stop s]: tokenizing starts afresh after [s], whose last byte is in no token. *)
Fixpoint tokens_at (a : Z) (os : list Z) (toks : list token) : Prop :=
  match os with
  | [] => toks = []
  | o :: r => exists g rest, toks = g ++ rest /\ g <> [] /\
                Forall (fun t => t_address t = a /\ t_offset t = o) g /\ tokens_at (a + 1) r rest
  end.
Fixpoint ascending (o : Z) (os : list Z) (n : Z) : Prop :=
  match os with [] => o <= n | x :: r => o <= x /\ ascending (x + 1) r n end.
(** Whatever follows [a] is tokenized as if it stood alone. *)
Definition afresh (starts : bytes -> list Z) (a : bytes) : Prop :=
  forall b, starts (a ++ b) = starts a ++ map (fun o => o + len a) (starts b).
Record tokenizer_laws (tokenize : bytes -> list token) (skip : bytes -> Z -> Z) (stop : bytes -> Prop)
    (starts : bytes -> list Z) : Prop := {
  law_inside : forall s, ascending 0 (starts s) (len s);
  law_tokenize : forall s, tokens_at 0 (starts s) (tokenize s);
  law_skip : forall s n, 0 <= n -> skip s n = nth (Z.to_nat n) (starts s) (len s);
  law_from : forall s i o, nth_error (starts s) i = Some o ->
    starts (skipn (Z.to_nat o) s) = map (fun x => x - o) (skipn i (starts s));
  law_end : forall s x, stop (s ++ [x]) -> starts (s ++ [x]) = starts s;
  law_join : forall a, stop a -> afresh starts a;
  law_newline : forall s, starts (10 :: s) = map (fun o => o + 1) (starts s) }.

(** A space, tab or newline. *)
Definition white (c : Z) : bool := (c =? 32) || (c =? 9) || (c =? 10).
(** The text of a transaction: each text with a separator at its end, all ended by a
    newline. *)
Definition closed (t : bytes) : bytes :=
  match t with [] => [] | _ => t ++ (if white (last t 0) then [] else [10]) end.
Definition full_text (ts : list bytes) : bytes := end_line (concat (map closed ts)).
(** Texts that leave no token open once they are closed. *)
Definition ends_well (stop : bytes -> Prop) (t : bytes) : Prop := t <> [] -> stop (closed t).

(** The bytes from offset [s] up to offset [e]. *)
Definition between (t : bytes) (s e : Z) : bytes := firstn (Z.to_nat (e - s)) (skipn (Z.to_nat s) t).
(** Where address [a] starts in a text whose tokens start at [os], the first at address
    [base]; the end of the text when there is no such token.  [first] says where the
    text of a transaction that begins at [a] starts. *)
Definition token_start (t : bytes) (os : list Z) (base a : Z) : Z := nth (Z.to_nat (a - base)) os (len t).
Definition text_start (t : bytes) (os : list Z) (base : Z) (first : Z -> option Z) (a : Z) : Z :=
  match first a with Some o => o | None => token_start t os base a end.
(** What translating (p, q) should give: from the start of the first token of the range
    to the start of the token after it. *)
Definition expected (t : bytes) (os : list Z) (base : Z) (first : Z -> option Z) (p q : Z) : bytes :=
  let p := Z.max p base in
  let q := Z.min q (base + Z.of_nat (length os) - 1) in
  if q <? p then [] else between t (text_start t os base first p) (token_start t os base (q + 1)).
(** One transaction: its first address is where its text starts. *)
Definition one_start (base : Z) (a : Z) : option Z := if a =? base then Some 0 else None.

(** * Histories of one transaction *)
Inductive edit :=
| Append (t : bytes)
| Annotate (f p q v : Z)
| Erase (p q : Z).
Definition apply_edit (tokenize : bytes -> list token) (chunk : Z) (d : draft) (e : edit) : draft :=
  match e with
  | Append t => fst (append tokenize chunk t d)
  | Annotate f p q v => annotate f p q v d
  | Erase p q => erase p q d
  end.
Definition draft_after (tokenize : bytes -> list token) (chunk : Z) (es : list edit) : draft :=
  fold_left (apply_edit tokenize chunk) es draft_init.
Definition texts (es : list edit) : list bytes :=
  flat_map (fun e => match e with Append t => [t] | _ => [] end) es.
(** Edits a transaction may make: texts that leave no token open, ranges that are
    ranges, values that are not -0.0, and nothing that is annotated as a text chunk. *)
Definition edit_ok (tokenize : bytes -> list token) (stop : bytes -> Prop) (chunk : Z) (e : edit) : Prop :=
  match e with
  | Append t => ends_well stop t /\ Forall (fun k => t_feature k <> chunk) (tokenize t)
  | Annotate f p q v => f <> chunk /\ minf <= p <= q /\ q <= maxf /\ v <> minf
  | Erase p q => minf <= p <= q /\ q <= maxf
  end.
(** Translating several ranges one after the other. *)
Fixpoint translate_all (skip : bytes -> Z -> Z) (w : txt) (l : list (Z * Z)) : res (list bytes) :=
  match l with
  | [] => Ok []
  | (p, q) :: r => let* (w, b) := translate skip w p q in let* bs := translate_all skip w r in Ok (b :: bs)
  end.

(** * Several transactions *)
(** The text of a transaction and its first address. *)
Definition piece : Type := (bytes * Z)%type.
(** Translating each piece on its own. *)
Definition expected_all (starts : bytes -> list Z) (ps : list piece) (p q : Z) : bytes :=
  concat (map (fun tb => expected (fst tb) (starts (fst tb)) (snd tb) (one_start (snd tb)) p q) ps).
(** Pieces that start with a token, end in a newline and leave no token open, one right
    after the other from address [a] to address [b]. *)
Fixpoint pieces_at (starts : bytes -> list Z) (ps : list piece) (a b : Z) : Prop :=
  match ps with
  | [] => a = b
  | (t, c) :: r => c = a /\ hd (-1) (starts t) = 0 /\ (exists u, t = u ++ [10] /\ afresh starts t) /\
                   pieces_at starts r (a + Z.of_nat (length (starts t))) b
  end.
(** The texts of several shards, opened. *)
Fixpoint open_all (chunk : Z) (ws : list fiver) : res (list txt) :=
  match ws with
  | [] => Ok []
  | w :: r => let* x := fiver_txt chunk w in let* xs := open_all chunk r in Ok (x :: xs)
  end.
Fixpoint bigwig_translate_all (skip : bytes -> Z -> Z) (xs : list txt) (l : list (Z * Z)) : res (list bytes) :=
  match l with
  | [] => Ok []
  | (p, q) :: r => let* (xs, b) := bigwig_translate skip xs p q in let* bs := bigwig_translate_all skip xs r in Ok (b :: bs)
  end.
(** Transactions committed one after the other from address [a] to address [b]: their
    edits and the shards they make. *)
Inductive committed (tokenize : bytes -> list token) (starts : bytes -> list Z) (chunk transaction : Z)
    (sort : list annotation -> list annotation) : Z -> list (list edit) -> list fiver -> Z -> Prop :=
| Committed_none : forall a, committed tokenize starts chunk transaction sort a [] [] a
| Committed_next : forall a es w seq ess ws b,
    ready chunk transaction sort a seq (draft_after tokenize chunk es) = Ok w ->
    committed tokenize starts chunk transaction sort (a + Z.of_nat (length (starts (full_text (texts es))))) ess ws b ->
    committed tokenize starts chunk transaction sort a (es :: ess) (w :: ws) b.
(** Their texts and first addresses; a transaction without text has no piece. *)
Fixpoint pieces_of (starts : bytes -> list Z) (a : Z) (ess : list (list edit)) : list piece :=
  match ess with
  | [] => []
  | es :: r => let t := full_text (texts es) in
               (match t with [] => [] | _ => [(t, a)] end) ++ pieces_of starts (a + Z.of_nat (length (starts t))) r
  end.

(** All their bytes. *)
Definition text_of (ps : list piece) : bytes := concat (map fst ps).
(** Its text is empty or starts with a token. *)
Definition starts_well (starts : bytes -> list Z) (es : list edit) : Prop :=
  full_text (texts es) = [] \/ hd (-1) (starts (full_text (texts es))) = 0.
(** Its annotations fit in memory: at most 2^61 - 1. *)
Definition edits_fit (tokenize : bytes -> list token) (chunk transaction : Z) (es : list edit) : Prop :=
  Z.of_nat (length (d_annotations (appender_ready chunk transaction (draft_after tokenize chunk es)))) <= 2305843009213693951.

(** * What a transaction annotates *)
(** Its addresses are moved from the staging area to its own; others are kept. *)
Definition moved (w : Z) (p q : Z) : Z * Z := if staging <=? p then (p - staging + w, q - staging + w) else (p, q).
(** The number of tokens of the texts of edits. *)
Definition token_count (starts : bytes -> list Z) (es : list edit) : Z :=
  Z.of_nat (length (starts (full_text (texts es)))).
(** Edits [es] committed at address [w] annotate [x] with feature [f]. *)
Inductive occurs (tokenize : bytes -> list token) (starts : bytes -> list Z) (transaction : Z) (es : list edit) (w : Z) : Z -> iv -> Prop :=
| Occurs_token : forall es1 t es2 tok, es = es1 ++ Append t :: es2 -> In tok (tokenize t) -> null_feature < t_feature tok ->
    occurs tokenize starts transaction es w (t_feature tok)
      (let a := w + token_count starts es1 + t_address tok in Iv a a 0)
| Occurs_annotation : forall f p q v, In (Annotate f p q v) es -> null_feature < f ->
    occurs tokenize starts transaction es w f (Iv (fst (moved w p q)) (snd (moved w p q)) v)
| Occurs_erased : forall p q, In (Erase p q) es ->
    occurs tokenize starts transaction es w null_feature (Iv (fst (moved w p q)) (snd (moved w p q)) 0)
| Occurs_transaction : 0 < token_count starts es -> null_feature < transaction ->
    occurs tokenize starts transaction es w transaction (Iv w (w + token_count starts es - 1) 0).
