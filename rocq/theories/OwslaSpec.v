(** Specification vocabulary for the life of a store: everything that can happen to
    committed shards, and what must be seen of them. *)
From Verif Require Import Base HopperModel GclSpec VectorModel Bytes CodecModel CodecSpec PostingModel PostingSpec ShardModel ShardSpec TokenModel TextModel TextSpec
  HazelModel HazelSpec FileModel FileSpec OwslaModel.

(** The shards of the files, opened for a merge. *)
Inductive opened_files (cp cf : compressor) (chunk : Z) : list bytes -> list hidx -> list htxt -> Prop :=
| No_files : opened_files cp cf chunk [] [] []
| One_more : forall f h x s fs hs xs, open_file cp cf chunk f = Ok (Some (h, x, s)) -> opened_files cp cf chunk fs hs xs ->
    opened_files cp cf chunk (f :: fs) (h :: hs) (x :: xs).

(** One event: a run of shards is merged in memory; a shard is pickled and opened again
    from its jar; a shard is written to a file; a run of files is merged into one, after
    any number of attempts that ended in a crash (the merged index, as an uninterrupted merge
    would write it, is of a size that an address can hold). *)
Inductive life_step (cp cf ct : compressor) (sort : list annotation -> list annotation) (chunk : Z) : list stored -> list stored -> Prop :=
| Merged_in_memory : forall before run after m, fiver_merge sort chunk run = Ok (Some m) ->
    life_step cp cf ct sort chunk (before ++ map Mem run ++ after) (before ++ Mem m :: after)
| Opened_again : forall before w after jar w', is_addr (f_start w) -> is_addr (f_end w) ->
    len (f_text w) + extra ct (len (f_text w)) <= maxf ->
    pickle cp cf ct w = Ok jar -> unpickle cp cf ct jar = Ok (Some w') ->
    life_step cp cf ct sort chunk (before ++ Mem w :: after) (before ++ Mem w' :: after)
| Written : forall before w after dna target f, no_empty_line dna -> target <= maxf ->
    hazel_file cp cf ct chunk dna target w = Ok (Some f) -> len f <= maxf ->
    life_step cp cf ct sort chunk (before ++ Mem w :: after) (before ++ File f :: after)
| Merged_files : forall before fs after hs xs dna s acts idx f, opened_files cp cf chunk fs hs xs ->
    attempts cp cf chunk hs (map ht_raw xs) s -> idx_merge cp cf chunk hs (map ht_raw xs) s = Ok (Some (acts, idx)) ->
    (forall acts0 idx0, idx_merge cp cf chunk hs (map ht_raw xs) (Files None None) = Ok (Some (acts0, idx0)) -> len idx0 <= maxf) ->
    no_empty_line dna -> merged_file dna idx xs = Ok (Some f) -> len f <= maxf ->
    life_step cp cf ct sort chunk (before ++ map File fs ++ after) (before ++ File f :: after).
Inductive life (cp cf ct : compressor) (sort : list annotation -> list annotation) (chunk : Z) : list stored -> list stored -> Prop :=
| Born : forall l, life cp cf ct sort chunk l l
| Lives : forall a b c, life_step cp cf ct sort chunk a b -> life cp cf ct sort chunk b c -> life cp cf ct sort chunk a c.

(** Any history of translate calls on a view. *)
Fixpoint view_translate_all (ct : compressor) (skip : bytes -> Z -> Z) (os : list owsla) (l : list (Z * Z)) : res (list bytes) :=
  match l with
  | [] => Ok []
  | (p, q) :: r => let* (os, b) := view_translate ct skip os p q in
                   let* bs := view_translate_all ct skip os r in Ok (b :: bs)
  end.
(** Every feature, address and value of a transaction, other than those of the chunks, is in
    the range that is stored, and no two of its annotations of a feature start at one address. *)
Definition tidy (tokenize : bytes -> list token) (starts : bytes -> list Z) (chunk transaction : Z) (es : list edit) (w : Z) : Prop :=
  forall f x, f <> chunk -> occurs tokenize starts transaction es w f x ->
    0 <= f < maxf /\ finite x /\ 0 <= ip x /\ is_addr (ivl x) /\ forall y, occurs tokenize starts transaction es w f y -> ip x = ip y -> x = y.
Fixpoint all_tidy (tokenize : bytes -> list token) (starts : bytes -> list Z) (chunk transaction : Z) (ess : list (list edit)) (w : Z) : Prop :=
  match ess with
  | [] => True
  | es :: r => tidy tokenize starts chunk transaction es w /\ all_tidy tokenize starts chunk transaction r (w + token_count starts es)
  end.
(** A shard as transactions make it: every list is row_ok. *)
Definition rows_ok (ix : index) : Prop := forall f p, find_posting ix f = Some p -> row_ok (f, p).
(** The largest list that is written. *)
Definition big : Z := 288230376151711743.

(** The transaction [es] is one of [ess], committed one after the other from the address
    [a], and [w] is where it is. *)
Fixpoint placed (starts : bytes -> list Z) (ess : list (list edit)) (a : Z) (es : list edit) (w : Z) : Prop :=
  match ess with
  | [] => False
  | e :: r => (es = e /\ w = a) \/ placed starts r (a + token_count starts e) es w
  end.
(** A token with the feature [f] was appended and is now at [x]. *)
Definition token_at (tokenize : bytes -> list token) (starts : bytes -> list Z) (ess : list (list edit)) (a f : Z) (x : iv) : Prop :=
  exists es w es1 t es2 tok b, placed starts ess a es w /\ es = es1 ++ Append t :: es2 /\ In tok (tokenize t) /\ t_feature tok = f /\
    b = w + token_count starts es1 + t_address tok /\ x = Iv b b 0.
(** [x] was erased by one of the transactions. *)
Definition erase_at (starts : bytes -> list Z) (ess : list (list edit)) (a : Z) (x : iv) : Prop :=
  exists es w p q, placed starts ess a es w /\ In (Erase p q) es /\ x = Iv (fst (moved w p q)) (snd (moved w p q)) 0.
(** No erased range is inside another. *)
Definition erases_apart (starts : bytes -> list Z) (ess : list (list edit)) (a : Z) : Prop :=
  forall d e, erase_at starts ess a d -> erase_at starts ess a e -> nests d e -> d = e.
(** Nothing but tokens has the feature [f]. *)
Definition only_tokens (transaction : Z) (ess : list (list edit)) (f : Z) : Prop :=
  f <> transaction /\ forall es p q v, In es ess -> ~ In (Annotate f p q v) es.

(** What one transaction may do: texts that end well and start with a token, annotations in
    range, within the sizes that are stored. *)
Definition good_edits (tokenize : bytes -> list token) (stop : bytes -> Prop) (starts : bytes -> list Z) (chunk transaction : Z) (es : list edit) : Prop :=
  Forall (edit_ok tokenize stop chunk) es /\ starts_well starts es /\ edits_fit tokenize chunk transaction es.
(** The transactions [ess] were committed as the shards [ws], at the addresses from [a] up
    to [b]. *)
Definition start_ok (tokenize : bytes -> list token) (stop : bytes -> Prop) (starts : bytes -> list Z) (chunk transaction : Z)
    (sort : list annotation -> list annotation) (a b : Z) (ess : list (list edit)) (ws : list fiver) : Prop :=
  committed tokenize starts chunk transaction sort a ess ws b /\ 0 <= a /\ b <= staging /\
  Forall (good_edits tokenize stop starts chunk transaction) ess /\ all_tidy tokenize starts chunk transaction ess a /\
  Forall is_byte (text_of (pieces_of starts a ess)) /\ len (text_of (pieces_of starts a ess)) <= big /\
  forall f, bigwig_count (ixs ws) f <= big.
