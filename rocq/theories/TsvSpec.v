(** What lines, fields and records of a file are. *)
From Verif Require Import Base Bytes HopperModel CodecModel PostingModel ShardModel TokenModel TextModel TextSpec.

(** * Lines *)
Definition plain_line (l : bytes) : Prop := ~ In 10 l /\ ~ In 13 l.
(** A text and its lines: each ends in LF, CR LF or CR (not followed by LF), but the last may
    end with the text if it is not empty. *)
Inductive text_lines : bytes -> list bytes -> Prop :=
| TL_none : text_lines [] []
| TL_last l : plain_line l -> l <> [] -> text_lines l [l]
| TL_lf l r ls : plain_line l -> text_lines r ls -> text_lines (l ++ [10] ++ r) (l :: ls)
| TL_crlf l r ls : plain_line l -> text_lines r ls -> text_lines (l ++ [13; 10] ++ r) (l :: ls)
| TL_cr l r ls : plain_line l -> (forall r', r <> 10 :: r') -> text_lines r ls -> text_lines (l ++ [13] ++ r) (l :: ls).

(** * Fields *)
Definition occurs_in (sep s : bytes) : Prop := exists a b, s = a ++ sep ++ b.
(** Cut at the first place where the separator stands, and so on. *)
Inductive separated (sep : bytes) : bytes -> list bytes -> Prop :=
| Sep_one s : ~ occurs_in sep s -> separated sep s [s]
| Sep_more f r fs : (forall a b, f ++ sep ++ r = a ++ sep ++ b -> (length f <= length a)%nat) -> separated sep r fs ->
    separated sep (f ++ sep ++ r) (f :: fs).
Definition space (c : Z) : Prop := c = 32 \/ 9 <= c <= 13.
(** Words between white space. *)
Inductive words : bytes -> list bytes -> Prop :=
| W_none w : Forall space w -> words w []
| W_last w f : Forall space w -> f <> [] -> Forall (fun c => ~ space c) f -> words (w ++ f) [f]
| W_more w f c r fs : Forall space w -> f <> [] -> Forall (fun c => ~ space c) f -> space c -> words r fs ->
    words (w ++ f ++ [c] ++ r) (f :: fs).
(** The fields of a line. *)
Definition fields_of (sep line : bytes) (fs : list bytes) : Prop :=
  match sep with [] => words line fs | _ => separated sep line fs end.

(** * Records *)
(** The texts of a record: its fields, each but the last with the separator after it. *)
Fixpoint record_texts (wsep : bytes) (fields : list bytes) : list bytes :=
  match fields with [] => [] | [f] => [f] | f :: r => (f ++ wsep) :: record_texts wsep r end.
Section Count.
(** The offsets of the tokens of a text. *)
Variable starts : bytes -> list Z.
(** How many tokens there are in a text, in texts and in records. *)
Definition tokens_in (t : bytes) : Z := Z.of_nat (length (starts t)).
Definition tokens_in_all (ts : list bytes) : Z := fold_right Z.add 0 (map tokens_in ts).
Definition tokens_before (records : list (list bytes)) : Z := fold_right Z.add 0 (map tokens_in_all records).
(** The tokens of field [j] of one of the records, the first token of which is at [w]. *)
Definition is_field (w : Z) (records : list (list bytes)) (j : nat) (x : iv) : Prop :=
  exists before r after fs t gs, records = before ++ r :: after /\ r = fs ++ t :: gs /\ length fs = j /\ 0 < tokens_in t /\
    x = Iv (w + tokens_before before + tokens_in_all fs) (w + tokens_before before + tokens_in_all fs + tokens_in t - 1) 0.
(** The tokens of one of the records [which] asks for, by number. *)
Definition is_record (which : nat -> Prop) (w : Z) (records : list (list bytes)) (x : iv) : Prop :=
  exists before r after, records = before ++ r :: after /\ which (length before) /\ 0 < tokens_in_all r /\
    x = Iv (w + tokens_before before) (w + tokens_before before + tokens_in_all r - 1) 0.
(** The last field of the record has a token. *)
Definition ends_in_token (r : list bytes) : Prop := 0 < tokens_in (last r []).
End Count.

(** * Files as records *)
(** What is written between fields. *)
Definition between_fields (sep : bytes) : bytes := match sep with [] => [9] | _ => sep end.
(** The texts of the records of lines. *)
Definition records_of (sep : bytes) (lines : list bytes) (records : list (list bytes)) : Prop :=
  Forall2 (fun line r => exists fs, fields_of sep line fs /\ r = record_texts (between_fields sep) fs) lines records.
(** The names that records are annotated with: those of the fields, of records and of the
    header. *)
Definition field_name (j : nat) : bytes := lit ":" ++ dec (Z.of_nat j) ++ lit ":".
Definition name_used (records : list (list bytes)) (name : bytes) : Prop :=
  name = lit ":" \/ name = lit "::" \/ exists r j, In r records /\ (j < length r)%nat /\ name = field_name j.
(** Records that can be written: each text leaves no token open, and neither its tokens nor
    the names have the feature of the text chunks. *)
Definition acceptable (tokenize : bytes -> list token) (stop : bytes -> Prop) (chunk : Z) (featurize : bytes -> Z) (path_feature : Z)
    (records : list (list bytes)) : Prop :=
  (forall r t, In r records -> In t r -> ends_well stop t /\ Forall (fun k => t_feature k <> chunk) (tokenize t)) /\
  (forall name, name_used records name -> featurize name <> chunk) /\ path_feature <> chunk.
(** A feature that neither a token of the records, nor the transaction nor its text has. *)
Definition free (tokenize : bytes -> list token) (chunk transaction : Z) (records : list (list bytes)) (f : Z) : Prop :=
  null_feature < f /\ f <> chunk /\ f <> transaction /\
  forall r t tok, In r records -> In t r -> In tok (tokenize t) -> t_feature tok <> f.
(** No other name in use has the feature of this one. *)
Definition own_feature (featurize : bytes -> Z) (records : list (list bytes)) (name : bytes) : Prop :=
  forall name', name_used records name' -> featurize name' = featurize name -> name' = name.
(** The draft has room in the index. *)
Definition draft_fits (chunk transaction : Z) (d : draft) : Prop :=
  Z.of_nat (length (d_annotations (appender_ready chunk transaction d))) <= 2305843009213693951.
