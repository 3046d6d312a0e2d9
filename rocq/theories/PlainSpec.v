(** What a single-file index promises about text. *)
From Verif Require Import Base Bytes CodecModel CodecSpec ChunkModel ChunkSpec TokenModel PlainModel.
From Verif Require TextSpec.

(** * Reading *)
(** What a reader of text [T] should answer; [starts] are the offsets of its tokens. *)
Definition answers (starts : bytes -> list Z) (T : bytes) (k : ask) : told :=
  match k with
  | Translate p q => Said (TextSpec.expected T (starts T) 0 (fun _ => None) p q)
  | Tokens => Counted (Z.of_nat (length (starts T)))
  end.
(** The records of text [T]: where every 1024th token starts. *)
Definition recorded (starts : bytes -> list Z) (T : bytes) (l : list record) : Prop :=
  (forall k, nth_error (map r_pq l) k = option_map (fun _ => TXT_BLOCKING * Z.of_nat k) (nth_error (starts T) (Z.to_nat TXT_BLOCKING * k))) /\
  (forall k, nth_error (map r_start l) k = nth_error (starts T) (Z.to_nat TXT_BLOCKING * k)).
(** As many tokens when a text is split. *)
Definition split_law (split : bytes -> list bytes) (starts : bytes -> list Z) : Prop :=
  forall s, ~ In 0 s -> length (split s) = length (starts s).

(** * Writing *)
(** Everything that was added so far. *)
Definition whole (ts : list bytes) : bytes := concat (map TextSpec.closed ts).
Definition count (starts : bytes -> list Z) (ts : list bytes) : Z := Z.of_nat (length (starts (whole ts))).
(** The range a text gets that is added after others. *)
Definition range_of (starts : bytes -> list Z) (ts : list bytes) (t : bytes) : Z * Z :=
  let n := count starts ts in
  let k := count starts [t] in
  if k =? 0 then (n + 1, n) else (n, n + k - 1).
Fixpoint ranges_of (starts : bytes -> list Z) (ts : list bytes) (l : list bytes) : list (Z * Z) :=
  match l with [] => [] | t :: l => range_of starts ts t :: ranges_of starts (ts ++ [t]) l end.
(** Where the first token of a text starts, or its end. *)
Definition lead (starts : bytes -> list Z) (s : bytes) : Z := hd (len s) (starts s).
(** Features and addresses of the tokens of a text that is added after others. *)
Definition words (tokenize : bytes -> list token) (starts : bytes -> list Z) (ts : list bytes) (t : bytes) : list (Z * Z) :=
  map (fun k => (t_feature k, count starts ts + t_address k)) (filter (fun k => negb (t_feature k =? 0)) (tokenize (TextSpec.closed t))).
Fixpoint all_words (tokenize : bytes -> list token) (starts : bytes -> list Z) (ts : list bytes) (l : list bytes) : list (Z * Z) :=
  match l with [] => [] | t :: l => words tokenize starts ts t ++ all_words tokenize starts (ts ++ [t]) l end.
(** The texts committed, those of the open transaction, and whether it is ready. *)
Record burrow := Burrow { kept : list bytes; open : option (list bytes); sure : bool }.
Definition burrow1 (tokenize : bytes -> list token) (starts : bytes -> list Z) (e : call) (b : burrow) : reply * burrow :=
  match e, open b with
  | Transaction, None => (Yes true, Burrow (kept b) (Some []) false)
  | Transaction, Some _ => (Yes false, b)
  | Text t, Some l => (Range (Some (range_of starts (kept b ++ l) t)) (words tokenize starts (kept b ++ l) t), Burrow (kept b) (Some (l ++ [t])) (sure b))
  | Text t, None => (Range None [], b)
  | Ready, Some _ => (Yes true, Burrow (kept b) (open b) true)
  | Ready, None => (Yes false, b)
  | Commits, Some l => (Nothing, Burrow (kept b ++ l) None false)
  | Commits, None => (Nothing, b)
  | Aborts, _ => (Nothing, Burrow (kept b) None false)
  | Restart, _ => (Nothing, b)
  end.
Fixpoint burrow_run (tokenize : bytes -> list token) (starts : bytes -> list Z) (l : list call) (b : burrow) : list reply * burrow :=
  match l with
  | [] => ([], b)
  | e :: l => let (r, b) := burrow1 tokenize starts e b in let (rs, b) := burrow_run tokenize starts l b in (r :: rs, b)
  end.
(** * What is asked of the caller *)
(** Features are not negative. *)
Definition features_ok (tokenize : bytes -> list token) : Prop :=
  forall t k, In k (tokenize t) -> 0 <= t_feature k.
(** Texts of bytes other than NUL that leave no token open. *)
Definition text_ok (stop : bytes -> Prop) (t : bytes) : Prop :=
  Forall is_byte t /\ ~ In 0 t /\ TextSpec.ends_well stop t.
(** No token of [t], the first of which gets address [a], has an address that is a multiple
    of 1024 and several features. *)
Definition single (tokenize : bytes -> list token) (t : bytes) (a : Z) : Prop :=
  forall i j x y, nth_error (tokenize (TextSpec.closed t)) i = Some x -> nth_error (tokenize (TextSpec.closed t)) j = Some y ->
    t_address x = t_address y -> (a + t_address x) mod TXT_BLOCKING = 0 -> i = j.
(** Transactions begin on a text that is not empty; nothing is appended between ready and
    commit; before a transaction is aborted it is ready, or empty, unless longer chunks
    compress to longer results; a program does not end in a transaction. *)
Definition permitted (c : compressor) (cs : Z) (tokenize : bytes -> list token) (stop : bytes -> Prop) (starts : bytes -> list Z)
  (e : call) (b : burrow) : Prop :=
  match e with
  | Transaction => open b = None -> whole (kept b) <> []
  | Text t => match open b with
      | None => True
      | Some l => sure b = false /\ text_ok stop t /\ single tokenize t (count starts (kept b ++ l)) /\
          Z.of_nat (length (whole (kept b ++ l ++ [t]))) <= maxf
      end
  | Commits => open b <> None /\ sure b = true
  | Aborts => match open b with Some l => whole l = [] \/ sure b = true \/ grows c cs | None => True end
  | Restart => open b = None
  | Ready => True
  end.
Fixpoint all_permitted (c : compressor) (cs : Z) (tokenize : bytes -> list token) (stop : bytes -> Prop) (starts : bytes -> list Z)
  (l : list call) (b : burrow) : Prop :=
  match l with
  | [] => True
  | e :: l => permitted c cs tokenize stop starts e b /\ all_permitted c cs tokenize stop starts l (snd (burrow1 tokenize starts e b))
  end.
(** Texts added to a builder one after the other. *)
Fixpoint add_all (c : compressor) (cs : Z) (held : Z -> bool) (tokenize : bytes -> list token) (l : list bytes) (b : builder)
  : res (list (Z * Z) * builder) :=
  match l with
  | [] => Ok ([], b)
  | t :: l => let* (pq, b) := add_text c cs held tokenize t b in
              let* (r, b) := add_all c cs held tokenize l b in Ok (pq :: r, b)
  end.
(** The files of the text store, open or not. *)
Definition disk_of (a : appender) : disk := match a_io a with inl w => dk (s_ w) | inr d => d end.
