(** Specification vocabulary for shard names and the choice of shards. *)
From Verif Require Import Base Bytes NameModel.
From Coq Require Import Sorting.Permutation Sorting.Sorted.

(** [ds] are decimal digits, at least one, of value [n]. *)
Definition digits_of (ds : bytes) (n : Z) : Prop := ds <> [] /\ Forall (fun c => 48 <= c <= 57) ds /\ n = dec_val 0 ds.
(** [name] is prefix, dot, digits, dot, digits, for a range of sequence numbers. *)
Definition names_range (prefix name : bytes) (s e : Z) : Prop :=
  0 <= s <= e /\ e <= maxf /\ exists ds de, digits_of ds s /\ digits_of de e /\ name = prefix ++ [46] ++ ds ++ [46] ++ de.
(** Names in the order of a directory listing. *)
Inductive before : bytes -> bytes -> Prop :=
| Before_end : forall c s, before [] (c :: s)
| Before_here : forall c d s t, c < d -> before (c :: s) (d :: t)
| Before_later : forall c s t, before s t -> before (c :: s) (c :: t).

(** * Choosing shards *)
Definition covers (x : shard) (n : Z) : Prop := s_start x <= n <= s_end x.
Definition within (x y : shard) : Prop := s_start y <= s_start x /\ s_end x <= s_end y.
(** One after the other. *)
Definition apart (l : list shard) : Prop := StronglySorted (fun a b => s_end a < s_start b) l.
Definition range_ok (x : shard) : Prop := 0 <= s_start x <= s_end x.
(** What std::sort does, for the order of a comparison. *)
Definition sorts (lt : shard -> shard -> Prop) (sort : list shard -> list shard) : Prop :=
  forall l, Permutation l (sort l) /\ StronglySorted (fun a b => ~ lt b a) (sort l).
Definition owsla_lt (a b : shard) : Prop :=
  s_start a < s_start b \/ (s_start a = s_start b /\ (s_end a < s_end b \/ (s_end a = s_end b /\ before (s_name a) (s_name b)))).
Definition range (x : shard) : Z * Z := (s_start x, s_end x).
(** [kept] are shards of [found], one after the other, and every other shard is within one. *)
Definition selects (found kept : list shard) : Prop :=
  (forall x, In x kept -> In x found) /\ apart kept /\ forall x, In x found -> exists y, In y kept /\ within x y.
(** A shard file: its name is fiver or hazel, and its range. *)
Definition shard_file (names : list bytes) (x : shard) : Prop :=
  In (s_name x) names /\
  (names_range (lit "fiver") (s_name x) (s_start x) (s_end x) \/ names_range (lit "hazel") (s_name x) (s_start x) (s_end x)).
(** Shards that follow each other from sequence number [s] to [e]. *)
Fixpoint chain (l : list shard) (s e : Z) : Prop :=
  match l with
  | [] => False
  | [x] => s_start x = s /\ s_end x = e
  | x :: r => s_start x = s /\ s_end x < e /\ chain r (s_end x + 1) e
  end.
(** A directory without some of its files. *)
Definition without (names gone : list bytes) : list bytes :=
  filter (fun n => if in_dec (list_eq_dec Z.eq_dec) n gone then false else true) names.
(** A hazel name with one of the endings of old working files. *)
Definition old_working (n : bytes) : Prop :=
  exists m ext s e, n = m ++ ext /\ In ext [lit ".tmp"; lit ".pst"; lit ".dct"] /\ names_range (lit "hazel") m s e.
(** Two ranges that do not meet. *)
Definition separate (x y : shard) : Prop := forall n, ~ (covers x n /\ covers y n).
