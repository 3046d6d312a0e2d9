(** What the text store of a single-file index promises: it behaves like a flat file that
    grows at its end, and a transaction that is not committed leaves no trace. *)
From Verif Require Import Base Bytes CodecModel CodecSpec ChunkModel.

(** * The flat file *)
(** The text, the text when the open transaction began, and whether anything was appended
    that was neither flushed nor read since. *)
Record flat := Flat { text : bytes; mark : option bytes; unflushed : bool }.
Definition flat1 (e : event) (f : flat) : answer * flat :=
  match e with
  | Append b => (Done, Flat (text f ++ b) (mark f) (match b with [] => unflushed f | _ => true end))
  | Read p n => (Bytes (firstn (Z.to_nat n) (skipn (Z.to_nat p) (text f))), Flat (text f) (mark f) false)
  | Size => (Num (Z.of_nat (length (text f))), f)
  | Dump => (Bytes (text f), f)
  | Flush => (Done, Flat (text f) (mark f) false)
  | Begin =>
      match mark f with
      | Some _ => (Flag false, f)
      | None => (Flag true, Flat (text f) (Some (text f)) (unflushed f))
      end
  | Commit =>
      match mark f with
      | Some _ => (Flag true, Flat (text f) None false)
      | None => (Flag false, f)
      end
  | Abort =>
      match mark f with
      | Some t => (Done, Flat t None false)
      | None => (Done, f)
      end
  | Reopen => (Done, Flat (text f) (mark f) false)
  end.
Fixpoint flat_run (l : list event) (f : flat) : list answer * flat :=
  match l with
  | [] => ([], f)
  | e :: l => let (a, f) := flat1 e f in let (r, f) := flat_run l f in (a :: r, f)
  end.

(** * What is asked of the caller *)
(** A longer chunk never compresses to fewer bytes. *)
Definition grows (c : compressor) (cs : Z) : Prop :=
  forall a b x y, Forall is_byte (a ++ b) -> len (a ++ b) <= cs -> a <> [] ->
    crush c a (buffer_size c cs) = Ok x -> crush c (a ++ b) (buffer_size c cs) = Ok y -> len x <= len y.
(** Bytes are bytes; sums of addresses do not overflow; a transaction does not begin on an
    empty store or on one with text that was never flushed; a store is not closed while a transaction is open; and before a
    transaction is aborted what was appended is flushed, unless longer chunks compress to
    longer results. *)
Definition allowed (c : compressor) (cs : Z) (e : event) (f : flat) : Prop :=
  match e with
  | Append b => Forall is_byte b
  | Read p n => minf <= Z.max 0 p + n <= maxf
  | Begin => mark f = None -> text f <> [] /\ unflushed f = false
  | Abort => unflushed f = false \/ grows c cs
  | Reopen => mark f = None
  | _ => True
  end.
Fixpoint all_allowed (c : compressor) (cs : Z) (l : list event) (f : flat) : Prop :=
  match l with
  | [] => True
  | e :: l => allowed c cs e f /\ all_allowed c cs l (snd (flat1 e f))
  end.

(** A compressor for text: lossless, and its result fits the buffer of the store. *)
Definition suitable (c : compressor) (cs : Z) : Prop :=
  0 < cs /\ (forall b, Forall is_byte b -> lossless c b) /\
  forall n, 0 <= n <= cs -> n + extra c n <= buffer_size c cs.

(** [serves d t]: a program that opens these files finds a flat file with this text. *)
Definition serves (c : compressor) (cs : Z) (held : Z -> bool) (d : disk) (t : bytes) : Prop :=
  forall l, all_allowed c cs l (Flat t None false) ->
  exists w w', opened c cs held d = Ok w /\
               run c cs held l w = Ok (fst (flat_run l (Flat t None false)), w').

(** [shows d t]: a program that opens these files, even with a transaction left open in
    them, can read this text. *)
Definition shows (c : compressor) (cs : Z) (held : Z -> bool) (d : disk) (t : bytes) : Prop :=
  exists r, make c cs held d = Ok r /\ size r = Z.of_nat (length t) /\
  forall p n, minf <= Z.max 0 p + n <= maxf ->
  exists s, read c cs held p n (St r d []) = Ok (firstn (Z.to_nat n) (skipn (Z.to_nat p) t), s).

(** * Crashes *)
(** A program that does this to the files and dies on the way; a write to the contents may
    be cut short. *)
Inductive crashed : disk -> list op -> disk -> Prop :=
| crash_now d l : crashed d l d
| crash_torn d p b l k : crashed d (WriteAt p b :: l) (exec1 d (WriteAt p (firstn k b)))
| crash_later d o l d' : crashed (exec1 d o) l d' -> crashed d (o :: l) d'.
(** Recovery, which may itself be interrupted and is then started again. *)
Inductive recovers (c : compressor) (cs : Z) (commit : bool) : disk -> disk -> Prop :=
| recover_through d l : recover c cs commit d = Ok l -> recovers c cs commit d (exec d l)
| recover_again d l d1 d2 : recover c cs commit d = Ok l -> crashed d l d1 ->
    recovers c cs commit d1 d2 -> recovers c cs commit d d2.

(** The text a crash goes back to: that of the last commit. *)
Definition committed (f : flat) : bytes := match mark f with Some t => t | None => text f end.
(** Text is appended in transactions only, and nothing else is left unflushed. *)
Definition guarded (e : event) (f : flat) : Prop :=
  mark f <> None \/ (unflushed f = false /\ forall b, e <> Append b).

(** * A second program reading while the first one writes *)
(** A call of the writer, and reads of the reader each of which happens after the writer
    has done that many of the call's operations on the files. *)
Inductive turn := Turn (e : event) (reads : list (nat * (Z * Z))).
Fixpoint writes (l : list turn) : list event :=
  match l with [] => [] | Turn e _ :: l => e :: writes l end.
Fixpoint reads_during (c : compressor) (cs : Z) (held : Z -> bool) (rs : list (nat * (Z * Z)))
  (d : disk) (os : list op) (r : io) : res (list bytes * io) :=
  match rs with
  | [] => Ok ([], r)
  | (k, (p, n)) :: rs =>
      let* (b, s) := read c cs held p n (St r (exec d (firstn k os)) []) in
      let* (t, r) := reads_during c cs held rs d os (h s) in Ok (b :: t, r)
  end.
(** The reader's answers; [r] is the reader's store, on the writer's files. *)
Fixpoint interleaved (c : compressor) (cs : Z) (held : Z -> bool) (l : list turn) (w : program) (r : io)
  : res (list bytes) :=
  match l with
  | [] => Ok []
  | Turn e rs :: l =>
      let* (_, w') := run1 c cs held e w in
      let* (t, r) := reads_during c cs held rs (dk (s_ w)) (skipn (length (done (s_ w))) (done (s_ w'))) r in
      let* u := interleaved c cs held l w' r in Ok (t ++ u)
  end.
(** What they are on a file whose text is [t]. *)
Definition expected (l : list turn) (t : bytes) : list bytes :=
  flat_map (fun x => match x with Turn _ rs =>
    map (fun r => firstn (Z.to_nat (snd (snd r))) (skipn (Z.to_nat (fst (snd r))) t)) rs end) l.
Definition reads_allowed (l : list turn) : Prop :=
  forall e rs k p n, In (Turn e rs) l -> In (k, (p, n)) rs -> minf <= Z.max 0 p + n <= maxf.
