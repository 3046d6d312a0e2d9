(** Model of builders and of reading the files they are given: src/builder.h, src/builder.cc. *)
From Verif Require Import Base Bytes.

(** ** Builders *)
(** The calls of a Builder; those that reach it by the other overloads of add_annotation have a
    value made of them (builder.h:51-58, 72-79). *)
Inductive call := Text (text : bytes) | Tagged (tag : bytes) (p q v : Z) | Featured (feature p q v : Z) | Finalize.
Section Builder.
(** What the virtual functions of a builder answer, after the calls of them so far. *)
Variable (answer : list call -> call -> bool).
(** failed_, finalized_ and the calls of virtual functions so far. *)
Record builder := Builder { failed : bool; finalized : bool; reached : list call }.
Definition fresh : builder := Builder false false [].
(** builder.h:21-33, 38-50, 59-71 (add_text, add_annotation) and 80-91 (finalize). *)
Definition do_call (b : builder) (x : call) : bool * builder :=
  match x with
  | Finalize =>
      if failed b then (false, b)
      else if finalized b then (true, b)
      else let ok := answer (reached b) x in (ok, Builder (negb ok) true (reached b ++ [x]))
  | _ =>
      if failed b then (false, b)
      else if finalized b then (false, b)
      else let ok := answer (reached b) x in (ok, Builder (negb ok) (finalized b) (reached b ++ [x]))
  end.
(** One call after the other: what they answer. *)
Fixpoint do_calls (b : builder) (xs : list call) : list bool * builder :=
  match xs with
  | [] => ([], b)
  | x :: r => let (ok, b) := do_call b x in let (oks, b) := do_calls b r in (ok :: oks, b)
  end.

(** ** Files *)
(** builder.cc:20-24 *)
Definition has_extension (filename extension : bytes) : bool :=
  Nat.ltb (length extension) (length filename) && eqb_bytes (skipn (length filename - length extension) filename) extension.
(** builder.cc:26-32 *)
Definition has_zcat_extension (filename : bytes) : bool :=
  has_extension filename (lit ".z") || has_extension filename (lit ".Z") || has_extension filename (lit ".gz") || has_extension filename (lit ".GZ") ||
  has_extension filename (lit ".0z") || has_extension filename (lit ".1z") || has_extension filename (lit ".2z").
(** builder.cc:34-44: 39 is the quote, 92 the backslash. *)
Fixpoint quote_loop (s : bytes) : bytes :=
  match s with [] => [39] | c :: r => if c =? 39 then [39; 92; 39; 39] ++ quote_loop r else c :: quote_loop r end.
Definition shell_quote (s : bytes) : bytes := 39 :: quote_loop s.
(** builder.cc:128 *)
Definition zcat_command (path filename : bytes) : bytes := path ++ lit " " ++ shell_quote filename.

(** What fread gives, time after time: some bytes, or none because of an error or at the end. *)
Inductive piece := Bytes (b : bytes) | Error.
(** fopen and popen: what can be read then. *)
Variables (fopen popen : bytes -> option (list piece)).
(** builder.cc:46-60 *)
Definition zcat : option bytes :=
  match fopen (lit "/usr/bin/zcat") with
  | Some _ => Some (lit "/usr/bin/zcat")
  | None => match fopen (lit "/bin/zcat") with Some _ => Some (lit "/bin/zcat") | None => None end
  end.
(** builder.cc:110-135.  c_str() ends at a NUL. *)
Fixpoint c_str (s : bytes) : bytes := match s with [] => [] | c :: r => if c =? 0 then [] else c :: c_str r end.
Definition maybe_zipped (filename : bytes) : option (list piece) :=
  match fopen (c_str filename) with
  | None => None
  | Some pieces =>
      if has_zcat_extension filename then
        match zcat with None => None | Some path => popen (c_str (zcat_command path filename)) end
      else Some pieces
  end.
(** builder.cc:68-78: the bytes in the buffer and what fread still has to give.  An empty answer
    of fread is the end of the stream, whatever the reason. *)
Definition underflow (pieces : list piece) : option (bytes * list piece) :=
  match pieces with [] => None | Error :: _ => None | Bytes [] :: _ => None | Bytes b :: r => Some (b, r) end.
(** std::istream::read over this buffer: bytes taken, the buffer and pieces left, and whether
    the stream has met its end (then it stays so).  It is bad() only after an exception. *)
Fixpoint istream_read (buffer : bytes) (pieces : list piece) (n : nat) : bytes * bytes * list piece * bool :=
  if Nat.leb n (length buffer) then (firstn n buffer, skipn n buffer, pieces, false)
  else
    match pieces with
    | Bytes (c :: b) :: r =>
        let '(taken, buffer', r', eof) := istream_read (c :: b) r (n - length buffer) in (buffer ++ taken, buffer', r', eof)
    | _ => (buffer, [], [], true)
    end.
(** builder.cc:143-152; [size] is buffer_size, 256 * 1024. *)
Fixpoint inhale_loop (n : nat) (size : nat) (buffer : bytes) (pieces : list piece) (contents : bytes) : res bytes :=
  match n with
  | O => NoFuel
  | S n =>
      let '(taken, buffer, pieces, eof) := istream_read buffer pieces size in
      if eof then Ok (contents ++ taken) else inhale_loop n size buffer pieces (contents ++ taken)
  end.
Definition amount (pieces : list piece) : nat := length (flat_map (fun p => match p with Bytes b => b | Error => [] end) pieces).
(** builder.cc:137-152; None is nullptr. *)
Definition inhale (size : nat) (filename : bytes) : res (option bytes) :=
  match maybe_zipped filename with
  | None => Ok None
  | Some pieces => let* c := inhale_loop (S (amount pieces)) size [] pieces [] in Ok (Some c)
  end.
(** builder.cc:154-172.  Line 162 dereferences what inhale gives. *)
Fixpoint build_loop (size : nat) (filenames : list bytes) (b : builder) : res (bool * builder) :=
  match filenames with
  | [] => Ok (do_call b Finalize)
  | f :: r =>
      let* contents := inhale size f in
      match contents with
      | None => UB
      | Some text => let (ok, b) := do_call b (Text text) in if ok then build_loop size r b else Ok (false, b)
      end
  end.
Definition build_trec (filenames : list bytes) (b : builder) : res (bool * builder) := build_loop (Z.to_nat 262144) filenames b.
End Builder.
