(** Model of the compressed text store of a single-file index: SimpleTxtIO
    (src/simple_txt_io.h, src/simple_txt_io.cc), with the transaction protocol of
    Committable (src/committable.h) around it.

    Simplified throughout: a file that does not exist is empty (make creates it), files
    are writable, calls of the file system do not fail, and the eight bytes of an entry
    of the chunk map are written at once.  clone (simple_txt_io.cc:179-206), whose chunk
    map is shared with the store it was taken from, is not modelled. *)
From Verif Require Import Base Bytes CodecModel.

(** * Files *)
(** The contents file, the chunk map, the .temp, .limits and .lock files beside them. *)
Record disk := Disk {
  contents : bytes; cmap : list Z; temp : option (Z * bytes); limits : option (Z * bytes); lock : bool
}.
Definition blank : disk := Disk [] [] None None false.
(** truncate(2): a shorter file grows with zeros. *)
Definition resize (n : Z) (f : list Z) : list Z :=
  firstn (Z.to_nat n) f ++ repeat 0 (Z.to_nat n - length f).
(** Writing at a position; a gap is filled with zeros. *)
Definition write_at (p : Z) (b f : bytes) : bytes := resize p f ++ b ++ skipn (Z.to_nat p + length b) f.
Definition part (b : bytes) (o n : Z) : bytes := firstn (Z.to_nat n) (skipn (Z.to_nat o) b).

(** What the code does to files, one call at a time. *)
Inductive op :=
| WriteAt (p : Z) (b : bytes)       (* contents: seekp, write *)
| CutContents (n : Z)
| MapLast (z : Z)                   (* chunk map: seekp(-8, end), write *)
| MapPush (z : Z)
| CutMap (n : Z)                    (* in entries *)
| PutTemp (n : Z) (b : bytes)
| RenameTemp                        (* .temp becomes .limits *)
| RmTemp | RmLimits | TakeLock | RmLock.
Definition exec1 (d : disk) (o : op) : disk :=
  match o with
  | WriteAt p b => Disk (write_at p b (contents d)) (cmap d) (temp d) (limits d) (lock d)
  | CutContents n => Disk (resize n (contents d)) (cmap d) (temp d) (limits d) (lock d)
  | MapLast z => Disk (contents d) (removelast (cmap d) ++ [z]) (temp d) (limits d) (lock d)
  | MapPush z => Disk (contents d) (cmap d ++ [z]) (temp d) (limits d) (lock d)
  | CutMap n => Disk (contents d) (resize n (cmap d)) (temp d) (limits d) (lock d)
  | PutTemp n b => Disk (contents d) (cmap d) (Some (n, b)) (limits d) (lock d)
  | RenameTemp => Disk (contents d) (cmap d) None (temp d) (lock d)
  | RmTemp => Disk (contents d) (cmap d) None (limits d) (lock d)
  | RmLimits => Disk (contents d) (cmap d) (temp d) None (lock d)
  | TakeLock => Disk (contents d) (cmap d) (temp d) (limits d) true
  | RmLock => Disk (contents d) (cmap d) (temp d) (limits d) false
  end.
Definition exec (d : disk) (l : list op) : disk := fold_left exec1 l d.

(** * A store that is open: the members of SimpleTxtIO.  [chunk] holds the first
    chunk_end_ bytes of chunk_, [None] before chunk_end_ is first assigned; [limited]
    holds last_chunk_, [None] when limited_ is false; [pend] is what the put area of
    contents_ holds back, and where in the file it belongs. *)
Record io := Io {
  map_ : list Z; valid : bool; synced : bool; flushed : bool; index : nat;
  chunk : option bytes; read_only : bool; limited : option bytes;
  pend : option (Z * bytes); size : Z
}.
Definition set_chunk (v : bool) (i : nat) (k : option bytes) (h : io) : io :=
  Io (map_ h) v (synced h) (flushed h) i k (read_only h) (limited h) (pend h) (size h).
Definition set_map (m : list Z) (h : io) : io :=
  Io m (valid h) (synced h) (flushed h) (index h) (chunk h) (read_only h) (limited h) (pend h) (size h).
Definition set_synced (b : bool) (h : io) : io :=
  Io (map_ h) (valid h) b (flushed h) (index h) (chunk h) (read_only h) (limited h) (pend h) (size h).
Definition set_flushed (b : bool) (h : io) : io :=
  Io (map_ h) (valid h) (synced h) b (index h) (chunk h) (read_only h) (limited h) (pend h) (size h).
Definition set_pend (p : option (Z * bytes)) (h : io) : io :=
  Io (map_ h) (valid h) (synced h) (flushed h) (index h) (chunk h) (read_only h) (limited h) p (size h).
Definition set_size (n : Z) (h : io) : io :=
  Io (map_ h) (valid h) (synced h) (flushed h) (index h) (chunk h) (read_only h) (limited h) (pend h) n.

(** A store, its files, and everything done to the files so far. *)
Record st := St { h : io; dk : disk; done : list op }.
Definition on_h (f : io -> io) (s : st) : st := St (f (h s)) (dk s) (done s).
Definition emit (o : op) (s : st) : st := St (h s) (exec1 (dk s) o) (done s ++ [o]).

Section Chunked.
(** The compressor, chunk_size_, and which writes the stream holds back in its buffer
    until the next seek, flush or close. *)
Variable c : compressor.
Variable cs : Z.
Variable held : Z -> bool.
(** simple_txt_io.cc:113 *)
Definition buffer_size : Z := cs + extra c cs + 1.

(** The put area goes to the file: seekg, seekp, flush, close. *)
Definition settle (s : st) : st :=
  match pend (h s) with
  | None => s
  | Some (p, b) => on_h (set_pend None) (emit (WriteAt p b) s)
  end.
(** contents_.seekp(where); contents_.write(b). *)
Definition put (p : Z) (b : bytes) (s : st) : st :=
  let s := settle s in
  if held (len b) then on_h (set_pend (Some (p, b))) s else emit (WriteAt p b) s.
(** contents_.seekg(where); contents_.read(buffer_, amount) and its assertion. *)
Definition get (p n : Z) (s : st) : res (bytes * st) :=
  let s := settle s in
  if (n <? 0) || (buffer_size <? n) || (len (contents (dk s)) <? p + n) then UB
  else Ok (part (contents (dk s)) p n, s).

(** Where a chunk starts and ends in the contents file: simple_txt_io.cc:220-225. *)
Definition chunk_start (m : list Z) (i : nat) : res Z :=
  match i with O => Ok 0 | S j => idx m (Z.of_nat j) end.
Definition chunk_end (m : list Z) (i : nat) : res Z := idx m (Z.of_nat i).

(** simple_txt_io.cc:246-272 *)
Definition sync_last_chunk (s : st) : res st :=
  if synced (h s) then Ok s else
  match limited (h s), rev (map_ (h s)), chunk (h s), cmap (dk s) with
  | None, _ :: _, Some (x :: k), _ :: _ =>
      let n := length (map_ (h s)) in
      if negb (valid (h s)) || negb (Nat.eqb (index (h s)) (n - 1)) then UB else
      let* where_ := chunk_start (map_ (h s)) (n - 1) in
      let* z := crush c (x :: k) buffer_size in
      let s := put where_ z s in
      let e := where_ + len z in
      let s := on_h (set_map (removelast (map_ (h s)) ++ [e])) s in
      let s := emit (MapLast e) s in
      Ok (on_h (set_synced true) s)
  | _, _, _, _ => UB
  end.
(** simple_txt_io.cc:208-233 *)
Definition fetch_chunk (i : nat) (s : st) : res st :=
  let n := length (map_ (h s)) in
  if negb (Nat.ltb i n) then UB else
  if valid (h s) && Nat.eqb (index (h s)) i then Ok s else
  let* s := sync_last_chunk s in
  match limited (h s) with
  | Some l =>
      if Nat.eqb i (n - 1) then (if cs + 1 <? len l then UB else Ok (on_h (set_chunk true i (Some l)) s)) else
      let* where_ := chunk_start (map_ (h s)) i in
      let* e := chunk_end (map_ (h s)) i in
      let* (b, s) := get where_ (e - where_) s in
      let* t := tang c b (cs + 1) in
      if cs <? len t then UB else Ok (on_h (set_chunk true i (Some t)) s)
  | None =>
      let* where_ := chunk_start (map_ (h s)) i in
      let* e := chunk_end (map_ (h s)) i in
      let* (b, s) := get where_ (e - where_) s in
      let* t := tang c b (cs + 1) in
      if cs <? len t then UB else Ok (on_h (set_chunk true i (Some t)) s)
  end.
(** simple_txt_io.cc:235 *)
Definition fetch_last_chunk (s : st) : res st := fetch_chunk (length (map_ (h s)) - 1) s.
(** chunk_size_ * (chunk_map_->size() - 1) + chunk_end_ *)
Definition measure (s : st) : res Z :=
  match chunk (h s) with
  | Some k => Ok (cs * (Z.of_nat (length (map_ (h s))) - 1) + len k)
  | None => UB
  end.

(** simple_txt_io.cc:237-244 *)
Definition append_last_chunk (text : bytes) (s : st) : res st :=
  match limited (h s), map_ (h s), chunk (h s) with
  | None, _ :: _, Some k =>
      let n := length (map_ (h s)) in
      if negb (valid (h s)) || negb (Nat.eqb (index (h s)) (n - 1)) || (cs <? len k + len text) then UB else
      Ok (on_h (fun h => set_synced false (set_chunk true (index h) (Some (k ++ text)) h)) s)
  | _, _, _ => UB
  end.
(** simple_txt_io.cc:275-279, 301-305: the end of the last chunk. *)
Definition map_end (m : list Z) : res Z := chunk_start m (length m).
(** simple_txt_io.cc:274-293; [text] is the full chunk. *)
Definition append_full_chunk (text : bytes) (s : st) : res st :=
  let* where_ := map_end (map_ (h s)) in
  let* z := crush c text buffer_size in
  let s := put where_ z s in
  let e := where_ + len z in
  let s := on_h (set_map (map_ (h s) ++ [e])) s in
  Ok (emit (MapPush e) s).
(** simple_txt_io.cc:295-320 *)
Definition start_new_chunk (text : bytes) (s : st) : res st :=
  match limited (h s) with
  | Some _ => UB
  | None =>
      if (len text <=? 0) || (cs <? len text) then UB else
      let s := on_h (fun h => set_chunk true (length (map_ h)) (Some text) h) s in
      let* where_ := map_end (map_ (h s)) in
      let* z := crush c text buffer_size in
      let s := put where_ z s in
      let e := where_ + len z in
      let s := on_h (set_map (map_ (h s) ++ [e])) s in
      let s := emit (MapPush e) s in
      Ok (on_h (set_synced true) s)
  end.
(** simple_txt_io.cc:346-350 *)
Fixpoint append_rest (fuel : nat) (text : bytes) (s : st) : res st :=
  match fuel with
  | O => NoFuel
  | S fuel =>
      if cs <? len text then
        let* s := append_full_chunk (firstn (Z.to_nat cs) text) s in
        append_rest fuel (skipn (Z.to_nat cs) text) s
      else if 0 <? len text then start_new_chunk text s
      else Ok s
  end.
(** simple_txt_io.cc:322-356 *)
Definition append (text : bytes) (s : st) : res st :=
  if read_only (h s) then Ok s else
  if len text <=? 0 then Ok s else
  let s := on_h (set_flushed false) s in
  let* (text, s) :=
    match map_ (h s) with
    | [] =>
        let n := Z.to_nat (Z.min cs (len text)) in
        let* s := start_new_chunk (firstn n text) s in Ok (skipn n text, s)
    | _ :: _ =>
        let* s := fetch_last_chunk s in
        match chunk (h s) with
        | None => UB
        | Some k =>
            let room := cs - len k in
            if room =? 0 then Ok (text, s) else
            let n := Z.to_nat (Z.min room (len text)) in
            let* s := append_last_chunk (firstn n text) s in Ok (skipn n text, s)
        end
    end in
  let* s := (if len text =? 0 then Ok s else
             let* s := sync_last_chunk s in append_rest (S (length text)) text s) in
  let* n := measure s in
  Ok (on_h (set_size n) s).

(** simple_txt_io.h:27-35 *)
Definition flush (s : st) : res st :=
  if read_only (h s) || flushed (h s) then Ok s else
  let* s := sync_last_chunk s in
  Ok (on_h (set_flushed true) (settle s)).

(** memcpy out of chunk_: bytes beyond chunk_end_ are not the chunk's. *)
Definition from_chunk (o n : Z) (s : st) : res bytes :=
  match chunk (h s) with
  | Some k => if len k <? o + n then UB else Ok (part k o n)
  | None => UB
  end.
(** simple_txt_io.cc:385-401 *)
Fixpoint read_full (fuel : nat) (desired : Z) (i : nat) (s : st) : res (bytes * Z * nat * st) :=
  match fuel with
  | O => NoFuel
  | S fuel =>
      if cs <? desired then
        let* where_ := chunk_start (map_ (h s)) i in
        let* e := chunk_end (map_ (h s)) i in
        let* (b, s) := get where_ (e - where_) s in
        let* t := tang c b (cs + 1) in
        if negb (len t =? cs) then UB else
        let* (r, d, j, s) := read_full fuel (desired - cs) (S i) s in
        Ok (t ++ r, d, j, s)
      else Ok ([], desired, i, s)
  end.
(** simple_txt_io.cc:358-407; nullptr with *actual = 0 is the empty string. *)
Definition read (start desired : Z) (s : st) : res (bytes * st) :=
  let start := if start <? 0 then 0 else start in
  let* s := flush s in
  let* e := chk (start + desired) in
  let desired := if size (h s) <? e then size (h s) - start else desired in
  if desired <=? 0 then Ok ([], s) else
  let offset := start mod cs in
  let i := Z.to_nat (start / cs) in
  let* (t0, desired, i, s) :=
    (if 0 <? offset then
       let* s := fetch_chunk i s in
       let n := Z.min desired (cs - offset) in
       let* t := from_chunk offset n s in
       Ok (t, desired - n, S i, s)
     else Ok ([], desired, i, s)) in
  if desired =? 0 then Ok (t0, s) else
  let* (t1, desired, i, s) := read_full (S (Z.to_nat desired)) desired i s in
  let* s := fetch_chunk i s in
  let* t2 := from_chunk 0 desired s in
  Ok (t0 ++ t1 ++ t2, s).

(** simple_txt_io.cc:409-415 *)
Fixpoint dump_from (n i : nat) (s : st) : res (bytes * st) :=
  match n with
  | O => Ok ([], s)
  | S n =>
      let* s := fetch_chunk i s in
      match chunk (h s) with
      | None => UB
      | Some k => let* (r, s) := dump_from n (S i) s in Ok (k ++ r, s)
      end
  end.
Definition dump (s : st) : res (bytes * st) := dump_from (length (map_ (h s))) 0 s.

(** simple_txt_io.cc:104-177: opening the files.  Members without an initial value
    that make does not assign are 0 or empty here and never read. *)
Definition make (d : disk) : res io :=
  let m := match limits d with Some (n, _) => firstn (Z.to_nat n) (cmap d) | None => cmap d end in
  let l := match limits d with Some (_, b) => Some b | None => None end in
  let ro := match limits d with Some _ => true | None => false end in
  let h := Io m false true true 0 None ro l None 0 in
  match m with
  | [] => Ok h
  | _ =>
      let* s := fetch_last_chunk (St h d []) in
      let* n := measure s in
      Ok (set_size n (Verif.ChunkModel.h s))
  end.

(** * Transactions *)
(** simple_txt_io.cc:417-468.  Beginning on a store without chunks reads chunk_end_,
    which may never have been assigned. *)
Definition transaction_ (s : st) : res (bool * st) :=
  if read_only (h s) then Ok (false, s) else
  if lock (dk s) then Ok (false, s) else
  let s := emit TakeLock s in
  let* s := (match map_ (h s) with [] => Ok s | _ => fetch_last_chunk s end) in
  match chunk (h s) with
  | None => UB
  | Some k =>
      let s := emit (PutTemp (Z.of_nat (length (map_ (h s)))) k) s in
      Ok (true, emit RenameTemp s)
  end.
(** simple_txt_io.cc:35-42 *)
Definition unlock_ops : list op := [RmTemp; RmLimits; RmLock].
Definition unlock (s : st) : st := fold_left (fun s o => emit o s) unlock_ops s.
(** simple_txt_io.cc:44-92.  The assertion of compressor.h:30 on an empty last chunk
    cannot fail. *)
Definition restore (d : disk) : res (list op) :=
  match limits d with
  | None => Ok []
  | Some (n, last) =>
      if n =? 0 then Ok [CutContents 0; CutMap 0] else
      if n <? 0 then UB else
      let m := resize n (cmap d) in
      let* where_ := (if n =? 1 then Ok 0 else idx m (n - 2)) in
      let* z := crush c last buffer_size in
      Ok [CutMap n; CutContents (where_ + len z); WriteAt where_ z; MapLast (where_ + len z)]
  end.
(** simple_txt_io.cc:96-102: what it does to the files. *)
Definition recover (commit : bool) (d : disk) : res (list op) :=
  let* l := (if commit then Ok [] else restore d) in
  Ok (l ++ unlock_ops).
(** simple_txt_io.cc:470-473 *)
Definition ready_ (s : st) : res (bool * st) := let* s := flush s in Ok (true, s).
(** simple_txt_io.cc:475 *)
Definition commit_ (s : st) : st := unlock s.
(** simple_txt_io.cc:477-506 *)
Definition abort_ (s : st) : res st :=
  let* l := restore (dk s) in
  let s := fold_left (fun s o => emit o s) l s in
  let s := on_h (fun h => set_flushed true (set_synced true (set_chunk false (index h) (chunk h) h))) s in
  let s := settle s in
  let s := on_h (fun h => Io (cmap (dk s)) (valid h) (synced h) (flushed h) (index h) (chunk h)
                             (read_only h) None (pend h) (size h)) s in
  let* s := (match map_ (h s) with
             | [] => Ok (on_h (set_size 0) s)
             | _ =>
                 let* s := fetch_last_chunk s in
                 let* n := measure s in Ok (on_h (set_size n) s)
             end) in
  Ok (unlock s).

(** * A program using a store *)
Inductive event :=
| Append (b : bytes)
| Read (start desired : Z)
| Size
| Dump
| Flush
| Begin                      (* transaction() *)
| Commit                     (* ready() and commit() *)
| Abort
| Reopen.                    (* the destructor, then make *)
Inductive answer := Done | Bytes (b : bytes) | Num (n : Z) | Flag (b : bool).

(** The store, its files, and started_ of Committable.  committable.h:20-65 without its
    lock; ready is the first one of the transaction. *)
Record program := Program { s_ : st; started : bool }.
Definition run1 (e : event) (w : program) : res (answer * program) :=
  let s := s_ w in
  match e with
  | Append b => let* s := append b s in Ok (Done, Program s (started w))
  | Read p n => let* (b, s) := read p n s in Ok (Bytes b, Program s (started w))
  | Size => Ok (Num (size (h s)), w)
  | Dump => let* (b, s) := dump s in Ok (Bytes b, Program s (started w))
  | Flush => let* s := flush s in Ok (Done, Program s (started w))
  | Begin =>
      if started w then Ok (Flag false, w) else
      let* (b, s) := transaction_ s in Ok (Flag b, Program s b)
  | Commit =>
      if started w then
        let* (b, s) := ready_ s in Ok (Flag b, Program (commit_ s) false)
      else Ok (Flag false, w)
  | Abort =>
      if started w then let* s := abort_ s in Ok (Done, Program s false)
      else Ok (Done, w)
  | Reopen =>
      let* s := flush s in
      let* h := make (dk s) in Ok (Done, Program (St h (dk s) (done s)) false)
  end.
Fixpoint run (l : list event) (w : program) : res (list answer * program) :=
  match l with
  | [] => Ok ([], w)
  | e :: l =>
      let* (a, w) := run1 e w in
      let* (r, w) := run l w in Ok (a :: r, w)
  end.
(** Opening the files of a directory in which nobody has a transaction open. *)
Definition opened (d : disk) : res program :=
  let* h := make d in Ok (Program (St h d []) false).
End Chunked.
