(** Model of the cache of decompressed chunks of text: HazelTxt::obtain (src/hazel.cc).
    Threads take turns; one step is one access to what they share. *)
From Verif Require Import Base Bytes.

(** hazel.cc:931-934 (HazelTextCacheEntry): present and bytes; [None] is the null pointer. *)
Record entry := Entry { present : bool; content : option bytes }.

(** Where a thread is in hazel.cc:1177-1209.  [Out]: in no call; [First]: about to look
    whether the chunk is present (1179); [Load]: about to read and decompress it
    (1182-1201); [Second]: has it, about to look again (1203); [Lock]: about to take the
    lock (1205); [Third]: about to look under the lock (1206); [Put]: about to set bytes
    (1207); [Publish]: about to set present (1208); [Unlock]; [Use]: about to read the bytes
    behind the pointer it was given. *)
Inductive phase :=
| Out | First | Load | Second (raw : bytes) | Lock (raw : bytes) | Third (raw : bytes) | Put (raw : bytes) | Publish | Unlock | Use.
(** A thread: the chunks it will obtain, the first being the one it is at, and the bytes it
    saw; [None] is nullptr. *)
Record user := User { todo : list nat; saw : list (option bytes); at_ : phase }.
Record text := Text { entries : list entry; locked : bool; users : list user }.

Section Machine.
(** The bytes of each chunk. *)
Variable raw : nat -> bytes.

Fixpoint update {A} (n : nat) (f : A -> A) (l : list A) : list A :=
  match l, n with
  | [], _ => []
  | x :: l, O => f x :: l
  | x :: l, S n => x :: update n f l
  end.
Definition is_present (es : list entry) (k : nat) : bool :=
  match nth_error es k with Some e => present e | None => false end.
Definition bytes_of (es : list entry) (k : nat) : option bytes :=
  match nth_error es k with Some e => content e | None => None end.
Definition goto (p : phase) (t : user) : user := User (todo t) (saw t) p.
Definition returned (r : option bytes) (t : user) : user := User (tl (todo t)) (saw t ++ [r]) Out.

(** One step of a thread; [ok]: if it is reading the file, whether that succeeds. *)
Definition local_step (ok : bool) (es : list entry) (l : bool) (t : user) : option (list entry * bool * user) :=
  match todo t with
  | [] => None
  | k :: _ =>
      match at_ t with
      | Out => Some (es, l, goto First t)
      | First => Some (es, l, goto (if is_present es k then Use else Load) t)
      | Load => Some (es, l, if ok then goto (Second (raw k)) t else returned None t)
      | Second r => Some (es, l, goto (if is_present es k then Use else Lock r) t)
      | Lock r => if l then None else Some (es, true, goto (Third r) t)
      | Third r => Some (es, l, goto (if is_present es k then Unlock else Put r) t)
      | Put r => Some (update k (fun e => Entry (present e) (Some r)) es, l, goto Publish t)
      | Publish => Some (update k (fun e => Entry true (content e)) es, l, goto Unlock t)
      | Unlock => Some (es, false, goto Use t)
      | Use => Some (es, l, returned (bytes_of es k) t)
      end
  end.
Inductive turn := Run (i : nat) (ok : bool).
Definition step (s : text) (a : turn) : option text :=
  let 'Run i ok := a in
  match nth_error (users s) i with
  | None => None
  | Some t =>
      match local_step ok (entries s) (locked s) t with
      | Some (es, l, t) => Some (Text es l (update i (fun _ => t) (users s)))
      | None => None
      end
  end.
Fixpoint run (s : text) (l : list turn) : option text :=
  match l with
  | [] => Some s
  | a :: l => match step s a with Some s => run s l | None => None end
  end.
(** [n] chunks, none of them loaded. *)
Definition start (n : nat) (programs : list (list nat)) : text :=
  Text (repeat (Entry false None) n) false (map (fun p => User p [] Out) programs).
End Machine.
