(** Model of the lists that are loaded when they are first asked for: the gate
    (src/cache_gate.h), the cache of shared lists (OwslaCache, src/owsla.h), the threads
    that fill them (src/hazel.cc, src/bigwig.cc) and the hoppers that wait for them
    (src/array_hopper.h).  Threads take turns; one step is one access to what they share. *)
From Verif Require Import Base HopperModel ArrayDefs CodecModel PostingModel.

(** Which cache (0: the snapshot's, bigwig.cc:212; S i: that of shard i, hazel.cc:416)
    and which feature. *)
Definition key : Type := nat * Z.
Definition key_eqb (a b : key) : bool := Nat.eqb (fst a) (fst b) && (snd a =? snd b).

(** A list handed out: one made for the caller alone, or a shared one (its place in
    [lines]). *)
Inductive child := Alone (p : posting) | Shared (r : nat).
(** simple_posting.h:45-51: a shared posting and its gate. *)
Record line := Line { l_key : key; l_open : bool; l_data : posting }.

(** owsla.h:101-118: OwslaCache::get.  [Want]: about to take the lock; [Locked]: about to
    look for the feature; [Missed]: about to make and enter an empty posting; [Leaving]:
    about to release the lock; [Left]: back in the caller. *)
Inductive getting := Want | Locked | Missed | Leaving (r : nat) (created : bool) | Left (r : nat) (created : bool).
(** cache_gate.h:30-36 (66-71): CacheGate::wait.  [Check]: about to look whether it is
    open; [Block]: about to sleep unless it is open by then; [Asleep]; [Woken]: woken, by
    notify_all or for no reason; [Recheck]: about to look again. *)
Inductive waiting := Check | Block | Asleep | Woken | Recheck.

(** What a thread is in the middle of, callers below. *)
Inductive frame :=
| Get (k : key) (sync : bool) (g : getting)
| Wait (k : key) (r : nat) (w : waiting)
(** bigwig.cc:167-173: collecting the lists to merge *)
| Fill (k : key) (r : nat) (todo : list key) (got : list child)
(** bigwig.cc:174-179: reading them; hazel.cc:185-189 when there are none *)
| Merge (k : key) (r : nat) (todo : list child) (got : list posting)
(** simple_posting.cc:446-481: the three vectors of the empty posting are set in turn *)
| Write (k : key) (r : nat) (n : nat) (d : posting)
(** cache_gate.h:38-43 (73-81): CacheGate::open *)
| Opening (k : key) (r : nat)
| Notifying (k : key) (r : nat).

(** What a client does: make a hopper, fetch a posting, read the list behind the hopper
    (or posting) it made [h]-th. *)
Inductive call := AskHopper (k : key) | AskPosting (k : key) | UseAt (h : nat).
(** array_hopper.h:84-94: the list behind a hopper and ready_. *)
Record handle := Handle { h_key : key; h_child : child; h_ready : bool }.
Record thread := Thread { calls : list call; handles : list handle; seen : list (key * posting); stack : list frame }.

(** The mutexes that are held, the maps of the caches, the shared postings, and the
    features whose list has been read (a trace). *)
Record shared := Glob { held : list nat; cache : list (key * nat); lines : list line; loads : list key }.
Record state := State { glob : shared; threads : list thread }.

Section Machine.
(** A build without std::atomic::wait (cache_gate.h:51-87). *)
Variable fallback : bool.
(** The lists that are not shared: hazel.cc:251-261, 288-296 (no list, or one address),
    fiver.cc:610-617, 219-233, bigwig.cc:193-198. *)
Variable direct : key -> option posting.
(** The lists a shared list is made of: bigwig.cc:168-173; none for hazel.cc:181-199. *)
Variable deps : key -> list key.
(** What is made of them: bigwig.cc:174-185, hazel.cc:185-199. *)
Variable combine : key -> list posting -> posting.

Definition found (c : list (key * nat)) (k : key) : option nat :=
  match find (fun x => key_eqb (fst x) k) c with Some x => Some (snd x) | None => None end.
Definition is_open (g : shared) (r : nat) : bool :=
  match nth_error (lines g) r with Some l => l_open l | None => false end.
Definition data (g : shared) (r : nat) : posting :=
  match nth_error (lines g) r with Some l => l_data l | None => posting_from_feature 0 end.
Fixpoint update {A} (n : nat) (f : A -> A) (l : list A) : list A :=
  match l, n with
  | [], _ => []
  | x :: l, O => f x :: l
  | x :: l, S n => x :: update n f l
  end.
Definition set_data (r : nat) (f : posting -> posting) (g : shared) : shared :=
  Glob (held g) (cache g) (update r (fun l => Line (l_key l) (l_open l) (f (l_data l))) (lines g)) (loads g).
Definition set_open (r : nat) (g : shared) : shared :=
  Glob (held g) (cache g) (update r (fun l => Line (l_key l) true (l_data l)) (lines g)) (loads g).

(** The [n]-th assignment of append to a posting that holds nothing yet. *)
Definition write_part (n : nat) (d p : posting) : posting :=
  match n with
  | O => Posting (feature p) (postings p) (qostings d) (fostings p)
  | S O => Posting (feature p) (postings p) (qostings p) (fostings d)
  | _ => Posting (feature p) (postings d) (qostings p) (fostings p)
  end.

Definition with_stack (t : thread) (st : list frame) : thread := Thread (calls t) (handles t) (seen t) st.
(** A call is over: its answer is kept. *)
Definition answered (t : thread) (h : handle) : thread :=
  Thread (tl (calls t)) (handles t ++ [h]) (seen t) [].
(** The shared list [r] asked for by the frame above [st] is at hand. *)
Definition deliver (k : key) (r : nat) (t : thread) (st : list frame) : thread :=
  match st with
  | Fill k0 r0 todo got :: st => with_stack t (Fill k0 r0 (tl todo) (got ++ [Shared r]) :: st)
  | _ =>
      match calls t with
      | AskPosting _ :: _ => answered t (Handle k (Shared r) true)
      (** array_hopper.h:77-83 *)
      | UseAt h :: _ =>
          Thread (calls t) (update h (fun x => Handle (h_key x) (h_child x) true) (handles t)) (seen t) []
      | _ => with_stack t []
      end
  end.

(** What one step does: to what is shared, to the thread, the thread it starts, and whose
    sleepers it wakes. *)
Definition outcome : Type := shared * thread * list thread * option nat.
Definition here (g : shared) (t : thread) : option outcome := Some (g, t, [], None).

Definition get_step (g : shared) (t : thread) (k : key) (sync : bool) (w : getting) (st : list frame) : option outcome :=
  match w with
  | Want =>
      if existsb (Nat.eqb (fst k)) (held g) then None
      else here (Glob (fst k :: held g) (cache g) (lines g) (loads g)) (with_stack t (Get k sync Locked :: st))
  | Locked =>
      here g (with_stack t (Get k sync (match found (cache g) k with Some r => Leaving r false | None => Missed end) :: st))
  | Missed =>
      let r := length (lines g) in
      here (Glob (held g) ((k, r) :: cache g) (lines g ++ [Line k false (posting_from_feature (snd k))]) (loads g))
           (with_stack t (Get k sync (Leaving r true) :: st))
  | Leaving r created =>
      here (Glob (remove Nat.eq_dec (fst k) (held g)) (cache g) (lines g) (loads g))
           (with_stack t (Get k sync (Left r created) :: st))
  | Left r created =>
      if sync then
        (* hazel.cc:269-274 *)
        here g (with_stack t ((if created then Fill k r (deps k) [] else Wait k r Check) :: st))
      else
        (* hazel.cc:304-313, bigwig.cc:202-209 *)
        Some (g, answered t (Handle k (Shared r) false),
              if created then [Thread [] [] [] [Fill k r (deps k) []]] else [], None)
  end.

Definition wait_step (spurious : bool) (g : shared) (t : thread) (k : key) (r : nat) (w : waiting) (st : list frame) :
  option outcome :=
  let stay w := here g (with_stack t (Wait k r w :: st)) in
  match w with
  | Check => if is_open g r then here g (deliver k r t st) else stay Block
  | Block => if is_open g r then stay Recheck else stay Asleep
  | Asleep => if spurious then stay Woken else None
  | Woken => stay Recheck
  | Recheck => if is_open g r then here g (deliver k r t st) else stay (if fallback then Asleep else Block)
  end.

Definition frame_step (spurious : bool) (g : shared) (t : thread) (f : frame) (st : list frame) : option outcome :=
  match f with
  | Get k sync w => if spurious then None else get_step g t k sync w st
  | Wait k r w => match spurious, w with true, Asleep => wait_step true g t k r w st | true, _ => None | false, _ => wait_step false g t k r w st end
  | Fill k r [] got => if spurious then None else here g (with_stack t (Merge k r got [] :: st))
  | Fill k r (k' :: todo) got =>
      if spurious then None else
      match direct k' with
      | Some p => here g (with_stack t (Fill k r todo (got ++ [Alone p]) :: st))
      | None => here g (with_stack t (Get k' true Want :: f :: st))
      end
  | Merge k r (c :: todo) got =>
      if spurious then None else
      here g (with_stack t (Merge k r todo (got ++ [match c with Alone p => p | Shared r' => data g r' end]) :: st))
  | Merge k r [] got =>
      if spurious then None else
      here (Glob (held g) (cache g) (lines g) (loads g ++ [k])) (with_stack t (Write k r 0 (combine k got) :: st))
  | Write k r n d =>
      if spurious then None else
      here (set_data r (write_part n d) g)
           (with_stack t ((if Nat.leb 2 n then Opening k r else Write k r (S n) d) :: st))
  | Opening k r => if spurious then None else here (set_open r g) (with_stack t (Notifying k r :: st))
  | Notifying k r => if spurious then None else Some (g, deliver k r t st, [], Some r)
  end.

(** A client between two steps of its calls. *)
Definition user_step (g : shared) (t : thread) : option outcome :=
  match calls t with
  | [] => None
  | AskHopper k :: _ =>
      match direct k with
      | Some p => here g (answered t (Handle k (Alone p) true))
      | None => here g (with_stack t [Get k false Want])
      end
  | AskPosting k :: _ =>
      match direct k with
      | Some p => here g (answered t (Handle k (Alone p) true))
      | None => here g (with_stack t [Get k true Want])
      end
  | UseAt h :: cs =>
      match nth_error (handles t) h with
      | None => here g (Thread cs (handles t) (seen t) [])
      | Some x =>
          match h_child x with
          | Alone p => here g (Thread cs (handles t) (seen t ++ [(h_key x, p)]) [])
          | Shared r =>
              if h_ready x then here g (Thread cs (handles t) (seen t ++ [(h_key x, data g r)]) [])
              else here g (with_stack t [Wait (h_key x) r Check])
          end
      end
  end.

Definition local_step (spurious : bool) (g : shared) (t : thread) : option outcome :=
  match stack t with
  | [] => if spurious then None else user_step g t
  | f :: st => frame_step spurious g t f st
  end.

(** cache_gate.h:42 (80): notify_all *)
Definition wake_frame (r : nat) (f : frame) : frame :=
  match f with
  | Wait k r' Asleep => if Nat.eqb r' r then Wait k r' Woken else f
  | _ => f
  end.
Definition wake (w : option nat) (t : thread) : thread :=
  match w with Some r => with_stack t (map (wake_frame r) (stack t)) | None => t end.

(** A turn: thread [i] takes its next step, or wakes up although nobody woke it. *)
Inductive turn := Run (i : nat) | Spurious (i : nat).
Definition step (s : state) (a : turn) : option state :=
  let (i, spurious) := match a with Run i => (i, false) | Spurious i => (i, true) end in
  match nth_error (threads s) i with
  | None => None
  | Some t =>
      match local_step spurious (glob s) t with
      | None => None
      | Some (g, t', new, w) => Some (State g (map (wake w) (update i (fun _ => t') (threads s)) ++ new))
      end
  end.
Fixpoint run (s : state) (l : list turn) : option state :=
  match l with
  | [] => Some s
  | a :: l => match step s a with Some s => run s l | None => None end
  end.

(** Clients with the calls they will make; nothing is loaded. *)
Definition start (programs : list (list call)) : state :=
  State (Glob [] [] [] []) (map (fun p => Thread p [] [] []) programs).
Definition finished (t : thread) : bool := match calls t, stack t with [], [] => true | _, _ => false end.
End Machine.
