(** Model of a shared index directory: transactions on clones, background merges, readers,
    crashes and reopening (src/bigwig.cc, src/fiver.cc, src/committable.h, src/warren.cc,
    src/working.h, and the file protocol of Hazel::merge in src/hazel.cc).

    Threads are the clones, the merge workers, the calls of commit_all and the readers.
    A step of [step] is one file system action or one critical section of the lock of the
    fluffle; the critical section of commit has two file system actions and is two steps,
    with the lock held in between.  The process can stop before any step (what is
    written stays: the program never syncs, so this is a crash of the process, not of the
    machine).  File names are the names of the program; a file holds the transactions written to it ([Shard_]), is
    not completely written ([Part]), or is a commit script.  A hard link is a second name
    with the same contents: no name that was linked is written again (temporary names come
    from a counter and are removed on opening, and a mrg name is removed before it is
    written).  The memory of a shard is the list of its transactions; that searching and
    reading a merged shard is the same is C17.  Sequence numbers stop at 2^63-1; the
    counter of temporary names (32 bits) and addresses are unbounded.  A commit script is named
    by the number of the call where the program prints a pointer. *)
From Verif Require Import Base Bytes NameModel.

(** What one transaction wrote: its sequence number, the address and number of its tokens,
    and its text and annotations ([] for a transaction without annotations). *)
Record txn := Txn { t_seq : Z; t_addr : Z; t_len : Z; t_data : bytes }.

(** * The directory *)
Inductive file :=
| Part
| Shard_ (s e : Z) (l : list txn)
| Script (l : list Z)
| Side.
Definition dir : Type := list (bytes * file).
Definition bytes_eq_dec (a b : bytes) : {a = b} + {a <> b} := list_eq_dec Z.eq_dec a b.
#[global] Arguments bytes_eq_dec : simpl never.
Fixpoint find (d : dir) (n : bytes) : option file :=
  match d with [] => None | (m, f) :: r => if bytes_eq_dec m n then Some f else find r n end.
(** unlink; open for writing; link, which fails if the new name exists or the old does not. *)
Definition erase (n : bytes) (d : dir) : dir := filter (fun p => if bytes_eq_dec (fst p) n then false else true) d.
Definition put (n : bytes) (f : file) (d : dir) : dir := (n, f) :: erase n d.
Definition link (a b : bytes) (d : dir) : option dir :=
  match find d a, find d b with Some f, None => Some (put b f d) | _, _ => None end.

(** * Shards in memory *)
(** Owsla::name() of fiver.h:81, fiver.cc:596,717,737 and hazel.cc:2171. *)
Inductive kind := Kitten | FiverK | HazelK | Gone.
Definition kind_eqb (a b : kind) : bool :=
  match a, b with Kitten, Kitten | FiverK, FiverK | HazelK, HazelK | Gone, Gone => true | _, _ => false end.
Definition kname (k : kind) : bytes :=
  match k with Kitten => lit "kitten" | FiverK => lit "fiver" | HazelK => lit "hazel" | Gone => lit "remove" end.
(** An object in fluffle->warrens; [e_id] is its pointer. *)
Record entry := Entry { e_id : nat; e_kind : kind; e_start : Z; e_end : Z; e_txns : list txn }.
Definition ename (e : entry) : bytes := shard_name (kname (e_kind e)) (e_start e) (e_end e).
Definition visible (e : entry) : bool := kind_eqb (e_kind e) FiverK || kind_eqb (e_kind e) HazelK.
Definition with_kind (id : nat) (k : kind) (e : entry) : entry :=
  if Nat.eqb (e_id e) id then Entry (e_id e) k (e_start e) (e_end e) (e_txns e) else e.

(** * Threads *)
(** A file on its way to its name: written under [p_src], then linked to [p_dst], then
    [p_src] is removed (fiver.cc:749-762, fiver.cc:1178-1205, hazel.cc:1911-2088). *)
Inductive stage := Opened | Filled | Linked.
Record pjob := PJob { p_src : bytes; p_dst : bytes; p_file : file; p_stage : stage }.
(** working.h:109-123: the name of a temporary file, without its extension. *)
Definition temp_name (k : nat) : bytes := lit "temp." ++ (let d := dec (Z.of_nat k) in repeat 48 (8 - length d) ++ d).
(** A clone and the transaction it has under way.  The number of Ready and Committing is
    the call of commit_all that commits the transaction. *)
Inductive clone :=
| Idle
| Open (n : Z) (b : bytes)
| Placed (id : nat) (x : txn)
| Pickling (id : nat) (x : txn) (p : pjob)
| Ready (id : nat) (x : txn) (j : option nat)
| Failed (id : nat) (x : txn)
| Committing (id : nat) (x : txn) (j : option nat).
(** bigwig.cc:1093 *)
Inductive action := FMerge | HMerge | Convert.
Definition out_kind (a : action) : kind := match a with FMerge => FiverK | HMerge | Convert => HazelK end.
Inductive worker :=
| WIdle
| WChosen (a : action) (sel : list entry)
| WPickling (a : action) (sel : list entry) (p : pjob)
| WOutput (a : action) (sel : list entry)
| WDiscard (names : list bytes).
(** A call of commit_all for the clones [is]. *)
Inductive jstage := JTemp | JLinked | JClean.
Inductive job := JNone | Job (is : list nat) (tmp : bytes) (seqs : list Z) (st : jstage).
Definition script_name (k : nat) : bytes := lit "commit." ++ dec (Z.of_nat k) ++ lit ".sh".

(** fluffle.h, and the threads. *)
Record mem := Mem {
  m_address : Z; m_sequence : Z; m_entries : list entry; m_merging : list nat; m_gen : nat;
  m_next : nat; m_temp : nat; m_lock : option nat;
  m_clones : nat -> clone; m_workers : nat -> worker; m_jobs : nat -> job; m_readers : nat -> option (list entry * nat) }.
Definition upd {A} (f : nat -> A) (i : nat) (a : A) : nat -> A := fun j => if Nat.eqb j i then a else f j.
(** A process that runs, with the transactions that are durable so far (for stating
    theorems; no step reads them), or a directory without a process. *)
Inductive sys := Up (m : mem) (d : dir) (g : list txn) | Down (d : dir) (g : list txn).

Definition set_clone (m : mem) (i : nat) (c : clone) : mem :=
  Mem (m_address m) (m_sequence m) (m_entries m) (m_merging m) (m_gen m) (m_next m) (m_temp m) (m_lock m) (upd (m_clones m) i c) (m_workers m) (m_jobs m) (m_readers m).
Definition set_worker (m : mem) (i : nat) (w : worker) : mem :=
  Mem (m_address m) (m_sequence m) (m_entries m) (m_merging m) (m_gen m) (m_next m) (m_temp m) (m_lock m) (m_clones m) (upd (m_workers m) i w) (m_jobs m) (m_readers m).
Definition set_job (m : mem) (i : nat) (j : job) : mem :=
  Mem (m_address m) (m_sequence m) (m_entries m) (m_merging m) (m_gen m) (m_next m) (m_temp m) (m_lock m) (m_clones m) (m_workers m) (upd (m_jobs m) i j) (m_readers m).
Definition set_reader (m : mem) (i : nat) (r : option (list entry * nat)) : mem :=
  Mem (m_address m) (m_sequence m) (m_entries m) (m_merging m) (m_gen m) (m_next m) (m_temp m) (m_lock m) (m_clones m) (m_workers m) (m_jobs m) (upd (m_readers m) i r).
Definition set_entries (m : mem) (l : list entry) : mem :=
  Mem (m_address m) (m_sequence m) l (m_merging m) (m_gen m) (m_next m) (m_temp m) (m_lock m) (m_clones m) (m_workers m) (m_jobs m) (m_readers m).
Definition set_merging (m : mem) (l : list nat) : mem :=
  Mem (m_address m) (m_sequence m) (m_entries m) l (m_gen m) (m_next m) (m_temp m) (m_lock m) (m_clones m) (m_workers m) (m_jobs m) (m_readers m).
Definition set_lock (m : mem) (l : option nat) : mem :=
  Mem (m_address m) (m_sequence m) (m_entries m) (m_merging m) (m_gen m) (m_next m) (m_temp m) l (m_clones m) (m_workers m) (m_jobs m) (m_readers m).
Definition next_temp (m : mem) : mem :=
  Mem (m_address m) (m_sequence m) (m_entries m) (m_merging m) (m_gen m) (m_next m) (S (m_temp m)) (m_lock m) (m_clones m) (m_workers m) (m_jobs m) (m_readers m).
Definition next_gen (m : mem) : mem :=
  Mem (m_address m) (m_sequence m) (m_entries m) (m_merging m) (S (m_gen m)) (m_next m) (m_temp m) (m_lock m) (m_clones m) (m_workers m) (m_jobs m) (m_readers m).
Definition next_id (m : mem) : mem :=
  Mem (m_address m) (m_sequence m) (m_entries m) (m_merging m) (m_gen m) (S (m_next m)) (m_temp m) (m_lock m) (m_clones m) (m_workers m) (m_jobs m) (m_readers m).

Definition kitten_name (x : txn) : bytes := shard_name (lit "kitten") (t_seq x) (t_seq x).
Definition fiver_name (x : txn) : bytes := shard_name (lit "fiver") (t_seq x) (t_seq x).

(** * Transactions *)
(** bigwig.cc:807-813, the critical section of ready_: the address of the next
    transaction, the sequence number, and the kitten in fluffle->warrens. *)
Definition place (m : mem) (i : nat) (n : Z) (b : bytes) : option mem :=
  if m_sequence m <? maxf then
    let x := Txn (m_sequence m) (m_address m) n b in
    Some (Mem (m_address m + n) (m_sequence m + 1) (m_entries m ++ [Entry (m_next m) Kitten (t_seq x) (t_seq x) [x]]) (m_merging m) (m_gen m)
              (S (m_next m)) (m_temp m) (m_lock m) (upd (m_clones m) i (Placed (m_next m) x)) (m_workers m) (m_jobs m) (m_readers m))
  else None.
(** fiver.cc:667-701 after the critical section, one file system action at a time. *)
Definition pickle_step (m : mem) (d : dir) (i : nat) : option (mem * dir) :=
  match m_clones m i with
  | Placed id x =>
      match t_data x with
      | [] => Some (set_clone m i (Ready id x None), d)
      | _ => let p := PJob (temp_name (m_temp m)) (kitten_name x) (Shard_ (t_seq x) (t_seq x) [x]) Opened in
             Some (set_clone (next_temp m) i (Pickling id x p), put (p_src p) Part d)
      end
  | Pickling id x p =>
      match p_stage p with
      | Opened => Some (set_clone m i (Pickling id x (PJob (p_src p) (p_dst p) (p_file p) Filled)), put (p_src p) (p_file p) d)
      | Filled =>
          match link (p_src p) (p_dst p) d with
          | Some d' => Some (set_clone m i (Pickling id x (PJob (p_src p) (p_dst p) (p_file p) Linked)), d')
          | None => Some (set_clone m i (Failed id x), d)
          end
      | Linked => Some (set_clone m i (Ready id x None), erase (p_src p) d)
      end
  | _ => None
  end.
(** A write that fails: fiver.cc:752-758. *)
Definition pickle_fail (m : mem) (i : nat) : option mem :=
  match m_clones m i with
  | Placed id x => Some (set_clone m i (Failed id x))
  | Pickling id x p => match p_stage p with Linked => None | _ => Some (set_clone m i (Failed id x)) end
  | _ => None
  end.
(** bigwig.cc:1410-1419, fiver.cc:727-747.  Before ready the sequence numbers of the fiver
    are not initialised: [g] and [h] are what happens to be there. *)
Definition abort (m : mem) (d : dir) (i : nat) (g h : Z) : option (mem * dir) :=
  match m_clones m i with
  | Open _ _ => Some (set_clone m i Idle, erase (shard_name (lit "kitten") g h) d)
  | Ready id x None | Failed id x =>
      Some (set_entries (set_clone m i Idle) (map (with_kind id Gone) (m_entries m)), erase (kitten_name x) d)
  | _ => None
  end.
(** The call of commit_all [j] has removed its temporary file: its clones commit. *)
Definition may_commit (m : mem) (j : option nat) : bool :=
  match j with None => true | Some k => match m_jobs m k with Job _ _ _ JClean => true | _ => false end end.
(** bigwig.cc:1352-1356, fiver.cc:703-725: the link, then the rest.  If there is no ready
    file or the name is taken, the assertion of fiver.cc:719 stops the process. *)
Definition commit_link (m : mem) (d : dir) (g : list txn) (i : nat) : option sys :=
  match m_clones m i with
  | Ready id x j =>
      if may_commit m j then
        match link (kitten_name x) (fiver_name x) d with
        | Some d' => Some (Up (set_lock (set_clone m i (Committing id x j)) (Some i)) d' (match j with None => g ++ [x] | Some _ => g end))
        | None => Some (Down d g)
        end
      else None
  | _ => None
  end.
Definition commit_finish (m : mem) (d : dir) (i : nat) : option (mem * dir) :=
  match m_clones m i with
  | Committing id x j =>
      Some (next_gen (set_lock (set_entries (set_clone m i Idle) (map (with_kind id FiverK) (m_entries m))) None), erase (kitten_name x) d)
  | _ => None
  end.

(** * commit_all: bigwig.cc:1364-1408 *)
Definition members (m : mem) (is : list nat) : option (list txn) :=
  fold_right (fun i acc => match m_clones m i, acc with Ready _ x None, Some l => Some (x :: l) | _, _ => None end) (Some []) is.
Fixpoint distinct (l : list nat) : bool := match l with [] => true | i :: r => negb (existsb (Nat.eqb i) r) && distinct r end.
(** 1373-1394: the script, under its temporary name, if every ready file exists (the
    assertion of fiver.cc:646). *)
Definition script_write (m : mem) (d : dir) (g : list txn) (k : nat) (is : list nat) : option sys :=
  match m_jobs m k, members m is with
  | JNone, Some xs =>
      if forallb (fun x => match find d (kitten_name x) with Some _ => true | None => false end) xs then
        let tmp := temp_name (m_temp m) in
        let seqs := map t_seq xs in
        let mark := fun i => match m_clones m i with
                             | Ready id x None => if existsb (Nat.eqb i) is then Ready id x (Some k) else Ready id x None
                             | c => c end in
        Some (Up (Mem (m_address m) (m_sequence m) (m_entries m) (m_merging m) (m_gen m) (m_next m) (S (m_temp m)) (m_lock m) mark (m_workers m)
                      (upd (m_jobs m) k (Job is tmp seqs JTemp)) (m_readers m)) (put tmp (Script seqs) d) g)
      else Some (Down d g)
  | _, _ => None
  end.
Definition unmark (m : mem) (k : nat) (i : nat) : clone :=
  match m_clones m i with
  | Ready id x (Some j) => if Nat.eqb j k then Ready id x None else Ready id x (Some j)
  | c => c
  end.
Definition job_txns (m : mem) (k : nat) (is : list nat) : list txn :=
  flat_map (fun i => match m_clones m i with Ready _ x (Some j) => if Nat.eqb j k then [x] else [] | _ => [] end) is.
(** 1395-1402: the link that makes it durable; if it fails each warren commits alone
    (warren.cc:152-155). *)
Definition script_link (m : mem) (d : dir) (g : list txn) (k : nat) : option sys :=
  match m_jobs m k with
  | Job is tmp seqs JTemp =>
      match link tmp (script_name k) d with
      | Some d' => Some (Up (set_job m k (Job is tmp seqs JLinked)) d' (g ++ job_txns m k is))
      | None => Some (Up (Mem (m_address m) (m_sequence m) (m_entries m) (m_merging m) (m_gen m) (m_next m) (m_temp m) (m_lock m) (unmark m k) (m_workers m)
                              (upd (m_jobs m) k JNone) (m_readers m)) (erase tmp d) g)
      end
  | _ => None
  end.
(** 1403 *)
Definition script_tidy (m : mem) (d : dir) (k : nat) : option (mem * dir) :=
  match m_jobs m k with Job is tmp seqs JLinked => Some (set_job m k (Job is tmp seqs JClean), erase tmp d) | _ => None end.
(** 1406, when every clone has committed. *)
Definition script_done (m : mem) (d : dir) (k : nat) : option (mem * dir) :=
  match m_jobs m k with
  | Job is tmp seqs JClean =>
      if forallb (fun i => match m_clones m i with
                           | Ready _ _ (Some j) | Committing _ _ (Some j) => negb (Nat.eqb j k)
                           | _ => true end) is
      then Some (set_job m k JNone, erase (script_name k) d) else None
  | _ => None
  end.

(** * Background merges *)
(** bigwig.cc:878-881 *)
Definition eligible (m : mem) (e : entry) : bool := negb (existsb (Nat.eqb (e_id e)) (m_merging m)).
(** bigwig.cc:1161-1185 *)
Fixpoint contiguous (l : list entry) : bool :=
  match l with
  | a :: (b :: _) as r => negb (e_end a =? maxf) && (e_start b =? e_end a + 1) && contiguous r
  | _ => true
  end.
(** bigwig.cc:1095-1198: what to do with the shards selected. *)
Definition validate (m : mem) (sel : list entry) : option action :=
  let all k := forallb (fun e => kind_eqb (e_kind e) k && eligible m e) sel in
  match sel with
  | [] => None
  | [e] => if all FiverK then Some Convert else None
  | _ => if all FiverK then Some FMerge else if all HazelK && contiguous sel then Some HMerge else None
  end.
Definition cleanup (l : list entry) : list entry := filter (fun e => negb (kind_eqb (e_kind e) Gone)) l.
(** bigwig.cc:1216-1280: aborted shards are forgotten and a run of [n] shards from [a] on
    is selected.  Which run is up to find_merge_action (see SchedModel). *)
Definition choose (m : mem) (w a n : nat) : option mem :=
  match m_workers m w with
  | WIdle =>
      let entries := cleanup (m_entries m) in
      let sel := firstn n (skipn a entries) in
      match validate m sel with
      | Some act => Some (set_worker (set_merging (set_entries m entries) (map e_id sel ++ m_merging m)) w (WChosen act sel))
      | None => None
      end
  | _ => None
  end.
(** fiver.cc:600-601, bigwig.cc:1186-1189 *)
Definition sel_start (sel : list entry) : Z := match sel with [] => 0 | e :: _ => e_start e end.
Definition sel_end (sel : list entry) : Z := match rev sel with [] => 0 | e :: _ => e_end e end.
Definition sel_txns (sel : list entry) : list txn := flat_map e_txns sel.
Definition out_name (a : action) (sel : list entry) : bytes := shard_name (kname (out_kind a)) (sel_start sel) (sel_end sel).
Definition out_file (sel : list entry) : file := Shard_ (sel_start sel) (sel_end sel) (sel_txns sel).
Definition release (m : mem) (sel : list entry) : mem :=
  set_merging m (filter (fun k => negb (existsb (Nat.eqb k) (map e_id sel))) (m_merging m)).
(** bigwig.cc:1281-1296, one file system action at a time.  A hazel merge writes its mrg
    file, the others a temporary file.  A hazel merge whose file is already there (from an
    earlier try with the same shards) takes it; a fiver merge goes on when its file could
    not be linked (bigwig.cc:1285 ignores the result). *)
Definition merge_step (m : mem) (d : dir) (w : nat) : option (mem * dir) :=
  match m_workers m w with
  | WChosen a sel =>
      let dst := out_name a sel in
      let src := match a with HMerge => hazel_sidecar_name dst (lit "mrg") | _ => temp_name (m_temp m) end in
      let m := match a with HMerge => m | _ => next_temp m end in
      if match a, find d dst with HMerge, Some _ => true | _, _ => false end then Some (set_worker m w (WOutput a sel), erase src d)
      else Some (set_worker m w (WPickling a sel (PJob src dst (out_file sel) Opened)), put src Part d)
  | WPickling a sel p =>
      match p_stage p with
      | Opened => Some (set_worker m w (WPickling a sel (PJob (p_src p) (p_dst p) (p_file p) Filled)), put (p_src p) (p_file p) d)
      | Filled =>
          match link (p_src p) (p_dst p) d with
          | Some d' => Some (set_worker m w (WPickling a sel (PJob (p_src p) (p_dst p) (p_file p) Linked)), d')
          | None => match a with
                    | FMerge => Some (set_worker m w (WOutput a sel), d)
                    | HMerge => Some (set_worker m w (WOutput a sel), erase (p_src p) d)
                    | Convert => Some (set_worker (release m sel) w WIdle, erase (p_src p) d)
                    end
          end
      | Linked => Some (set_worker m w (WOutput a sel), erase (p_src p) d)
      end
  | _ => None
  end.
(** A merge that fails: bigwig.cc:1299-1304.  If opening the new hazel fails after its file
    is linked (fiver.cc:1201-1203, hazel.cc:2085-2087) the file stays. *)
Definition merge_fail (late : bool) (m : mem) (d : dir) (w : nat) : option (mem * dir) :=
  match m_workers m w with
  | WChosen a sel => match a with FMerge => None | _ => Some (set_worker (release m sel) w WIdle, d) end
  | WPickling a sel p =>
      match a, p_stage p with
      | FMerge, _ => None
      | _, Linked => if late then Some (set_worker (release m sel) w WIdle, erase (p_src p) d) else None
      | _, _ => Some (set_worker (release m sel) w WIdle, erase (p_src p) d)
      end
  | _ => None
  end.
(** A fiver merge whose file could not be written (bigwig.cc:1285). *)
Definition merge_unwritten (m : mem) (w : nat) : option mem :=
  match m_workers m w with
  | WPickling FMerge sel p => match p_stage p with Linked => None | _ => Some (set_worker m w (WOutput FMerge sel)) end
  | _ => None
  end.
(** bigwig.cc:1305-1332: everything from the first shard selected to the last is replaced;
    None if one is not found. *)
Fixpoint after_last (id : nat) (l : list entry) : option (list entry) :=
  match l with [] => None | e :: r => if Nat.eqb (e_id e) id then Some r else after_last id r end.
Fixpoint replace (first last : nat) (new : entry) (l : list entry) : option (list entry) :=
  match l with
  | [] => None
  | e :: r => if Nat.eqb (e_id e) first then match after_last last l with Some post => Some (new :: post) | None => None end
              else match replace first last new r with Some r' => Some (e :: r') | None => None end
  end.
Definition install (m : mem) (w : nat) : option mem :=
  match m_workers m w with
  | WOutput a sel =>
      match sel, rev sel with
      | f :: _, l :: _ =>
          let new := Entry (m_next m) (out_kind a) (sel_start sel) (sel_end sel) (sel_txns sel) in
          match replace (e_id f) (e_id l) new (m_entries m) with
          | Some entries => Some (set_worker (next_id (set_entries (release m sel) entries)) w (WDiscard (map ename sel)))
          | None => Some (set_worker (release m sel) w WIdle)
          end
      | _, _ => None
      end
  | _ => None
  end.
(** bigwig.cc:1334-1335 *)
Definition discard (m : mem) (d : dir) (w : nat) : option (mem * dir) :=
  match m_workers m w with
  | WDiscard (n :: r) => Some (set_worker m w (WDiscard r), erase n d)
  | WDiscard [] => Some (set_worker m w WIdle, d)
  | _ => None
  end.

(** * Opening *)
Section Open.
Variables sort merge : list shard -> list shard.
(** remove, and mv -n. *)
Inductive act := Remove (n : bytes) | Move (a b : bytes).
Definition run1 (a : act) (d : dir) : dir :=
  match a with
  | Remove n => erase n d
  | Move a b => match find d a, find d b with Some f, None => erase a (put b f d) | _, _ => d end
  end.
Definition run (l : list act) (d : dir) : dir := fold_left (fun d a => run1 a d) l d.
Definition names (d : dir) : list bytes := map fst d.
(** working.h:96-104 *)
Definition open_temps (d : dir) : list act := map Remove (ls (names d) (lit "temp.")).
(** bigwig.cc:361-381 and the command of fiver.cc:649-650. *)
Definition is_commit_script (n : bytes) : bool := (10 <? length n)%nat && has_prefix (lit "commit.") n && has_suffix (lit ".sh") n.
Definition script_acts (d : dir) (n : bytes) : list act :=
  match find d n with
  | Some (Script l) => flat_map (fun s => [Move (shard_name (lit "kitten") s s) (shard_name (lit "fiver") s s); Remove (shard_name (lit "kitten") s s)]) l ++ [Remove n]
  | _ => [Remove n]
  end.
Definition open_scripts (d : dir) : list act := flat_map (script_acts d) (filter is_commit_script (ls (names d) (lit "commit"))).
Definition load (d : dir) (i : nat) (s : shard) : option entry :=
  match find d (s_name s) with
  | Some (Shard_ _ _ l) => Some (Entry i (if has_prefix (lit "hazel.") (s_name s) then HazelK else FiverK) (s_start s) (s_end s) l)
  | _ => None
  end.
Fixpoint load_all (d : dir) (i : nat) (l : list shard) : option (list entry) :=
  match l with
  | [] => Some []
  | s :: r => match load d i s, load_all d (S i) r with Some e, Some es => Some (e :: es) | _, _ => None end
  end.
(** bigwig.cc:573-584: the address after the last shard with text. *)
Definition text_end (l : list txn) : option Z := fold_left (fun a x => if 0 <? t_len x then Some (t_addr x + t_len x) else a) l None.
Fixpoint next_address (l : list entry) : Z :=
  match l with [] => 0 | e :: r => match text_end (e_txns e) with Some a => a | None => next_address r end end.
Definition next_sequence (l : list entry) : Z := match rev l with [] => 0 | e :: _ => e_end e + 1 end.
Definition fresh (es : list entry) : mem :=
  Mem (next_address (rev es)) (next_sequence es) es [] 0 (length es) 0 None (fun _ => Idle) (fun _ => WIdle) (fun _ => JNone) (fun _ => None).
(** bigwig.cc:455-604: what opening does to the files, in order, and the process it
    starts. *)
Definition opening (d : dir) : option (list act * mem) :=
  let a1 := open_temps d in
  let d1 := run a1 d in
  let a2 := open_scripts d1 in
  let d2 := run a2 d1 in
  match recover sort merge (names d2) with
  | None => None
  | Some (shards, _, removed) =>
      let a3 := map Remove removed in
      match load_all (run a3 d2) 0 shards with
      | Some es => Some (a1 ++ a2 ++ a3, fresh es)
      | None => None
      end
  end.

(** * Steps *)
Inductive label :=
| LBegin (i : nat) | LWrite (i : nat) (n : Z) (b : bytes)
| LPlace (i : nat) | LPickle (i : nat) | LPickleFail (i : nat)
| LCommit (i : nat) | LCommitted (i : nat) | LAbort (i : nat) (g h : Z)
| LScript (k : nat) (is : list nat) | LScriptLink (k : nat) | LScriptTidy (k : nat) | LScriptDone (k : nat)
| LChoose (w a n : nat) | LMerge (w : nat) | LMergeFail (w : nat) | LMergeUnwritten (w : nat) | LInstall (w : nat) | LDiscard (w : nat)
| LSide (n : bytes) (keep : bool)
| LStart (r : nat) | LEnd (r : nat)
| LCrash | LOpening (k : nat) | LOpen.
Definition up (g : list txn) (o : option (mem * dir)) : option sys := match o with Some (m, d) => Some (Up m d g) | None => None end.
Definition same (d : dir) (g : list txn) (o : option mem) : option sys := match o with Some m => Some (Up m d g) | None => None end.
(** [faults] allows a merge whose file is not written, a merge that fails after its file is
    linked, and an abort before ready that removes a file. *)
Definition step (faults : bool) (l : label) (s : sys) : option sys :=
  match s with
  | Down d g =>
      match l, opening d with
      | LOpening k, Some (acts, _) => Some (Down (run (firstn k acts) d) g)
      | LOpen, Some (acts, m) => Some (Up m (run acts d) g)
      | _, _ => None
      end
  | Up m d g =>
      let free := match m_lock m with None => true | Some _ => false end in
      match l with
      | LBegin i => match m_clones m i with Idle => Some (Up (set_clone m i (Open 0 [])) d g) | _ => None end
      | LWrite i n b => match m_clones m i with Open k c => if 0 <=? n then Some (Up (set_clone m i (Open (k + n) (c ++ b))) d g) else None | _ => None end
      | LPlace i => match m_clones m i with Open n b => if free then same d g (place m i n b) else None | _ => None end
      | LPickle i => up g (pickle_step m d i)
      | LPickleFail i => same d g (pickle_fail m i)
      | LCommit i => if free then commit_link m d g i else None
      | LCommitted i => if match m_lock m with Some j => Nat.eqb j i | None => false end then up g (commit_finish m d i) else None
      | LAbort i a b => if free && (faults || match m_clones m i with Open _ _ => match find d (shard_name (lit "kitten") a b) with None => true | Some _ => false end | _ => true end)
                        then up g (abort m d i a b) else None
      | LScript k is => if (match is with [] => false | _ => true end) && distinct is then script_write m d g k is else None
      | LScriptLink k => script_link m d g k
      | LScriptTidy k => up g (script_tidy m d k)
      | LScriptDone k => up g (script_done m d k)
      | LChoose w a n => if free then same d g (choose m w a n) else None
      | LMerge w => up g (merge_step m d w)
      | LMergeFail w => up g (merge_fail faults m d w)
      | LMergeUnwritten w => if faults then same d g (merge_unwritten m w) else None
      | LInstall w => if free then same d g (install m w) else None
      | LDiscard w => up g (discard m d w)
      | LSide n keep => if has_prefix (lit "pst.") n || has_prefix (lit "dct.") n then Some (Up m (if keep then put n Side d else erase n d) g) else None
      | LStart r => if free then match m_readers m r with
                                 | None => Some (Up (set_reader m r (Some (filter visible (m_entries m), m_gen m))) d g)
                                 | Some _ => Some (Up m d g) end
                    else None
      | LEnd r => Some (Up (set_reader m r None) d g)
      | LCrash => Some (Down d g)
      | LOpening _ | LOpen => None
      end
  end.
Fixpoint steps (faults : bool) (ls : list label) (s : sys) : option sys :=
  match ls with [] => Some s | l :: r => match step faults l s with Some s' => steps faults r s' | None => None end end.
(** An empty directory with its DNA (bigwig.cc:428-453). *)
Definition start : sys := Down [(lit "dna", Side)] [].
End Open.
