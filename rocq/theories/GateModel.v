(** Model of the gate that limits how many threads read a file at a time: ReadGate
    (src/read_gate.h).  Threads take turns; one step is one access to what they share. *)
From Verif Require Import Base HopperModel ArrayDefs Bytes CodecModel PostingModel.

(** What pread returns: -1 with EINTR, -1 with another errno, a number of bytes. *)
Inductive outcome := Interrupted | Failed | Got (n : Z).

(** Where a thread is in read_gate.h:51-76 and in acquire and release (82-94).
    [Outside]: in no call; [Enter]: about to lock the mutex, first or after it was woken;
    [Looking]: about to look at available_; [Asleep]: in condition_.wait; [Reading]: has a
    permit, and these bytes; [Leave]: about to lock the mutex in release; [Raising]: about
    to increment available_ and unlock; [Notifying]: about to call notify_one. *)
Inductive phase :=
| Outside | Enter | Looking | Asleep
| Reading (done : bytes) | Leave (r : option bytes) | Raising (r : option bytes) | Notifying (r : option bytes).
(** A thread: the reads it will make (offset, length), the first being the one it is in,
    and what its reads returned; [None] is nullptr. *)
Record reader := Reader { todo : list (Z * Z); results : list (option bytes); at_ : phase }.
(** available_, whether the mutex is held, and the threads. *)
Record gate := Gate { available : nat; locked : bool; readers : list reader }.

(** A turn: a thread takes its next step; its pread returns; it calls notify_one, which
    wakes [j]; [j] wakes up although nobody woke it. *)
Inductive turn := Run (i : nat) | Pread (i : nat) (r : outcome) | Notify (i : nat) (j : option nat) | Spurious (j : nat).

Section Machine.
(** The file; it does not change while it is open. *)
Variable file : bytes.

Definition with_phase (p : phase) (t : reader) : reader := Reader (todo t) (results t) p.
(** The call returns. *)
Definition returned (r : option bytes) (t : reader) : reader := Reader (tl (todo t)) (results t ++ [r]) Outside.

(** read_gate.h:53-56, 63-64, 81-93; how available_, the mutex and the thread change. *)
Definition local_step (a : nat) (l : bool) (t : reader) : option (nat * bool * reader) :=
  match at_ t with
  | Outside =>
      match todo t with
      | [] => None
      | (o, n) :: _ => Some (a, l, if (o <? 0) || (n <? 0) then returned None t else with_phase Enter t)
      end
  | Enter => if l then None else Some (a, true, with_phase Looking t)
  | Looking => match a with O => Some (O, false, with_phase Asleep t) | S a => Some (a, false, with_phase (Reading []) t) end
  | Reading d =>
      match todo t with
      | (o, n) :: _ => if len d <? n then None else Some (a, l, with_phase (Leave (Some d)) t)
      | [] => None
      end
  | Leave r => if l then None else Some (a, true, with_phase (Raising r) t)
  | Raising r => Some (S a, false, with_phase (Notifying r) t)
  | Asleep | Notifying _ => None
  end.
(** read_gate.h:59-75: the loop.  pread returns no more than it was asked for or than there
    is, and 0 at the end of the file only. *)
Definition pread_step (r : outcome) (t : reader) : option reader :=
  match at_ t, todo t with
  | Reading d, (o, n) :: _ =>
      if len d <? n then
        match r with
        | Interrupted => Some t
        | Failed => Some (with_phase (Leave None) t)
        | Got m =>
            if m =? 0 then if len file <=? o + len d then Some (with_phase (Leave None) t) else None
            else if (0 <? m) && (m <=? n - len d) && (o + len d + m <=? len file)
            then Some (with_phase (Reading (d ++ slice file (o + len d) m)) t) else None
        end
      else None
  | _, _ => None
  end.

Fixpoint update (n : nat) (f : reader -> reader) (l : list reader) : list reader :=
  match l, n with
  | [], _ => []
  | x :: l, O => f x :: l
  | x :: l, S n => x :: update n f l
  end.
Definition is_asleep (t : reader) : bool := match at_ t with Asleep => true | _ => false end.
Definition wake (l : list reader) (j : nat) : option (list reader) :=
  match nth_error l j with
  | Some t => if is_asleep t then Some (update j (with_phase Enter) l) else None
  | None => None
  end.
Definition step (s : gate) (a : turn) : option gate :=
  match a with
  | Run i =>
      match nth_error (readers s) i with
      | Some t => match local_step (available s) (locked s) t with
                  | Some (a, l, t) => Some (Gate a l (update i (fun _ => t) (readers s)))
                  | None => None
                  end
      | None => None
      end
  | Pread i r =>
      match nth_error (readers s) i with
      | Some t => match pread_step r t with
                  | Some t => Some (Gate (available s) (locked s) (update i (fun _ => t) (readers s)))
                  | None => None
                  end
      | None => None
      end
  (** read_gate.h:92: some waiting thread is woken, if there is one *)
  | Notify i j =>
      match nth_error (readers s) i with
      | Some t =>
          match at_ t with
          | Notifying r =>
              let l := update i (fun _ => returned r t) (readers s) in
              match j with
              | Some j => match wake l j with Some l => Some (Gate (available s) (locked s) l) | None => None end
              | None => if existsb is_asleep l then None else Some (Gate (available s) (locked s) l)
              end
          | _ => None
          end
      | None => None
      end
  | Spurious j => match wake (readers s) j with Some l => Some (Gate (available s) (locked s) l) | None => None end
  end.
Fixpoint run (s : gate) (l : list turn) : option gate :=
  match l with
  | [] => Some s
  | a :: l => match step s a with Some s => run s l | None => None end
  end.
(** ReadGate::make with [n] readers (read_gate.h:22-39), and threads that will read. *)
Definition start (n : nat) (programs : list (list (Z * Z))) : gate :=
  Gate n false (map (fun p => Reader p [] Outside) programs).
End Machine.
