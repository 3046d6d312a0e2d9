(** Model of appending a JSONL file by several threads: meadowlark/meadowlark.cc
    (append_jsonl). *)
From Verif Require Import Base Bytes.

(** * Reading lines *)
Fixpoint cut_line (s : bytes) : option (bytes * bytes) :=
  match s with
  | [] => None
  | c :: r => if c =? 10 then Some ([], r) else match cut_line r with Some (l, t) => Some (c :: l, t) | None => None end
  end.
(** std::getline on the rest [s] of a stream, which if [bad] cannot be read to its end: the
    line and the new rest, or None when the stream then fails. *)
Definition getline (bad : bool) (s : bytes) : option (bytes * bytes) :=
  match cut_line s with
  | Some x => Some x
  | None => if bad then None else match s with [] => None | _ => Some (s, []) end
  end.

(** * The threads *)
(** Where a worker is: before the lock at meadowlark/meadowlark.cc:234; with a line to
    scribe, 247-257; before ready, 259; or gone, having got ready or not. *)
Inductive place := Fetch | Scribing (line : bytes) | Finish | Gone (ready : bool).
(** A worker, with the lines it has scribed into its transaction. *)
Record worker := Worker { w_place : place; w_lines : list bytes }.
(** meadowlark/meadowlark.cc:225-227, the stream and the workers. *)
Record state := State { s_input : bytes; s_done : bool; s_failed : bool; s_workers : list worker }.
Fixpoint set_nth {A} (n : nat) (x : A) (l : list A) : list A :=
  match l, n with [], _ => [] | _ :: r, O => x :: r | y :: r, S m => y :: set_nth m x r end.
Definition put (s : state) (input : bytes) (done failed : bool) (n : nat) (w : worker) : state :=
  State input done failed (set_nth n w (s_workers s)).
(** One step of worker [n].  [ok] says how json_scribe and annotate, or ready, come out; a
    step that does not call them takes only true.  What happens under the lock is one step,
    and so is what a worker does by itself. *)
Definition step (bad : bool) (n : nat) (ok : bool) (s : state) : option state :=
  match nth_error (s_workers s) n with
  | None => None
  | Some w =>
      let '(State i d f _) := s in
      match w_place w with
      | Fetch => (* meadowlark/meadowlark.cc:233-246 *)
          if negb ok then None
          else if d then Some (put s i d f n (Worker Finish (w_lines w)))
          else match getline bad i with
               | Some (line, r) => Some (put s r d f n (Worker (Scribing line) (w_lines w)))
               | None => if bad then Some (put s i true true n (Worker (Gone false) (w_lines w)))
                         else Some (put s i true f n (Worker Finish (w_lines w)))
               end
      | Scribing line => (* meadowlark/meadowlark.cc:247-257 *)
          if ok then Some (put s i d f n (Worker Fetch (w_lines w ++ [line])))
          else Some (if f then put s i d f n (Worker (Gone false) (w_lines w)) else put s i true true n (Worker (Gone false) (w_lines w)))
      | Finish => (* meadowlark/meadowlark.cc:259-266 *)
          if ok then Some (put s i d f n (Worker (Gone true) (w_lines w)))
          else Some (if f then put s i d f n (Worker (Gone false) (w_lines w)) else put s i true true n (Worker (Gone false) (w_lines w)))
      | Gone _ => None
      end
  end.
(** A schedule: which worker steps, and how it comes out. *)
Fixpoint steps (bad : bool) (l : list (nat * bool)) (s : state) : option state :=
  match l with [] => Some s | (n, ok) :: r => match step bad n ok s with Some s' => steps bad r s' | None => None end end.
(** meadowlark/meadowlark.cc:201-223: each worker with a transaction of its own. *)
Definition start (text : bytes) (threads : nat) : state := State text false false (repeat (Worker Fetch []) threads).
(** meadowlark/meadowlark.cc:270-271 *)
Definition joined (s : state) : bool := forallb (fun w => match w_place w with Gone _ => true | _ => false end) (s_workers s).

(** * The end *)
(** What append_jsonl answers and has committed; or the process stops. *)
Inductive outcome := Answer (answer : bool) (committed : list (list bytes)) | Stops.
(** meadowlark/meadowlark.cc:272-285.  Committing a transaction that is not ready, or one without
    annotations, stops the process: src/committable.h:54, src/fiver.cc:674-675, 719.
    [writes] says whether a line, when scribed, leaves an annotation. *)
Definition finish (writes : bytes -> bool) (s : state) : outcome :=
  if s_failed s then Answer false []
  else if forallb (fun w => match w_place w with Gone true => existsb writes (w_lines w) | _ => false end) (s_workers s)
  then Answer true (map w_lines (s_workers s)) else Stops.
