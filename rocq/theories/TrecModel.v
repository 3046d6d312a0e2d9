(** Model of ranking many queries by several threads: src/ranker.cc (trec). *)
From Verif Require Import Base Bytes HopperModel RankModel.
From Verif Require Import RecipeModel.

(** src/ranker.cc:440-447: the ids of the results, by the hopper of ids [h]. *)
Section Ids.
Context {F : Type} (C : hcls) (translate : Z -> Z -> bytes).
Fixpoint topic_ids (h : St C) (ranking : list (@result F)) : res (St C * list bytes) :=
  match ranking with
  | [] => Ok (h, [])
  | r :: l =>
      let* (h', x) := h_tau C h (rcp r) in
      let* (h'', ids) := topic_ids h' l in
      Ok (h'', if iq x <=? rcq r then translate (ip x) (iq x) :: ids else ids)
  end.
End Ids.

Section Trec.
(** The hopper of ids of a worker, when it is made; and what a worker does with a query, by its
    ranker and its hopper of ids. *)
Context {H : Type} (h0 : H) (solve : H -> bytes -> res (H * list bytes)).
(** The topics and their queries; src/ranker.cc:375-377. *)
Context (work : list (bytes * bytes)) (threads : nat).
(** Where a worker is: before the lock at src/ranker.cc:404; with a clone to set up, 414-434;
    about to fail, 392-398; at the top of the loop for topic [j], 436-438; about to store the
    ids of topic [j], 449-454; or gone. *)
Inductive place := Cloning | SettingUp | Failing | Testing (j : nat) (h : H) | Storing (j : nat) (h : H) (topic : bytes) (ids : list bytes) | Gone.
Record state := State { s_stop : bool; s_results : list (bytes * list bytes); s_workers : list place }.
Fixpoint set_nth {A} (n : nat) (x : A) (l : list A) : list A :=
  match l, n with [], _ => [] | _ :: r, O => x :: r | y :: r, S m => y :: set_nth m x r end.
Definition move (s : state) (n : nat) (p : place) : state := State (s_stop s) (s_results s) (set_nth n p (s_workers s)).
(** One step of worker [n].  [ok] says how cloning and setting up come out; a step that does
    neither takes only true.  None: no such step. *)
Definition step (n : nat) (ok : bool) (s : state) : res (option state) :=
  match nth_error (s_workers s) n with
  | None => Ok None
  | Some p =>
      match p with
      | Cloning => (* src/ranker.cc:403-412 *)
          if s_stop s then if ok then Ok (Some (move s n Gone)) else Ok None
          else Ok (Some (move s n (if ok then SettingUp else Failing)))
      | SettingUp => (* src/ranker.cc:413-435 *)
          Ok (Some (move s n (if ok then Testing n h0 else Failing)))
      | Failing => (* src/ranker.cc:392-398 *)
          if ok then Ok (Some (State true (s_results s) (set_nth n Gone (s_workers s)))) else Ok None
      | Testing j h => (* src/ranker.cc:436-448 *)
          if negb ok then Ok None
          else match nth_error work j with
               | None => Ok (Some (move s n Gone))
               | Some (topic, query) =>
                   if s_stop s then Ok (Some (move s n Gone))
                   else let* (h', ids) := solve h query in
                        Ok (Some (move s n (Storing j h' topic ids)))
               end
      | Storing j h topic ids => (* src/ranker.cc:449-454 *)
          if negb ok then Ok None
          else if s_stop s then Ok (Some (move s n Gone))
          else Ok (Some (State false (put topic ids (s_results s)) (set_nth n (Testing (j + threads) h) (s_workers s))))
      | Gone => Ok None
      end
  end.
(** A schedule: which worker steps, and how it comes out. *)
Fixpoint steps (l : list (nat * bool)) (s : state) : res (option state) :=
  match l with
  | [] => Ok (Some s)
  | (n, ok) :: r => let* o := step n ok s in match o with Some s' => steps r s' | None => Ok None end
  end.
(** src/ranker.cc:373-374, 461-463 *)
Definition start : state := State false [] (repeat Cloning threads).
Definition joined (s : state) : bool := forallb (fun p => match p with Gone => true | _ => false end) (s_workers s).
End Trec.
(** src/core.cc:39-46 and src/ranker.cc:378-379: the number of threads. *)
Definition allowed_threads (hardware desired : nat) : nat :=
  let cap := if Nat.leb hardware 1 then 4%nat else (2 * hardware)%nat in
  if Nat.eqb desired 0 then cap else if Nat.ltb desired cap then desired else cap.
Definition trec_threads (hardware desired : nat) (work : list (bytes * bytes)) : nat :=
  Nat.min (allowed_threads hardware desired) (length work).
(** src/ranker.cc:365-473: the answer and the results, which were [before]; [sched] is the
    schedule.  None: it is no schedule that ends. *)
Definition trec {H} (h0 : H) solve (hardware desired : nat) (queries : list (bytes * bytes)) (old : list (bytes * list bytes)) (sched : list (nat * bool)) : res (option (bool * list (bytes * list bytes))) :=
  match queries with
  | [] => Ok (Some (true, old))
  | _ =>
      let threads := trec_threads hardware desired queries in
      let* o := steps h0 solve queries threads sched (start threads) in
      match o with
      | Some s => if joined s then Ok (Some (negb (s_stop s), s_results s)) else Ok None
      | None => Ok None
      end
  end.
