(** Model of the sorting of files of records: src/simple_builder.cc:40-213. *)
From Verif Require Import Base Bytes CodecModel WorkModel.

(** Files by name; what becomes of a file that is created and written: it cannot be created, a
    write fails after some bytes, the last bytes are lost when it is closed, which is not looked
    at (the stream keeps them back until then), or all is well. *)
Definition files := bytes -> option bytes.
Inductive outcome := Cannot | Broken (n : nat) | Short (n : nat) | Whole.
Definition store (name contents : bytes) (fs : files) : files := fun x => if eqb_bytes x name then Some contents else fs x.
Definition removed (name : bytes) (fs : files) : files := fun x => if eqb_bytes x name then None else fs x.
(** The whole records of [k] bytes in a file; a last incomplete one sets the stream to fail. *)
Fixpoint records_go (n k : nat) (b : bytes) : list bytes :=
  match n with
  | O => []
  | S n => if Nat.ltb (length b) k then [] else firstn k b :: records_go n k (skipn k b)
  end.
Definition records (k : nat) (b : bytes) : list bytes := records_go (length b) k b.

(** simple_builder.cc:44-46: records of 32 bytes, their first words are feature, p, q. *)
Definition field (i : nat) (r : bytes) : Z := nth i (words r) 0.
Definition annotation_cmp (a b : bytes) : bool :=
  (field 0 a <? field 0 b) || (field 0 a =? field 0 b) && (field 1 a <? field 1 b).
(** simple_builder.cc:40-42: records of 16 bytes, feature and pq. *)
Definition tok_cmp (a b : bytes) : bool :=
  (field 0 a <? field 0 b) || (field 0 a =? field 0 b) && (field 1 a <? field 1 b).

Section Sort.
Variables (k : nat) (cmp : bytes -> bytes -> bool).
(** std::sort, LOTS of line 98, what becomes of files, and the working directory. *)
Variables (sort : list bytes -> list bytes) (lots : nat) (how : bytes -> outcome) (working : bytes).
(** The creating and writing of lines 62-66, 70-90, 113-126 and 136-148. *)
Definition create (name contents : bytes) (fs : files) : bool * files :=
  match how name with
  | Cannot => (false, fs)
  | Broken n => (false, store name (firstn n contents) fs)
  | Short n => (true, store name (firstn n contents) fs)
  | Whole => (true, store name contents fs)
  end.
(** simple_builder.cc:67-86: what is written. *)
Fixpoint merge_loop (in0 : list bytes) : list bytes -> list bytes :=
  fix inner (in1 : list bytes) : list bytes :=
    match in0, in1 with
    | t0 :: r0, t1 :: r1 => if cmp t0 t1 then t0 :: merge_loop r0 in1 else t1 :: inner r1
    | _, [] => in0
    | [], _ => in1
    end.
(** simple_builder.cc:48-92 *)
Definition merge_records (in0 in1 out : bytes) (fs : files) : bool * files :=
  match fs in0, fs in1 with
  | Some b0, Some b1 => create out (concat (merge_loop (records k b0) (records k b1))) fs
  | _, _ => (false, fs)
  end.
(** simple_builder.cc:111-128 (and 134-150): the records [ts], sorted, in a new file at the end
    of the queue.  The answer: false on failure; the queue, temp_counter_, the files. *)
Definition spill (ts tq : list bytes) (c : Z) (fs : files) : bool * list bytes * Z * files :=
  let (name, c) := make_temp working [] c in
  let (ok, fs) := create name (concat (sort ts)) fs in
  (ok, tq ++ [name], c, fs).
(** simple_builder.cc:105-151 *)
Fixpoint split_loop (rs ts tq : list bytes) (c : Z) (fs : files) : bool * list bytes * Z * files :=
  match rs with
  | [] => match ts with [] => (true, tq, c, fs) | _ => spill ts tq c fs end
  | t :: rest =>
      let ts := ts ++ [t] in
      if Nat.leb lots (length ts) then
        let '(ok, tq, c, fs) := spill ts tq c fs in
        if ok then split_loop rest [] tq c fs else (false, tq, c, fs)
      else split_loop rest ts tq c fs
  end.
(** simple_builder.cc:152-168: filename0 at the end. *)
Fixpoint queue_loop (n : nat) (filename0 : bytes) (tq : list bytes) (c : Z) (fs : files) : res (bool * bytes * Z * files) :=
  match n with
  | O => NoFuel
  | S n =>
      match tq with
      | [] => Ok (true, filename0, c, fs)
      | [filename0] => queue_loop n filename0 [] c fs
      | filename0 :: filename1 :: rest =>
          let (filename2, c) := make_temp working [] c in
          let (ok, fs) := merge_records filename0 filename1 filename2 fs in
          if ok then queue_loop n filename0 (rest ++ [filename2]) c (removed filename1 (removed filename0 fs))
          else Ok (false, filename0, c, fs)
      end
  end.
(** simple_builder.cc:94-172: the answer (with the name of the sorted file if it is true),
    temp_counter_ and the files. *)
Definition sort_records (in_filename : bytes) (c : Z) (fs : files) : res (option bytes * Z * files) :=
  match fs in_filename with
  | None => Ok (None, c, fs)
  | Some b =>
      let '(ok, tq, c, fs) := split_loop (records k b) [] [] c fs in
      if ok then
        let* r := queue_loop (S (S (length tq))) [] tq c fs in
        let '(ok, filename0, c, fs) := r in
        if ok then Ok (Some filename0, c, removed in_filename fs) else Ok (None, c, fs)
      else Ok (None, c, fs)
  end.
End Sort.
(** simple_builder.cc:208-213 *)
Definition sort_annotations := sort_records 32 annotation_cmp.

(** simple_builder.cc:191-203 *)
Fixpoint check_loop (previous : bytes) (rs : list bytes) : bool :=
  match rs with
  | [] => true
  | current :: rest =>
      if (field 1 current <=? field 2 current) &&
         ((field 0 previous <? field 0 current) ||
          (field 0 previous =? field 0 current) && (field 1 previous <? field 1 current) && (field 2 previous <? field 2 current))
      then check_loop current rest else false
  end.
(** simple_builder.cc:176-206 *)
Definition check_annotations (file : option bytes) : bool :=
  match file with
  | None => false
  | Some b =>
      match records 32 b with
      | [] => true
      | previous :: rest => if field 1 previous <=? field 2 previous then check_loop previous rest else false
      end
  end.
