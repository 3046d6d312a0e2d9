(** Model of the files of a working directory: src/working.h and src/working.cc.  Opening and
    writing files do not fail; a file does not change while it is read; size_t has 64 bits. *)
From Verif Require Import Base Bytes CodecModel.

(** ** Names of temporary files *)
(** working.h:111-114: width 8, fill '0'. *)
Definition padded (n : Z) : bytes := let d := dec n in repeat 48 (8 - length d) ++ d.
(** working.h:106-108 *)
Definition make_name (working name : bytes) : bytes := working ++ lit "/" ++ name.
(** working.h:109-123: the name, and temp_counter_ (unsigned, 32 bits) afterwards.  It is under
    a lock, so calls come one after the other. *)
Definition make_temp (working extension : bytes) (temp_counter : Z) : bytes * Z :=
  (make_name working (lit "temp." ++ padded temp_counter ++ match extension with [] => [] | _ => lit "." ++ extension end),
   (temp_counter + 1) mod 4294967296).
(** One call after the other, with these extensions. *)
Fixpoint make_temps (working : bytes) (extensions : list bytes) (temp_counter : Z) : list bytes :=
  match extensions with
  | [] => []
  | e :: r => let (name, c) := make_temp working e temp_counter in name :: make_temps working r c
  end.

(** ** Writers *)
Definition compressed_testing : Z := 133.
Definition compressed_available : Z := 67108864.
Section Files.
(** The compressor that Compressor::make gives for "zlib". *)
Variable (zlib : compressor).
(** What has been written to the file; of a CompressWriter buffer_available_ and the bytes
    in buffer_ (buffer_used_ is their number). *)
Inductive writer :=
| FileWriter (contents : bytes)
| CompressWriter (available : Z) (buffer : bytes) (contents : bytes).
(** working.cc:326-340 (and 224-235, 255-283).  None: nullptr. *)
Definition writer_make (recipe : bytes) : option writer :=
  if eqb_bytes recipe [] || eqb_bytes recipe (lit "file") || eqb_bytes recipe (lit "full") then Some (FileWriter [])
  else if eqb_bytes recipe (lit "compressed") then Some (CompressWriter compressed_available [] [])
  else if eqb_bytes recipe (lit "compression test") then Some (CompressWriter compressed_testing [] [])
  else None.
(** working.cc:293-302: the contents afterwards; the buffer is empty then. *)
Definition flush (available : Z) (buffer contents : bytes) : res bytes :=
  match buffer with
  | [] => Ok contents
  | _ => let* z := crush zlib buffer (available + extra zlib available) in
         Ok (contents ++ addr_bytes (len z) ++ z)
  end.
(** working.cc:304-311, the loop, and 312-315. *)
Fixpoint compress_append (n : nat) (available : Z) (buffer contents text : bytes) : res writer :=
  match n with
  | O => NoFuel
  | S n =>
      if available <? len buffer + len text then
        let remaining := Z.to_nat (available - len buffer) in
        let* contents := flush available (buffer ++ firstn remaining text) contents in
        compress_append n available [] contents (skipn remaining text)
      else Ok (CompressWriter available (buffer ++ text) contents)
  end.
(** working.cc:245-249 and 303-316 *)
Definition append (w : writer) (text : bytes) : res writer :=
  match w with
  | FileWriter contents => Ok (FileWriter (contents ++ text))
  | CompressWriter available buffer contents => compress_append (S (S (length text))) available buffer contents text
  end.
(** working.cc:285, the destructor: what is left in the file. *)
Definition closed (w : writer) : res bytes :=
  match w with
  | FileWriter contents => Ok contents
  | CompressWriter available buffer contents => flush available buffer contents
  end.
(** Texts appended one after the other, and the writer destroyed. *)
Fixpoint appends (w : writer) (texts : list bytes) : res bytes :=
  match texts with [] => closed w | t :: r => let* w := append w t in appends w r end.
Definition write_file (recipe : bytes) (texts : list bytes) : res (option bytes) :=
  match writer_make recipe with None => Ok None | Some w => let* f := appends w texts in Ok (Some f) end.

(** ** Readers *)
Definition size_t (n : Z) : Z := n mod 18446744073709551616.
(** working.cc:48-64: the bytes read and where_ afterwards.  Reading past the end fails an assertion. *)
Definition file_read (file : bytes) (where_ amount : Z) : res (bytes * Z) :=
  let available := len file in
  if (amount =? 0) || (available <=? where_) then Ok ([], where_)
  else
    let actual := if available <? size_t (where_ + amount) then available - where_ else amount in
    if available <? where_ + actual then UB
    else Ok (firstn (Z.to_nat actual) (skipn (Z.to_nat where_) file), where_ + actual).
(** working.cc:111-119.  Copying past the end of the buffer is undefined. *)
Definition full_read (buffer : bytes) (where_ amount : Z) : res (bytes * Z) :=
  if (amount =? 0) || (len buffer <=? where_) then Ok ([], where_)
  else
    let amount := if len buffer <? size_t (where_ + amount) then len buffer - where_ else amount in
    if len buffer <? where_ + amount then UB
    else Ok (firstn (Z.to_nat amount) (skipn (Z.to_nat where_) buffer), where_ + amount).
(** A FileReader (the file, where_), a FullReader (the buffer, where_) or a CompressReader: its
    FileReader, the bytes of buffer_ up to end_, current_ and buffer_available_. *)
Inductive reader :=
| FileReader (file : bytes) (where_ : Z)
| FullReader (buffer : bytes) (where_ : Z)
| CompressReader (file : bytes) (where_ : Z) (block : bytes) (current : Z) (available : Z).
(** working.cc:207-220 (and 23-34, 82-98, 128-152).  Line 214 lets every other recipe through. *)
Definition reader_make (recipe : bytes) (file : option bytes) : option reader :=
  match file with
  | None => None
  | Some file =>
      if eqb_bytes recipe [] || eqb_bytes recipe (lit "file") then Some (FileReader file 0)
      else if eqb_bytes recipe (lit "full") then Some (FullReader file 0)
      else Some (CompressReader file 0 [] 0 compressed_available)
  end.
(** working.cc:166-192; [acc] is what was copied so far. *)
Fixpoint compress_read (n : nat) (file : bytes) (where_ : Z) (block : bytes) (current available amount : Z) (acc : bytes) : res (bytes * reader) :=
  match n with
  | O => NoFuel
  | S n =>
      if (0 <? amount) && (0 <? available) then
        if 0 <? len block - current then
          let m := if amount <=? len block - current then amount else len block - current in
          compress_read n file where_ block (current + m) available (amount - m) (acc ++ firstn (Z.to_nat m) (skipn (Z.to_nat current) block))
        else
          let* r := file_read file where_ 8 in
          let '(size, where_) := r in
          if len size =? 0 then Ok (acc, CompressReader file where_ block current 0)
          else if negb (len size =? 8) then UB
          else
            let* r := file_read file where_ (le_val size) in
            let '(z, where_) := r in
            if compressed_available + extra zlib compressed_available + 1 <? len z then UB
            else
              let* block := tang zlib z available in
              compress_read n file where_ block 0 available amount acc
      else Ok (acc, CompressReader file where_ block current available)
  end.
(** working.h:36-38 *)
Definition read_next (r : reader) (amount : Z) : res (bytes * reader) :=
  match r with
  | FileReader file where_ => let* a := file_read file where_ amount in Ok (fst a, FileReader file (snd a))
  | FullReader buffer where_ => let* a := full_read buffer where_ amount in Ok (fst a, FullReader buffer (snd a))
  | CompressReader file where_ block current available =>
      compress_read (S (length file + Z.to_nat amount)) file where_ block current available amount []
  end.
(** working.h:33-35; working.cc:44-47, 107-110; 162-165 fails an assertion. *)
Definition read_from (r : reader) (where_ amount : Z) : res (bytes * reader) :=
  match r with
  | FileReader file _ => read_next (FileReader file where_) amount
  | FullReader buffer _ => read_next (FullReader buffer where_) amount
  | CompressReader _ _ _ _ _ => UB
  end.
Inductive request := Next (amount : Z) | From (where_ amount : Z).
(** One call of read after the other: the bytes that each gives. *)
Fixpoint reads (r : reader) (requests : list request) : res (list bytes) :=
  match requests with
  | [] => Ok []
  | q :: rest =>
      let* a := match q with Next n => read_next r n | From w n => read_from r w n end in
      let* more := reads (snd a) rest in
      Ok (fst a :: more)
  end.
Definition read_file (recipe : bytes) (file : option bytes) (requests : list request) : res (option (list bytes)) :=
  match reader_make recipe file with None => Ok None | Some r => let* a := reads r requests in Ok (Some a) end.
End Files.
