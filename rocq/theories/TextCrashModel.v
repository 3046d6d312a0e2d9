(** Model of what an appender of a single-file index does to its files, call by call, and
    of SimpleAppender::recover (src/simple_appender.cc), on the appender of PlainModel.v
    and the text store of ChunkModel.v.

    Simplified: link, rename and remove do not fail, but rename does when there is no
    file; the records of txt are not bytes, but a file of them may end within one. *)
From Verif Require Import Base Bytes CodecModel ChunkModel TokenModel PlainModel.

(** A file of records, and whether it ends within a record. *)
Definition record_file : Type := list record * bool.
(** The files of an appender: those of the text store, txt, txt.new, whether txt.new is
    open and may hold less than was written to it, and whether there is txt.lock. *)
Record files := Files { f_store : disk; f_txt : record_file; f_new : option record_file; f_open : bool; f_lock : bool }.
(** Operations on them. *)
Inductive fop :=
| Store (o : op)
| Link
| Open_new
| Write_new (l : list record)
| Close_new
| Rename_new
| Remove_new
| Unlink.
Definition fexec1 (f : files) (o : fop) : files :=
  match o with
  | Store o => Files (exec1 (f_store f) o) (f_txt f) (f_new f) (f_open f) (f_lock f)
  | Link => Files (f_store f) (f_txt f) (f_new f) (f_open f) true
  | Open_new => Files (f_store f) (f_txt f) (Some ([], false)) true (f_lock f)
  | Write_new l => Files (f_store f) (f_txt f) (option_map (fun x : record_file => (fst x ++ l, snd x)) (f_new f)) (f_open f) (f_lock f)
  | Close_new => Files (f_store f) (f_txt f) (f_new f) false (f_lock f)
  | Rename_new => match f_new f with Some x => Files (f_store f) x None (f_open f) (f_lock f) | None => f end
  | Remove_new => Files (f_store f) (f_txt f) None (f_open f) (f_lock f)
  | Unlink => Files (f_store f) (f_txt f) (f_new f) (f_open f) false
  end.
Definition fexec (f : files) (l : list fop) : files := fold_left fexec1 l f.

(** What the text store has done so far, and the files of an appender. *)
Definition log (a : appender) : list op := match a_io a with inl w => done (s_ w) | inr _ => [] end.
Definition files_of (a : appender) : files :=
  Files (match a_io a with inl w => dk (s_ w) | inr d => d end) (a_txt a, false)
        (if a_adding a then Some (a_new a, false) else None) (a_adding a) (a_lock a).
(** What the text store did between two states of the appender. *)
Definition store_ops (a a' : appender) : list fop := map Store (skipn (length (log a)) (log a')).

Section Crash.
Variable c : compressor.
Variable cs : Z.
Variable held : Z -> bool.
Variable tokenize : bytes -> list token.
Variable skip : bytes -> Z -> Z.
Variable split : bytes -> list bytes.

(** What a call that takes appender [a] to [a'] does to the files, in order.
    - transaction_ (simple_appender.cc:176-309): the lock, the text store, then txt.new as
      a copy of txt; a transaction that is refused is modelled without txt.new.  Reading
      the last block writes nothing, the text store has just been flushed.
    - append_ (105-174): the text store, then the records.
    - ready_ (311-320): the text store.
    - commit_ (322-335) and abort_ (337-350): the text store, then close, rename or remove,
      and the lock.
    - the end of a program: nothing, outside transactions all is flushed. *)
Definition call_ops (e : call) (a a' : appender) : list fop :=
  match e with
  | Transaction =>
      if a_started a || a_failed a || a_lock a then [] else
      Link :: store_ops a a' ++ (if a_adding a' then [Open_new; Write_new (a_txt a)] else [Unlink])
  | Text _ => store_ops a a' ++ [Write_new (skipn (length (a_new a)) (a_new a'))]
  | Ready => store_ops a a'
  | Commits => store_ops a a' ++ (if negb (a_failed a) && a_adding a then [Close_new; Rename_new; Unlink] else [])
  | Aborts =>
      if a_started a then store_ops a a' ++ (if negb (a_failed a) && a_adding a then [Close_new; Remove_new; Unlink] else []) else []
  | Restart => []
  end.
(** What a sequence of calls does to the files. *)
Fixpoint trace (l : list call) (a : appender) : res (list fop * appender) :=
  match l with
  | [] => Ok ([], a)
  | e :: l =>
      let* (_, a') := call1 c cs held tokenize split e a in
      let* (o, a'') := trace l a' in Ok (call_ops e a a' ++ o, a'')
  end.

(** simple_appender.cc:74-103: recover.  rename and remove do nothing when there is no
    txt.new. *)
Definition recover_files (commit : bool) (f : files) : res (list fop) :=
  let* l := recover c cs commit (f_store f) in
  Ok (map Store l ++ [if commit then Rename_new else Remove_new; Unlink]).

(** simple_txt.cc:17-32, 89-126: a txt file that ends within a record is an error. *)
Definition open_txt (f : files) : res (option txt) :=
  if snd (f_txt f) then Ok None else txt_make c cs held (f_store f) (fst (f_txt f)).
(** simple_appender.cc:48-63, on these files. *)
Definition open_appender (f : files) : appender := appender_make (f_store f) (fst (f_txt f)) (f_lock f).
End Crash.
