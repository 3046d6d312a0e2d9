(** What crashes do to the files of an appender, and what should be left of its texts. *)
From Verif Require Import Base Bytes CodecModel ChunkModel ChunkSpec TokenModel PlainModel PlainSpec TextCrashModel.

(** A first part of a file of records. *)
Definition part (x y : record_file) : Prop :=
  exists r, fst x = fst y ++ r /\ (snd y = true -> r <> [] \/ snd x = true).
(** A crash: txt.new is closed, and when it was open some of what was written last may be
    lost, unless [all]. *)
Definition lost (all : bool) (f f' : files) : Prop :=
  f_store f' = f_store f /\ f_txt f' = f_txt f /\ f_lock f' = f_lock f /\ f_open f' = false /\
  match f_new f, f_new f' with
  | None, None => True
  | Some x, Some y => if f_open f && negb all then part x y else y = x
  | _, _ => False
  end.
(** A program that does this to the files and dies on the way; a write to the contents of
    the text store may be cut short. *)
Inductive file_crash (all : bool) : files -> list fop -> files -> Prop :=
| file_crash_now f l f' : lost all f f' -> file_crash all f l f'
| file_crash_torn f p b l k f' : lost all (fexec1 f (Store (WriteAt p (firstn k b)))) f' -> file_crash all f (Store (WriteAt p b) :: l) f'
| file_crash_later f o l f' : file_crash all (fexec1 f o) l f' -> file_crash all f (o :: l) f'.
(** Recovery, which may be interrupted and is then started again. *)
Inductive file_recovers (c : compressor) (cs : Z) (commit : bool) : files -> files -> Prop :=
| file_recover_through f l : recover_files c cs commit f = Ok l -> file_recovers c cs commit f (fexec f l)
| file_recover_again f l f1 f2 : recover_files c cs commit f = Ok l -> file_crash true f l f1 ->
    file_recovers c cs commit f1 f2 -> file_recovers c cs commit f f2.

(** Nothing is left of a transaction; SimpleTxt opens the files and answers all questions
    as it should for the texts [ts]; and an appender that opens them goes on as one that
    has added [ts]. *)
Definition holds_texts (c : compressor) (cs : Z) (held : Z -> bool) (tokenize : bytes -> list token) (skip : bytes -> Z -> Z)
  (stop : bytes -> Prop) (starts : bytes -> list Z) (split : bytes -> list bytes) (f : files) (ts : list bytes) : Prop :=
  f_new f = None /\ f_lock f = false /\
  (forall la, (forall p q, In (Translate p q) la -> q <= maxf) ->
     exists x, open_txt c cs held f = Ok (Some x) /\ asks c cs held skip split la x = Ok (map (answers starts (whole ts)) la)) /\
  (forall l, all_permitted c cs tokenize stop starts l (Burrow ts None false) ->
     exists a, calls c cs held tokenize split l (open_appender f) = Ok (fst (burrow_run tokenize starts l (Burrow ts None false)), a)).

(** Calls that neither commit nor end the program. *)
Definition undecided (e : call) : Prop := e <> Commits /\ e <> Restart.
(** The appender after texts [ts] were given to a builder and [l] was called. *)
Definition reached (c : compressor) (cs : Z) (held : Z -> bool) (tokenize : bytes -> list token) (split : bytes -> list bytes)
  (ts : list bytes) (l : list call) (a : appender) : Prop :=
  exists b pqs b' d records rs, builder_make c cs held = Ok b /\ add_all c cs held tokenize ts b = Ok (pqs, b') /\
    finalize c cs held b' = Ok (d, records) /\ calls c cs held tokenize split l (appender_make d records false) = Ok (rs, a).
