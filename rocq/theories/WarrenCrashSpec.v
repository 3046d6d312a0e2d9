(** Crashes of a whole single-file warren: its text and its index in one program. *)
From Verif Require Import Base Bytes CodecModel ChunkModel ChunkSpec TokenModel PlainModel PlainSpec TextCrashModel TextCrashSpec.
From Verif Require SingleModel SingleSpec.

(** An operation on the files of the text or on those of the index. *)
Inductive bop := OnText (o : fop) | OnIndex (o : SingleModel.op).
Definition on_text (l : list bop) : list fop := flat_map (fun o => match o with OnText x => [x] | OnIndex _ => [] end) l.
Definition on_index (l : list bop) : list SingleModel.op := flat_map (fun o => match o with OnText _ => [] | OnIndex x => [x] end) l.
(** A program that does this to the files and dies on the way; a file that is being
    written may be cut short, and of txt.new some may be lost unless [all]. *)
Inductive both_crash (all : bool) : files -> SingleModel.dir -> list bop -> files -> SingleModel.dir -> Prop :=
| both_now f d l f' : lost all f f' -> both_crash all f d l f' d
| both_torn_text f d p b l k f' : lost all (fexec1 f (Store (WriteAt p (firstn k b)))) f' ->
    both_crash all f d (OnText (Store (WriteAt p b)) :: l) f' d
| both_torn_index f d n b c l f' : lost all f f' ->
    both_crash all f d (OnIndex (SingleModel.Put n (b ++ c)) :: l) f' (SingleModel.exec d [SingleModel.Put n b])
| both_text f d o l f' d' : both_crash all (fexec1 f o) d l f' d' -> both_crash all f d (OnText o :: l) f' d'
| both_index f d o l f' d' : both_crash all f (SingleModel.exec d [o]) l f' d' -> both_crash all f d (OnIndex o :: l) f' d'.
(** Appender::recover and Annotator::recover, both with this decision. *)
Definition both_recover (c : compressor) (cs : Z) (commit : bool) (f : files) (d : SingleModel.dir) (f' : files) (d' : SingleModel.dir) : Prop :=
  file_recovers c cs commit f f' /\ SingleSpec.recovers commit d d'.
