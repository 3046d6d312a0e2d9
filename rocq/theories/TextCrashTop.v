(** A crash of an appender, and recovery: whole histories. *)
From Verif Require Import Base Bytes CodecModel CodecSpec ChunkModel ChunkSpec ChunkLife ChunkStep.
From Verif Require Import TokenModel PlainModel PlainSpec PlainWrite PlainLife PlainTop TextCrashModel TextCrashSpec TextCrashProofs.
From Verif Require TextSpec FileSpec.

Section Top.
Variable c : compressor.
Variable cs : Z.
Variable held : Z -> bool.
Variable tokenize : bytes -> list token.
Variable skip : bytes -> Z -> Z.
Variable stop : bytes -> Prop.
Variable starts : bytes -> list Z.
Variable split : bytes -> list bytes.
Hypothesis good : suitable c cs.
Hypothesis laws : TextSpec.tokenizer_laws tokenize skip stop starts.
Hypothesis Hcut : FileSpec.cut_law starts.
Hypothesis Hsplit : split_law split starts.
Hypothesis Hfeat : features_ok tokenize.
Variable ts : list bytes.
Variable l : list call.
Hypothesis Hts : Forall (text_ok stop) ts.
Hypothesis Hlen : len (whole ts) <= maxf.
Hypothesis Hp : all_permitted c cs tokenize stop starts l (Burrow ts None false).
Notation end_ := (snd (burrow_run tokenize starts l (Burrow ts None false))).

Lemma reached_ok a : reached c cs held tokenize split ts l a -> ainv c cs stop starts a end_.
Proof.
  destruct good as (Hcs & Hloss & Hfit). intros (b & pqs & b' & d & recs & rs & E1 & E2 & E3 & E4).
  destruct (build_all c cs held Hcs Hloss Hfit tokenize skip stop starts laws ts Hts) as (b0 & b0' & d0 & F1 & F2 & F3 & F4 & F5 & F6 & F7).
  rewrite F1 in E1. injection E1 as <-. rewrite F2 in E2. injection E2 as _ <-. rewrite F4 in E3. injection E3 as <- <-.
  destruct (calls_ok c cs held Hcs Hloss Hfit tokenize skip stop starts split laws Hsplit Hfeat l (appender_make d0 (b_txt b0') false) (Burrow ts None false)) as (a1 & Ea & Ia); [|exact Hp|].
  { split; [reflexivity|]. split; [exact Hts|]. split; [exact F7|]. cbn [open kept]. rewrite app_nil_r. split; [exact Hlen|].
    unfold state_ok. cbn. auto. }
  rewrite Ea in E4. injection E4 as _ <-. exact Ia.
Qed.
Lemma back_ok a l2 : reached c cs held tokenize split ts l a -> all_permitted c cs tokenize stop starts l2 end_ -> Forall undecided l2 ->
  exists ops a', trace c cs held tokenize split l2 a = Ok (ops, a') /\ fexec (files_of a) ops = files_of a' /\
    forall all f1, file_crash all (files_of a) ops f1 ->
      (exists f2, file_recovers c cs false f1 f2) /\
      forall f2, file_recovers c cs false f1 f2 -> holds_texts c cs held tokenize skip stop starts split f2 (kept end_).
Proof.
  intros R P U. pose proof (reached_ok a R) as Ia. destruct good as (Hcs & Hloss & Hfit).
  destruct (trace_ok c cs held Hcs Hloss Hfit tokenize skip stop starts split laws Hsplit Hfeat l2 a _ Ia P U) as (ops & a' & E & I' & _ & G).
  exists ops, a'. split; [exact E|]. split; [apply G|]. intros all f1 C. split.
  - eapply (can_roll_back c cs held Hcs Hloss Hfit); [exact G|exact C].
  - intros f2 Rc. eapply (rolled_back c cs held Hcs Hloss Hfit tokenize skip stop starts split laws Hsplit Hfeat); eassumption.
Qed.
Lemma forward_ok a more : reached c cs held tokenize split ts l a -> open end_ = Some more -> sure end_ = true ->
  exists a', call1 c cs held tokenize split Commits a = Ok (Nothing, a') /\ fexec (files_of a) (call_ops Commits a a') = files_of a' /\
    forall f1, file_crash true (files_of a) (call_ops Commits a a') f1 ->
      (exists f2, file_recovers c cs true f1 f2) /\
      forall f2, file_recovers c cs true f1 f2 -> holds_texts c cs held tokenize skip stop starts split f2 (kept end_ ++ more).
Proof.
  intros R O S. pose proof (reached_ok a R) as Ia. destruct good as (Hcs & Hloss & Hfit).
  destruct (commit_goes c cs held Hcs Hloss Hfit tokenize skip stop starts split laws Hsplit Hfeat a _ more Ia O S) as (a' & E & _ & X & _).
  exists a'. split; [exact E|]. split; [exact X|]. intros f1 C. split; [apply can_roll_forward|]. intros f2 Rc.
  eapply (rolled_forward c cs held Hcs Hloss Hfit tokenize skip stop starts split laws Hsplit Hfeat); eassumption.
Qed.
End Top.
