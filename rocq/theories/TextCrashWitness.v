(** Concrete crashes of appenders. *)
From Verif Require Import Base Bytes CodecModel CodecSpec ChunkModel ChunkSpec ChunkWitness TokenModel PlainModel PlainSpec PlainWrite PlainLife PlainTop.
From Verif Require Import TextCrashModel TextCrashSpec.
From Verif Require Import PlainWitness.
From Verif Require TextSpec TextBack TokenSpec FileSpec WarrenCrashSpec SingleModel SingleSpec SingleWitness HazelWitness.

Notation has_texts := (holds_texts backwards 100 never tok jump stop starts chop).
Definition texts0 : list bytes := [lit "Hello, McWorld "; lit "one (two) hello"].
(** A committed transaction, and one that is ready. *)
Definition calls0 : list call := [Transaction; Text (lit "three four"); Ready; Commits; Transaction; Text (lit "five six"); Ready].
Definition calls1 : list call := [Transaction; Text (lit "three four"); Ready; Commits].
Definition calls2 : list call := [Transaction; Text (lit "five six"); Ready].
Definition now : burrow := Burrow (texts0 ++ [lit "three four"]) (Some [lit "five six"]) true.
Definition nobody : appender := appender_make blank [] false.
Definition app_after (l : list call) : appender :=
  match (let* b := builder_make backwards 100 never in
  let* (r, b) := add_all backwards 100 never tok texts0 b in
  let* (d, txt) := finalize backwards 100 never b in
  calls backwards 100 never tok chop l (appender_make d txt false)) with Ok (_, a) => a | _ => nobody end.
Definition app0 : appender := Eval vm_compute in app_after calls0.
Definition app1 : appender := Eval vm_compute in app_after calls1.
Definition app_done : appender := Eval vm_compute in match call1 backwards 100 never tok chop Commits app0 with Ok (_, a) => a | _ => nobody end.
Definition ops2 : list fop := Eval vm_compute in match trace backwards 100 never tok chop calls2 app1 with Ok (o, _) => o | _ => [] end.
Definition commit_ops0 : list fop := Eval vm_compute in call_ops Commits app0 app_done.

Lemma reach l a : app_after l = a -> a <> nobody -> reached backwards 100 never tok chop texts0 l a.
Proof.
  unfold app_after, reached. intros E N.
  destruct (builder_make backwards 100 never) as [b| |] eqn:E1; cbn [bind] in E; try congruence.
  destruct (add_all backwards 100 never tok texts0 b) as [[r b']| |] eqn:E2; cbn [bind] in E; try congruence.
  destruct (finalize backwards 100 never b') as [[d t]| |] eqn:E3; cbn [bind] in E; try congruence.
  destruct (calls backwards 100 never tok chop l (appender_make d t false)) as [[rs a']| |] eqn:E4; cbn [bind] in E; try congruence.
  subst a'. exists b, r, b', d, t, rs. auto.
Qed.
Lemma reach0 : reached backwards 100 never tok chop texts0 calls0 app0.
Proof. apply reach; [vm_compute; reflexivity|discriminate]. Qed.
Lemma reach1 : reached backwards 100 never tok chop texts0 calls1 app1.
Proof. apply reach; [vm_compute; reflexivity|discriminate]. Qed.
Lemma texts0_ok : Forall (text_ok stop) texts0.
Proof. unfold texts0. repeat (apply Forall_cons; [okay|]). apply Forall_nil. Qed.
Ltac allowed_ := repeat match goal with
  | |- _ /\ _ => split
  | |- True => exact Logic.I
  | |- text_ok _ _ => okay
  | |- single _ _ _ => apply single_check; vm_compute; reflexivity
  | |- _ <= _ => vm_compute; discriminate
  | |- _ -> _ => intros _
  | |- _ \/ _ => right; right; exact (backwards_grows 100)
  | |- _ = _ => reflexivity
  end; vm_compute; discriminate.
Lemma calls0_ok : all_permitted backwards 100 tok stop starts calls0 (Burrow texts0 None false).
Proof. unfold calls0. cbn [all_permitted permitted burrow1 snd open kept sure]. allowed_. Qed.
Lemma calls1_ok : all_permitted backwards 100 tok stop starts calls1 (Burrow texts0 None false).
Proof. unfold calls1. cbn [all_permitted permitted burrow1 snd open kept sure]. allowed_. Qed.
Lemma calls2_ok : all_permitted backwards 100 tok stop starts calls2 (snd (burrow_run tok starts calls1 (Burrow texts0 None false))) /\ Forall undecided calls2.
Proof.
  split; [unfold calls1, calls2; cbn [burrow_run burrow1 all_permitted permitted snd open kept sure]; allowed_|].
  repeat constructor; discriminate.
Qed.
Lemma now_is : snd (burrow_run tok starts calls0 (Burrow texts0 None false)) = now.
Proof. reflexivity. Qed.

Definition closing (x : option record_file) (f : files) : files := Files (f_store f) (f_txt f) x false (f_lock f).
Lemma crash_after all l r : forall f f', lost all (fexec f l) f' -> file_crash all f (l ++ r) f'.
Proof. induction l as [|o l IH]; intros f f' L; [apply file_crash_now; exact L|]. apply file_crash_later. apply IH. exact L. Qed.
(** A crash while the text store writes its last chunk: three bytes are written, and of
    txt.new half a record. *)
Definition torn : files :=
  let f := fexec1 (fexec (files_of app1) (firstn 7 ops2)) (Store (WriteAt 0 [10; 120; 105])) in
  closing (Some ([], true)) f.
Lemma torn_crash : file_crash false (files_of app1) ops2 torn.
Proof.
  do 7 apply file_crash_later. apply (file_crash_torn false _ 0 _ _ 3). unfold lost. cbn. repeat split; auto.
  eexists. split; [reflexivity|]. intros _. left. discriminate.
Qed.
Definition mended : files := Eval vm_compute in
  match recover_files backwards 100 false torn with Ok l => fexec torn l | _ => torn end.
Lemma torn_mended : file_recovers backwards 100 false torn mended.
Proof.
  replace mended with (match recover_files backwards 100 false torn with Ok l => fexec torn l | _ => torn end) by (vm_compute; reflexivity).
  destruct (recover_files backwards 100 false torn) as [l| |] eqn:E; [apply file_recover_through; exact E|vm_compute in E; discriminate|vm_compute in E; discriminate].
Qed.
Lemma mended_files : trace backwards 100 never tok chop calls2 app1 = Ok (ops2, app0) /\ f_txt mended = f_txt (files_of app1) /\
  contents (f_store torn) <> contents (f_store (files_of app1)) /\ contents (f_store mended) = contents (f_store (files_of app1)).
Proof. vm_compute. split; [reflexivity|]. split; [reflexivity|]. split; [intros H; discriminate H|reflexivity]. Qed.

(** * What goes wrong *)
Definition told_of (f : files) (l : list ask) : res (option (list told)) :=
  let* x := open_txt backwards 100 never f in
  match x with None => Ok None | Some x => let* r := asks backwards 100 never jump chop l x in Ok (Some r) end.
Lemma not_told f ts l : (forall p q, In (Translate p q) l -> q <= maxf) -> told_of f l <> Ok (Some (map (answers starts (whole ts)) l)) -> ~ has_texts f ts.
Proof.
  intros Q N (_ & _ & H & _). destruct (H l Q) as (x & E1 & E2). apply N. unfold told_of. rewrite E1. cbn [bind]. rewrite E2. reflexivity.
Qed.
(** Commit has not begun, ready has; the records written last are lost, and recovery puts
    what is left of txt.new in the place of txt. *)
Definition cut_short : files := closing (Some ([], false)) (files_of app0).
Definition cut_forward : files := Eval vm_compute in
  match recover_files backwards 100 true cut_short with Ok l => fexec cut_short l | _ => cut_short end.
Lemma through b f f' : match recover_files backwards 100 b f with Ok l => fexec f l | _ => Files blank ([], true) None true true end = f' -> snd (f_txt f') = false ->
  file_recovers backwards 100 b f f'.
Proof.
  intros E N. destruct (recover_files backwards 100 b f) as [l| |] eqn:R; [subst f'; apply file_recover_through; exact R| |]; subst f'; discriminate N.
Qed.
Definition hear : list ask := [Translate 0 maxf].
Lemma hear_ok p q : In (Translate p q) hear -> q <= maxf.
Proof. intros [E|[]]. injection E as _ <-. lia. Qed.
Lemma short_case : exists a', call1 backwards 100 never tok chop Commits app0 = Ok (Nothing, a') /\
  exists f1 f2, file_crash false (files_of app0) (call_ops Commits app0 a') f1 /\ file_recovers backwards 100 true f1 f2 /\
    ~ has_texts f2 (kept now) /\ ~ has_texts f2 (kept now ++ [lit "five six"]) /\ told_of f2 hear = Ok (Some [Said []]).
Proof.
  exists app_done. split; [vm_compute; reflexivity|]. exists cut_short, cut_forward. split; [|split; [|split; [|split]]].
  - apply file_crash_now. unfold lost. cbn. repeat split; auto. eexists. split; [reflexivity|discriminate].
  - apply through; vm_compute; reflexivity.
  - apply (not_told _ _ hear hear_ok). vm_compute. discriminate.
  - apply (not_told _ _ hear hear_ok). vm_compute. discriminate.
  - vm_compute. reflexivity.
Qed.
(** The text store is committed, txt.new is not in place, and recovery rolls back: the text
    of the transaction stays. *)
Definition half : files := Eval vm_compute in closing (Some (a_new app0, false)) (fexec (files_of app0) (firstn 3 commit_ops0)).
Definition half_back : files := Eval vm_compute in
  match recover_files backwards 100 false half with Ok l => fexec half l | _ => half end.
Lemma half_crash : file_crash true (files_of app0) (call_ops Commits app0 app_done) half.
Proof.
  replace (call_ops Commits app0 app_done) with (firstn 3 commit_ops0 ++ skipn 3 commit_ops0) by (vm_compute; reflexivity).
  apply crash_after. vm_compute. repeat split; auto.
Qed.
Lemma half_case : exists a', call1 backwards 100 never tok chop Commits app0 = Ok (Nothing, a') /\
  exists f1 f2, file_crash true (files_of app0) (call_ops Commits app0 a') f1 /\ file_recovers backwards 100 false f1 f2 /\
    ~ has_texts f2 (kept now) /\ told_of f2 [Tokens] = Ok (Some [Counted (count starts (kept now) + 2)]).
Proof.
  exists app_done. split; [vm_compute; reflexivity|]. exists half, half_back. split; [|split; [|split]].
  - exact half_crash.
  - apply through; vm_compute; reflexivity.
  - apply (not_told _ _ hear hear_ok). vm_compute. discriminate.
  - vm_compute. reflexivity.
Qed.

(** With an index: the text is committed, the index has done the first step of its commit. *)
Lemma seq_text all : forall t f d l f' d', WarrenCrashSpec.both_crash all (fexec f t) d l f' d' ->
  WarrenCrashSpec.both_crash all f d (map WarrenCrashSpec.OnText t ++ l) f' d'.
Proof. induction t as [|o t IH]; intros f d l f' d' H; [exact H|]. apply WarrenCrashSpec.both_text. apply IH. exact H. Qed.
Lemma warren_case :
  SingleSpec.prepare HazelWitness.wcp HazelWitness.wcf SingleWitness.isort 0 SingleWitness.d1 SingleWitness.b1 SingleWitness.anns2 = Ok (true, SingleWitness.ops2, SingleWitness.a2) /\
  SingleSpec.decent SingleWitness.anns2 /\ length SingleWitness.c2 = 3%nat /\
  exists f1 d1, WarrenCrashSpec.both_crash true (files_of app0) (SingleModel.exec SingleWitness.d1 SingleWitness.ops2)
    (map WarrenCrashSpec.OnText (call_ops Commits app0 app_done) ++ map WarrenCrashSpec.OnIndex SingleWitness.c2) f1 d1 /\ f1 = files_of app_done /\
    d1 = SingleModel.exec (SingleModel.exec SingleWitness.d1 SingleWitness.ops2) (firstn 1 SingleWitness.c2).
Proof.
  split; [exact SingleWitness.p2_eq|]. split; [exact SingleWitness.anns2_decent|]. split; [reflexivity|].
  eexists. eexists. split; [|split; reflexivity]. apply seq_text.
  replace (fexec (files_of app0) (call_ops Commits app0 app_done)) with (files_of app_done) by (vm_compute; reflexivity).
  change SingleWitness.c2 with (firstn 1 SingleWitness.c2 ++ skipn 1 SingleWitness.c2). cbn [firstn SingleWitness.c2 app map].
  apply WarrenCrashSpec.both_index. apply WarrenCrashSpec.both_now. vm_compute. repeat split; auto.
Qed.

(** A crash within the writes of the text, after those of the index. *)
Lemma seq_index all : forall t f d l f' d', WarrenCrashSpec.both_crash all f (SingleModel.exec d t) l f' d' ->
  WarrenCrashSpec.both_crash all f d (map WarrenCrashSpec.OnIndex t ++ l) f' d'.
Proof. induction t as [|o t IH]; intros f d l f' d' H; [exact H|]. apply WarrenCrashSpec.both_index. apply IH. exact H. Qed.
Lemma back_case :
  let ops := map WarrenCrashSpec.OnIndex SingleWitness.ops2 ++ map WarrenCrashSpec.OnText ops2 in
  WarrenCrashSpec.on_text ops = ops2 /\ WarrenCrashSpec.on_index ops = SingleWitness.ops2 /\
  WarrenCrashSpec.both_crash false (files_of app1) SingleWitness.d1 ops torn (SingleModel.exec SingleWitness.d1 SingleWitness.ops2) /\
  exists d2, WarrenCrashSpec.both_recover backwards 100 false torn (SingleModel.exec SingleWitness.d1 SingleWitness.ops2) mended d2.
Proof.
  cbv zeta. split; [vm_compute; reflexivity|]. split; [vm_compute; reflexivity|]. split.
  - apply seq_index. do 7 apply WarrenCrashSpec.both_text. apply (WarrenCrashSpec.both_torn_text false _ _ 0 _ _ 3). unfold lost. cbn. repeat split; auto.
    eexists. split; [reflexivity|]. intros _. left. discriminate.
  - eexists. split; [exact torn_mended|]. constructor.
Qed.

(** A text store in which someone else has a transaction open. *)
Definition elsewhere : appender := appender_make (exec1 (f_store (files_of app1)) TakeLock) (fst (f_txt (files_of app1))) false.
Lemma elsewhere_run : exists a, call1 backwards 100 never tok chop Transaction elsewhere = Ok (Yes false, a) /\
  (a_started elsewhere = false -> a_adding elsewhere = false) /\ lock (f_store (files_of elsewhere)) = true /\
  call_ops Transaction elsewhere a = [Link; Unlink].
Proof. eexists. split; [vm_compute; reflexivity|]. repeat split. Qed.
Lemma app1_opens : exists x, open_txt backwards 100 never (files_of app1) = Ok (Some x).
Proof. eexists. vm_compute. reflexivity. Qed.
