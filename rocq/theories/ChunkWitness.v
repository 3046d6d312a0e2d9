(** Concrete text stores. *)
From Verif Require Import Base Bytes CodecModel CodecSpec CodecProofs BitsProofs ChunkModel ChunkSpec.

Notation start := (Flat [] None false).
Definition never (_ : Z) : bool := false.
Definition always (_ : Z) : bool := true.
Lemma null_suitable cs : 0 < cs -> suitable null_compressor cs.
Proof. intros H. split; [exact H|]. split; [exact null_lossless|]. intros n Hn. unfold buffer_size. cbn. lia. Qed.

(** Compressors that are their own inverse. *)
Definition toy (f : bytes -> bytes) (e : Z) : compressor := Compressor (fun b _ => Ok (f b)) (fun b _ => Ok (f b)) (fun _ => e).
Lemma toy_suitable f e cs : 0 < cs -> 0 <= e -> f [] = [] -> (forall b, f (f b) = b) -> (forall b, len (f b) <= len b + e) ->
  (forall b, Forall is_byte b -> Forall is_byte (f b)) -> suitable (toy f e) cs.
Proof.
  intros Hc He F0 FF FL FB. split; [exact Hc|]. split; [|intros n Hn; unfold buffer_size; cbn; lia].
  intros b Hb av Hav. exists (f b). split; [unfold crush; destruct (Z.ltb_spec av (len b + extra (toy f e) (len b))); [lia|]; destruct b; [rewrite F0|]; reflexivity|]. split; [apply FL|]. split; [apply FB, Hb|].
  split; [intros N E; apply N; rewrite <- (FF b), E; exact F0|]. intros room _. unfold tang. destruct (f b) as [|x z] eqn:E.
  - rewrite <- (FF b), E, F0. reflexivity.
  - cbn. rewrite <- E, FF. reflexivity.
Qed.
(** Backwards. *)
Definition backwards : compressor := toy (@rev Z) 0.
Lemma backwards_suitable cs : 0 < cs -> suitable backwards cs.
Proof.
  intros H. apply toy_suitable; auto using rev_involutive; try lia.
  - intros b. unfold len. rewrite rev_length. lia.
  - intros b. apply Forall_rev.
Qed.
Lemma backwards_grows cs : grows backwards cs.
Proof.
  intros a b x y _ _ N Ex Ey. destruct a as [|a0 a]; [congruence|]. unfold crush in Ex, Ey. destruct (_ <? _) in Ex; [discriminate|]. destruct (_ <? _) in Ey; [discriminate|]. cbn in Ex, Ey. injection Ex as <-. injection Ey as <-.
  unfold len. change (rev a ++ [a0]) with (rev (a0 :: a)). change (rev (a ++ b) ++ [a0]) with (rev (a0 :: a ++ b)). rewrite !rev_length. cbn [length]. rewrite app_length. lia.
Qed.
(** A single byte takes three. *)
Definition swap (b : bytes) : bytes :=
  match b with
  | [x] => [1; 1; x]
  | [y; z; x] => if (y =? 1) && (z =? 1) then [x] else b
  | _ => b
  end.
Definition swapping : compressor := toy swap 2.
Lemma swapping_suitable cs : 0 < cs -> suitable swapping cs.
Proof.
  intros H. apply toy_suitable; try lia; [reflexivity| | |].
  - intros [|a [|b [|d [|e r]]]]; try reflexivity. cbn. destruct (Z.eqb_spec a 1) as [->|Na]; [destruct (Z.eqb_spec b 1) as [->|Nb]|]; cbn; try reflexivity.
    + destruct (Z.eqb_spec b 1); [congruence|]. reflexivity.
    + destruct (Z.eqb_spec a 1); [congruence|]. reflexivity.
  - intros [|a [|b [|d [|e r]]]]; unfold len; cbn; try lia. destruct (_ && _); cbn; lia.
  - intros [|a [|b [|d [|e r]]]] B; auto.
    + constructor; [unfold is_byte; lia|]. constructor; [unfold is_byte; lia|exact B].
    + cbn. destruct (_ && _); [|exact B]. inversion B as [|? ? _ B1]; subst. inversion B1 as [|? ? _ B2]; subst. exact B2.
Qed.

Ltac bytes_ok := repeat (apply Forall_cons; [unfold is_byte; lia|]); apply Forall_nil.
Ltac lot := cbn [all_allowed allowed]; repeat match goal with
  | |- _ /\ _ => split
  | |- True => exact Logic.I
  | |- Forall is_byte _ => bytes_ok
  | |- _ <= _ => vm_compute; discriminate
  | |- _ -> _ => intros _; cbn
  | |- _ <> _ => discriminate
  | |- _ \/ _ => left; reflexivity
  | |- _ = _ => reflexivity
  end.

(** A history with chunks of four bytes. *)
Definition story : list event :=
  [Append [1; 2; 3; 4; 5; 6; 7; 8; 9; 10]; Read 3 5; Flush; Begin; Append [11; 12; 13]; Read 7 100; Abort; Size;
   Begin; Append [20; 21; 22; 23; 24; 25]; Commit; Reopen; Dump; Append [30]; Read (-2) 3; Begin; Begin; Append [31]].
Lemma story_allowed : all_allowed null_compressor 4 story start.
Proof. unfold story. lot. Qed.
Lemma story_answers : fst (flat_run story start) =
  [Done; Bytes [4; 5; 6; 7; 8]; Done; Flag true; Done; Bytes [8; 9; 10; 11; 12; 13]; Done; Num 10;
   Flag true; Done; Flag true; Done; Bytes [1; 2; 3; 4; 5; 6; 7; 8; 9; 10; 20; 21; 22; 23; 24; 25]; Done; Bytes [1; 2; 3]; Flag true; Flag false; Done].
Proof. reflexivity. Qed.

(** A crash in the middle of a commit. *)
Definition before : list event := [Append [1; 2; 3; 4; 5]; Flush; Begin; Append [6; 7]].
Definition nowhere : program := Program (St (Io [] false true true 0 None false None None 0) blank []) false.
Definition open0 : program := Eval vm_compute in match opened null_compressor 4 never blank with Ok w => w | _ => nowhere end.
Definition at_crash : program := Eval vm_compute in match run null_compressor 4 never before open0 with Ok (_, w) => w | _ => nowhere end.
Definition after : program := Eval vm_compute in match run1 null_compressor 4 never Commit at_crash with Ok (_, w) => w | _ => nowhere end.
Definition commit_ops : list op := Eval vm_compute in skipn (length (done (s_ at_crash))) (done (s_ after)).
Definition torn : disk := Eval vm_compute in exec (dk (s_ at_crash)) (firstn 1 commit_ops).
Lemma crashes_at k : forall os d, crashed d os (exec d (firstn k os)).
Proof.
  induction k as [|k IH]; intros [|o os] d; try apply crash_now. cbn [firstn]. apply (crash_later d o os). exact (IH os (exec1 d o)).
Qed.
Lemma crash_case : all_allowed null_compressor 4 before start /\ guarded Commit (snd (flat_run before start)) /\
  committed (snd (flat_run before start)) = [1; 2; 3; 4; 5] /\ text (snd (flat_run before start)) = [1; 2; 3; 4; 5; 6; 7] /\
  opened null_compressor 4 never blank = Ok open0 /\ (exists a, run null_compressor 4 never before open0 = Ok (a, at_crash)) /\
  run1 null_compressor 4 never Commit at_crash = Ok (Flag true, after) /\ done (s_ after) = done (s_ at_crash) ++ commit_ops /\
  commit_ops = [WriteAt 4 [5; 6; 7]; MapLast 7; RmTemp; RmLimits; RmLock] /\ crashed (dk (s_ at_crash)) commit_ops torn /\ limits torn = Some (2, [5]).
Proof.
  split; [unfold before; lot|]. split; [left; discriminate|]. split; [reflexivity|]. split; [reflexivity|].
  split; [vm_compute; reflexivity|]. split; [eexists; vm_compute; reflexivity|]. split; [vm_compute; reflexivity|].
  split; [reflexivity|]. split; [reflexivity|]. split; [exact (crashes_at 1 commit_ops (dk (s_ at_crash)))|reflexivity].
Qed.

(** The same with everything flushed before the commit. *)
Definition before_ready : list event := before ++ [Flush].
Definition at_ready : program := Eval vm_compute in match run null_compressor 4 never before_ready open0 with Ok (_, w) => w | _ => nowhere end.
Definition after_ready : program := Eval vm_compute in match run1 null_compressor 4 never Commit at_ready with Ok (_, w) => w | _ => nowhere end.
Definition torn_ready : disk := Eval vm_compute in exec (dk (s_ at_ready)) [RmTemp].
Definition recovered : disk := Eval vm_compute in exec torn_ready unlock_ops.
Lemma ready_case : all_allowed null_compressor 4 before_ready start /\ unflushed (snd (flat_run before_ready start)) = false /\
  (exists a, run null_compressor 4 never before_ready open0 = Ok (a, at_ready)) /\
  run1 null_compressor 4 never Commit at_ready = Ok (Flag true, after_ready) /\ done (s_ after_ready) = done (s_ at_ready) ++ unlock_ops /\
  crashed (dk (s_ at_ready)) unlock_ops torn_ready /\ recovers null_compressor 4 true torn_ready recovered.
Proof.
  split; [unfold before_ready, before; cbn [app]; lot|]. split; [reflexivity|]. split; [eexists; vm_compute; reflexivity|]. split; [vm_compute; reflexivity|].
  split; [reflexivity|]. split; [exact (crashes_at 1 unlock_ops (dk (s_ at_ready)))|]. exact (recover_through null_compressor 4 true torn_ready unlock_ops eq_refl).
Qed.

(** A reader opened while the transaction is open, and what the writer does meanwhile. *)
Definition turns : list turn :=
  [Turn (Append [8; 9; 10]) [(0%nat, (0, 5)); (1%nat, (3, 9)); (2%nat, (4, 1))]; Turn Commit [(3%nat, (0, 100))];
   Turn (Append [77]) []; Turn Flush [(1%nat, (4, 3))]].
Lemma reader_case : all_allowed null_compressor 4 before start /\ mark (snd (flat_run before start)) = Some [1; 2; 3; 4; 5] /\
  all_allowed null_compressor 4 (writes turns) (snd (flat_run before start)) /\ reads_allowed turns /\
  expected turns [1; 2; 3; 4; 5] = [[1; 2; 3; 4; 5]; [4; 5]; [5]; [1; 2; 3; 4; 5]; [5]].
Proof.
  split; [unfold before; lot|]. split; [reflexivity|]. split; [unfold turns; cbn [writes]; lot|]. split; [|reflexivity].
  intros e rs k p n H1 H2. unfold turns in H1. cbn [In] in H1.
  repeat match goal with
  | H : _ \/ _ |- _ => destruct H
  | H : False |- _ => destruct H
  | H : Turn _ _ = Turn _ _ |- _ => injection H as <- <-; cbn [In] in *
  | H : (_, _) = (_, _) |- _ => injection H as <- <- <-; vm_compute; split; discriminate
  end.
Qed.

(** * What goes wrong *)
Lemma begin_empty : exists w, opened null_compressor 4 never blank = Ok w /\ run1 null_compressor 4 never Begin w = UB.
Proof. eexists. split; reflexivity. Qed.
(** Text that was never flushed when the transaction began. *)
Definition early : list event := [Append [8]; Append [5]; Begin; Abort; Dump].
Lemma early_wrong : suitable backwards 4 /\ grows backwards 4 /\ exists w w',
  opened backwards 4 always blank = Ok w /\ run backwards 4 always early w = Ok ([Done; Done; Flag true; Done; Bytes [8; 8]], w') /\
  fst (flat_run early start) = [Done; Done; Flag true; Done; Bytes [8; 5]].
Proof.
  split; [apply backwards_suitable; lia|]. split; [apply backwards_grows|]. eexists _, _. split; [reflexivity|]. split; [vm_compute; reflexivity|reflexivity].
Qed.
(** A compressor that makes a longer chunk shorter. *)
Definition shrink : list event := [Append [9]; Flush; Begin; Append [5]; Append [6]; Abort; Dump].
Lemma shrink_wrong : suitable swapping 2 /\ exists w w',
  opened swapping 2 always blank = Ok w /\ run swapping 2 always shrink w = Ok ([Done; Done; Flag true; Done; Done; Done; Bytes [1]], w') /\
  fst (flat_run shrink start) = [Done; Done; Flag true; Done; Done; Done; Bytes [9]].
Proof.
  split; [apply swapping_suitable; lia|]. eexists _, _. split; [reflexivity|]. split; [vm_compute; reflexivity|reflexivity].
Qed.
(** A reader opened before the transaction began. *)
Definition base : list event := [Append [1; 2; 3]; Flush].
Definition turns2 : list turn := [Turn Begin [(0%nat, (0, 1))]; Turn (Append [4]) []; Turn Flush [(9%nat, (2, 1))]].
Lemma reader_wrong : suitable backwards 2 /\ all_allowed backwards 2 base start /\ all_allowed backwards 2 (writes turns2) (snd (flat_run base start)) /\
  exists w0 a w r, opened backwards 2 never blank = Ok w0 /\ run backwards 2 never base w0 = Ok (a, w) /\ make backwards 2 never (dk (s_ w)) = Ok r /\
  interleaved backwards 2 never turns2 w r = Ok [[1]; [4]] /\ expected turns2 [1; 2; 3] = [[1]; [3]].
Proof.
  split; [apply backwards_suitable; lia|]. split; [unfold base; lot|]. split; [unfold turns2; cbn [writes]; lot|].
  eexists _, _, _, _. split; [reflexivity|]. split; [vm_compute; reflexivity|]. split; [vm_compute; reflexivity|]. split; [vm_compute; reflexivity|reflexivity].
Qed.
