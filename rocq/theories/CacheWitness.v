(** Concrete schedules: three clients of a snapshot of two shards on disk and one in
    memory; three threads at a gate for two readers; two threads that obtain a chunk. *)
From Verif Require Import Base HopperModel ArrayDefs GclSpec Bytes CodecModel CodecSpec PostingModel PostingSpec ShardModel ShardSpec
  HazelModel HazelSpec HazelProofs HazelMerge HazelWitness FileModel OwslaModel CacheModel CacheSpec CacheView CacheViewSpec.
From Verif Require GateModel GateSpec ObtainModel ObtainSpec.

Definition no_text : htxt := Htxt [] 0 0 0 [] 0 0.
Definition wix3 : index := [mk 7 [Iv 40 40 0]; mk 8 [Iv 41 41 0; Iv 44 45 2]].
Definition vos : list owsla :=
  [On_disk (wload wix1) no_text (empty_obj, []); On_disk (wload wix2) no_text (empty_obj, []); In_memory (Fiver [] wix3 0 0) (empty_obj, [])].
Definition vixs : list index := [wix1; wix2; wix3].
Definition vsteps (fallback : bool) := step fallback (alone vos) (parts vos) (made wcp wcf vos).
Definition vrun (fallback : bool) := run fallback (alone vos) (parts vos) (made wcp wcf vos).
Definition vps : list (list call) :=
  [[AskHopper (route vos 7); UseAt 0]; [AskHopper (S O, 7); AskHopper (route vos 7); UseAt 1; UseAt 0];
   [AskPosting (S O, 7); AskHopper (route vos 8); UseAt 1; UseAt 0]].
(** Let the threads take turns, the last first; wake the sleeper [sp] now and then. *)
Fixpoint drive (stepf : state -> turn -> option state) (fuel n : nat) (s : state) : list turn :=
  match fuel with
  | O => []
  | S fuel =>
      let c := length (threads s) in
      let i := (c - 1 - Nat.modulo n c)%nat in
      match (if Nat.eqb (Nat.modulo n 7) 3 then stepf s (Spurious i) else None) with
      | Some s' => Spurious i :: drive stepf fuel (S n) s'
      | None => match stepf s (Run i) with
                | Some s' => Run i :: drive stepf fuel (S n) s'
                | None => drive stepf fuel (S n) s
                end
      end
  end.
Definition vturns1 : list turn := Eval vm_compute in drive (vsteps true) 400 0 (start vps).
Definition vturns2 : list turn := Eval vm_compute in drive (vsteps false) 400 0 (start vps).
Definition vturns (fallback : bool) : list turn := if fallback then vturns1 else vturns2.

Lemma wix3_rows : Forall row_ok wix3.
Proof. repeat (constructor; [row|]). constructor. Qed.
Lemma index_sound ix : Forall row_ok ix -> forall chunk, sound chunk ix.
Proof.
  intros R chunk f p _ E. induction R as [|[g q] ix H R IH]; [discriminate|]. cbn in E. destruct (Z.eqb_spec g f) as [->|]; [injection E as ->; apply H|exact (IH E)].
Qed.
Lemma Forall2_two {A B} (R : A -> B -> Prop) a b x y : Forall2 R [a; b] [x; y] -> R a x /\ R b y.
Proof. intros H. inversion H as [|? ? ? ? H1 H2]; subst. inversion H2; subst. auto. Qed.
Lemma vshards : Forall2 (shard_of wcp wcf) vos vixs.
Proof.
  pose proof wix_ok as K. inversion_clear K as [|? ? K1 K2]. apply Forall_inv in K2. destruct (Forall2_two _ _ _ _ _ wshelved) as (S1 & S3).
  assert (Wr : forall ix, index_ok ix -> (forall f, fiver_count ix f <= 288230376151711743) -> writable wcp wcf ix) by (intros ix; apply index_writable; exact wstores).
  assert (Cn : forall ix, (forall r, In r ix -> psize (snd r) <= 10) -> forall f, fiver_count ix f <= 288230376151711743).
  { intros ix H f. unfold fiver_count. destruct (find_posting ix f) as [p|] eqn:E; [|lia]. assert (In (f, p) ix).
    { clear - E. induction ix as [|[g q] ix IH]; [discriminate|]. cbn in E. destruct (Z.eqb_spec g f) as [->|]; [injection E as ->; left; reflexivity|right; exact (IH E)]. }
    specialize (H _ H0). cbn [snd] in H. lia. }
  constructor; [|constructor; [|constructor; [|constructor]]].
  - constructor; [exact K1| |exact S1]. apply Wr; [exact K1|]. apply Cn. intros r Hr. repeat (destruct Hr as [<-|Hr]; [vm_compute; discriminate|]). destruct Hr.
  - constructor; [exact K2| |exact S3]. apply Wr; [exact K2|]. apply Cn. intros r Hr. repeat (destruct Hr as [<-|Hr]; [vm_compute; discriminate|]). destruct Hr.
  - exact (Shard_memory wcp wcf (Fiver [] wix3 0 0) (empty_obj, [])).
Qed.
Lemma vsound : Forall (sound wchunk) vixs.
Proof.
  pose proof wix_ok as K. inversion_clear K as [|? ? K1 K2]. apply Forall_inv in K2.
  constructor; [apply index_sound, K1|]. constructor; [apply index_sound, K2|]. constructor; [apply index_sound, wix3_rows|constructor].
Qed.

(** * Three readers, two permits *)
Import GateModel.
Definition gfile : bytes := [10; 11; 12; 13; 14; 15].
Definition gps : list (list (Z * Z)) := [[(1, 3); (4, 9)]; [(0, 2)]; [(5, 1); (-1, 2); (3, 0)]].
Definition gturns : list turn :=
  [Run 0; Run 0; Run 0; Run 1; Run 1; Run 1; Run 2; Run 2; Run 2;           (* thread 2 goes to sleep *)
   Pread 0 (Got 1); Pread 0 Interrupted; Pread 1 (Got 2); Spurious 2; Run 2; Run 2;
   Run 1; Run 1; Run 1; Pread 0 (Got 2); Run 0; Notify 1 (Some 2%nat); Run 0; Run 0; Run 2; Run 2;
   Notify 0 None; Run 0; Run 0; Run 0; Pread 0 (Got 2); Pread 0 (Got 0); Pread 2 (Got 1); Run 2; Run 2; Run 2; Notify 2 None;
   Run 2; Run 2; Run 2; Run 2; Run 2; Run 2; Run 2; Notify 2 None; Run 0; Run 0; Notify 0 None].
(** * Two threads obtain one chunk *)
Definition oraw (k : nat) : bytes := match k with O => [7; 8] | _ => [9] end.
Definition ops : list (list nat) := [[0; 1]; [0]; [1; 0]]%nat.
Fixpoint odrive (fuel n : nat) (s : ObtainModel.text) : list ObtainModel.turn :=
  match fuel with
  | O => []
  | S fuel => let a := ObtainModel.Run (Nat.modulo n 3) true in
      match ObtainModel.step oraw s a with
      | Some s => a :: odrive fuel (S n) s
      | None => odrive fuel (S n) s
      end
  end.
Definition oturns : list ObtainModel.turn := Eval vm_compute in odrive 90 0 (ObtainModel.start 2 ops).
