(** Two ids in a small text. *)
From Verif Require Import BitsProofs Base Bytes HopperModel GclSpec HopperProofs UnaryModel UnaryProofs AnswerProofs VectorModel RankSpec RankWitness
  CodecModel CodecSpec CodecProofs FastidModel FastidProofs.
From Verif Require JsonModel.

(** The words a0 to a9. *)
Definition idword (j : Z) : bytes := [97; 48 + j; 32].
Definition idtext (p q : Z) : bytes := flat_map (fun i => idword (Z.of_nat i)) (seq (Z.to_nat p) (Z.to_nat (q - p + 1))).
Definition idlist := [Iv 2 3 0; Iv 6 6 0].
Definition idquery (g : bytes) : option hobj := Some (existT St (stored_cls false idlist) (st idlist)).
Definition zeros (_ : Z) : Z := 0.
Definition idfile : bytes := match fastid null_compressor zeros idtext (Some (lit "id:")) idquery with Ok (Some b) => b | _ => [] end.
Definition idfast : fast := match fast_make null_compressor idfile with Ok f => f | _ => Fast 0 0 [] [] [] [] end.
Lemma ids_fine : answers _ (st idlist) (set_of idlist) /\ listed (set_of idlist) idlist /\ (forall x, In x idlist -> 0 <= ip x) /\
  (forall t, In t (id_texts idtext idlist) -> ~ In 0 t) /\ lossless null_compressor (concat (id_texts idtext idlist)).
Proof.
  destruct (st_answers idlist) as [A L]; [gcl|cbn; lia|repeat constructor|].
  split; [exact A|]. split; [exact L|]. split; [intros x Hx; cases Hx; cbn; lia|].
  split; [intros t Ht; vm_compute in Ht; cases Ht; cbn; intuition discriminate|].
  apply null_lossless. vm_compute. repeat constructor; try (intros; discriminate).
Qed.
Lemma fast_run : fastid null_compressor zeros idtext (Some (lit "id:")) idquery = Ok (Some idfile) /\ length idfile = 63%nat /\
  fast_make null_compressor idfile = Ok (Fast 9 2 (lit "a2 a3 a6 ") [2; 6] [3; 6] [0; 6; 9]) /\
  fast_translate (fun _ _ => lit "?") idfast 2 3 = Ok (lit "a2 a3 ") /\ fast_translate (fun _ _ => lit "?") idfast 6 6 = Ok (lit "a6 ") /\
  fast_translate (fun _ _ => lit "?") idfast 2 4 = Ok (lit "?") /\ fast_translate (fun _ _ => lit "?") idfast 3 3 = Ok (lit "?").
Proof. vm_compute. repeat split. Qed.
(** A NUL in an id: what follows it is lost. *)
Definition nultext (p q : Z) : bytes := [97; 0; 98].
Definition nulfile : bytes := match fastid null_compressor (fun _ => 120) nultext (Some (lit "id:")) idquery with Ok (Some b) => b | _ => [] end.
Lemma nul_run : fastid null_compressor (fun _ => 120) nultext (Some (lit "id:")) idquery = Ok (Some nulfile) /\
  exists f, fast_make null_compressor nulfile = Ok f /\ nultext 2 3 = [97; 0; 98] /\ fast_translate nultext f 2 3 = Ok [97; 0; 120].
Proof. split; [vm_compute; reflexivity|]. eexists. split; [vm_compute; reflexivity|]. split; vm_compute; reflexivity. Qed.
