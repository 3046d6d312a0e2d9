(** Examples for the UTF-8 tokenizer. *)
From Verif Require Import Base Bytes CodecModel CodecSpec PostingModel TokenModel TokenSpec TextModel TextSpec TextBack TextWitness Utf8Table Utf8Model Utf8Spec Utf8Proofs Utf8Laws Utf8Words.

Definition utok : bytes -> list token := utokenize feat1.
(** "Ärger ☃x" *)
Definition cs1 : list Z := [196; 114; 103; 101; 114; 32; 9731; 120].
Definition text1 : bytes := [195; 132; 114; 103; 101; 114; 32; 226; 152; 131; 120].
Lemma codepoints1 : Forall codepoint cs1 /\ encode cs1 = text1.
Proof. split; [|vm_compute; reflexivity]. unfold cs1, codepoint. repeat constructor; lia. Qed.
Lemma utokens_ex : usplit text1 = [[195; 164; 114; 103; 101; 114]; [226; 152; 131]; [120]] /\
  utok text1 = [Token (feat1 [195; 164; 114; 103; 101; 114]) 0 0 6; Token (feat1 [226; 152; 131]) 1 7 3; Token (feat1 [120]) 2 10 1] /\
  uskip text1 2 = 10 /\
  utok [65; 240; 159; 98] = [Token (feat1 [97]) 0 0 1; Token (feat1 [98]) 1 3 1] /\
  usplit [65; 240; 159; 98] = [[97]; [98]].
Proof. vm_compute. repeat split; reflexivity. Qed.
(** A NUL hides the rest from split. *)
Lemma nul_hides : exists s, usplit s = [lit "a"] /\ map t_feature (utok s) = [feat1 (lit "a"); feat1 (lit "b")] /\ s = [97; 0; 98].
Proof. exists [97; 0; 98]. vm_compute. repeat split; reflexivity. Qed.
Lemma text1_ends : ends_well utf8_ends text1 /\ Forall (fun k => t_feature k <> 99) (utok text1) /\ utf8_starts text1 = [0; 7; 10].
Proof.
  split; [|split; [vm_compute; repeat constructor; discriminate|vm_compute; reflexivity]].
  intros _. exists text1, 10. split; [vm_compute; reflexivity|]. destruct codepoints1 as [C <-]. destruct (encode_complete _ C) as [E1 E2]. split; [exact E2|]. split; [exact E1|]. unfold ascii_other. lia.
Qed.
(** A codepoint cut off at the end of a text swallows the newline put after it. *)
Lemma cut_off_swallows : exists es t p q, es = [Append [97; 195]; Append t] /\
  snd (append utok 99 t (draft_after utok 99 [Append [97; 195]])) = (p, q) /\ p <= q /\
  read_back utok uskip es 0 [(p - staging, q - staging)] = Ok [[]] /\ t = lit "b".
Proof.
  eexists _, (lit "b"), _, _. split; [reflexivity|]. split; [vm_compute; reflexivity|]. split; [lia|]. split; [vm_compute; reflexivity|reflexivity].
Qed.
(** The ten codepoints stored JSON is punctuated with are symbols. *)
Lemma reserved_symbols : Forall symbol (map (fun i => 64976 + Z.of_nat i) (seq 0 10)).
Proof.
  apply Forall_forall. intros c Hc. assert (C : codepoint c) by (apply in_map_iff in Hc; destruct Hc as (n & <- & Hn); apply in_seq in Hn; unfold codepoint; lia). apply (symbol_iff _ C).
  assert (K : forallb (fun c => match actions c with Unigram => true | _ => false end) (map (fun i => 64976 + Z.of_nat i) (seq 0 10)) = true) by (vm_cast_no_check (eq_refl true)).
  pose proof (proj1 (forallb_forall _ _) K c Hc) as Q. cbv beta in Q. destruct (actions c); congruence.
Qed.
