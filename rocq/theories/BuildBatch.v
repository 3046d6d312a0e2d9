(** Batches of tokens in temporary files. *)
From Verif Require Import Base HopperModel ArrayDefs GclSpec ArrayProofs UnaryProofs Bytes CodecModel CodecSpec CodecProofs PostingModel PostingSpec PostingProofs PostingIO AnnProofs
  ShardModel ShardSpec ShardProofs HazelSpec HazelProofs SingleModel SingleSpec SingleLookup SingleMerge SingleBatch BuildModel BuildSpec BuildMerge.
From Verif Require TokenModel ChunkModel PlainModel.
From Coq Require Import Permutation Sorted.

Definition tok_le (a b : Z * Z) : Prop := tok_lt b a = false.
Definition spot (a : Z) : iv := Iv a a 0.
(** A token in range. *)
Definition tfine (w : Z * Z) : Prop := 0 < fst w < maxf /\ 0 <= snd w < maxf.
(** The file of a batch. *)
Definition tok_file (B : list (Z * Z)) (ix : index) : Prop :=
  index_ok ix /\ (forall f, In f (map fst ix) -> exists a, In (f, a) B) /\
  forall f, exists l, lst_of f ix l /\ (forall x, In x l <-> exists a, In (f, a) B /\ x = spot a) /\ (length l <= length B)%nat.

Lemma split_tokens f : forall l, StronglySorted tok_le l -> Forall (fun w => f <= fst w) l ->
  exists ps rest, l = map (pair f) ps ++ rest /\ Forall (fun w => f < fst w) rest /\ StronglySorted Z.le ps /\ StronglySorted tok_le rest.
Proof.
  induction l as [|[g a] l IH]; intros S F; [exists [], []; cbn; repeat split; constructor|].
  pose proof S as S0. apply StronglySorted_inv in S. destruct S as [S Sa]. inversion F as [|? ? F1 F2]; subst. cbn [fst] in F1. destruct (Z.eq_dec g f) as [->|Ne].
  - destruct (IH S F2) as (ps & rest & -> & A & B & C). exists (a :: ps), rest. split; [reflexivity|]. split; [exact A|]. split; [|exact C]. constructor; [exact B|].
    rewrite Forall_forall in *. intros b Hb. specialize (Sa (f, b)). unfold tok_le, tok_lt in Sa. cbn [fst snd] in Sa. assert (K : In (f, b) (map (pair f) ps ++ rest)) by (apply in_or_app; left; apply in_map; exact Hb). specialize (Sa K). lia.
  - exists [], ((g, a) :: l). split; [reflexivity|]. split; [|split; [constructor|exact S0]]. constructor; [cbn; lia|]. rewrite Forall_forall in *. intros [h b] Hb. specialize (Sa _ Hb). specialize (F2 _ Hb).
    unfold tok_le, tok_lt in Sa. cbn [fst snd] in *. lia.
Qed.
Lemma spots_holds f out : holds (Posting f out [] []) (map spot out).
Proof.
  split; [left; reflexivity|]. split; [left; reflexivity|]. intros i. unfold get. cbn [postings qostings fostings]. rewrite nth_error_map, idx_nat. destruct (Nat.ltb_spec i (length out)) as [L|L].
  - destruct (nth_error out i) eqn:E; [reflexivity|]. apply nth_error_None in E. lia.
  - rewrite (proj2 (nth_error_None _ _) L). reflexivity.
Qed.
Lemma spots_gcdup out : StronglySorted Z.lt out -> Forall (fun a => 0 <= a < maxf) out -> gcdup (map spot out).
Proof.
  induction 1 as [|a out S IH Sa]; intros F; [exact Logic.I|]. inversion F; subst. cbn [map gcdup]. split; [unfold finite, spot, minf in *; cbn; lia|]. split; [|apply IH; assumption].
  destruct out as [|b out]; [exact Logic.I|]. inversion Sa; subst. left. cbn. lia.
Qed.
Lemma strict_nodup out : StronglySorted Z.lt out -> NoDup out.
Proof. induction 1 as [|a out S IH Sa]; constructor; [|exact IH]. rewrite Forall_forall in Sa. intros H. specialize (Sa a H). lia. Qed.

Section Batch.
Variables cp cf : compressor.
Hypothesis stores : stores_lists cp cf.

Lemma write_tokens_ok n : forall l, StronglySorted tok_le l -> (length l <= n)%nat -> Forall tfine l -> Z.of_nat (length l) <= 288230376151711743 ->
  exists ix b, write_tokens cp cf n l = Ok b /\ (forall o, exists m, filed cp cf o ix m b) /\ tok_file l ix.
Proof.
  assert (Nil : exists ix b, @Ok bytes [] = Ok b /\ (forall o, exists m, filed cp cf o ix m b) /\ tok_file [] ix).
  { exists [], []. split; [reflexivity|]. split; [intros o; exists []; constructor|]. split; [split; constructor|]. split; [intros f []|].
    intros f. exists []. split; [constructor; reflexivity|]. split; [|cbn; lia]. intros x. split; [intros []|intros (a & [] & _)]. }
  induction n as [|n IH]; intros l S L F C.
  - destruct l as [|w l]; [|cbn in L; lia]. exact Nil.
  - destruct l as [|[f a] l]; [exact Nil|]. set (la := (f, a) :: l) in *.
    assert (Hf : Forall (fun w => f <= fst w) la).
    { apply StronglySorted_inv in S. destruct S as [_ Sa]. constructor; [cbn; lia|]. eapply Forall_impl; [|exact Sa]. intros [g b]. unfold tok_le, tok_lt. cbn [fst snd]. lia. }
    destruct (split_tokens f la S Hf) as (ps & rest & E & Hr & Sp & Sr).
    assert (Pn : ps <> []) by (intros ->; cbn [map app] in E; rewrite <- E in Hr; inversion Hr; cbn [fst] in *; lia).
    assert (Rr : match rest with [] => True | (g, _) :: _ => g <> f end) by (destruct rest as [|[g b] r]; [exact Logic.I|]; inversion Hr; cbn [fst] in *; lia).
    destruct (tok_loop_ok f ps rest Rr [] Sp ltac:(discriminate)) as (out & El & So & Ho). rewrite app_nil_r in El.
    assert (EP : posting_from_tokens la = Ok (Some (Posting f out [] [], rest))).
    { unfold posting_from_tokens. unfold la at 1. rewrite E, El. cbn [bind]. rewrite rev_involutive. reflexivity. }
    cbn [write_tokens]. rewrite EP. cbn [bind]. set (p := Posting f out [] []).
    assert (Hin : forall b, In b out <-> In (f, b) la).
    { intros b. rewrite (Ho b). rewrite E, in_app_iff, in_map_iff. split; [intros [K _]; left; exists b; auto|]. intros [(c & Ec & K)|K]; [injection Ec as ->; split; [exact K|discriminate]|].
      rewrite Forall_forall in Hr. specialize (Hr _ K). cbn in Hr. lia. }
    pose proof F as F'. rewrite Forall_forall in F'.
    assert (Fo : Forall (fun b => 0 <= b < maxf) out) by (rewrite Forall_forall; intros b Hb; apply Hin in Hb; apply (F' _ Hb)).
    assert (Bf : 0 < f < maxf) by (apply (F' (f, a)); left; reflexivity).
    pose proof (spots_holds f out) as H. fold p in H. pose proof (spots_gcdup out So Fo) as G.
    assert (Lo : (length out <= length la)%nat).
    { apply Nat.le_trans with (length ps); [apply NoDup_incl_length; [exact (strict_nodup out So)|intros b Hb; apply Ho in Hb; apply Hb]|]. rewrite E, app_length, map_length. lia. }
    assert (Ad : forall x, In x (map spot out) -> 0 <= ip x /\ is_addr (ivl x)) by (intros x Hx; apply in_map_iff in Hx; destruct Hx as (b & <- & Hb); rewrite Forall_forall in Fo; specialize (Fo b Hb); cbn; unfold is_addr, minf, maxf; lia).
    assert (V : Forall value_ok (map spot out)) by (rewrite Forall_forall; intros x Hx; apply in_map_iff in Hx; destruct Hx as (b & <- & Hb); unfold value_ok, minf; cbn; lia).
    assert (No : out <> []) by (intros K; destruct ps as [|b ps]; [congruence|]; specialize (Ho b); rewrite K in Ho; apply Ho; split; [left; reflexivity|discriminate]).
    assert (Nx : map spot out <> []) by (destruct out; [congruence|discriminate]).
    assert (St : storable cp cf p) by (apply (stores p _ H G); [rewrite Forall_forall; exact Ad|cbn; unfold is_addr, minf, maxf in *; lia|rewrite map_length; lia]).
    destruct (write_read cp cf p _ H St) as (b & Wb & _). rewrite Wb. cbn [bind].
    assert (Ir : incl rest la) by (intros c Hc; rewrite E; apply in_or_app; right; exact Hc).
    assert (Lr : (length rest < length la)%nat) by (rewrite E, app_length, map_length; destruct ps; [congruence|]; cbn [length]; lia).
    destruct (IH rest Sr) as (ix & br & Wr & Fd & (Ox & Fx & Lx')); [lia|rewrite Forall_forall in *; intros c Hc; apply F, Ir, Hc|lia|].
    rewrite Wr. cbn [bind]. exists ((f, p) :: ix), (b ++ br). split; [reflexivity|]. rewrite Forall_forall in Hr. split; [|split; [|split]].
    + intros o. destruct (Fd (o + len b)) as (m & Fm). eexists. constructor; [exact Wb|exact Fm].
    + destruct Ox as [M R]. split.
      * apply order_cons; [exact M|]. intros g Hg. destruct (Fx g Hg) as (c & Hc). apply (Hr _ Hc).
      * constructor; [|exact R]. split; [cbn; lia|]. split; [split; [reflexivity|exists (map spot out); auto]|]. cbn [snd]. intros i x Hx. destruct H as (_ & _ & H). rewrite H in Hx. injection Hx as Hx. apply Ad. exact (nth_error_In _ _ Hx).
    + intros g [<-|Hg]; [exists a; left; reflexivity|]. destruct (Fx g Hg) as (c & Hc). exists c. apply Ir, Hc.
    + intros g. destruct (Z.eq_dec f g) as [Efg|Ne].
      * rewrite <- Efg. exists (map spot out). split; [apply (Lst_some f _ p _ (find_head f p ix)); try assumption; reflexivity|]. split; [|rewrite map_length; exact Lo].
        intros x. rewrite in_map_iff. split; [intros (c & <- & Hc); exists c; split; [apply Hin; exact Hc|reflexivity]|intros (c & Hc & ->); exists c; split; [reflexivity|apply Hin; exact Hc]].
      * destruct (Lx' g) as (k & Lk & Ek & Nk). exists k. split; [apply (lst_find g ix); [cbn; replace (f =? g) with false by lia; reflexivity|exact Lk]|]. split; [|lia].
        intros x. rewrite (Ek x). split; intros (c & Hc & ->); exists c; (split; [|reflexivity]); [apply Ir, Hc|]. rewrite E in Hc. apply in_app_or in Hc. destruct Hc as [Hc|Hc]; [|exact Hc].
        apply in_map_iff in Hc. destruct Hc as (d & Ed & _). congruence.
Qed.
End Batch.
