(** Building an index of texts and annotations. *)
From Verif Require Import Base HopperModel ArrayDefs GclSpec ArrayProofs UnaryProofs Bytes CodecModel CodecSpec CodecProofs PostingModel PostingSpec PostingProofs PostingIO AnnProofs
  ShardModel ShardSpec ShardProofs HazelSpec HazelProofs SingleModel SingleSpec SingleLookup SingleMerge SingleBatch SingleCommit BuildModel BuildSpec BuildMerge BuildBatch.
From Verif Require TokenModel ChunkModel PlainModel PlainSpec.
From Coq Require Import Permutation Sorted.

(** * The text does not depend on the tokens kept back *)
Lemma build_tokens_other toks : forall last b, exists w, PlainModel.b_tokens (PlainModel.build_tokens toks last b) = PlainModel.b_tokens b ++ w /\
  forall x, PlainModel.build_tokens toks last (set_tokens x b) = set_tokens (x ++ w) (PlainModel.build_tokens toks last b).
Proof.
  induction toks as [|t toks IH]; intros last b; [exists []; rewrite app_nil_r; split; [reflexivity|intros x; cbn [PlainModel.build_tokens]; rewrite app_nil_r; reflexivity]|].
  cbn [PlainModel.build_tokens].
  set (a := TokenModel.t_address t + PlainModel.b_address b). set (v := if TokenModel.t_feature t =? null_feature then [] else [(TokenModel.t_feature t, a)]).
  set (b1 := set_tokens (PlainModel.b_tokens b ++ v) b).
  assert (E1 : (if TokenModel.t_feature t =? null_feature then b else PlainModel.Builder (PlainModel.b_io b) (PlainModel.b_txt b) (PlainModel.b_address b) (PlainModel.b_offset b) (PlainModel.b_tokens b ++ [(TokenModel.t_feature t, a)])) = b1).
  { unfold b1, v. destruct (_ =? _); [rewrite app_nil_r; destruct b; reflexivity|reflexivity]. }
  assert (E2 : forall x, (if TokenModel.t_feature t =? null_feature then set_tokens x b else PlainModel.Builder (PlainModel.b_io (set_tokens x b)) (PlainModel.b_txt (set_tokens x b)) (PlainModel.b_address (set_tokens x b)) (PlainModel.b_offset (set_tokens x b)) (PlainModel.b_tokens (set_tokens x b) ++ [(TokenModel.t_feature t, a)])) = set_tokens (x ++ v) b1).
  { intros x. unfold b1, v. destruct (_ =? _); [rewrite app_nil_r; destruct b; reflexivity|reflexivity]. }
  change (PlainModel.b_address (set_tokens _ b)) with (PlainModel.b_address b). fold a.
  destruct ((a mod PlainModel.TXT_BLOCKING =? 0) && negb (a =? last)).
  - rewrite E1. match goal with |- exists w, PlainModel.b_tokens (PlainModel.build_tokens _ _ ?b2) = _ /\ _ => destruct (IH a b2) as (w & A & B); set (b3 := b2) in * end.
    exists (v ++ w). split; [rewrite A, app_assoc; reflexivity|]. intros x. rewrite app_assoc, <- B. f_equal.
    specialize (E2 x). change (PlainModel.b_address (set_tokens x b)) with (PlainModel.b_address b) in E2. rewrite E2. reflexivity.
  - rewrite E1. destruct (IH last b1) as (w & A & B). exists (v ++ w). split; [rewrite A, app_assoc; reflexivity|]. intros x. rewrite app_assoc, <- B. f_equal.
    specialize (E2 x). change (PlainModel.b_address (set_tokens x b)) with (PlainModel.b_address b) in E2. rewrite E2. reflexivity.
Qed.
Lemma add_text_other c cs held tokenize t b pq b' : PlainModel.add_text c cs held tokenize t b = Ok (pq, b') ->
  exists w, PlainModel.b_tokens b' = PlainModel.b_tokens b ++ w /\ forall x, PlainModel.add_text c cs held tokenize t (set_tokens x b) = Ok (pq, set_tokens (x ++ w) b').
Proof.
  unfold PlainModel.add_text. destruct t as [|y t].
  - intros E. injection E as <- <-. exists []. rewrite app_nil_r. split; [reflexivity|]. intros x. rewrite app_nil_r. reflexivity.
  - set (u := PlainModel.ended (y :: t)). change (PlainModel.b_io (set_tokens _ b)) with (PlainModel.b_io b).
    destruct (PlainModel.io_append c cs held u (PlainModel.b_io b)) as [w| |]; cbn [bind]; try discriminate.
    destruct (rev (tokenize u)) as [|k ks].
    + intros E. injection E as <- <-. exists []. cbn [PlainModel.b_tokens]. rewrite app_nil_r. split; [reflexivity|]. intros x. rewrite app_nil_r. reflexivity.
    + match goal with |- context [PlainModel.build_tokens (tokenize u) (-1) ?b0] => destruct (build_tokens_other (tokenize u) (-1) b0) as (v & A & B); set (b1 := b0) in * end.
      intros E. injection E as <- <-. exists v. cbn [PlainModel.b_tokens]. split; [exact A|]. intros x.
      change (PlainModel.Builder w (PlainModel.b_txt (set_tokens x b)) (PlainModel.b_address (set_tokens x b)) (PlainModel.b_offset (set_tokens x b)) (PlainModel.b_tokens (set_tokens x b))) with (set_tokens x b1).
      rewrite (B x). reflexivity.
Qed.

Section Run.
Variables cp cf : compressor.
Hypothesis stores : stores_lists cp cf.
Variable tsort : list (Z * Z) -> list (Z * Z).
Hypothesis tsorts : forall l, tok_sorted l (tsort l).
Variable sort : list annotation -> list annotation.
Hypothesis sorts : forall l, start_sorted l (sort l).
Variables tok_limit ann_limit : nat.

Definition kept_file (F : index -> Prop) (b : bytes) : Prop := exists ix, (forall o, exists m, filed cp cf o ix m b) /\ F ix.
Lemma flush_tokens_ok force toks q Bs : Forall2 (fun b B => kept_file (tok_file B) b) q Bs -> Forall tfine toks -> Z.of_nat (length toks) <= 288230376151711743 ->
  exists toks' q' Bs', flush_tokens cp cf tsort tok_limit force toks q = Ok (toks', q') /\ Forall2 (fun b B => kept_file (tok_file B) b) q' Bs' /\
    concat Bs' ++ toks' = concat Bs ++ toks /\ (force = true -> toks' = []).
Proof.
  intros H F L. unfold flush_tokens. destruct (_ || _) eqn:E.
  - destruct (tsorts toks) as [P S]. pose proof (Permutation_length P) as Lp.
    destruct (write_tokens_ok cp cf stores (length (tsort toks)) (tsort toks)) as (ix & b & W & Fd & O & Ff & Lf); [exact S|lia|rewrite Forall_forall in *; intros x Hx; apply F; exact (Permutation_in _ (Permutation_sym P) Hx)|lia|].
    rewrite W. cbn [bind]. exists [], (q ++ [b]), (Bs ++ [toks]). split; [reflexivity|]. split; [|split; [rewrite concat_app; cbn; rewrite !app_nil_r; reflexivity|reflexivity]].
    apply Forall2_app; [exact H|]. constructor; [|constructor]. exists ix. split; [exact Fd|]. split; [exact O|]. split.
    + intros f Hf. destruct (Ff f Hf) as (x & Hx). exists x. exact (Permutation_in _ (Permutation_sym P) Hx).
    + intros f. destruct (Lf f) as (l & Ll & El & Nl). exists l. split; [exact Ll|]. split; [|lia]. intros x. rewrite (El x). split; intros (a & Ha & ->); exists a; (split; [|reflexivity]); [exact (Permutation_in _ (Permutation_sym P) Ha)|exact (Permutation_in _ P Ha)].
  - exists toks, q, Bs. split; [reflexivity|]. split; [exact H|]. split; [reflexivity|]. intros ->. apply orb_false_iff in E. destruct E as [E _]. cbn in E. destruct toks; [reflexivity|discriminate].
Qed.
Lemma flush_notes_ok force l q Bs : Forall2 (fun b B => kept_file (batch_file B) b) q Bs -> Forall fine l -> apart l -> Z.of_nat (length l) <= 288230376151711743 ->
  exists l' q' Bs', flush_notes cp cf sort ann_limit force l q = Ok (l', q') /\ Forall2 (fun b B => kept_file (batch_file B) b) q' Bs' /\
    concat Bs' ++ l' = concat Bs ++ l /\ (force = true -> l' = []) /\ (l' = [] \/ l' = l) /\ (length Bs' <= length Bs + 1)%nat /\ (force = false -> (length l <= ann_limit)%nat -> Bs' = Bs).
Proof.
  intros H F A L. unfold flush_notes. destruct (_ || _) eqn:E.
  - destruct (sorts l) as [P S].
    assert (F' : Forall fine (sort l)) by (rewrite Forall_forall in *; intros x Hx; apply F; exact (Permutation_in _ (Permutation_sym P) Hx)).
    assert (A' : apart (sort l)) by (apply (apart_incl _ l); [intros x Hx; exact (Permutation_in _ (Permutation_sym P) Hx)|exact A]).
    pose proof (Permutation_length P) as Lp.
    destruct (write_batch_ok cp cf stores (length (sort l)) (sort l)) as (ix & b & W & Fd & O & Ff & Lf); [apply start_ann; assumption|lia|assumption|assumption|rewrite <- Lp; exact L|].
    rewrite W. cbn [bind]. exists [], (q ++ [b]), (Bs ++ [l]). split; [reflexivity|]. split; [|split; [|split; [|split; [|split]]]].
    + apply Forall2_app; [exact H|]. constructor; [|constructor]. exists ix. split; [exact Fd|]. split; [exact O|]. split.
      * intros f Hf. destruct (Ff f Hf) as (x & Hx & Ex). exists x. split; [exact (Permutation_in _ (Permutation_sym P) Hx)|exact Ex].
      * intros f. destruct (Lf f) as (k & Ll & El & Nl). exists k. split; [exact Ll|]. split; [|lia]. intros x. rewrite (El x). split; apply taken_perm; [symmetry|]; exact P.
    + rewrite concat_app. cbn. rewrite !app_nil_r. reflexivity.
    + reflexivity.
    + left. reflexivity.
    + rewrite app_length. cbn. lia.
    + intros -> K. cbn [andb orb] in E. apply Nat.ltb_lt in E. lia.
  - exists l, q, Bs. split; [reflexivity|]. split; [exact H|]. split; [reflexivity|]. split; [|split; [right; reflexivity|split; [lia|reflexivity]]]. intros ->. apply orb_false_iff in E. destruct E as [E _]. cbn in E. destruct l; [reflexivity|discriminate].
Qed.

Variable c : compressor.
Variable cs : Z.
Variable held : Z -> bool.
Variable tokenize : bytes -> list TokenModel.token.

(** A builder that has been given the texts of [b] and the annotations [N]. *)
Record going (b : PlainModel.builder) (N : list annotation) (s : state) (Ts : list (list (Z * Z))) (As : list (list annotation)) : Prop := {
  go_text : text s = set_tokens (PlainModel.b_tokens (text s)) b;
  go_words : concat Ts ++ PlainModel.b_tokens (text s) = PlainModel.b_tokens b;
  go_tokq : Forall2 (fun b B => kept_file (tok_file B) b) (tokq s) Ts;
  go_notes : concat As ++ notes s = N;
  go_annq : Forall2 (fun b B => kept_file (batch_file B) b) (annq s) As;
  go_few : (length N <= ann_limit)%nat -> As = [] }.
Lemma note_takes x : note_ok x -> negb (afeat x =? null_feature) && (0 <=? ip (aiv x)) && (ip (aiv x) <=? iq (aiv x)) = takes x.
Proof. unfold note_ok, takes, null_feature. intros H. replace (afeat x =? 0) with (afeat x <=? 0) by lia. reflexivity. Qed.
Lemma set_again x y b : set_tokens x (set_tokens y b) = set_tokens x b.
Proof. reflexivity. Qed.
Lemma calls_ok l : forall b rs b' s N Ts As, PlainSpec.add_all c cs held tokenize (texts l) b = Ok (rs, b') -> going b N s Ts As ->
  Forall tfine (PlainModel.b_tokens b') -> Z.of_nat (length (PlainModel.b_tokens b')) <= 288230376151711743 ->
  Forall note_ok (notes_of l) -> Forall in_range (notes_of l) -> Forall fine N -> apart (N ++ notes_of l) -> Z.of_nat (length (N ++ notes_of l)) <= 288230376151711743 ->
  exists r s' Ts' As', calls cp cf tsort sort tok_limit ann_limit c cs held tokenize l s = Ok (r, s') /\ ranges r = rs /\ going b' (N ++ filter takes (notes_of l)) s' Ts' As' /\
    Forall fine (N ++ filter takes (notes_of l)).
Proof.
  induction l as [|[t|x] l IH]; intros b rs b' s N Ts As Ea G FT LT No Ra Fn Ap Ln.
  - cbn in Ea. injection Ea as <- <-. exists [], s, Ts, As. cbn [notes_of flat_map filter]. rewrite app_nil_r. split; [reflexivity|]. split; [reflexivity|]. split; assumption.
  - cbn [texts flat_map app PlainSpec.add_all] in Ea. fold (texts l) in Ea. destruct (PlainModel.add_text c cs held tokenize t b) as [[pq b1]| |] eqn:E1; cbn [bind] in Ea; try discriminate.
    destruct (PlainSpec.add_all c cs held tokenize (texts l) b1) as [[r b2]| |] eqn:E2; cbn [bind] in Ea; try discriminate. injection Ea as <- <-.
    change (notes_of (Say t :: l)) with (notes_of l) in *.
    destruct (add_text_other c cs held tokenize t b pq b1 E1) as (w & Ew & Eo).
    assert (Pre : forall ts b b' r, PlainSpec.add_all c cs held tokenize ts b = Ok (r, b') -> exists v, PlainModel.b_tokens b' = PlainModel.b_tokens b ++ v).
    { clear. induction ts as [|t ts IH]; intros b b' r E; cbn in E; [injection E as <- <-; exists []; rewrite app_nil_r; reflexivity|].
      destruct (PlainModel.add_text c cs held tokenize t b) as [[pq b1]| |] eqn:E1; cbn [bind] in E; try discriminate.
      destruct (PlainSpec.add_all c cs held tokenize ts b1) as [[r' b2]| |] eqn:E2; cbn [bind] in E; try discriminate. injection E as <- <-.
      destruct (add_text_other c cs held tokenize t b pq b1 E1) as (w' & Ew & _). destruct (IH b1 b2 r' E2) as (v & Ev). exists (w' ++ v). rewrite Ev, Ew, app_assoc. reflexivity. }
    destruct (Pre _ _ _ _ E2) as (v & Ev). cbn [calls call1]. rewrite (go_text _ _ _ _ _ G), (Eo _). cbn [bind].
    set (toks := PlainModel.b_tokens (text s)) in *. change (PlainModel.b_tokens (set_tokens (toks ++ w) b1)) with (toks ++ w).
    assert (Inc : forall y, In y (toks ++ w) -> In y (PlainModel.b_tokens b2)).
    { intros y Hy. rewrite Ev, Ew, <- (go_words _ _ _ _ _ G). fold toks. rewrite !in_app_iff. apply in_app_or in Hy. tauto. }
    assert (Lt : (length (toks ++ w) <= length (PlainModel.b_tokens b2))%nat).
    { rewrite Ev, Ew, <- (go_words _ _ _ _ _ G). fold toks. rewrite !app_length. lia. }
    destruct (flush_tokens_ok false (toks ++ w) (tokq s) Ts (go_tokq _ _ _ _ _ G)) as (toks' & q' & Ts' & F1 & F2 & F3 & _); [rewrite Forall_forall in *; intros y Hy; apply FT, Inc, Hy|lia|].
    rewrite F1. cbn [bind]. rewrite set_again.
    destruct (IH b1 r b2 (State (set_tokens toks' b1) (notes s) q' (annq s)) N Ts' As E2) as (ra & s' & Ts2 & As2 & K1 & K2 & K3 & K4); try assumption.
    { destruct G as [G1 G2 G3 G4 G5 G6]. constructor; cbn [text notes tokq annq]; try assumption; [reflexivity|]. change (PlainModel.b_tokens (set_tokens toks' b1)) with toks'. rewrite F3, Ew, <- G2, app_assoc. reflexivity. }
    rewrite K1. cbn [bind]. exists (Some pq :: ra), s', Ts2, As2. split; [reflexivity|]. split; [cbn; rewrite <- K2; reflexivity|]. split; assumption.
  - change (texts (Note x :: l)) with (texts l) in Ea. change (notes_of (Note x :: l)) with (x :: notes_of l) in *.
    inversion No as [|? ? No1 No2]; subst. inversion Ra as [|? ? Ra1 Ra2]; subst. cbn [calls call1]. rewrite (note_takes x No1). cbn [filter]. destruct (takes x) eqn:T.
    + assert (Fx : fine x) by (unfold takes, null_feature in T; split; [lia|]; split; [lia|exact Ra1]).
      assert (Inc : incl (notes s ++ [x]) (N ++ x :: notes_of l)).
      { intros y Hy. rewrite <- (go_notes _ _ _ _ _ G). rewrite !in_app_iff in *. cbn [In] in *. tauto. }
      assert (Ls : (length (notes s) <= length N)%nat) by (rewrite <- (go_notes _ _ _ _ _ G), app_length; lia).
      assert (Fs : Forall fine (notes s ++ [x])).
      { apply Forall_app. split; [|constructor; [exact Fx|constructor]]. rewrite Forall_forall in *. intros y Hy. apply Fn. rewrite <- (go_notes _ _ _ _ _ G). apply in_or_app. right. exact Hy. }
      destruct (flush_notes_ok false (notes s ++ [x]) (annq s) As (go_annq _ _ _ _ _ G) Fs (apart_incl _ _ Inc Ap)) as (l' & q' & As' & F1 & F2 & F3 & _ & F4 & F5 & F6); [rewrite app_length in *; cbn [length] in *; lia|].
      rewrite F1. cbn [bind].
      destruct (IH b rs b' (State (text s) l' (tokq s) q') (N ++ [x]) Ts As' Ea) as (ra & s' & Ts2 & As2 & K1 & K2 & K3 & K4); try assumption.
      { destruct G as [G1 G2 G3 G4 G5 G6]. constructor; cbn [text notes tokq annq]; try assumption; [rewrite F3, app_assoc, G4; reflexivity|].
        intros K. rewrite app_length in K. cbn [length] in K. rewrite (F6 eq_refl) by (rewrite app_length; cbn [length]; lia). apply G6. lia. }
      { apply Forall_app. split; [exact Fn|]. constructor; [exact Fx|constructor]. }
      { rewrite <- app_assoc. exact Ap. }
      { rewrite <- app_assoc. exact Ln. }
      rewrite K1. cbn [bind]. exists (None :: ra), s', Ts2, As2. split; [reflexivity|]. split; [exact K2|]. rewrite <- app_assoc in K3, K4. split; assumption.
    + cbn [bind]. destruct (IH b rs b' s N Ts As Ea G) as (ra & s' & Ts2 & As2 & K1 & K2 & K3 & K4); try assumption.
      { apply (apart_incl _ (N ++ x :: notes_of l)); [|exact Ap]. intros y Hy. rewrite in_app_iff in *. cbn. tauto. }
      { rewrite app_length in *. cbn [length] in *. lia. }
      rewrite K1. cbn [bind]. exists (None :: ra), s', Ts2, As2. split; [reflexivity|]. split; [exact K2|]. split; assumption.
Qed.
End Run.
