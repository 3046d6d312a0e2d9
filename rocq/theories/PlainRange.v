(** The text of one addition. *)
From Verif Require Import Base Bytes CodecModel TokenModel PlainModel PlainSpec PlainLife.
From Verif Require TextSpec TextProofs DraftProofs.

Section Range.
Variable tokenize : bytes -> list token.
Variable skip : bytes -> Z -> Z.
Variable stop : bytes -> Prop.
Variable starts : bytes -> list Z.
Hypothesis laws : TextSpec.tokenizer_laws tokenize skip stop starts.
Lemma whole_starts_cons t us : text_ok stop t -> starts (whole (t :: us)) = starts (TextSpec.closed t) ++ map (fun o => o + len (TextSpec.closed t)) (starts (whole us)).
Proof. intros (_ & _ & H). apply (DraftProofs.closed_afresh tokenize skip stop starts laws t H). Qed.
Lemma range_text ts t us : Forall (text_ok stop) (ts ++ t :: us) -> starts (TextSpec.closed t) <> [] ->
  answers starts (whole (ts ++ t :: us)) (Translate (fst (range_of starts ts t)) (snd (range_of starts ts t))) =
  Said (skipn (Z.to_nat (lead starts (TextSpec.closed t))) (TextSpec.closed t) ++ firstn (Z.to_nat (lead starts (whole us))) (whole us)).
Proof.
  intros H Hne. apply Forall_app in H. destruct H as [H1 H2]. inversion H2 as [|? ? Ht Hus]; subst.
  cbn [answers]. f_equal. unfold range_of. rewrite (count_one starts).
  set (A := whole ts). set (B := TextSpec.closed t) in *. set (C := whole us).
  assert (ET : whole (ts ++ t :: us) = A ++ B ++ C) by (rewrite whole_app; reflexivity).
  assert (ES : starts (A ++ B ++ C) = starts A ++ map (fun x => x + len A) (starts B ++ map (fun x => x + len B) (starts C))).
  { rewrite <- ET, whole_app. fold A. rewrite (whole_afresh tokenize skip stop starts laws ts H1). f_equal. f_equal. exact (whole_starts_cons t us Ht). }
  rewrite ET, ES. unfold count. fold A. set (n := length (starts A)).
  pose proof (TextSpec.law_inside _ _ _ _ laws B) as HB. pose proof (TextSpec.law_inside _ _ _ _ laws C) as HC.
  unfold lead. destruct (starts B) as [|o os] eqn:EB; [congruence|].
  replace (Z.of_nat (length (o :: os)) =? 0) with false by (cbn [length]; lia). cbn [fst snd].
  pose proof (TextProofs.ascending_in _ _ _ o HB (or_introl eq_refl)) as Ho.
  assert (Hm : 0 <= hd (len C) (starts C) <= len C).
  { destruct (starts C) as [|m ms]; cbn [hd]; [unfold len; lia|]. pose proof (TextProofs.ascending_in _ _ _ m HC (or_introl eq_refl)). change (CodecModel.len C) with (len C) in *. lia. }
  unfold TextSpec.expected. rewrite app_length, map_length, app_length, map_length. fold n.
  set (k := length (o :: os)). assert (Hk : (0 < k)%nat) by (unfold k; cbn; lia).
  rewrite Z.max_l by lia. rewrite Z.min_l by lia.
  replace (Z.of_nat n + Z.of_nat k - 1 <? Z.of_nat n) with false by lia.
  unfold TextSpec.text_start, TextSpec.token_start. rewrite !Z.sub_0_r. rewrite Nat2Z.id.
  replace (Z.to_nat (Z.of_nat n + Z.of_nat k - 1 + 1)) with (n + k)%nat by lia.
  rewrite (app_nth2 (starts A)) by (fold n; lia). rewrite (app_nth2 (starts A)) by (fold n; lia). fold n.
  replace (n - n)%nat with 0%nat by lia. replace (n + k - n)%nat with k by lia.
  assert (E2 : nth k (map (fun x => x + len A) ((o :: os) ++ map (fun x => x + len B) (starts C))) (len (A ++ B ++ C)) = hd (len C) (starts C) + len B + len A).
  {
    rewrite map_app, app_nth2 by (rewrite map_length; unfold k; lia). rewrite map_length. fold k. rewrite Nat.sub_diag.
    destruct (starts C) as [|m ms]; cbn [map nth hd]; [|lia]. unfold len. rewrite !app_length. lia. }
  rewrite E2. change (nth 0 (map (fun x => x + len A) ((o :: os) ++ map (fun x => x + len B) (starts C))) (len (A ++ B ++ C))) with (o + len A). cbn [hd]. unfold TextSpec.between.
  replace (Z.to_nat (hd (len C) (starts C) + len B + len A - (o + len A))) with (length (skipn (Z.to_nat o) B) + Z.to_nat (hd (len C) (starts C)))%nat.
  2: { rewrite skipn_length. change (CodecModel.len B) with (len B) in Ho. unfold len in *. lia. }
  replace (Z.to_nat (o + len A)) with (length A + Z.to_nat o)%nat by (unfold len; lia).
  rewrite skipn_app, (@skipn_all2 _ (length A + Z.to_nat o) A) by lia. cbn [app]. rewrite minus_plus.
  rewrite skipn_app. change (CodecModel.len B) with (len B) in Ho. replace (Z.to_nat o - length B)%nat with 0%nat by (unfold len in *; lia). cbn [skipn].
  rewrite firstn_app_2. reflexivity.
Qed.
End Range.
