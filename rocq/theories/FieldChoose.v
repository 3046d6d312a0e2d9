(** The fields that FieldStats::make chooses. *)
From Verif Require Import Base HopperModel StatsModel FieldModel FieldSpec.

Lemma pieces_add s : ~ In 9 s -> forall cur r, pieces cur (s ++ r) = pieces (cur ++ s) r.
Proof.
  induction s as [|c s IH]; intros N cur r; [rewrite app_nil_r; reflexivity|]. cbn [app pieces].
  replace (c =? 9) with false by (symmetry; apply Z.eqb_neq; intros ->; apply N; left; reflexivity).
  rewrite IH by (intros H; apply N; right; exact H). rewrite <- app_assoc. reflexivity.
Qed.
Lemma pieces_joined l : l <> [] -> Forall (fun s => ~ In 9 s) l -> pieces [] (joined l) = l.
Proof.
  intros NE H. induction H as [|s l N H IH]; [contradiction|]. destruct l as [|s' l].
  - cbn [joined]. rewrite <- (app_nil_r s) at 1. rewrite pieces_add by exact N. reflexivity.
  - change (joined (s :: s' :: l)) with (s ++ 9 :: joined (s' :: l)). rewrite pieces_add by exact N. cbn [app pieces].
    change (9 =? 9) with true. cbn iota. rewrite IH by discriminate. reflexivity.
Qed.
Lemma tokens_joined l : listing l -> tokens (joined l) = l.
Proof.
  intros (NE & H & L). unfold tokens. rewrite (pieces_joined l NE H). destruct (exists_last NE) as (r & x & ->).
  rewrite rev_app_distr. cbn [rev app]. rewrite last_last in L. destruct x as [|c x]; [|reflexivity].
  destruct L as [L|L]; [|contradiction]. rewrite app_length in L. cbn [length] in L. destruct r; [reflexivity|cbn [length] in L; lia].
Qed.
Lemma pieces_some s : forall cur, pieces cur s <> [].
Proof. induction s as [|c s IH]; intros cur; cbn [pieces]; [discriminate|]. destruct (c =? 9); [discriminate|apply IH]. Qed.
Lemma tokens_some s : tokens s <> [].
Proof.
  unfold tokens. destruct (rev (pieces [] s)) as [|[|c x] [|y r]] eqn:E; try apply pieces_some.
  intros Q. apply (f_equal (@rev word)) in Q. rewrite rev_involutive in Q. cbn [rev] in Q. discriminate.
Qed.

Lemma pieces_tab l : l <> [] -> Forall (fun s => ~ In 9 s) l -> pieces [] (joined l ++ [9]) = l ++ [[]].
Proof.
  intros NE H. induction H as [|s l N H IH]; [contradiction|]. destruct l as [|s' l].
  - cbn [joined]. rewrite pieces_add by exact N. reflexivity.
  - change (joined (s :: s' :: l)) with (s ++ 9 :: joined (s' :: l)). rewrite <- app_assoc, pieces_add by exact N. cbn [app pieces].
    change (9 =? 9) with true. cbn iota. rewrite IH by discriminate. reflexivity.
Qed.
Lemma tokens_tab l : listing l -> tokens (joined l ++ [9]) = l.
Proof.
  intros (NE & H & _). unfold tokens. rewrite (pieces_tab l NE H), rev_app_distr. cbn [rev app].
  destruct (rev l) as [|x r] eqn:E; [|rewrite <- E, rev_involutive; reflexivity].
  destruct NE. rewrite <- (rev_involutive l), E. reflexivity.
Qed.

Section Choose.
Context (stof : word -> number) (below above : Z -> bool).
Notation choose := (choose stof below above).
Notation make := (field_stats_make stof below above).

Lemma choose_all ws vs : Forall2 (fun s v => stof s = Number v /\ below v = false) ws vs -> forall i l,
  choose i ws l = match l ++ filter (fun iw => above (snd iw)) (combine (seq i (length vs)) vs) with [] => Failed | c => Made c end.
Proof.
  induction 1 as [|s v ws vs [E B] H IH]; intros i l; cbn [FieldModel.choose].
  - cbn. rewrite app_nil_r. destruct l; reflexivity.
  - rewrite E, B, IH. cbn [length seq combine filter snd]. destruct (above v); [rewrite <- app_assoc|]; reflexivity.
Qed.
Lemma choose_bad ws s : In s ws -> (stof s = Invalid \/ exists w, stof s = Number w /\ below w = true) ->
  (forall s, In s ws -> stof s <> Out_of_range) -> forall i l, choose i ws l = Failed.
Proof.
  induction ws as [|x ws IH]; intros Hs Hb HO i l; [destruct Hs|]. cbn [FieldModel.choose].
  assert (stof x <> Out_of_range) as HO' by (apply HO; left; reflexivity).
  destruct Hs as [->|Hs].
  - destruct Hb as [->|(w & -> & ->)]; reflexivity.
  - destruct (stof x) as [w| |]; [|reflexivity|contradiction]. destruct (below w); [reflexivity|].
    apply IH; [exact Hs|exact Hb|]. intros y Hy. apply HO. right. exact Hy.
Qed.

Theorem make_all qs ws vs : listing qs -> listing ws -> length ws = length qs ->
  Forall2 (fun s v => stof s = Number v /\ below v = false) ws vs ->
  make (Some (joined qs)) (Some (joined ws)) =
  match filter (fun iw => above (snd iw)) (combine (seq 0 (length vs)) vs) with [] => Failed | c => Made c end.
Proof.
  intros Hq Hw HL HF. unfold field_stats_make. rewrite (tokens_joined qs Hq), (tokens_joined ws Hw).
  destruct qs as [|q qs]; [destruct (proj1 Hq eq_refl)|]. destruct ws as [|w ws]; [destruct (proj1 Hw eq_refl)|].
  rewrite HL, Nat.eqb_refl. apply (choose_all _ _ HF 0%nat []).
Qed.
Theorem make_bad qs ws : listing qs -> listing ws -> (forall s, In s ws -> stof s <> Out_of_range) ->
  length ws <> length qs \/ (exists s, In s ws /\ (stof s = Invalid \/ exists w, stof s = Number w /\ below w = true)) ->
  make (Some (joined qs)) (Some (joined ws)) = Failed.
Proof.
  intros Hq Hw HO HB. unfold field_stats_make. rewrite (tokens_joined qs Hq), (tokens_joined ws Hw).
  destruct qs as [|q qs]; [destruct (proj1 Hq eq_refl)|]. destruct ws as [|w ws]; [destruct (proj1 Hw eq_refl)|].
  destruct (Nat.eqb_spec (length (w :: ws)) (length (q :: qs))) as [E|_]; [|reflexivity].
  destruct HB as [N|(s & Hs & Hb)]; [contradiction|]. apply (choose_bad _ s); assumption.
Qed.
Theorem make_tab qs ws : listing qs -> listing ws ->
  make (Some (joined qs ++ [9])) (Some (joined ws ++ [9])) = make (Some (joined qs)) (Some (joined ws)).
Proof.
  intros Hq Hw. unfold field_stats_make. rewrite !tokens_tab, !tokens_joined by assumption. reflexivity.
Qed.
Lemma choose_not ws : forall i l, choose i ws l <> As_df.
Proof.
  induction ws as [|s ws IH]; intros i l; cbn [FieldModel.choose]; [destruct l; discriminate|].
  destruct (stof s); try discriminate. destruct (below w); [discriminate|apply IH].
Qed.
Theorem make_not_df fields weights : make fields weights <> As_df.
Proof.
  unfold field_stats_make. destruct fields as [fields|]; [|discriminate]. destruct (tokens fields); [discriminate|].
  destruct weights as [weights|]; [|discriminate]. pose proof (tokens_some weights) as N. destruct (tokens weights) as [|s ws]; [contradiction|].
  destruct (Nat.eqb _ _); [apply choose_not|discriminate].
Qed.
Theorem make_thrown qs s : listing qs -> length qs = 1%nat -> ~ In 9 s -> stof s = Out_of_range ->
  make (Some (joined qs)) (Some s) = Thrown.
Proof.
  intros Hq HL N E. unfold field_stats_make. rewrite (tokens_joined qs Hq).
  assert (tokens s = [s]) as ->.
  { apply (tokens_joined [s]). split; [discriminate|]. split; [constructor; [exact N|constructor]|left; reflexivity]. }
  destruct qs as [|q [|]]; try discriminate HL. cbn [length Nat.eqb FieldModel.choose]. rewrite E. reflexivity.
Qed.
End Choose.
