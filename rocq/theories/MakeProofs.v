(** Featurizers made from names and recipes. *)
From Verif Require Import Base Bytes HopperModel ShardModel FeatModel RecipeModel RecipeSpec RecipeProofs RecipeDna MakeModel MakeSpec.

(** * Fuel *)
Lemma get_in {A} k (m : list (bytes * A)) v : get k m = Some v -> In (k, v) m.
Proof. induction m as [|[k1 v1] m IH]; cbn; [discriminate|]. destruct (eqb_bytes k k1) eqn:E; [apply eqb_bytes_eq in E; subst; intros H; injection H as ->; auto|auto]. Qed.
Lemma unwrap_shorter p b r : unwrap p = Some (b, r) -> (length r < length p)%nat.
Proof.
  unfold unwrap. destruct (cook p) as [m|] eqn:E; [|discriminate]. destruct (get k_name m); [|discriminate]. destruct (get k_recipe m) eqn:R; [|discriminate]. intros H. injection H as _ <-. apply get_in in R. apply (proj2 (cook_spec p m E) _ _ R).
Qed.
Lemma cook_long p m : cook p = Some m -> (0 < length p)%nat.
Proof. destruct p; [discriminate|cbn; lia]. Qed.
Lemma tagging_shorter p b r t : tagging_parts p = Some (b, r, t) -> (length r < length p)%nat.
Proof.
  unfold tagging_parts. destruct (cook p) as [m|] eqn:E; [|discriminate]. destruct (get k_name m); [|discriminate]. destruct (get k_tag m); [|discriminate]. intros H. injection H as _ <- _. destruct (get k_recipe m) eqn:R; [|apply (cook_long p m E)]. apply get_in in R. apply (proj2 (cook_spec p m E) _ _ R).
Qed.
Lemma vocab_shorter p b r : p <> [] -> vocab_parts p = Some (b, r) -> (length r < length p)%nat.
Proof. intros N. unfold vocab_parts. destruct p as [|c p]; [congruence|]. destruct (cook (c :: p)); [apply unwrap_shorter|]. intros H. injection H as _ <-. cbn. lia. Qed.

Lemma check_enough n : forall n' name recipe, (length recipe + 2 <= n)%nat -> (length recipe + 2 <= n')%nat -> feat_check n name recipe = feat_check n' name recipe.
Proof.
  induction n as [|n IH]; intros [|n'] name recipe L L'; try lia. cbn [feat_check].
  destruct (eqb_bytes name [] || eqb_bytes name n_hashing); [reflexivity|]. destruct (eqb_bytes name n_tagging).
  { destruct (tagging_parts recipe) as [[[b r] t]|] eqn:E; [|reflexivity]. apply tagging_shorter in E. apply IH; lia. }
  destruct (eqb_bytes name n_vocab).
  { destruct recipe as [|c p] eqn:R; [reflexivity|]. rewrite <- R in *. destruct (vocab_parts recipe) as [[b r]|] eqn:E; [|reflexivity]. apply vocab_shorter in E; [|subst; discriminate]. apply IH; lia. }
  destruct (eqb_bytes name n_json); [|reflexivity]. destruct (unwrap recipe) as [[b r]|] eqn:E; [|reflexivity]. apply unwrap_shorter in E. apply IH; lia.
Qed.
Lemma hashing_made w v n : feat_make w v (S n) n_hashing [] = Some Hashing.
Proof. reflexivity. Qed.
Theorem make_enough w v n : forall n' name recipe, (length recipe + 2 <= n)%nat -> (length recipe + 2 <= n')%nat -> feat_make w v n name recipe = feat_make w v n' name recipe.
Proof.
  induction n as [|n IH]; intros [|n'] name recipe L L'; try lia. cbn [feat_make].
  destruct (eqb_bytes name [] || eqb_bytes name n_hashing); [reflexivity|]. destruct (eqb_bytes name n_tagging).
  { destruct (tagging_parts recipe) as [[[b r] t]|] eqn:E; [|reflexivity]. apply tagging_shorter in E. rewrite (IH n') by lia. reflexivity. }
  destruct (eqb_bytes name n_vocab).
  { destruct w; [|reflexivity]. destruct recipe as [|c p] eqn:R.
    - cbn [vocab_parts]. destruct n, n'; cbn [length] in *; try lia. rewrite !hashing_made. reflexivity.
    - rewrite <- R in *. destruct (vocab_parts recipe) as [[b r]|] eqn:E; [|reflexivity]. apply vocab_shorter in E; [|subst; discriminate]. rewrite (check_enough n n') by lia. rewrite (IH n') by lia. reflexivity. }
  destruct (eqb_bytes name n_json); [|reflexivity]. destruct (unwrap recipe) as [[b r]|] eqn:E; [|reflexivity]. apply unwrap_shorter in E. rewrite (IH n') by lia. reflexivity.
Qed.

(** * Checking and making agree *)
Lemma check_make v n : forall name recipe, (length recipe + 2 <= n)%nat -> feat_check n name recipe = true <-> exists f, feat_make true v n name recipe = Some f.
Proof.
  induction n as [|n IH]; intros name recipe L; [lia|]; cbn [feat_check feat_make].
  destruct (eqb_bytes name [] || eqb_bytes name n_hashing).
  { destruct recipe; split; try discriminate; eauto. intros [f H]. discriminate. }
  destruct (eqb_bytes name n_tagging).
  { destruct (tagging_parts recipe) as [[[b r] t]|] eqn:E; [|split; [discriminate|intros [f H]; discriminate]]. apply tagging_shorter in E. rewrite IH by lia. split; intros [f H]; [rewrite H; eauto|]. destruct (feat_make true v n b r); [eauto|discriminate]. }
  destruct (eqb_bytes name n_vocab).
  { destruct recipe as [|c p] eqn:R.
    - cbn [vocab_parts]. destruct n; cbn [length] in *; [lia|]. rewrite hashing_made. split; eauto.
    - rewrite <- R in *. destruct (vocab_parts recipe) as [[b r]|] eqn:E; [|split; [discriminate|intros [f H]; discriminate]]. apply vocab_shorter in E; [|subst; discriminate]. specialize (IH b r ltac:(lia)).
      destruct (feat_check n b r); [|split; [discriminate|intros [f H]; discriminate]]. destruct (proj1 IH eq_refl) as [f ->]. split; eauto. }
  destruct (eqb_bytes name n_json).
  { destruct (unwrap recipe) as [[b r]|] eqn:E; [|split; [discriminate|intros [f H]; discriminate]]. apply unwrap_shorter in E. rewrite IH by lia. split; intros [f H]; [rewrite H; eauto|]. destruct (feat_make true v n b r); [eauto|discriminate]. }
  destruct (eqb_bytes name n_null); split; eauto; try discriminate. intros [f H]. discriminate.
Qed.
Theorem checked_made v name recipe : featurizer_check name recipe = true <-> exists f, featurizer_make true v name recipe = Some f.
Proof. apply check_make. lia. Qed.
(** Without a working directory only recipes with a vocabulary are refused. *)
Lemma make_without v n : forall name recipe f, feat_make false v n name recipe = Some f -> feat_make true v n name recipe = Some f.
Proof.
  induction n as [|n IH]; intros name recipe f; cbn [feat_make]; [discriminate|].
  destruct (eqb_bytes name [] || eqb_bytes name n_hashing); [auto|]. destruct (eqb_bytes name n_tagging).
  { destruct (tagging_parts recipe) as [[[b r] t]|]; [|discriminate]. destruct (feat_make false v n b r) eqn:E; [|discriminate]. apply IH in E. rewrite E. auto. }
  destruct (eqb_bytes name n_vocab); [discriminate|]. destruct (eqb_bytes name n_json); [|auto].
  destruct (unwrap recipe) as [[b r]|]; [|discriminate]. destruct (feat_make false v n b r) eqn:E; [|discriminate]. apply IH in E. rewrite E. auto.
Qed.
Theorem made_without v name recipe f : featurizer_make false v name recipe = Some f -> featurizer_make true v name recipe = Some f.
Proof. apply make_without. Qed.
Theorem made_names w v name recipe f : featurizer_make w v name recipe = Some f -> In name [[]; lit "hashing"; lit "tagging"; lit "vocab"; lit "json"; lit "null"].
Proof.
  unfold featurizer_make. destruct (length recipe + 2)%nat as [|n]; cbn [feat_make In]; [discriminate|].
  destruct (eqb_bytes name []) eqn:E1; [apply eqb_bytes_eq in E1; auto|]. destruct (eqb_bytes name n_hashing) eqn:E2; [apply eqb_bytes_eq in E2; subst; auto|].
  destruct (eqb_bytes name n_tagging) eqn:E3; [apply eqb_bytes_eq in E3; subst; auto 7|]. destruct (eqb_bytes name n_vocab) eqn:E4; [apply eqb_bytes_eq in E4; subst; auto 8|].
  destruct (eqb_bytes name n_json) eqn:E5; [apply eqb_bytes_eq in E5; subst; auto 9|]. destruct (eqb_bytes name n_null) eqn:E6; [apply eqb_bytes_eq in E6; subst; auto 10|]. discriminate.
Qed.

(** * Names and recipes give the featurizer back *)
Fixpoint strip (f : featurizer) : featurizer :=
  match f with
  | Hashing => Hashing | Nothing => Nothing
  | Tagging b t => Tagging (strip b) t
  | Json g => Json (strip g)
  | Vocab g => strip g
  end.
Fixpoint conf_of (f : featurizer) : conf :=
  match f with
  | Hashing | Nothing => Str []
  | Tagging b t => Map [(k_name, Str (feat_name b)); (k_recipe, conf_of b); (k_tag, Str t)]
  | Json g => Map [(k_name, Str (feat_name g)); (k_recipe, conf_of g)]
  | Vocab g => conf_of g
  end.
Lemma strip_feature f : forall key, feature (strip f) key = feature f key.
Proof. induction f; intros key; cbn [strip feature]; auto. destruct (internal_token key); auto. Qed.
Lemma strip_back f : forall n, name_back (strip f) n = name_back f n.
Proof. induction f; intros n; cbn [strip name_back]; auto. Qed.
Lemma strip_name f : feat_name (strip f) = feat_name f.
Proof. induction f; cbn [strip feat_name]; auto. Qed.
Lemma strip_recipe f : feat_recipe (strip f) = feat_recipe f.
Proof. induction f; cbn [strip feat_recipe]; rewrite ?strip_name, ?IHf; auto. Qed.
Lemma feat_name_cases f : feat_name f = n_hashing \/ feat_name f = n_null \/ feat_name f = n_tagging \/ feat_name f = n_json.
Proof. induction f; cbn [feat_name]; auto. Qed.
Lemma feat_name_none f : cook (feat_name f) = None /\ clean (feat_name f) /\ feat_name f <> [].
Proof.
  assert (K : forall s, cook s = None -> forallb (fun c => negb (c =? 34) && negb (c =? 92) && negb (c =? 0)) s = true -> s <> [] -> cook s = None /\ clean s /\ s <> []).
  { intros s H F N. split; [exact H|]. split; [|exact N]. intros c I. rewrite forallb_forall in F. specialize (F c I). lia. }
  destruct (feat_name_cases f) as [-> | [-> | [-> | ->]]]; apply K; try reflexivity; discriminate.
Qed.
Lemma nm k : negb (eqb_bytes k []) && forallb identifier k = true -> name k.
Proof. intros H. apply andb_true_iff in H. destruct H as [H1 H2]. split; [intros ->; discriminate|]. rewrite forallb_forall in H2. exact H2. Qed.
Lemma recipe_says f : kept_tags f -> says (feat_recipe f) (conf_of f) /\ texts clean (conf_of f).
Proof.
  induction f as [| |b IH t|g IH|g IH]; cbn [kept_tags feat_recipe conf_of]; intros K.
  - split; [split; reflexivity|]. intros c [].
  - split; [split; reflexivity|]. intros c [].
  - destruct K as (C & N & K). destruct (IH K) as [S T]. destruct (feat_name_none b) as (N1 & N2 & _).
    assert (E : put k_recipe (feat_recipe b) (put k_name (feat_name b) (put k_tag t [])) = [(k_name, feat_name b); (k_recipe, feat_recipe b); (k_tag, t)]) by reflexivity.
    rewrite E. split; [|cbn; auto]. apply freeze_says; [|cbn; auto 8|cbn; auto]. cbn [ordered]. repeat split; try (apply nm; reflexivity); reflexivity.
  - destruct (IH K) as [S T]. destruct (feat_name_none g) as (N1 & N2 & N3).
    assert (E : put k_recipe (feat_recipe g) (put k_name (feat_name g) []) = [(k_name, feat_name g); (k_recipe, feat_recipe g)]) by reflexivity.
    rewrite E. destruct (feat_name g) as [|c s] eqn:G; [congruence|]. rewrite <- G in *. split; [|cbn; auto]. apply freeze_says; [|cbn; auto 8|cbn; auto]. cbn [ordered]. repeat split; try (apply nm; reflexivity); reflexivity.
  - apply IH, K.
Qed.
Lemma made w v f : forall n r, says r (conf_of f) -> (length r + 2 <= n)%nat -> feat_make w v n (feat_name f) r = Some (strip f).
Proof.
  induction f as [| |b IH t|g IH|g IH]; intros n r S L; cbn [conf_of feat_name strip] in *; (destruct n as [|n]; [lia|]).
  - destruct S as [-> _]. reflexivity.
  - destruct S as [-> _]. reflexivity.
  - destruct S as (m & E & P). destruct m as [|[k1 v1] [|[k2 v2] [|[k3 v3] [|[? ?] ?]]]]; cbn in P; try tauto. destruct P as (-> & [-> _] & -> & S & -> & [-> _] & _).
    assert (T : tagging_parts r = Some (feat_name b, v2, t)) by (unfold tagging_parts; rewrite E; reflexivity). pose proof (tagging_shorter _ _ _ _ T) as Sh.
    change (feat_make w v (Datatypes.S n) n_tagging r) with (match tagging_parts r with Some (b, r, t) => match feat_make w v n b r with Some f => Some (Tagging f t) | None => None end | None => None end).
    rewrite T, (IH n v2 S) by lia. reflexivity.
  - destruct S as (m & E & P). destruct m as [|[k1 v1] [|[k2 v2] [|[? ?] ?]]]; cbn in P; try tauto. destruct P as (-> & [-> _] & -> & S & _).
    assert (T : unwrap r = Some (feat_name g, v2)) by (unfold unwrap; rewrite E; reflexivity). pose proof (unwrap_shorter _ _ _ T) as Sh.
    change (feat_make w v (Datatypes.S n) n_json r) with (match unwrap r with Some (b, r) => match feat_make w v n b r with Some f => Some (Json f) | None => None end | None => None end).
    rewrite T, (IH n v2 S) by lia. reflexivity.
  - apply IH; [exact S|lia].
Qed.
Theorem restored w v f r : kept_tags f -> same_says (feat_recipe f) r ->
  exists g, featurizer_make w v (feat_name f) r = Some g /\ alike g f /\ feat_name g = feat_name f /\ feat_recipe g = feat_recipe f.
Proof.
  intros K S. exists (strip f). split; [apply made; [apply S, recipe_says, K|lia]|]. split; [split; [apply strip_feature|apply strip_back]|]. split; [apply strip_name|apply strip_recipe].
Qed.

(** * The vocabulary *)
Lemma unwrap_vocab r n p : unwrap r = Some (n, p) -> vocab_parts r = Some (n, p).
Proof. intros H. unfold vocab_parts. destruct r as [|c r]; [discriminate|]. pose proof H as H'. unfold unwrap in H'. destruct (cook (c :: r)); [exact H|discriminate]. Qed.
Lemma vocab_same v r n p f : vocab_parts r = Some (n, p) -> featurizer_make true v n p = Some f -> exists g, featurizer_make true v n_vocab r = Some g /\ alike g f.
Proof.
  intros V M. exists (if v then f else Vocab f). split; [|destruct v; split; reflexivity]. unfold featurizer_make. rewrite Nat.add_comm.
  change (feat_make true v (2 + length r) n_vocab r) with
    (match vocab_parts r with
     | Some (b, q) => if (match r with [] => true | _ => feat_check (S (length r)) b q end) then match feat_make true v (S (length r)) b q with Some f => Some (if v then f else Vocab f) | None => None end else None
     | None => None end).
  rewrite V. destruct r as [|c r0] eqn:R.
  - injection V as <- <-. vm_compute in M. injection M as <-. reflexivity.
  - rewrite <- R in *. assert (Sh : (length p < length r)%nat) by (apply (vocab_shorter r n p); [subst; discriminate|exact V]).
    unfold featurizer_make in M. rewrite (make_enough true v _ (S (length r))) in M by lia. rewrite M, R. replace (feat_check (S (length (c :: r0))) n p) with true; [reflexivity|]. symmetry. apply (check_make v); [subst r; cbn [length] in *; lia|]. exists f. subst r. exact M.
Qed.
Lemma times_app k a b : times k (a ++ b) = times k a + times k b.
Proof. unfold times. rewrite filter_app, app_length. lia. Qed.
Lemma counts_app a b m : fold_left vocab_count (a ++ b) m = fold_left vocab_count b (fold_left vocab_count a m).
Proof. apply fold_left_app. Qed.
Theorem vocab_counted keys k : get k (vocab_counts keys) = if times k keys =? 0 then None else Some (times k keys).
Proof.
  unfold vocab_counts. induction keys as [|x keys IH] using rev_ind; [reflexivity|]. rewrite fold_left_app, times_app. cbn [fold_left]. set (m := fold_left vocab_count keys []) in *. clearbody m.
  assert (T : 0 <= times k keys) by (unfold times; lia).
  assert (X : times k [x] = if eqb_bytes k x then 1 else 0) by (unfold times; cbn; destruct (eqb_bytes k x); reflexivity). rewrite X.
  unfold vocab_count. destruct (eqb_bytes k x) eqn:E.
  - apply eqb_bytes_eq in E. subst x. rewrite IH. replace (times k keys + 1 =? 0) with false by lia. destruct (times k keys =? 0) eqn:Z0; rewrite RecipeDna.get_put, eqb_bytes_refl; f_equal; lia.
  - rewrite Z.add_0_r. destruct (get x m); rewrite RecipeDna.get_put, E; exact IH.
Qed.
Lemma vocab_file_lines f m : forall s, vocab_file f m = Ok s -> exists ls, s = concat ls /\ Forall2 (fun l tc => exists n, feature f (fst tc) = Ok n /\ vocab_line l n (snd tc) (fst tc)) ls m.
Proof.
  induction m as [|[t c] m IH]; intros s H; cbn [vocab_file] in H; [injection H as <-; exists []; split; [reflexivity|constructor]|].
  destruct (feature f t) as [n| |] eqn:E; cbn [bind] in H; try discriminate. destruct (vocab_file f m) as [more| |]; cbn [bind] in H; try discriminate. injection H as <-. destruct (IH more eq_refl) as (ls & -> & F).
  exists ((dec n ++ lit " " ++ dec c ++ lit " " ++ t ++ [10]) :: ls). split; [cbn [concat]; rewrite <- !app_assoc; reflexivity|]. constructor; [|exact F]. exists n. split; [exact E|reflexivity].
Qed.

(** * JSON *)
Lemma structural_null f key : structural key -> feature (Json f) key = Ok null_feature.
Proof. intros (c & L & ->). cbn [feature internal_token]. replace (schar c) with (c - 256) by (unfold schar; destruct (c <? 128) eqn:Q; lia). cbn [Z.eqb Pos.eqb andb]. change (schar 144) with (-112). replace (-112 <=? c - 256) with true by lia. reflexivity. Qed.
Lemma other_wrapped f key : (forall c, key <> [239; 183; c]) -> feature (Json f) key = feature f key.
Proof.
  intros N. cbn [feature]. replace (internal_token key) with false; [reflexivity|]. symmetry. destruct key as [|a [|b [|c [|? ?]]]]; try reflexivity. cbn [internal_token].
  destruct (a =? 239) eqn:A; [|reflexivity]. destruct (b =? 183) eqn:B; [|reflexivity]. exfalso. apply (N c). f_equal; [lia|]. f_equal. lia.
Qed.
Theorem vocab_alike v r name recipe f :
  unwrap r = Some (name, recipe) \/ (cook r = None /\ r <> [] /\ name = r /\ recipe = []) \/ (r = [] /\ name = lit "hashing" /\ recipe = []) ->
  featurizer_make true v name recipe = Some f -> exists g, featurizer_make true v (lit "vocab") r = Some g /\ alike g f.
Proof.
  intros H. apply (vocab_same v r name recipe f). destruct H as [H | [(C & N & -> & ->) | (-> & -> & ->)]]; [apply unwrap_vocab, H| |reflexivity]. unfold vocab_parts. destruct r; [congruence|]. rewrite C. reflexivity.
Qed.
