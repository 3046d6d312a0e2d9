(** The texts of pipelines and the values of parameters. *)
From Verif Require Import Base Bytes RankModel RankerModel RankerSpec RankerProofs.
From Verif Require Import RecipeModel RecipeProofs.
From Coq Require Import Sorting.Sorted Permutation.
Local Arguments chr s%string_scope.

(** * The pieces *)
Lemma pieces_word n : Forall (fun c => is_space c = false) n -> forall w s, pieces (Some w) (n ++ s) = pieces (Some (w ++ n)) s.
Proof.
  induction n as [|c n IH]; intros H w s; [rewrite app_nil_r; reflexivity|]. apply Forall_cons_iff in H. destruct H as [H1 H2].
  cbn [app pieces]. rewrite H1, (IH H2), <- app_assoc. reflexivity.
Qed.
Lemma pieces_white w : Forall (fun c => is_space c = true) w -> forall s, pieces None (w ++ s) = pieces None s.
Proof. induction w as [|c w IH]; intros H s; [reflexivity|]. apply Forall_cons_iff in H. destruct H as [H1 H2]. cbn [app pieces]. rewrite H1. apply IH, H2. Qed.
Lemma pieces_stop v w s : white_run w -> pieces (Some v) (w ++ s) = v :: pieces None s.
Proof. intros [N H]. destruct w as [|c w]; [congruence|]. apply Forall_cons_iff in H. destruct H as [H1 H2]. cbn [app pieces]. rewrite H1. f_equal. apply pieces_white, H2. Qed.
Lemma pieces_start n s : stage_text n -> pieces None (n ++ s) = pieces (Some n) s.
Proof. intros [N H]. destruct n as [|c n]; [congruence|]. apply Forall_cons_iff in H. destruct H as [H1 H2]. cbn [app pieces]. rewrite H1. apply (pieces_word n H2 [c] s). Qed.
Lemma pieces_none names s : pipeline_of names s -> pieces None s = names.
Proof.
  induction 1 as [n H|n w H W|n w l s H W P IH].
  - rewrite <- (app_nil_r n), pieces_start, app_nil_r by exact H. reflexivity.
  - rewrite pieces_start by exact H. rewrite <- (app_nil_r w), pieces_stop by exact W. reflexivity.
  - rewrite pieces_start by exact H. rewrite pieces_stop by exact W. rewrite IH. reflexivity.
Qed.
Lemma pieces_some names s : pipeline_of names s -> pieces (Some []) s = names.
Proof.
  intros P. rewrite <- (pieces_none _ _ P). destruct s as [|c r].
  - exfalso. remember (@nil Z) as z eqn:EZ. destruct P as [n [N _]|n w [N _]|n w l s [N _]]; [congruence| |]; destruct n; [congruence|discriminate|congruence|discriminate].
  - assert (is_space c = false) as E.
    { remember (c :: r) as z eqn:EZ. destruct P as [n [N H]|n w [N H]|n w l s [N H]]; destruct n as [|b n]; try congruence; apply Forall_cons_iff in H; destruct H as [H1 _]; injection EZ as <- _; exact H1. }
    cbn [pieces]. rewrite E. reflexivity.
Qed.

Lemma get_none {A} k (m : list (bytes * A)) : get k m = None <-> ~ In k (map fst m).
Proof.
  induction m as [|[k1 v1] m IH]; cbn [get map fst In]; [tauto|]. destruct (eqb_bytes k k1) eqn:E.
  - apply eqb_bytes_eq in E. subst. split; [discriminate|tauto].
  - apply eqb_bytes_neq in E. rewrite IH. intuition congruence.
Qed.

Section F.
Context {F : Type} (default draw : bytes -> F) (stof : bytes -> option F).
Local Notation from_name := (from_name default draw stof).
Local Notation all_stages := (all_stages default draw stof).
Local Notation from_pipeline := (from_pipeline default draw stof).
Local Notation stage_named := (stage_named default draw stof).
(** * Names of stages *)
Lemma cut_at_some c s a b : cut_at c s = Some (a, b) <-> s = a ++ c :: b /\ ~ In c a.
Proof using. clear default draw stof.
  revert a b. induction s as [|x r IH]; intros a b; cbn [cut_at].
  - split; [discriminate|]. intros [E _]. destruct a; discriminate.
  - destruct (x =? c) eqn:E.
    + apply Z.eqb_eq in E. subst x. split.
      * intros X. injection X as <- <-. split; [reflexivity|intros []].
      * intros [X N]. destruct a as [|y a]; [injection X as ->; reflexivity|]. cbn in X. injection X as -> ->. exfalso. apply N. left. reflexivity.
    + apply Z.eqb_neq in E. destruct (cut_at c r) as [[a' b']|] eqn:C.
      * pose proof (proj1 (IH a' b') eq_refl) as [-> N]. split.
        -- intros X. injection X as <- <-. split; [reflexivity|]. intros [X|X]; [congruence|exact (N X)].
        -- intros [X N']. destruct a as [|y a]; [cbn in X; congruence|]. cbn in X. injection X as -> X. assert (Some (a', b') = Some (a, b)) as Y by (apply IH; split; [exact X|intros I; apply N'; right; exact I]). injection Y as -> ->; reflexivity.
      * split; [discriminate|]. intros [X N']. destruct a as [|y a]; [cbn in X; congruence|]. cbn in X. injection X as -> X. assert (@None (bytes * bytes) = Some (a, b)) as Y by (apply IH; split; [exact X|intros I; apply N'; right; exact I]). discriminate.
Qed.
Lemma cut_at_none c s : cut_at c s = None <-> ~ In c s.
Proof using. clear default draw stof.
  induction s as [|x r IH]; cbn [cut_at]; [split; [intros _ []|reflexivity]|]. destruct (x =? c) eqn:E.
  - apply Z.eqb_eq in E. split; [discriminate|]. intros N. exfalso. apply N. left. exact E.
  - apply Z.eqb_neq in E. destruct (cut_at c r) as [[a b]|].
    + split; [discriminate|]. intros N. assert (~ In c r) as X by (intros I; apply N; right; exact I). apply IH in X. discriminate.
    + split; [|reflexivity]. intros _ [X|X]; [congruence|]. revert X. apply IH. reflexivity.
Qed.
Lemma put_all_in (value : bytes -> F) names : forall m, a_map m -> a_map (fold_left (fun m k => put k (value k) m) names m) /\
  forall k v, In (k, v) (fold_left (fun m k => put k (value k) m) names m) <-> (In k names /\ v = value k) \/ (~ In k names /\ In (k, v) m).
Proof using. clear default draw stof.
  induction names as [|n l IH]; intros m M; cbn [fold_left].
  - split; [exact M|]. intros k v. cbn [In]. tauto.
  - destruct (IH (put n (value n) m) (put_a_map _ _ _ M)) as [M' I]. split; [exact M'|]. intros k v. rewrite I. destruct (put_sets n (value n) m M) as [_ J]. rewrite J. cbn [In].
    destruct (list_eq_dec Z.eq_dec n k) as [->|N]; [|assert (k <> n) by congruence; tauto]. destruct (in_dec (list_eq_dec Z.eq_dec) k l); tauto.
Qed.
Lemma depth_no_name ranker names : parameter_names ranker = Some names -> ~ In (lit "depth") names.
Proof using. clear default draw stof.
  unfold parameter_names. cbn [get]. repeat (match goal with |- context [eqb_bytes ?a ?b] => destruct (eqb_bytes a b) end; [intros E; injection E as <-; vm_compute; intuition discriminate|]). discriminate.
Qed.
Lemma drawn_ok ranker m : ranker_parameters default draw ranker = Some m <-> drawn_for default draw ranker m.
Proof.
  unfold ranker_parameters, drawn_for. destruct (parameter_names ranker) as [names|] eqn:E.
  - destruct (put_all_in draw names [] ltac:(constructor)) as [M I].
    destruct (put_sets (lit "depth") (default (lit "depth")) _ M) as [M' J]. set (m0 := put (lit "depth") _ _) in *.
    assert (S : forall k v, In (k, v) m0 <-> (k = lit "depth" /\ v = default k) \/ (In k names /\ v = draw k)).
    { intros k v. rewrite J, I. cbn [In]. pose proof (depth_no_name _ _ E) as N. split.
      - intros [[-> ->]|[A [B|[_ []]]]]; auto.
      - intros [[-> ->]|[A B]]; [left; auto|]. right. split; [intros ->; contradiction|auto]. }
    split.
    + intros X. assert (m = m0) as -> by congruence. exists names. split; [reflexivity|split; [exact M'|exact S]].
    + intros (names' & X & M2 & I2). assert (names' = names) as -> by congruence. f_equal.
      assert (U : forall a b : list (bytes * F), a_map a -> a_map b -> (forall k v, In (k, v) a <-> In (k, v) b) -> a = b).
      { clear. induction a as [|[k v] a IH]; intros b A B H.
        - destruct b as [|[k v] b]; [reflexivity|]. exfalso. apply (proj2 (H k v)). left. reflexivity.
        - destruct b as [|[k' v'] b]; [exfalso; apply (proj1 (H k v)); left; reflexivity|].
          pose proof A as A0. pose proof B as B0. apply a_map_cons in A. apply a_map_cons in B. destruct A as [A1 A2], B as [B1 B2].
          assert (k = k' /\ v = v') as [-> ->].
          { destruct (proj1 (H k v) ltac:(left; reflexivity)) as [X|X]; [split; congruence|].
            destruct (proj2 (H k' v') ltac:(left; reflexivity)) as [Y|Y]; [split; congruence|].
            apply B2 in X. apply A2 in Y. pose proof (before_trans _ _ _ X Y) as T. rewrite before_irrefl in T. discriminate. }
          f_equal. apply (IH b A1 B1). intros k2 v2. split; intros X.
          + destruct (proj1 (H k2 v2) ltac:(right; exact X)) as [Y|Y]; [|exact Y]. injection Y as <- <-. apply A2 in X. rewrite before_irrefl in X. discriminate.
          + destruct (proj2 (H k2 v2) ltac:(right; exact X)) as [Y|Y]; [|exact Y]. injection Y as <- <-. apply B2 in X. rewrite before_irrefl in X. discriminate. }
      apply (U m0 m M' M2). intros k v. rewrite S, I2. reflexivity.
  - split; [discriminate|]. intros (names & X & _). discriminate.
Qed.
Theorem from_name_ok n s : from_name n = Some s <-> stage_named n s.
Proof.
  unfold RankerModel.from_name. destruct (cut_at (chr "=") n) as [[key value]|] eqn:C.
  - apply cut_at_some in C. destruct C as [-> N]. split.
    + destruct key as [|a key]; [discriminate|]. destruct value as [|b value]; [discriminate|]. destruct (stof (b :: value)) as [v|] eqn:V; [|discriminate].
      intros X. injection X as <-. change (chr "=" :: b :: value) with (lit "=" ++ b :: value). apply N_param; [discriminate|exact N|discriminate|exact V].
    + intros H. inversion H as [E|E|E|E|E|E|k t v K NK T V E|r m NR D E].
      1-6: exfalso; assert (I : In (chr "=") (key ++ chr "=" :: value)) by (apply in_or_app; right; left; reflexivity); rewrite <- E in I; vm_compute in I; intuition discriminate.
      * change (lit "=" ++ t) with (chr "=" :: t) in E.
        assert (Some (key, value) = Some (k, t)) as X. { rewrite <- (proj2 (cut_at_some (chr "=") (key ++ chr "=" :: value) key value)) by auto. apply cut_at_some. split; [symmetry; exact E|exact NK]. }
        injection X as -> ->. destruct k; [congruence|]. destruct t; [congruence|]. rewrite V. reflexivity.
      * exfalso. assert (I : In (chr "=") (key ++ chr "=" :: value)) by (apply in_or_app; right; left; reflexivity). rewrite <- E in I. change (In (chr "=") (lit "random:" ++ r)) in I. apply in_app_or in I. destruct I as [I|I]; [vm_compute in I; intuition discriminate|exact (NR I)].
  - apply cut_at_none in C. destruct (cut_at (chr ":") n) as [[name argument]|] eqn:C2.
    + apply cut_at_some in C2. destruct C2 as [-> N2]. split.
      * destruct (eqb_bytes name (lit "random")) eqn:E; [|discriminate]. apply eqb_bytes_eq in E. subst name. destruct (ranker_parameters default draw argument) as [m|] eqn:R; [|discriminate].
        cbn [option_map]. intros X. injection X as <-. change (lit "random" ++ chr ":" :: argument) with (lit "random:" ++ argument). apply N_random; [|apply drawn_ok, R].
        intros I. apply C. apply in_or_app. right. right. exact I.
      * intros H. inversion H as [E|E|E|E|E|E|k t v K NK T V E|r m NR D E].
        1-6: exfalso; assert (I : In (chr ":") (name ++ chr ":" :: argument)) by (apply in_or_app; right; left; reflexivity); rewrite <- E in I; vm_compute in I; intuition discriminate.
        -- exfalso. apply C. rewrite <- E. apply in_or_app. right. left. reflexivity.
        -- assert (Some (name, argument) = Some (lit "random", r)) as X. { rewrite <- (proj2 (cut_at_some (chr ":") (name ++ chr ":" :: argument) name argument)) by auto. apply cut_at_some. split; [symmetry; exact E|vm_compute; intuition discriminate]. }
           injection X as -> ->. rewrite eqb_bytes_refl. apply drawn_ok in D. rewrite D. reflexivity.
    + apply cut_at_none in C2. split.
      * cbn [get]. repeat (match goal with |- context [eqb_bytes n ?b] => destruct (eqb_bytes n b) eqn:?E end; [match goal with E : eqb_bytes _ _ = true |- _ => apply eqb_bytes_eq in E; subst n end; intros X; injection X as <-; constructor|]). discriminate.
      * intros H. inversion H as [E|E|E|E|E|E|k t v K NK T V E|r m NR D E]; subst n; try reflexivity; exfalso.
        -- apply C. apply in_or_app. right. left. reflexivity.
        -- apply C2. apply in_or_app. left. vm_compute. auto 10.
Qed.
Lemma all_stages_ok l : forall ss, all_stages l = Some ss <-> Forall2 stage_named l ss.
Proof.
  induction l as [|t r IH]; intros ss; cbn [RankerModel.all_stages].
  - split; [intros X; injection X as <-; constructor|intros H; inversion H; reflexivity].
  - split.
    + destruct (from_name t) as [s|] eqn:E; [|discriminate]. destruct (all_stages r) as [ss'|] eqn:A; [|discriminate]. intros X. injection X as <-. constructor; [apply from_name_ok, E|apply IH; reflexivity].
    + intros H. inversion H as [|? s ? ss' H1 H2]; subst. apply from_name_ok in H1. rewrite H1. apply IH in H2. rewrite H2. reflexivity.
Qed.
Theorem pipeline_ok names s ss : pipeline_of names s -> (from_pipeline s = Some ss <-> Forall2 stage_named names ss).
Proof. intros P. unfold RankerModel.from_pipeline. rewrite (pieces_some _ _ P). apply all_stages_ok. Qed.
Theorem pipeline_leading w s : white_run w -> from_pipeline (w ++ s) = None.
Proof. intros W. unfold RankerModel.from_pipeline. rewrite pieces_stop by exact W. reflexivity. Qed.
Theorem pipeline_empty : from_pipeline [] = None.
Proof. reflexivity. Qed.

(** * Parameters *)
Theorem parameter_ok ranker name ps names : a_map ps -> parameter_names ranker = Some names ->
  (In (ranker ++ lit ":" ++ name) names \/ name = lit "depth") ->
  exists v, ranking_parameter default ranker name ps = Ok v /\ parameter_value default ranker name ps v.
Proof using default. clear draw stof.
  intros M P K. unfold ranking_parameter, parameter_value. set (full := ranker ++ lit ":" ++ name) in *.
  destruct (get full ps) as [v|] eqn:G1; [apply (get_in full v ps M) in G1; eauto|]. pose proof (proj1 (get_none _ _) G1) as N1.
  destruct (get name ps) as [v|] eqn:G2; [apply (get_in name v ps M) in G2; eauto 10|]. pose proof (proj1 (get_none _ _) G2) as N2.
  destruct (ranker_parameters default default ranker) as [d|] eqn:R; [|unfold ranker_parameters in R; rewrite P in R; discriminate].
  pose proof (depth_no_name _ _ P) as ND. unfold ranker_parameters in R. rewrite P in R.
  destruct (put_all_in default names [] ltac:(constructor)) as [M0 I0]. destruct (put_sets (lit "depth") (default (lit "depth")) _ M0) as [M' J].
  assert (d = put (lit "depth") (default (lit "depth")) (fold_left (fun m k => put k (default k) m) names [])) as -> by congruence. clear R.
  set (d := put _ _ _) in *.
  assert (S : forall k v, get k d = Some v <-> (k = lit "depth" /\ v = default k) \/ (k <> lit "depth" /\ In k names /\ v = default k)).
  { intros k v. rewrite (get_in k v d M'), J, I0. cbn [In]. split; [intros [[-> ->]|[A [B|[_ []]]]]; tauto|intros [[-> ->]|[A B]]; tauto]. }
  destruct (in_dec (list_eq_dec Z.eq_dec) full names) as [Y|N].
  - rewrite (proj2 (S full (default full))) by (right; split; [intros X; rewrite X in Y; contradiction|auto]). exists (default full). split; [reflexivity|]. right. right. repeat split; auto. exists names. auto.
  - destruct K as [K|K]; [contradiction|]. assert (FN : full <> lit "depth").
    { intros X. unfold full in X. assert (I : In (chr ":") (ranker ++ lit ":" ++ name)) by (apply in_or_app; right; left; reflexivity). rewrite X in I. vm_compute in I. intuition discriminate. }
    destruct (get full d) as [v|] eqn:G; [exfalso; apply S in G; destruct G as [[X _]|(_ & X & _)]; contradiction|].
    rewrite (proj2 (S name (default name))) by (left; auto). exists (default name). split; [reflexivity|]. right. right. repeat split; auto. exists names. split; [exact P|]. right. auto.
Qed.
End F.
