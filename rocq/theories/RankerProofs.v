(** Pipelines do what their stages say. *)
From Verif Require Import Base Bytes RankModel RankerModel RankerSpec.
From Verif Require Import RecipeModel RecipeProofs.
From Coq Require Import Sorting.Sorted Permutation.

(** * Maps *)
Lemma get_put {A} k k' (v : A) m : get k' (put k v m) = if eqb_bytes k' k then Some v else get k' m.
Proof.
  induction m as [|[k1 v1] m IH]; cbn [put get].
  - reflexivity.
  - destruct (eqb_bytes k k1) eqn:E1.
    + apply eqb_bytes_eq in E1. subst k1. cbn [get]. destruct (eqb_bytes k' k); reflexivity.
    + destruct (before k k1) eqn:E2; cbn [get]; [reflexivity|].
      rewrite IH. destruct (eqb_bytes k' k1) eqn:E3; [|reflexivity]. apply eqb_bytes_eq in E3. subst k1.
      destruct (eqb_bytes k' k) eqn:E4; [|reflexivity]. apply eqb_bytes_eq in E4. subst k'. rewrite eqb_bytes_refl in E1. discriminate.
Qed.
Lemma a_map_cons {A} k (v : A) m : a_map ((k, v) :: m) <-> a_map m /\ forall k' v', In (k', v') m -> before k k' = true.
Proof.
  unfold a_map. split.
  - intros H. apply StronglySorted_inv in H. destruct H as [H1 H2]. split; [exact H1|]. intros k' v' I. rewrite Forall_forall in H2. apply (H2 (k', v') I).
  - intros [H1 H2]. constructor; [exact H1|]. apply Forall_forall. intros [k' v'] I. apply (H2 k' v' I).
Qed.
Lemma get_in {A} k (v : A) m : a_map m -> (get k m = Some v <-> In (k, v) m).
Proof.
  induction m as [|[k1 v1] m IH]; intros H; cbn [get In].
  - split; [discriminate|intros []].
  - apply a_map_cons in H. destruct H as [H1 H2]. destruct (eqb_bytes k k1) eqn:E.
    + apply eqb_bytes_eq in E. subst k1. split; [intros X; left; congruence|]. intros [X|X]; [congruence|]. apply H2 in X. rewrite before_irrefl in X. discriminate.
    + rewrite (IH H1). split; [auto|]. intros [X|X]; [|exact X]. injection X as -> ->. rewrite eqb_bytes_refl in E. discriminate.
Qed.
Lemma put_in_some {A} k (v : A) m k' v' : In (k', v') (put k v m) -> (k' = k /\ v' = v) \/ In (k', v') m.
Proof.
  induction m as [|[k1 v1] m IH]; cbn [put].
  - intros [E|[]]. left. split; congruence.
  - destruct (eqb_bytes k k1); [|destruct (before k k1)].
    + intros [E|I]; [left; split; congruence|right; right; exact I].
    + intros [E|I]; [left; split; congruence|right; exact I].
    + intros [E|I]; [right; left; exact E|]. destruct (IH I) as [X|X]; [left; exact X|right; right; exact X].
Qed.
Lemma put_a_map {A} k (v : A) m : a_map m -> a_map (put k v m).
Proof.
  induction m as [|[k1 v1] m IH]; intros H; cbn [put].
  - repeat constructor.
  - pose proof H as H0. apply a_map_cons in H. destruct H as [H1 H2]. destruct (eqb_bytes k k1) eqn:E; [|destruct (before k k1) eqn:B].
    + apply eqb_bytes_eq in E. subst k1. apply a_map_cons. split; [exact H1|exact H2].
    + apply a_map_cons. split; [exact H0|]. intros k' v' [X|X]; [injection X as -> ->; exact B|]. apply (before_trans _ _ _ B (H2 _ _ X)).
    + apply a_map_cons. split; [apply IH, H1|]. intros k' v' I. apply put_in_some in I. destruct I as [[-> ->]|I]; [|apply (H2 _ _ I)].
      apply before_total; [|exact B]. intros ->. rewrite eqb_bytes_refl in E. discriminate.
Qed.
Lemma put_sets {A} k (v : A) m : a_map m -> sets k v m (put k v m).
Proof.
  intros H. split; [apply put_a_map, H|]. intros k' v'. rewrite <- (get_in k' v' (put k v m)) by (apply put_a_map, H). rewrite get_put.
  destruct (eqb_bytes k' k) eqn:E.
  - apply eqb_bytes_eq in E. subst. split; [intros X; left; split; congruence|intros [[_ ->]|[N _]]; [reflexivity|contradiction]].
  - rewrite (get_in k' v' m H). assert (k' <> k) by (intros ->; rewrite eqb_bytes_refl in E; discriminate). split; [right; auto|intros [[X _]|[_ X]]; [contradiction|exact X]].
Qed.

(** * Adding up *)
Section Add.
Context {F : Type} (one : F) (add : F -> F -> F).
Notation weights := (list (bytes * F)).
Definition accumulate {X} (key : X -> bytes) (val : X -> F) (m : weights) (x : X) : weights :=
  match get (key x) m with None => put (key x) (val x) m | Some w => put (key x) (add w (val x)) m end.
Lemma accumulate_map {X} key val (l : list X) : forall m, a_map m -> a_map (fold_left (accumulate key val) l m).
Proof. induction l as [|x l IH]; intros m H; [exact H|]. cbn [fold_left]. apply IH. unfold accumulate. destruct (get _ m); apply put_a_map, H. Qed.
Lemma accumulate_get {X} key val (l : list X) t : forall m,
  get t (fold_left (accumulate key val) l m) =
  match get t m, map val (filter (fun x => eqb_bytes (key x) t) l) with
  | Some w, ws => Some (total add w ws)
  | None, [] => None
  | None, w :: ws => Some (total add w ws)
  end.
Proof.
  induction l as [|x l IH]; intros m; cbn [fold_left filter map].
  - destruct (get t m); reflexivity.
  - rewrite IH. unfold accumulate. destruct (eqb_bytes (key x) t) eqn:E.
    + apply eqb_bytes_eq in E. subst t. cbn [map]. destruct (get (key x) m) eqn:G; rewrite get_put, eqb_bytes_refl; reflexivity.
    + assert (E' : eqb_bytes t (key x) = false). { apply eqb_bytes_neq. intros ->. rewrite eqb_bytes_refl in E. discriminate. }
      destruct (get (key x) m); rewrite get_put, E'; reflexivity.
Qed.
Lemma total_ones n w : total add w (repeat one (S n)) = add (total add w (repeat one n)) one.
Proof. revert w. induction n as [|n IH]; intros w; [reflexivity|]. change (repeat one (S (S n))) with (one :: repeat one (S n)). cbn [total]. rewrite IH. reflexivity. Qed.
Lemma total_times n : total add one (repeat one n) = times one add (S n).
Proof. induction n as [|n IH]; [reflexivity|]. rewrite total_ones, IH. reflexivity. Qed.
Lemma filter_occurrences terms t : map (fun _ : bytes => one) (filter (fun x => eqb_bytes x t) terms) = repeat one (occurrences t terms).
Proof.
  unfold occurrences. induction terms as [|x l IH]; [reflexivity|]. cbn [filter count_occ]. destruct (list_eq_dec Z.eq_dec x t) as [->|N].
  - rewrite eqb_bytes_refl. cbn [map repeat]. rewrite IH. reflexivity.
  - rewrite (proj2 (eqb_bytes_neq _ _) N). exact IH.
Qed.
Lemma occurrences_pos t terms : In t terms <-> exists n, occurrences t terms = S n.
Proof. unfold occurrences. rewrite (count_occ_In (list_eq_dec Z.eq_dec)). split; [intros H; exists (pred (count_occ (list_eq_dec Z.eq_dec) terms t)); lia|intros [n ->]; lia]. Qed.
Theorem cook_bag terms : bag one add terms (cook_terms one add terms).
Proof.
  assert (M : a_map (cook_terms one add terms)) by (apply (accumulate_map (fun t => t) (fun _ => one)); constructor).
  split; [exact M|]. intros t w. rewrite <- (get_in t w _ M). unfold cook_terms.
  pose proof (accumulate_get (fun t : bytes => t) (fun _ => one) terms t []) as A. unfold accumulate in A. rewrite A. cbn [get].
  rewrite filter_occurrences. rewrite (occurrences_pos t terms). destruct (occurrences t terms) as [|n] eqn:O.
  - cbn [repeat]. split; [discriminate|intros [[n X] _]; discriminate].
  - cbn [repeat]. rewrite total_times. split; [intros X; split; [exists n; reflexivity|congruence]|intros [_ ->]; reflexivity].
Qed.
Theorem raw_cooked zero terms : add zero one = one -> raw_terms zero one add terms = cook_terms one add terms.
Proof.
  intros Z. unfold raw_terms, cook_terms. generalize (@nil (bytes * F)). induction terms as [|t l IH]; intros m; [reflexivity|]. cbn [fold_left].
  rewrite IH. f_equal. destruct (get t m); [reflexivity|]. rewrite Z. reflexivity.
Qed.
Theorem stem_ok stem q : stems add stem q (stem_query add stem q).
Proof.
  assert (M : a_map (stem_query add stem q)) by (apply (accumulate_map (fun tw : bytes * F => stem (fst tw)) snd); constructor).
  split; [exact M|]. intros t w. rewrite <- (get_in t w _ M). unfold stem_query.
  pose proof (accumulate_get (fun tw : bytes * F => stem (fst tw)) snd q t []) as A. unfold accumulate in A. cbv zeta. rewrite A. cbn [get].
  destruct (map snd _) as [|x ws].
  - split; [discriminate|intros (x & ws & X & _); discriminate].
  - split; [intros X; exists x, ws; split; [reflexivity|congruence]|intros (x' & ws' & X & ->); congruence].
Qed.
Lemma filter_map (f : bytes * F -> bool) q : a_map q -> a_map (filter f q).
Proof.
  induction q as [|[k v] q IH]; intros H; [exact H|]. apply a_map_cons in H. destruct H as [H1 H2]. cbn [filter]. destruct (f (k, v)); [|apply IH, H1].
  apply a_map_cons. split; [apply IH, H1|]. intros k' v' I. apply filter_In in I. apply (H2 k' v'), I.
Qed.
Lemma in_stop t stopwords : existsb (eqb_bytes t) stopwords = true <-> In t stopwords.
Proof.
  rewrite existsb_exists. split; [intros (x & I & E); apply eqb_bytes_eq in E; subst; exact I|intros I; exists t; split; [exact I|apply eqb_bytes_refl]].
Qed.
Theorem stop_ok stopwords (q : weights) : a_map q -> stops stopwords q (stop_query stopwords q).
Proof.
  intros M. unfold stop_query, stops. set (f := fun tw : bytes * F => negb (existsb (eqb_bytes (fst tw)) stopwords)).
  assert (FI : forall t w, In (t, w) (filter f q) <-> In (t, w) q /\ ~ In t stopwords).
  { intros t w. rewrite filter_In. unfold f. cbn [fst]. rewrite negb_true_iff, <- not_true_iff_false, in_stop. reflexivity. }
  destruct (filter f q) as [|[t w] l] eqn:E.
  - right. split; [|reflexivity]. intros t w I. destruct (in_dec (list_eq_dec Z.eq_dec) t stopwords) as [Y|N]; [exact Y|]. exfalso. apply (FI t w). split; assumption.
  - left. split; [|split; [rewrite <- E; apply filter_map, M|exact FI]]. exists t, w. apply FI. left. reflexivity.
Qed.
End Add.

(** * Running *)
Section Run.
Context {F : Type} (zero one : F) (add : F -> F -> F).
Notation weights := (list (bytes * F)).
Context (split wsplit : bytes -> list bytes) (stem : bytes -> bytes) (stopwords : list bytes).
Context (bm25 lmd : weights -> weights -> list (@result F)).
Context (rsj kld : list (@result F) -> weights -> weights -> res weights).
Context (Z1 : add zero one = one) (NS : split [] = []).
Context (raw : bytes) (WS : wsplit raw = split raw).
Context (MR : forall r ps q q', a_map q -> rsj r ps q = Ok q' -> a_map q' /\ (q <> [] -> q' <> [])).
Context (MK : forall r ps q q', a_map q -> kld r ps q = Ok q' -> a_map q' /\ (q <> [] -> q' <> [])).
Local Notation transform := (transform zero one add split wsplit stem stopwords bm25 lmd rsj kld).
Local Notation transforms := (transforms zero one add split wsplit stem stopwords bm25 lmd rsj kld).
Local Notation effect := (effect add stem stopwords bm25 lmd rsj kld).
Local Notation effects := (effects add stem stopwords bm25 lmd rsj kld).
Let q0 := cook_terms one add (split raw).
(** The query may not have been split yet. *)
Definition shows (c : @context F) (v : @view F) : Prop :=
  c_raw c = raw /\ c_parameters c = v_parameters v /\ c_ranking c = v_ranking v /\ a_map (v_parameters v) /\ a_map (v_query v) /\
  (c_weighted c = v_query v \/ c_weighted c = [] /\ v_query v = q0) /\ (v_query v = [] -> q0 = []).
Lemma shown_query c v ts : shows c v -> (ts = split raw) -> match c_weighted c with [] => raw_terms zero one add ts | q => q end = v_query v.
Proof.
  intros (_ & _ & _ & _ & _ & W & N) ->. destruct (c_weighted c) as [|x l]; [|destruct W as [W|[W _]]; [exact W|discriminate]].
  rewrite raw_cooked by exact Z1. fold q0. destruct W as [W|[_ W]]; [rewrite <- W; apply N; congruence|congruence].
Qed.
Lemma cook_shows c v : shows c v -> shows (RankerModel.cook one add split c) v /\ c_weighted (RankerModel.cook one add split c) = v_query v.
Proof.
  intros H. pose proof H as (R & P & K & MP & MQ & W & N). unfold RankerModel.cook. destruct (c_weighted c) as [|x l] eqn:E.
  - destruct (c_raw c) as [|b rw] eqn:ER.
    + split; [unfold shows; rewrite E; repeat split; auto; congruence|]. rewrite E. destruct W as [W|[_ W]]; [exact W|]. rewrite W. unfold q0. rewrite <- R, NS. reflexivity.
    + assert (V : v_query v = q0). { destruct W as [W|[_ W]]; [|exact W]. rewrite <- W. symmetry. apply N. congruence. }
      split; [|cbn [c_weighted]; rewrite R; symmetry; exact V]. unfold shows. cbn [c_raw c_parameters c_ranking c_weighted]. rewrite R. repeat split; auto.
  - destruct W as [W|[W _]]; [|discriminate]. split; [unfold shows; rewrite E; repeat split; auto|rewrite E; exact W].
Qed.
Lemma weighing_shows c v q' : shows c v -> a_map q' -> (q' = [] -> v_query v = []) -> shows (weighing c q') (View q' (v_parameters v) (v_ranking v)).
Proof. intros (R & P & K & MP & MQ & W & N) M NE. unfold shows. cbn. repeat split; auto. Qed.
Lemma stem_nonempty q : stem_query add stem q = [] -> q = [].
Proof.
  intros E. destruct q as [|[t w] q]; [reflexivity|]. exfalso. pose proof (stem_ok add stem ((t, w) :: q)) as [_ H]. rewrite E in H.
  specialize (H (stem t)). cbn [filter map fst snd] in H. rewrite eqb_bytes_refl in H. cbn [map] in H. specialize (H (total add w (map snd (filter (fun tw : bytes * F => eqb_bytes (stem (fst tw)) (stem t)) q)))).
  apply H. eauto.
Qed.
Lemma stop_nonempty (q : weights) : stop_query stopwords q = [] -> q = [].
Proof. unfold stop_query. destruct (filter _ q); [auto|discriminate]. Qed.
Lemma random_effect q r l : forall ps, a_map ps -> effect (Random l) (View q ps r) (View q (fold_left (fun m kv => put (fst kv) (snd kv) m) l ps) r) /\ a_map (fold_left (fun m kv => put (fst kv) (snd kv) m) l ps).
Proof.
  induction l as [|[k v] l IH]; intros ps M; [split; [constructor|exact M]|]. cbn [fold_left fst snd]. destruct (IH (put k v ps) (put_a_map k v ps M)) as [E M'].
  split; [|exact M']. apply (E_random add stem stopwords bm25 lmd rsj kld k v l q ps (put k v ps)); [apply put_sets, M|exact E].
Qed.
Lemma transform_ok s c v c' : shows c v -> transform s c = Ok c' -> exists v', effect s v v' /\ shows c' v'.
Proof.
  intros H T. destruct v as [q ps r]. pose proof H as (R & P & K & MP & MQ & W & N). cbn [v_query v_parameters v_ranking] in *.
  destruct s; cbn [transform] in T.
  - assert (c' = ranked c (bm25 (match c_weighted c with [] => raw_terms zero one add (split (c_raw c)) | q => q end) (c_parameters c))) as -> by congruence. clear T.
    rewrite (shown_query c (View q ps r) (split (c_raw c)) H) by (rewrite R; reflexivity). rewrite P. cbn [v_query]. eexists. split; [constructor|]. unfold shows. cbn. repeat split; auto.
  - assert (c' = ranked c (lmd (match c_weighted c with [] => raw_terms zero one add (wsplit (c_raw c)) | q => q end) (c_parameters c))) as -> by congruence. clear T.
    rewrite (shown_query c (View q ps r) (wsplit (c_raw c)) H) by (rewrite R; exact WS). rewrite P. cbn [v_query]. eexists. split; [constructor|]. unfold shows. cbn. repeat split; auto.
  - unfold expand in T. rewrite K in T. destruct r as [|x r0].
    + assert (c' = c) as -> by congruence. eexists. split; [apply E_kld_none|exact H].
    + destruct (cook_shows c _ H) as [H' E]. pose proof H' as (_ & P' & K' & _). cbn [v_query v_parameters v_ranking] in *. rewrite P', K', E in T. destruct (kld (x :: r0) ps q) as [q'| |] eqn:EQ; try discriminate. cbn [bind] in T.
      destruct (MK _ _ _ _ MQ EQ) as [M' NE]. exists (View q' ps (x :: r0)). split; [apply E_kld; [discriminate|exact EQ]|].
      assert (c' = weighing (RankerModel.cook one add split c) q') as -> by congruence. apply (weighing_shows _ _ q' H' M'). cbn [v_query]. intros ->. destruct q; [reflexivity|]. exfalso. apply NE; [discriminate|reflexivity].
  - unfold expand in T. rewrite K in T. destruct r as [|x r0].
    + assert (c' = c) as -> by congruence. eexists. split; [apply E_rsj_none|exact H].
    + destruct (cook_shows c _ H) as [H' E]. pose proof H' as (_ & P' & K' & _). cbn [v_query v_parameters v_ranking] in *. rewrite P', K', E in T. destruct (rsj (x :: r0) ps q) as [q'| |] eqn:EQ; try discriminate. cbn [bind] in T.
      destruct (MR _ _ _ _ MQ EQ) as [M' NE]. exists (View q' ps (x :: r0)). split; [apply E_rsj; [discriminate|exact EQ]|].
      assert (c' = weighing (RankerModel.cook one add split c) q') as -> by congruence. apply (weighing_shows _ _ q' H' M'). cbn [v_query]. intros ->. destruct q; [reflexivity|]. exfalso. apply NE; [discriminate|reflexivity].
  - destruct (cook_shows c _ H) as [H' E]. cbn [v_query] in E. assert (c' = weighing (RankerModel.cook one add split c) (stem_query add stem q)) as -> by congruence.
    exists (View (stem_query add stem q) ps r). split; [apply E_stem, stem_ok|]. apply (weighing_shows _ _ _ H'); [apply stem_ok|cbn [v_query]; apply stem_nonempty].
  - destruct (cook_shows c _ H) as [H' E]. cbn [v_query] in E. assert (c' = weighing (RankerModel.cook one add split c) (stop_query stopwords q)) as -> by congruence.
    exists (View (stop_query stopwords q) ps r). split; [apply E_stop, stop_ok, MQ|]. apply (weighing_shows _ _ _ H'); [|cbn [v_query]; apply stop_nonempty].
    destruct (stop_ok stopwords q MQ) as [(_ & M & _)|[_ ->]]; [exact M|exact MQ].
  - assert (c' = setting c (put key value ps)) as -> by congruence. exists (View q (put key value ps) r). split; [apply E_param, put_sets, MP|]. unfold shows. cbn. repeat split; auto. apply put_a_map, MP.
  - assert (c' = setting c (fold_left (fun m kv => put (fst kv) (snd kv) m) drawn ps)) as -> by congruence. destruct (random_effect q r drawn ps MP) as [E M]. eexists. split; [exact E|]. unfold shows. cbn. repeat split; auto.
Qed.
Lemma transforms_ok l : forall c v c', shows c v -> transforms l c = Ok c' -> exists v', effects l v v' /\ shows c' v'.
Proof.
  induction l as [|s l IH]; intros c v c' H T; cbn [transforms] in T.
  - assert (c' = c) as -> by congruence. exists v. split; [constructor|exact H].
  - destruct (transform s c) as [c1| |] eqn:E; try discriminate. cbn [bind] in T. destruct (transform_ok s c v c1 H E) as (v1 & X1 & H1).
    destruct (IH c1 v1 c' H1 T) as (v2 & X2 & H2). exists v2. split; [econstructor; eassumption|exact H2].
Qed.
Theorem rank_ok l ranking ps : rank zero one add split wsplit stem stopwords bm25 lmd rsj kld l raw = Ok (ranking, ps) ->
  exists q q', bag one add (split raw) q /\ effects l (View q [] []) (View q' ps ranking).
Proof.
  intros T. unfold rank in T. destruct (transforms l _) as [c| |] eqn:E; try discriminate. cbn [bind] in T.
  destruct (fun H => transforms_ok l (Context raw [] [] []) (View q0 [] []) c H E) as (v' & X & (_ & P & K & _)).
  - unfold shows. cbn. pose proof (cook_bag one add (split raw)) as [M _]. repeat split; auto. constructor.
  - exists q0, (v_query v'). split; [apply cook_bag|]. replace ps with (v_parameters v') by congruence. replace ranking with (v_ranking v') by congruence. destruct v'. exact X.
Qed.
(** It fails only if feedback does. *)
Lemma transforms_total l : (forall r ps q, r <> [] -> a_map ps -> exists q', rsj r ps q = Ok q') -> (forall r ps q, r <> [] -> a_map ps -> exists q', kld r ps q = Ok q') ->
  forall c, a_map (c_parameters c) -> exists c', transforms l c = Ok c'.
Proof.
  intros TR TK. induction l as [|s l IH]; intros c M; cbn [transforms]; [eauto|].
  assert (X : exists c1, transform s c = Ok c1 /\ a_map (c_parameters c1)).
  { assert (PC : c_parameters (RankerModel.cook one add split c) = c_parameters c) by (unfold RankerModel.cook; destruct (c_weighted c), (c_raw c); reflexivity).
    assert (RC : c_ranking (RankerModel.cook one add split c) = c_ranking c) by (unfold RankerModel.cook; destruct (c_weighted c), (c_raw c); reflexivity).
    destruct s; cbn [transform]; try (eexists; split; [reflexivity|]; cbn; rewrite ?PC; exact M).
    - unfold expand. destruct (c_ranking c) eqn:E; [eauto|]. destruct (TK (c_ranking (RankerModel.cook one add split c)) (c_parameters (RankerModel.cook one add split c)) (c_weighted (RankerModel.cook one add split c))) as (q' & ->); [rewrite RC; discriminate|rewrite PC; exact M|].
      cbn [bind]. eexists. split; [reflexivity|]. cbn. rewrite PC. exact M.
    - unfold expand. destruct (c_ranking c) eqn:E; [eauto|]. destruct (TR (c_ranking (RankerModel.cook one add split c)) (c_parameters (RankerModel.cook one add split c)) (c_weighted (RankerModel.cook one add split c))) as (q' & ->); [rewrite RC; discriminate|rewrite PC; exact M|].
      cbn [bind]. eexists. split; [reflexivity|]. cbn. rewrite PC. exact M.
    - eexists. split; [reflexivity|]. cbn. apply put_a_map, M.
    - eexists. split; [reflexivity|]. cbn. apply random_effect; [exact []|exact []|exact M]. }
  destruct X as (c1 & -> & M1). cbn [bind]. apply IH, M1.
Qed.
End Run.
