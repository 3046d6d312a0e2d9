(** Foraging as a whole, and reading what it leaves. *)
From Verif Require Import Base Bytes RecipeModel HopperModel GclSpec HopperProofs ArrayProofs UnaryProofs AnswerProofs PostingModel
  VectorModel RankModel RankSpec RankSsr RankTop StatsModel StatsSpec StatsHopper StatsProofs StatsTop StatsSum
  ForagerModel ForagerSpec ForageModel ForageSpec ForageProofs ForageTop.

Lemma forager_label_some name tag : forager_label name tag <> [].
Proof.
  unfold forager_label. destruct (_ ++ _) eqn:E; [discriminate|]. rewrite <- E. rewrite E. discriminate.
Qed.
Section Run.
Context (split : Z -> Z -> list word) (stem : word -> word) (featurize : word -> Z) (label : word) (word_at : Z -> word) (place : iv).
Context (intervals : list iv) (G : gclist intervals) (A : words_align word_at split intervals) (B : total_length intervals <= maxf).
Notation worker := (worker split stem featurize label true place intervals).
Notation workers := (workers split stem featurize label true place intervals).
Notation part_notes := (part_notes stem featurize label word_at).

Lemma total_piece s : total_length (piece intervals s) <= maxf.
Proof.
  assert (P : forall l, (forall x, In x l -> In x intervals) -> 0 <= total_length l).
  { intros l H. apply total_length_pos. intros x Hx. apply (gclist_finite _ x G), H, Hx. }
  assert (E : intervals = firstn (fst s) intervals ++ piece intervals s ++ skipn (snd s) (skipn (fst s) intervals)).
  { unfold piece. rewrite firstn_skipn, firstn_skipn. reflexivity. }
  pose proof B as B'. rewrite E in B' at 1. rewrite !total_length_app in B'.
  assert (0 <= total_length (firstn (fst s) intervals)) by (apply P; intros x Hx; rewrite <- (firstn_skipn (fst s) intervals), in_app_iff; auto).
  assert (0 <= total_length (skipn (snd s) (skipn (fst s) intervals))).
  { apply P. intros x Hx. rewrite E, !in_app_iff. auto. }
  lia.
Qed.
Lemma piece_gclist s : gclist (piece intervals s).
Proof.
  pose proof G as G'. rewrite <- (firstn_skipn (fst s) intervals) in G'. apply gclist_app in G'. destruct G' as [_ G'].
  rewrite <- (firstn_skipn (snd s) (skipn (fst s) intervals)) in G'. apply gclist_app in G'. exact (proj1 G').
Qed.
(** Whether the calls of a worker succeed. *)
Definition fine (first : bool) (c : calls) : bool :=
  c_clone c && c_transaction c && (negb first || c_label c) && c_annotate c && c_ready c.
Lemma worker_ok s c : (fst s + snd s <= length intervals)%nat -> (1 <= snd s)%nat ->
  worker (Some c) (fst s) (snd s) = Ok (if fine (Nat.eqb (fst s) 0) c
    then Committed ((if Nat.eqb (fst s) 0 then label_notes featurize label place else []) ++ part_notes (piece intervals s)) else Failed).
Proof.
  intros L N. unfold ForageModel.worker, fine.
  destruct (c_clone c); cbn [negb andb]; [|reflexivity]. destruct (c_transaction c); cbn [negb andb]; [|reflexivity].
  set (first := Nat.eqb (fst s) 0). replace (first && negb (c_label c)) with (negb (negb first || c_label c)) by (destruct first, (c_label c); reflexivity).
  destruct (negb first || c_label c) eqn:Q; cbn [negb andb]; [|reflexivity].
  destruct (forage_range_ok split stem featurize label word_at intervals (snd s) (fst s) [] new_gatherer) as (g & -> & Hg).
  - unfold gather, new_gatherer. cbn. repeat split; auto. intros t x. discriminate.
  - exact L.
  - intros d Hd. split; [apply (gclist_finite _ d G Hd)|apply A, Hd].
  - cbn [app]. apply total_piece.
  - cbn [app bind] in *. fold (piece intervals s) in Hg. rewrite (gathered_ok split stem featurize label word_at _ _ Hg (piece_gclist s)).
    destruct (c_annotate c); cbn [negb]; [|reflexivity].
    destruct (piece intervals s) eqn:E.
    { exfalso. apply (f_equal (@length iv)) in E. unfold piece in E. rewrite firstn_length, skipn_length in E. cbn [length] in E. lia. }
    destruct (c_ready c); reflexivity.
Qed.
(** How a worker ends. *)
Definition end_of (s : nat * nat) (c : option calls) : ending :=
  match c with
  | None => Skipped
  | Some c => if fine (Nat.eqb (fst s) 0) c
      then Committed ((if Nat.eqb (fst s) 0 then label_notes featurize label place else []) ++ part_notes (piece intervals s)) else Failed
  end.
Lemma workers_ok l : forall cs, length cs = length l -> (forall s, In s l -> (fst s + snd s <= length intervals)%nat /\ (1 <= snd s)%nat) ->
  workers cs l = Ok (map (fun x => end_of (fst x) (snd x)) (combine l cs)).
Proof.
  induction l as [|s l IH]; intros [|c cs] L H; try discriminate; [reflexivity|]. cbn [combine map fst snd].
  destruct (H s (or_introl eq_refl)) as [H1 H2].
  assert (W : worker c (fst s) (snd s) = Ok (end_of s c)) by (destruct c as [c|]; [apply worker_ok; assumption|reflexivity]).
  destruct s as [a n]. cbn [fst snd] in W. unfold ForageModel.workers. fold workers. rewrite W. cbn [bind]. rewrite IH; [reflexivity|cbn [length] in L; lia|].
  intros s Hs. apply H. right. exact Hs.
Qed.
Context (threads : nat) (T : (1 <= threads <= length intervals)%nat) (cs : list (option calls)) (LC : length cs = threads) (LN : label <> []).
Definition ends : list ending := map (fun x => end_of (fst x) (snd x)) (combine (shares threads (length intervals)) cs).
Lemma forage_ends : forage split stem featurize label true place intervals threads cs =
  Ok (forallb (fun e => match e with Failed => false | _ => true end) ends, ends).
Proof.
  unfold forage. destruct intervals as [|x l] eqn:E; [cbn [length] in T; lia|]. rewrite <- E in *. rewrite workers_ok.
  - reflexivity.
  - unfold shares. rewrite shares_length, LC. reflexivity.
  - intros s Hs. eapply shares_in; eassumption.
Qed.
(** If none failed and none was skipped, all have committed. *)
Lemma all_committed : (forall e, In e ends -> e <> Failed /\ e <> Skipped) ->
  exists parts, ends = map Committed parts /\ statistics_in_parts stem featurize word_at label place intervals (concat parts).
Proof.
  intros H. destruct (shares_first threads (length intervals) T) as (n & r & E & Hr).
  assert (LS : length (shares threads (length intervals)) = length cs) by (unfold shares; rewrite shares_length; auto).
  exists (map (fun s => (if Nat.eqb (fst s) 0 then label_notes featurize label place else []) ++ part_notes (piece intervals s)) (shares threads (length intervals))).
  split.
  - unfold ends in *. clear E Hr T LC. revert cs LS H. generalize (shares threads (length intervals)). induction l as [|s l IH]; intros [|c cs'] LS H; try discriminate; [reflexivity|].
    cbn [combine map fst snd] in *. f_equal; [|apply IH; [cbn [length] in LS; lia|]; intros e He; apply H; right; exact He].
    destruct (H _ (or_introl eq_refl)) as [H1 H2]. unfold end_of in *. destruct c as [c|]; [|congruence]. destruct (fine _ c); [reflexivity|congruence].
  - pose proof (shares_concat intervals threads ltac:(lia)) as SC.
    assert (M : concat (map (fun s => (if Nat.eqb (fst s) 0 then label_notes featurize label place else []) ++ part_notes (piece intervals s)) (shares threads (length intervals))) =
      label_notes featurize label place ++ concat (map part_notes (map (piece intervals) (shares threads (length intervals))))).
    { rewrite E. cbn [map concat fst Nat.eqb]. rewrite <- app_assoc. f_equal. f_equal. f_equal. rewrite map_map. apply map_ext_in.
      intros s Hs. specialize (Hr s Hs). destruct (fst s); [lia|]. reflexivity. }
    rewrite M. replace intervals with (concat (map (piece intervals) (shares threads (length intervals)))) at 1 by exact SC. apply parts_ok; auto.
    + rewrite E. discriminate.
    + intros p Hp. apply in_map_iff in Hp. destruct Hp as (s & <- & Hs). pose proof (shares_in _ _ _ T Hs) as [X Y]. intros Q.
      apply (f_equal (@length iv)) in Q. unfold piece in Q. rewrite firstn_length, skipn_length in Q. cbn [length] in Q. lia.
    + rewrite SC. exact G.
Qed.
Lemma answer_iff : forallb (fun e => match e with Failed => false | _ => true end) ends = true <-> ~ In Failed ends.
Proof.
  rewrite forallb_forall. split.
  - intros H I. apply H in I. discriminate.
  - intros H e I. destruct e; auto.
Qed.
Lemma calls_end c : (forall x, In x cs -> x = Some c) -> fine true c = true -> forall e, In e ends -> e <> Failed /\ e <> Skipped.
Proof.
  intros H F e He. apply in_map_iff in He. destruct He as ([s x] & <- & Hs). apply in_combine_r in Hs. rewrite (H _ Hs). cbn [fst snd end_of].
  assert (fine (Nat.eqb (fst s) 0) c = true) as ->; [|split; discriminate]. unfold fine in *. destruct (c_label c); [|cbn in F; rewrite ?andb_false_r in F; discriminate].
  rewrite orb_true_r in *. exact F.
Qed.
End Run.

(** Foraging. *)
Theorem forage_ok split stem featurize name tag word_at place intervals threads cs :
  gclist intervals -> words_align word_at split intervals -> total_length intervals <= maxf ->
  (1 <= threads <= length intervals)%nat -> length cs = threads ->
  exists answer es, forage split stem featurize (forager_label name tag) true place intervals threads cs = Ok (answer, es) /\
  ((In Skipped es -> In Failed es) -> answer = true ->
     exists parts, es = map Committed parts /\ statistics_in_parts stem featurize word_at (forager_label name tag) place intervals (concat parts)) /\
  ((forall x, In x cs -> x = Some (Calls true true true true true)) -> answer = true).
Proof.
  intros G A B T L. eexists _, _. split; [apply (forage_ends split stem featurize _ word_at place intervals G A B threads T cs L)|].
  assert (LN := forager_label_some name tag). split.
  - intros S E. apply answer_iff in E. eapply all_committed; eauto. intros e He. split; [congruence|]. intros ->. auto.
  - intros H. apply answer_iff. intros F. apply (calls_end stem featurize (forager_label name tag) word_at place intervals threads cs _ H eq_refl) in F. tauto.
Qed.
(** More workers than intervals. *)
Theorem few_intervals split stem featurize label place intervals threads cs c :
  (length intervals < threads)%nat -> (1 <= length intervals)%nat -> hd_error cs = Some (Some c) -> c_clone c = true -> c_transaction c = true -> c_label c = true -> c_annotate c = true ->
  forall answer es, forage split stem featurize label true place intervals threads cs = Ok (answer, es) -> In Stops es.
Proof.
  intros L P H C1 C2 C3 C4 answer es. unfold forage. destruct intervals as [|x l]; [cbn [length] in P; lia|].
  unfold shares. rewrite Nat.div_small by exact L. destruct threads as [|[|t]]; [lia|cbn [length] in L; lia|].
  change (shares_from (S (S t)) 0 (length (x :: l)) 0) with ((0%nat, 0%nat) :: shares_from (S t) 0 (length (x :: l)) (0 + 0)).
  destruct cs as [|c0 cs]; [discriminate|]. cbn [hd_error] in H. injection H as ->. cbn [workers]. unfold worker at 1.
  rewrite C1, C2, C3. cbn [negb Nat.eqb andb forage_range bind]. rewrite C4. cbn [negb]. unfold gathered, new_gatherer. cbn [g_min]. rewrite Z.eqb_refl.
  destruct (workers _ _ _ _ _ _ _ cs _) as [es'| |]; cbn [bind]; intros E; try discriminate. injection E as <- <-. left. reflexivity.
Qed.

(** * Reading *)
Lemma tau_one T t x : answers T t (set_of [x]) -> finite x -> exists t', h_tau T t (minf + 1) = Ok (t', x).
Proof.
  intros H F. apply answers_iff in H. destruct H as (I & H & It). inf. pose proof (hop_tau H t (minf + 1) It ltac:(unfold minf, maxf; lia)) as W.
  destruct (h_tau T t (minf + 1)) as [[t' r]| |]; try contradiction. destruct W as [_ W]. exists t'. do 2 f_equal.
  unfold finite in F. destruct W as [[E _]|[_ [(Hr & _)|[-> M]]]]; [unfold minf in *; lia| |].
  - destruct Hr as [<-|[]]. reflexivity.
  - specialize (M _ (or_introl eq_refl)). unfold minf in *. lia.
Qed.
(** The default queries, and that all that is named is known. *)
Definition container_of (ps : params) : bytes := or_else (lit ":") (RecipeModel.get (lit "container") ps).
Theorem read_ok stem featurize word_at place items notes tag index translate (queries stemmers tokenizers : bytes -> bool) ps gcl t :
  statistics_in_parts stem featurize word_at (forager_label (lit "tf-idf") tag) place items notes -> indexed index notes ->
  gclist items -> items <> [] -> Z.of_nat (length items) <= maxf -> total_length items <= maxf ->
  no_clash featurize (label_keys (forager_label (lit "tf-idf") tag) (t :: flat_map (words_of word_at stem) items)) ->
  finite place -> json2forager (translate (ip place) (iq place)) = Ok (Some (lit "tf-idf", tag, ps)) ->
  RecipeModel.get (lit "gcl") ps = Some gcl -> queries gcl = true -> queries (container_of ps) = true ->
  stemmers (or_else (lit "porter") (RecipeModel.get (lit "stemmer") ps)) = true -> tokenizers (or_else (lit "ascii") (RecipeModel.get (lit "tokenizer") ps)) = true ->
  stats_make index translate featurize queries stemmers tokenizers tag =
    Ok (Some (Stats (or_else (lit ":0:") (RecipeModel.get (lit "id") ps)) gcl (container_of ps) (Z.of_nat (length items)) (total_length items))).
Proof.
  intros H HI G NE B1 B2 NC FP J Gg Q1 Q2 Q3 Q4. destruct (H t NC) as (_ & _ & E3 & E4 & HG & EL). unfold stats_make.
  set (label := forager_label (lit "tf-idf") tag) in *.
  assert (G1 : gclist [Iv (ip place) (iq place) 0]). { cbn. unfold finite in *. cbn [ip iq]. repeat split; tauto. }
  pose proof (HI (featurize (64 :: label))) as A0. rewrite EL in A0. specialize (A0 G1).
  destruct (tau_one _ _ _ A0 FP) as (h' & ->). cbn [bind ip iq].
  replace (ip place =? maxf) with false by (unfold finite in FP; lia). rewrite J. cbn [bind]. rewrite Gg.
  assert (EQ : forall x : bytes, eqb_bytes x x = true) by (intros x; apply eqb_bytes_refl).
  rewrite !EQ. cbn [andb negb]. unfold container_of in *. rewrite Q1, Q2, Q3, Q4. cbn [andb negb].
  destruct (HG total_items_word ltac:(right; left; reflexivity)) as [GI VI].
  destruct (HG total_length_word ltac:(right; right; left; reflexivity)) as [GL VL].
  rewrite (sum_all _ _ _ (HI _ GI) GI VI) by lia. cbn [bind]. rewrite E3.
  assert (P1 : 1 <= Z.of_nat (length items)) by (destruct items; [congruence|cbn [length]; lia]).
  replace (Z.of_nat (length items) <? 1) with false by lia.
  rewrite (sum_all _ _ _ (HI _ GL) GL VL) by lia. cbn [bind]. rewrite E4.
  assert (P2 : 1 <= total_length items).
  { destruct items as [|x l]; [congruence|]. rewrite total_length_cons. pose proof (gclist_finite _ x G (or_introl eq_refl)) as F. unfold finite in F.
    assert (0 <= total_length l) by (apply total_length_pos; intros d Hd; apply (gclist_finite _ d G); right; exact Hd). lia. }
  replace (total_length items <? 1) with false by lia. reflexivity.
Qed.
(** The hopper of a term. *)
Theorem term_ok C stem featurize word_at tofval index c SC label place items notes t : tofval 0 = 0 -> answers C c SC -> listed SC items ->
  statistics_in_parts stem featurize word_at label place items notes -> indexed index notes ->
  no_clash featurize (label_keys label (t :: flat_map (words_of word_at stem) items)) ->
  length (noted (featurize (label ++ tag_tf ++ t)) notes) = length (items_with word_at stem t items) /\
  term_over (valued stem word_at tofval t items) (stats_term C (labelled featurize label) tofval index c t).
Proof.
  intros Z0 HC HL H HI NC. destruct (H t NC) as (E & _). split; [rewrite E; apply map_length|].
  eapply stats_term_over; eauto.
Qed.
