(** What the workers of a foraging commit together. *)
From Verif Require Import Base HopperModel GclSpec HopperProofs ArrayProofs UnaryProofs AnswerProofs PostingModel
  VectorModel RankModel RankSpec RankSsr RankTop StatsModel StatsSpec StatsHopper StatsProofs StatsTop StatsSum ForageModel ForageSpec ForageProofs.

(** * Shares *)
Definition piece {A} (l : list A) (s : nat * nat) : list A := firstn (snd s) (skipn (fst s) l).
Lemma shares_from_ok {A} (l : list A) split : forall t start, (1 <= t)%nat -> (start + t * split <= length l)%nat ->
  concat (map (piece l) (shares_from t split (length l) start)) = skipn start l.
Proof.
  induction t as [|t IH]; intros start T L; [lia|]. cbn [shares_from]. destruct t as [|t].
  - unfold piece. cbn [map concat fst snd]. rewrite app_nil_r. apply firstn_all2. rewrite skipn_length. lia.
  - cbn [map concat]. rewrite IH by lia. unfold piece. cbn [fst snd].
    rewrite <- (firstn_skipn split (skipn start l)) at 2. f_equal. clear. revert start. induction l as [|x l IHl]; intros [|s]; cbn [skipn Nat.add]; auto; destruct split; reflexivity.
Qed.
Lemma shares_from_in split size : forall t start s, (1 <= t)%nat -> (start + t * split <= size)%nat -> In s (shares_from t split size start) ->
  (start <= fst s)%nat /\ (fst s + snd s <= size)%nat /\ (split <= snd s)%nat.
Proof.
  induction t as [|t IH]; intros start s T L H; [lia|]. cbn [shares_from] in H. destruct t as [|t].
  - destruct H as [<-|[]]. cbn [fst snd]. lia.
  - destruct H as [<-|H]; [cbn [fst snd]; lia|]. apply IH in H; lia.
Qed.
Lemma shares_length t split size : forall start, length (shares_from t split size start) = t.
Proof. induction t as [|t IH]; intros start; [reflexivity|]. cbn [shares_from]. destruct t; [reflexivity|]. cbn [length]. rewrite IH. reflexivity. Qed.
Lemma shares_concat {A} (l : list A) threads : (1 <= threads)%nat -> concat (map (piece l) (shares threads (length l))) = l.
Proof.
  intros T. unfold shares. rewrite shares_from_ok; auto. pose proof (Nat.mul_div_le (length l) threads). lia.
Qed.
Lemma shares_in threads size s : (1 <= threads <= size)%nat -> In s (shares threads size) ->
  (fst s + snd s <= size)%nat /\ (1 <= snd s)%nat.
Proof.
  intros T H. unfold shares in H. pose proof (Nat.mul_div_le size threads ltac:(lia)).
  apply shares_from_in in H; [|lia|lia]. pose proof (Nat.div_le_lower_bound size threads 1 ltac:(lia) ltac:(lia)). lia.
Qed.
(** Only the first share starts at the beginning. *)
Lemma shares_first threads size : (1 <= threads <= size)%nat -> exists n r, shares threads size = (0%nat, n) :: r /\ forall s, In s r -> (1 <= fst s)%nat.
Proof.
  intros T. unfold shares. pose proof (Nat.div_le_lower_bound size threads 1 ltac:(lia) ltac:(lia)) as D. pose proof (Nat.mul_div_le size threads ltac:(lia)) as M.
  set (split := (size / threads)%nat) in *. destruct threads as [|[|t]]; [lia| |].
  - cbn [shares_from]. exists (size - 0)%nat, []. split; [reflexivity|]. intros s [].
  - change (shares_from (S (S t)) split size 0) with ((0%nat, split) :: shares_from (S t) split size (0 + split)).
    exists split, (shares_from (S t) split size (0 + split)). split; [reflexivity|]. intros s Hs.
    apply shares_from_in in Hs; lia.
Qed.

(** * The lists of annotations *)
Lemma noted_concat f l : noted f (concat l) = concat (map (noted f) l).
Proof. induction l as [|x l IH]; [reflexivity|]. cbn [concat map]. rewrite noted_app, IH. reflexivity. Qed.
Lemma added_concat l : added (concat l) = fold_right Z.add 0 (map added l).
Proof. induction l as [|x l IH]; [reflexivity|]. cbn [concat map fold_right]. rewrite added_app, IH. reflexivity. Qed.
(** At most one annotation for each of several parts, at its first item. *)
Lemma parts_gclist (F : list iv -> list iv) parts : (forall p, In p parts -> p <> []) -> gclist (concat parts) ->
  (forall p, In p parts -> F p = [] \/ exists v, F p = [Iv (front_p p) (front_p p) v]) -> gclist (concat (map F parts)).
Proof.
  induction parts as [|p parts IH]; intros N G H; [exact I|]. cbn [concat map] in *.
  pose proof (proj2 (gclist_app _ _ G)) as G'. specialize (IH (fun x Hx => N x (or_intror Hx)) G' (fun x Hx => H x (or_intror Hx))).
  destruct (H p (or_introl eq_refl)) as [->|[v ->]]; [exact IH|]. destruct p as [|x l]; [destruct (N [] (or_introl eq_refl) eq_refl)|]. cbn [front_p app].
  pose proof (gclist_finite _ x G (or_introl eq_refl)) as Fx.
  apply gclist_cons; [exact IH| |].
  - unfold finite in *. cbn [ip iq]. lia.
  - intros y Hy. apply in_concat in Hy. destruct Hy as (z & Hz & Hy). apply in_map_iff in Hz. destruct Hz as (q & <- & Hq).
    destruct (H q (or_intror Hq)) as [E|[w E]]; rewrite E in Hy; [destruct Hy|]. destruct Hy as [<-|[]]. cbn [ip iq].
    destruct q as [|y q]; [destruct (N [] (or_intror Hq) eq_refl)|]. cbn [front_p].
    assert (In y (concat parts)) as Iy by (apply in_concat; exists (y :: q); split; [exact Hq|left; reflexivity]).
    pose proof (gclist_app_lt (x :: l) (concat parts) x y G (or_introl eq_refl) Iy). lia.
Qed.
Lemma parts_values (F : list iv -> list iv) parts : (forall p, In p parts -> forall x, In x (F p) -> 0 <= ivl x) ->
  forall x, In x (concat (map F parts)) -> 0 <= ivl x.
Proof.
  intros H x Hx. apply in_concat in Hx. destruct Hx as (z & Hz & Hx). apply in_map_iff in Hz. destruct Hz as (q & <- & Hq). eauto.
Qed.

Section Parts.
Context (stem : word -> word) (featurize : word -> Z) (word_at : Z -> word) (label : word) (place : iv).
Notation words_of := (words_of word_at stem).
Notation part_notes := (part_notes stem featurize label word_at).
Notation labelled := (labelled featurize label).

Lemma no_clash_part items part t : (forall d, In d part -> In d items) ->
  no_clash featurize (label_keys label (t :: flat_map words_of items)) -> no_clash labelled (keys (t :: flat_map words_of part)).
Proof.
  intros S N a b Ha Hb E. assert (K : forall k, In k (keys (t :: flat_map words_of part)) -> In (label ++ k) (label_keys label (t :: flat_map words_of items))).
  { intros k Hk. right. right. apply in_map_iff. exists k. split; [reflexivity|]. unfold keys in *. cbn [In] in *. rewrite in_app_iff in *.
    rewrite !in_map_iff in *. assert (M : forall w, In w (t :: flat_map words_of part) -> In w (t :: flat_map words_of items)).
    { intros w [<-|Hw]; [left; reflexivity|]. right. rewrite in_flat_map in *. destruct Hw as (d & Hd & Hw). eauto. }
    destruct Hk as [Hk|[Hk|[(w & E1 & Hw)|(w & E1 & Hw)]]]; eauto 8. }
  apply (app_inv_head label). apply N; auto.
Qed.
Lemma label_key_diff k : In k [[64]; 64 :: label] -> forall x, (3 <= length x)%nat -> k <> label ++ x.
Proof. intros [<-|[<-|[]]] x L E; apply (f_equal (@length Z)) in E; rewrite app_length in E; cbn [length] in E; lia. Qed.
Lemma key_length3 ts x : In x (keys ts) -> (3 <= length x)%nat.
Proof.
  unfold keys. cbn [In]. rewrite in_app_iff, !in_map_iff. intros [<-|[<-|[(w & <- & _)|(w & <- & _)]]]; [cbn; lia|cbn; lia| |]; rewrite app_length; cbn [length tag_tf tag_df]; lia.
Qed.
(** A part with the annotations of the label in front. *)
Lemma label_noted ts k x : no_clash featurize (label_keys label ts) -> In x (keys ts) -> noted (featurize (label ++ x)) (label_notes featurize label k) = [].
Proof.
  intros N Hx. apply noted_none. intros a Ha E.
  assert (K : In (label ++ x) (label_keys label ts)) by (right; right; apply in_map_iff; eauto).
  destruct Ha as [<-|[<-|[]]]; cbn [afeat] in E; apply N in E; auto; try (left; reflexivity); try (right; left; reflexivity);
    revert E; apply label_key_diff; try (eapply key_length3; eassumption); [right; left|left]; reflexivity.
Qed.
Lemma part_features part a : In a (part_notes part) -> exists x, In x (keys (flat_map words_of part)) /\ afeat a = featurize (label ++ x).
Proof.
  unfold ForageProofs.part_notes. rewrite !in_app_iff. intros [H|[H|[<-|[<-|[]]]]].
  - apply in_flat_map in H. destruct H as (d & Hd & H). apply in_map_iff in H. destruct H as ([w n] & <- & Hw). exists (tag_tf ++ w). split; [|reflexivity].
    right. right. rewrite in_app_iff, in_map_iff. left. exists w. split; [reflexivity|]. rewrite in_flat_map. exists d. split; [exact Hd|].
    destruct (tf_of_counts stem word_at d) as (_ & K & _). apply K. apply (in_map fst) in Hw. exact Hw.
  - apply in_map_iff in H. destruct H as ([f n] & <- & H). destruct (dfs_counts stem labelled word_at part) as (_ & K & _).
    apply (in_map fst), K in H. cbn [fst] in H. unfold df_keys in H. apply in_flat_map in H. destruct H as (d & Hd & H). apply in_map_iff in H.
    destruct H as (w & <- & Hw). exists (tag_df ++ w). split; [|reflexivity]. right. right. rewrite in_app_iff, !in_map_iff. right. exists w. split; [reflexivity|].
    rewrite in_flat_map. exists d. split; [exact Hd|]. destruct (tf_of_counts stem word_at d) as (_ & K' & _). apply K'. exact Hw.
  - exists total_items_word. split; [left; reflexivity|reflexivity].
  - exists total_length_word. split; [right; left; reflexivity|reflexivity].
Qed.
Lemma part_noted part t : no_clash labelled (keys (t :: flat_map words_of part)) ->
  noted (labelled (tag_tf ++ t)) (part_notes part) = places stem word_at t part /\
  noted (labelled (tag_df ++ t)) (part_notes part) = match length (items_with word_at stem t part) with O => [] | n => [Iv (front_p part) (front_p part) (Z.of_nat n)] end /\
  noted (labelled total_items_word) (part_notes part) = [Iv (front_p part) (front_p part) (Z.of_nat (length part))] /\
  noted (labelled total_length_word) (part_notes part) = [Iv (front_p part) (front_p part) (total_length part)].
Proof. intros N. apply (all_noted stem labelled word_at part t N). Qed.

Lemma places_concat t parts : concat (map (places stem word_at t) parts) = places stem word_at t (concat parts).
Proof.
  induction parts as [|p parts IH]; [reflexivity|]. cbn [map concat]. rewrite IH. unfold places, items_with. rewrite filter_app, map_app. reflexivity.
Qed.
(** All parts together. *)
Theorem parts_ok parts : label <> [] -> parts <> [] -> (forall p, In p parts -> p <> []) -> gclist (concat parts) ->
  statistics_in_parts stem featurize word_at label place (concat parts) (label_notes featurize label place ++ concat (map part_notes parts)).
Proof.
  intros LN NE NP G t N at_word.
  assert (NC : forall p, In p parts -> no_clash labelled (keys (t :: flat_map words_of p))).
  { intros p Hp. apply (no_clash_part (concat parts)); [|exact N]. intros d Hd. apply in_concat. eauto. }
  assert (A : forall x, In x (keys (t :: flat_map words_of (concat parts))) -> at_word x = concat (map (fun p => noted (labelled x) (part_notes p)) parts)).
  { intros x Hx. unfold at_word. rewrite noted_app, (label_noted _ place x N Hx), noted_concat, map_map. reflexivity. }
  assert (K1 : In (tag_tf ++ t) (keys (t :: flat_map words_of (concat parts)))) by (right; right; rewrite in_app_iff; left; left; reflexivity).
  assert (K2 : In (tag_df ++ t) (keys (t :: flat_map words_of (concat parts)))) by (right; right; rewrite in_app_iff; right; left; reflexivity).
  assert (K3 : In total_items_word (keys (t :: flat_map words_of (concat parts)))) by (left; reflexivity).
  assert (K4 : In total_length_word (keys (t :: flat_map words_of (concat parts)))) by (right; left; reflexivity).
  split; [|split; [|split; [|split; [|split]]]].
  - rewrite (A _ K1), <- places_concat. f_equal. apply map_ext_in. intros p Hp. apply part_noted, NC, Hp.
  - rewrite (A _ K2), added_concat, map_map. rewrite (map_ext_in _ (fun p => Z.of_nat (length (items_with word_at stem t p)))).
    + unfold items_with. clear. induction parts as [|p parts IH]; [reflexivity|]. cbn [map fold_right concat]. rewrite IH, filter_app, app_length. lia.
    + intros p Hp. destruct (part_noted p t (NC p Hp)) as (_ & E & _). rewrite E. destruct (length (items_with word_at stem t p)); [reflexivity|].
      unfold added. cbn [map fold_right ivl]. lia.
  - rewrite (A _ K3), added_concat, map_map. rewrite (map_ext_in _ (fun p => Z.of_nat (length p))).
    + clear. induction parts as [|p parts IH]; [reflexivity|]. cbn [map fold_right concat]. rewrite IH, app_length. lia.
    + intros p Hp. destruct (part_noted p t (NC p Hp)) as (_ & _ & E & _). rewrite E. unfold added. cbn [map fold_right ivl]. lia.
  - rewrite (A _ K4), added_concat, map_map. rewrite (map_ext_in _ total_length).
    + clear. induction parts as [|p parts IH]; [reflexivity|]. cbn [map fold_right concat]. rewrite IH, total_length_app. lia.
    + intros p Hp. destruct (part_noted p t (NC p Hp)) as (_ & _ & _ & E). rewrite E. unfold added. cbn [map fold_right ivl]. lia.
  - assert (TL : forall p, In p parts -> 0 <= total_length p).
    { intros p Hp. apply total_length_pos. intros d Hd. apply (gclist_finite _ d G). apply in_concat. eauto. }
    intros w [<-|[<-|[<-|[]]]]; rewrite A by assumption; split.
    + apply parts_gclist; auto. intros p Hp. destruct (part_noted p t (NC p Hp)) as (_ & E & _). rewrite E. destruct (length (items_with word_at stem t p)); eauto.
    + apply parts_values. intros p Hp x Hx. destruct (part_noted p t (NC p Hp)) as (_ & E & _). rewrite E in Hx.
      destruct (length (items_with word_at stem t p)); [destruct Hx|]. destruct Hx as [<-|[]]. cbn [ivl]. lia.
    + apply parts_gclist; auto. intros p Hp. destruct (part_noted p t (NC p Hp)) as (_ & _ & E & _). rewrite E. eauto.
    + apply parts_values. intros p Hp x Hx. destruct (part_noted p t (NC p Hp)) as (_ & _ & E & _). rewrite E in Hx. destruct Hx as [<-|[]]. cbn [ivl]. lia.
    + apply parts_gclist; auto. intros p Hp. destruct (part_noted p t (NC p Hp)) as (_ & _ & _ & E). rewrite E. eauto.
    + apply parts_values. intros p Hp x Hx. destruct (part_noted p t (NC p Hp)) as (_ & _ & _ & E). rewrite E in Hx. destruct Hx as [<-|[]]. cbn [ivl]. auto.
  - rewrite noted_app. rewrite (noted_none _ (concat _)).
    + rewrite app_nil_r. unfold label_notes. rewrite !noted_cons. cbn [afeat aiv]. rewrite Z.eqb_refl.
      destruct (featurize [64] =? featurize (64 :: label)) eqn:Q; [|reflexivity]. apply Z.eqb_eq in Q. apply N in Q; [|left; reflexivity|right; left; reflexivity].
      injection Q as Q. congruence.
    + intros a Ha E. apply in_concat in Ha. destruct Ha as (l & Hl & Ha). apply in_map_iff in Hl. destruct Hl as (p & <- & Hp).
      apply part_features in Ha. destruct Ha as (x & Hx & Ea). rewrite Ea in E. 
      assert (Kx : In x (keys (t :: flat_map words_of (concat parts)))).
      { unfold keys in *. cbn [In] in *. rewrite in_app_iff in *. rewrite !in_map_iff in *.
        assert (M : forall w, In w (flat_map words_of p) -> In w (t :: flat_map words_of (concat parts))).
        { intros w Hw. right. rewrite in_flat_map in *. destruct Hw as (d & Hd & Hw). exists d. split; [apply in_concat; eauto|exact Hw]. }
        destruct Hx as [Hk|[Hk|[(w & E1 & Hw)|(w & E1 & Hw)]]]; eauto 8. }
      apply N in E; [|right; right; apply in_map_iff; eauto|right; left; reflexivity].
      symmetry in E. revert E. apply label_key_diff; [right; left; reflexivity|]. eapply key_length3, Kx.
Qed.
End Parts.
