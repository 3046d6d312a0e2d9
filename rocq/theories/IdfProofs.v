(** Statistics with weights: made, read back and ranked by. *)
From Verif Require Import Base HopperModel GclSpec HopperProofs ArrayProofs UnaryProofs AnswerProofs PostingModel
  VectorModel VectorProofs RankModel RankSpec RankDocs RankSsr RankTop StatsModel StatsSpec StatsProofs StatsTop
  FieldMade FieldLoop IdfModel IdfSpec.

(* ------------------------------------------------------------------ *)
(** * Counts *)
Section Counts.
Context (split : Z -> Z -> list word) (stem : word -> word * bool) (unstemmed : bool).
Notation item_words := (item_words split stem unstemmed).
Lemma count_item_eq d : count_item stem unstemmed (split (ip d) (iq d)) = tally (item_words d).
Proof.
  unfold count_item, tally, IdfSpec.item_words. generalize (@nil (word * Z)). destruct unstemmed.
  - induction (split (ip d) (iq d)) as [|w r IH]; intros m; [reflexivity|]. cbn [count_both flat_map]. rewrite fold_left_app.
    destruct (stem w) as [s [|]]; cbn [fst snd fold_left]; rewrite IH; reflexivity.
  - induction (split (ip d) (iq d)) as [|w r IH]; intros m; [reflexivity|]. cbn [count_stems flat_map]. rewrite fold_left_app.
    destruct (stem w) as [s b]; cbn [fst fold_left]. rewrite IH. reflexivity.
Qed.

(** Document frequencies, by word. *)
Definition wdfs (l : list iv) : list (word * Z) := fold_left (fun df d => word_dfs (tally (item_words d)) df) l [].
Lemma word_dfs_fold tf df : word_dfs tf df = fold_left (fun m k => bump word_eq k m) (map fst tf) df.
Proof. unfold word_dfs. revert df. induction tf as [|[t n] tf IH]; intros df; [reflexivity|]. cbn [fold_left map fst]. apply IH. Qed.
Lemma wdfs_counts l : wcounts (flat_map (fun d => map fst (tally (item_words d))) l) (wdfs l).
Proof.
  assert (forall df, fold_left (fun df d => word_dfs (tally (item_words d)) df) l df =
    fold_left (fun m k => bump word_eq k m) (flat_map (fun d => map fst (tally (item_words d))) l) df) as E.
  { induction l as [|d l IH]; intros df; [reflexivity|]. cbn [fold_left flat_map]. rewrite fold_left_app, IH, word_dfs_fold. reflexivity. }
  unfold wdfs. rewrite E. exact (counts_fold word_eq wdec word_eq_iff _ [] [] (counts_nil _ _)).
Qed.
Lemma wdfs_count l t : count_occ wdec (flat_map (fun d => map fst (tally (item_words d))) l) t = length (holders split stem unstemmed t l).
Proof.
  unfold holders, times. induction l as [|d l IH]; [reflexivity|]. cbn [flat_map filter]. rewrite count_occ_app, IH.
  destruct (tally_counts (item_words d)) as (D & K & _).
  destruct (0 <? Z.of_nat (count_occ wdec (item_words d) t)) eqn:Q.
  - cbn [length]. replace (count_occ wdec (map fst (tally (item_words d))) t) with 1%nat; [reflexivity|].
    symmetry. apply NoDup_count_occ'; [exact D|]. apply K, (count_occ_In wdec). lia.
  - replace (count_occ wdec (map fst (tally (item_words d))) t) with 0%nat; [reflexivity|].
    symmetry. apply count_occ_not_In. intros Q'. apply K, (count_occ_In wdec) in Q'. lia.
Qed.
Lemma wdfs_in l w n : In (w, n) (wdfs l) -> exists d, In d l /\ In w (item_words d).
Proof.
  intros H. destruct (wdfs_counts l) as (_ & K & _). apply (in_map fst), K in H. cbn [fst] in H.
  apply in_flat_map in H. destruct H as (d & Hd & H). exists d. split; [exact Hd|]. destruct (tally_counts (item_words d)) as (_ & K' & _). apply K', H.
Qed.
End Counts.

(** What the entries of a map of counts give for one word. *)
Lemma entries_noted (h : word * Z -> list annotation) f t (g : Z -> list iv) ws m : wcounts ws m ->
  (forall w n, In w ws -> noted f (h (w, n)) = if wdec w t then g n else []) ->
  noted f (flat_map h m) = if 0 <? Z.of_nat (count_occ wdec ws t) then g (Z.of_nat (count_occ wdec ws t)) else [].
Proof.
  intros (D & K & V) H. specialize (V t).
  assert (forall l, (forall w n, In (w, n) l -> In w ws) -> noted f (flat_map h l) = flat_map g (entry word_eq t l)) as M.
  { induction l as [|[w n] l IH]; intros Hl; [reflexivity|]. cbn [flat_map]. rewrite noted_app, IH by (intros; eapply Hl; right; eassumption).
    rewrite H by (eapply Hl; left; reflexivity). unfold entry. cbn [filter fst]. unfold word_eq at 2.
    destruct (wdec w t); cbn [map snd flat_map]; reflexivity. }
  rewrite M by (intros w n Hw; apply K; apply (in_map fst) in Hw; exact Hw). rewrite V.
  destruct (count_occ wdec ws t) as [|n]; [reflexivity|]. replace (0 <? Z.of_nat (S n)) with true by lia. cbn [flat_map]. apply app_nil_r.
Qed.

(* ------------------------------------------------------------------ *)
(** * The loop *)
Section Loop.
Context (C : hcls) (split : Z -> Z -> list word) (stem : word -> word * bool) (featurize : word -> Z) (tofval : Z -> Z).
Context (unstemmed : bool).
Context (SC : iv -> Prop) (IC : St C -> Prop) (HC : hop_ok C SC IC).
Context (items : list iv) (HL : listed SC items) (H0 : forall d, In d items -> 0 <= ip d) (HT : total_length items <= maxf).
Notation item_words := (item_words split stem unstemmed).
Notation idf_state := (idf_state C).

Definition notes_for (l : list iv) : list annotation := flat_map (fun d => tf_notes featurize tofval d (tally (item_words d))) l.
Definition idf_inv (s : idf_state) : Prop :=
  exists done rest, items = done ++ rest /\ IC (is_hop _ s) /\ is_iv _ s = first_of rest /\
    is_notes _ s = notes_for done /\ is_df _ s = wdfs split stem unstemmed done /\
    is_items _ s = size done /\ is_length _ s = total_length done.
Lemma length_app a b : total_length (a ++ b) = total_length a + total_length b.
Proof. unfold total_length. induction a as [|x a IH]; cbn [app fold_right]; lia. Qed.
Lemma length_size a : (forall d, In d a -> ip d <= iq d) -> size a <= total_length a.
Proof.
  unfold size, total_length. induction a as [|x a IH]; intros H; cbn [length fold_right]; [lia|]. pose proof (H x (or_introl eq_refl)).
  specialize (IH (fun d Hd => H d (or_intror Hd))). lia.
Qed.

Definition idf_done (s : idf_state) : Prop :=
  is_notes _ s = notes_for items /\ is_df _ s = wdfs split stem unstemmed items /\
  is_items _ s = size items /\ is_length _ s = total_length items.
Lemma idf_step s : idf_inv s -> wp (idf_body C split stem featurize tofval unstemmed s) (fun r => match r with
  | inl s' => idf_inv s' /\ maxf - ip (is_iv _ s') < maxf - ip (is_iv _ s)
  | inr s' => idf_done s' end).
Proof.
  intros (done & rest & E & Ic & Ed & En & Edf & Ei & El). inf. destruct HL as [G HQ].
  unfold idf_body. rewrite Ed. destruct rest as [|d rest]; cbn [first_of].
  - cbn [ip maxr]. rewrite Z.ltb_irrefl. apply wp_ok. rewrite app_nil_r in E. subst done. unfold idf_done. auto.
  - assert (In d items) as Hd by (rewrite E, in_app_iff; right; left; reflexivity).
    pose proof (gclist_finite items d G Hd) as Fd. assert (ip d < maxf) as Ld by fin. rewrite (proj2 (Z.ltb_lt _ _) Ld).
    assert (total_length items = total_length done + (iq d - ip d + 1) + total_length rest) as ET
      by (rewrite E, length_app; change (total_length (d :: rest)) with (iq d - ip d + 1 + total_length rest); lia).
    assert (forall x, In x items -> ip x <= iq x) as Hle by (intros x Hx; pose proof (gclist_finite items x G Hx); fin).
    assert (forall x, In x done -> ip x <= iq x) as Hle1 by (intros x Hx; apply Hle; rewrite E, in_app_iff; left; exact Hx).
    assert (forall x, In x rest -> ip x <= iq x) as Hle2 by (intros x Hx; apply Hle; rewrite E, in_app_iff; right; right; exact Hx).
    pose proof (length_size done Hle1) as S1. pose proof (length_size rest Hle2) as S2. pose proof (Hle d Hd).
    assert (0 <= size done /\ 0 <= size rest) by (unfold size; lia).
    pose proof (H0 d Hd) as P0.
    apply wp_bind, wp_chk; [fin2|]. apply wp_bind, wp_chk; [fin2|]. apply wp_bind, wp_chk; [fin2|]. apply wp_bind, wp_chk; [fin2|].
    step (hop_tau HC) as [h d']; [exact Ic|fin|intros [Ic' T]].
    assert (forall x, In x rest -> ip d < ip x) as Hr.
    { intros x Hx. rewrite E in G. apply gclist_app in G. destruct G as [_ G']. apply (gclist_lt rest d x G' Hx). }
    assert (forall x, In x done -> ip x < ip d) as Hl.
    { intros x Hx. rewrite E in G. pose proof (gclist_app_lt done (d :: rest) x d G Hx (or_introl eq_refl)). lia. }
    assert (d' = first_of rest) as ->.
    { apply (next_item C split SC IC HC items HL H0 (done ++ [d]) rest (ip d + 1)); [rewrite E, <- app_assoc; reflexivity|fin| | |exact T].
      - intros x Hx. apply in_app_iff in Hx. destruct Hx as [Hx|[<-|[]]]; [specialize (Hl x Hx)|]; lia.
      - intros x Hx. specialize (Hr x Hx). lia. }
    apply wp_ok. split.
    + exists (done ++ [d]), rest. cbn [is_hop is_iv is_notes is_df is_items is_length].
      split; [rewrite E, <- app_assoc; reflexivity|]. split; [exact Ic'|]. split; [reflexivity|]. split; [|split; [|split]].
      * rewrite En, count_item_eq. unfold notes_for. rewrite flat_map_app. cbn [flat_map]. rewrite app_nil_r. reflexivity.
      * rewrite Edf, count_item_eq. unfold wdfs. rewrite fold_left_app. reflexivity.
      * rewrite Ei. unfold size. rewrite app_length. cbn [length]. lia.
      * rewrite El, length_app. unfold total_length. cbn [fold_right]. lia.
    + cbn [is_iv]. destruct rest as [|y rest]; cbn [first_of ip maxr]; [fin|]. specialize (Hr y (or_introl eq_refl)). lia.
Qed.

Context (avgl_of idf_of rsj_of : Z -> Z -> Z) (above : Z -> bool) (with_idf with_rsj : bool).
Notation weight_notes := (weight_notes featurize idf_of rsj_of above with_idf with_rsj).
Lemma idf_made_ok c : IC c -> (with_idf || with_rsj) = true ->
  wp (tf_idf_annotations C split stem featurize tofval avgl_of idf_of rsj_of above unstemmed with_idf with_rsj c) (fun r =>
  r = (notes_for items ++ [Ann (featurize avgl_word) (Iv 0 0 (avgl_of (total_length items) (size items)))] ++
       flat_map (weight_notes (size items)) (wdfs split stem unstemmed items), idf_parameters unstemmed with_idf with_rsj)).
Proof.
  intros Ic Hw. unfold tf_idf_annotations. rewrite Hw. cbn [negb]. inf.
  step (hop_tau HC) as [h d]; [exact Ic|unfold minf, maxf; lia|intros [Ic' T]].
  assert (d = first_of items) as ->.
  { apply (next_item C split SC IC HC items HL H0 [] items 0); [reflexivity|unfold minf, maxf; lia|intros x []|intros x Hx; exact (H0 x Hx)|exact T]. }
  apply wp_bind.
  eapply wp_mono; [apply (loop_rule idf_inv (fun s => maxf - ip (is_iv _ s)) idf_done)|].
  - intros s (done & rest & E & _ & -> & _). destruct rest as [|x rest]; cbn [first_of ip maxr]; [unfold maxf; lia|].
    assert (In x items) as Hx by (rewrite E, in_app_iff; right; left; reflexivity). pose proof (gclist_finite items x (proj1 HL) Hx). fin.
  - exact idf_step.
  - exists [], items. cbn [is_hop is_iv is_notes is_df is_items is_length app length]. repeat split; auto.
  - cbn [is_iv]. destruct items as [|x l]; cbn [first_of ip maxr]; [reflexivity|].
    specialize (H0 x (or_introl eq_refl)). assert (maxf < Z.pos BIG) by reflexivity. lia.
  - intros s (En & Ed & Ei & El). apply wp_ok. rewrite En, Ed, Ei, El. reflexivity.
Qed.

(** What the annotations hold. *)
Section Hold.
Context (t : word).
Notation ws := (t :: flat_map item_words items).
Context (NC : no_clash featurize (idf_keys ws)).
Lemma ik_avgl : In avgl_word (idf_keys ws). Proof. left. reflexivity. Qed.
Lemma ik_tf a : In a ws -> In (tag_tf ++ a) (idf_keys ws).
Proof. intros H. right. rewrite !in_app_iff. left. apply in_map, H. Qed.
Lemma ik_idf a : In a ws -> In (tag_idf ++ a) (idf_keys ws).
Proof. intros H. right. rewrite !in_app_iff. right. left. apply in_map, H. Qed.
Lemma ik_rsj a : In a ws -> In (tag_rsj ++ a) (idf_keys ws).
Proof. intros H. right. rewrite !in_app_iff. right. right. apply in_map, H. Qed.
Lemma iw_in d a : In d items -> In a (item_words d) -> In a ws.
Proof. intros Hd Ha. right. apply in_flat_map. exists d. auto. Qed.
Lemma it_in : In t ws. Proof. left. reflexivity. Qed.
Lemma apart a b : In a (idf_keys ws) -> In b (idf_keys ws) -> a <> b -> (featurize a =? featurize b) = false.
Proof. intros Ha Hb N. apply Z.eqb_neq. intros Q. apply N, NC; assumption. Qed.
Lemma same a b : In a ws -> In b ws -> forall tag, In (tag ++ a) (idf_keys ws) -> In (tag ++ b) (idf_keys ws) ->
  (featurize (tag ++ a) =? featurize (tag ++ b)) = if wdec a b then true else false.
Proof.
  intros Ha Hb tag Ka Kb. destruct (wdec a b) as [->|N]; [apply Z.eqb_refl|]. apply Z.eqb_neq. intros Q. apply N.
  apply (app_inv_head tag), NC; assumption.
Qed.

Lemma tf_noted l : (forall d, In d l -> In d items) -> noted (featurize (tag_tf ++ t)) (notes_for l) = holding split stem tofval unstemmed t l.
Proof.
  induction l as [|d l IH]; intros H; [reflexivity|]. unfold notes_for. cbn [flat_map]. rewrite noted_app. fold (notes_for l).
  rewrite IH by (intros; apply H; right; assumption). unfold tf_notes.
  replace (map (fun '(w, n) => Ann (featurize (tag_tf ++ w)) (Iv (ip d) (iq d) (tofval n))) (tally (item_words d)))
    with (flat_map (fun '(w, n) => [Ann (featurize (tag_tf ++ w)) (Iv (ip d) (iq d) (tofval n))]) (tally (item_words d)))
    by (induction (tally (item_words d)) as [|[w n] m IHm]; cbn [flat_map map app]; [reflexivity|f_equal; exact IHm]).
  rewrite (entries_noted _ _ t (fun n => [Iv (ip d) (iq d) (tofval n)]) (item_words d) _ (tally_counts _)).
  - unfold holding, holders. cbn [filter]. unfold times at 1 3. destruct (0 <? _); reflexivity.
  - intros w n Hw. assert (In w ws) as Hw' by (apply (iw_in d); [apply H; left; reflexivity|exact Hw]).
    rewrite noted_cons. cbn [afeat aiv]. rewrite same; [|exact Hw'|exact it_in|apply ik_tf, Hw'|apply ik_tf, it_in]. destruct (wdec w t); reflexivity.
Qed.
Lemma tf_other l f : (forall d, In d l -> In d items) -> (forall a, In a ws -> (featurize (tag_tf ++ a) =? f) = false) -> noted f (notes_for l) = [].
Proof.
  intros H N. apply noted_none. intros a Ha. apply in_flat_map in Ha. destruct Ha as (d & Hd & Ha). apply in_map_iff in Ha.
  destruct Ha as ([w n] & <- & Hw). cbn [afeat]. apply Z.eqb_neq, N, (iw_in d); [apply H, Hd|].
  destruct (tally_counts (item_words d)) as (_ & K & _). apply K. apply (in_map fst) in Hw. exact Hw.
Qed.
Lemma weights_other N f : (forall a, In a ws -> (featurize (tag_idf ++ a) =? f) = false /\ (featurize (tag_rsj ++ a) =? f) = false) ->
  noted f (flat_map (weight_notes N) (wdfs split stem unstemmed items)) = [].
Proof.
  intros H. apply noted_none. intros a Ha. apply in_flat_map in Ha. destruct Ha as ([w n] & Hw & Ha).
  apply wdfs_in in Hw. destruct Hw as (d & Hd & Hw). destruct (H w (iw_in d w Hd Hw)) as [H1 H2].
  unfold IdfModel.weight_notes in Ha. apply in_app_iff in Ha. destruct Ha as [Ha|Ha].
  - destruct with_idf; [|destruct Ha]. destruct Ha as [<-|[]]. apply Z.eqb_neq, H1.
  - destruct with_rsj; [|destruct Ha]. destruct (above _); [|destruct Ha]. destruct Ha as [<-|[]]. apply Z.eqb_neq, H2.
Qed.
Lemma df_ws w : In w (flat_map (fun d => map fst (tally (item_words d))) items) -> In w ws.
Proof.
  intros H. apply in_flat_map in H. destruct H as (d & Hd & H). apply (iw_in d); [exact Hd|].
  destruct (tally_counts (item_words d)) as (_ & K & _). apply K, H.
Qed.
Lemma idf_noted N : noted (featurize (tag_idf ++ t)) (flat_map (weight_notes N) (wdfs split stem unstemmed items)) =
  if with_idf then if 0 <? size (holders split stem unstemmed t items) then [Iv 0 0 (idf_of N (size (holders split stem unstemmed t items)))] else [] else [].
Proof.
  rewrite (entries_noted _ _ t (fun n => if with_idf then [Iv 0 0 (idf_of N n)] else []) _ _ (wdfs_counts _ _ _ _)).
  - rewrite wdfs_count. unfold size. destruct with_idf, (0 <? _); reflexivity.
  - intros w n Hw. apply df_ws in Hw. cbn [IdfModel.weight_notes]. rewrite noted_app.
    assert (noted (featurize (tag_idf ++ t)) (if with_rsj then if above (rsj_of N n) then [Ann (featurize (tag_rsj ++ w)) (Iv 0 0 (rsj_of N n))] else [] else []) = []) as ->.
    { destruct with_rsj; [|reflexivity]. destruct (above _); [|reflexivity]. rewrite noted_cons. cbn [afeat].
      rewrite apart; [reflexivity|apply ik_rsj, Hw|apply ik_idf, it_in|discriminate]. }
    rewrite app_nil_r. destruct with_idf; [|destruct (wdec w t); reflexivity]. rewrite noted_cons. cbn [afeat aiv].
    rewrite same; [|exact Hw|exact it_in|apply ik_idf, Hw|apply ik_idf, it_in]. destruct (wdec w t); reflexivity.
Qed.
Lemma rsj_noted N : noted (featurize (tag_rsj ++ t)) (flat_map (weight_notes N) (wdfs split stem unstemmed items)) =
  if with_rsj then if (0 <? size (holders split stem unstemmed t items)) && above (rsj_of N (size (holders split stem unstemmed t items)))
    then [Iv 0 0 (rsj_of N (size (holders split stem unstemmed t items)))] else [] else [].
Proof.
  rewrite (entries_noted _ _ t (fun n => if with_rsj then if above (rsj_of N n) then [Iv 0 0 (rsj_of N n)] else [] else []) _ _ (wdfs_counts _ _ _ _)).
  - rewrite wdfs_count. unfold size. destruct with_rsj, (0 <? _); reflexivity.
  - intros w n Hw. apply df_ws in Hw. cbn [IdfModel.weight_notes]. rewrite noted_app.
    assert (noted (featurize (tag_rsj ++ t)) (if with_idf then [Ann (featurize (tag_idf ++ w)) (Iv 0 0 (idf_of N n))] else []) = []) as ->.
    { destruct with_idf; [|reflexivity]. rewrite noted_cons. cbn [afeat].
      rewrite apart; [reflexivity|apply ik_idf, Hw|apply ik_rsj, it_in|discriminate]. }
    cbn [app]. destruct with_rsj; [|destruct (wdec w t); reflexivity]. destruct (above _); [|destruct (wdec w t); reflexivity].
    rewrite noted_cons. cbn [afeat aiv].
    rewrite same; [|exact Hw|exact it_in|apply ik_rsj, Hw|apply ik_rsj, it_in]. destruct (wdec w t); reflexivity.
Qed.
End Hold.

Lemma idf_all_held : idf_statistics split stem featurize tofval avgl_of idf_of rsj_of above unstemmed with_idf with_rsj items
  (notes_for items ++ [Ann (featurize avgl_word) (Iv 0 0 (avgl_of (total_length items) (size items)))] ++
       flat_map (weight_notes (size items)) (wdfs split stem unstemmed items)).
Proof.
  intros t NC. rewrite !noted_app, !noted_cons. cbn [afeat aiv].
  pose proof (apart t NC) as AP. pose proof (tf_other t) as TO. pose proof (weights_other t) as WO.
  assert (forall a, In a (t :: flat_map item_words items) -> In (tag_tf ++ a) (idf_keys (t :: flat_map item_words items)) /\
    In (tag_idf ++ a) (idf_keys (t :: flat_map item_words items)) /\ In (tag_rsj ++ a) (idf_keys (t :: flat_map item_words items))) as IK.
  { intros a Ha. split; [apply ik_tf, Ha|split; [apply ik_idf, Ha|apply ik_rsj, Ha]]. }
  destruct (IK t (or_introl eq_refl)) as (K1 & K2 & K3). pose proof (ik_avgl t) as K0.
  split; [|split; [|split]].
  - rewrite (tf_noted t NC) by auto. rewrite (AP avgl_word (tag_tf ++ t)); [|assumption|assumption|discriminate]. rewrite WO.
    + cbn [noted map filter app]. apply app_nil_r.
    + intros a Ha. destruct (IK a Ha) as (A1 & A2 & A3). split; apply AP; try assumption; discriminate.
  - rewrite TO; [|auto|].
    + rewrite (AP avgl_word (tag_idf ++ t)); [|assumption|assumption|discriminate].
      rewrite (idf_noted t NC). unfold at_zero, idf_in. destruct with_idf; [|reflexivity].
      destruct (0 <? size (holders split stem unstemmed t items)); reflexivity.
    + intros a Ha. destruct (IK a Ha) as (A1 & A2 & A3). apply AP; try assumption; discriminate.
  - rewrite TO; [|auto|].
    + rewrite (AP avgl_word (tag_rsj ++ t)); [|assumption|assumption|discriminate].
      rewrite (rsj_noted t NC). unfold at_zero, rsj_in. destruct with_rsj; [|reflexivity].
      destruct ((0 <? size (holders split stem unstemmed t items)) && above _); reflexivity.
    + intros a Ha. destruct (IK a Ha) as (A1 & A2 & A3). apply AP; try assumption; discriminate.
  - rewrite TO; [|auto|].
    + rewrite Z.eqb_refl, WO; [reflexivity|].
      intros a Ha. destruct (IK a Ha) as (A1 & A2 & A3). split; apply AP; try assumption; discriminate.
    + intros a Ha. destruct (IK a Ha) as (A1 & A2 & A3). apply AP; try assumption; discriminate.
Qed.
End Loop.

Theorem idf_made C split stem featurize tofval avgl_of idf_of rsj_of above unstemmed with_idf with_rsj c SC items :
  answers C c SC -> listed SC items -> (forall d, In d items -> 0 <= ip d) -> total_length items <= maxf ->
  (with_idf || with_rsj) = true ->
  exists notes, tf_idf_annotations C split stem featurize tofval avgl_of idf_of rsj_of above unstemmed with_idf with_rsj c =
      Ok (notes, [(key_unstemmed, okay_string unstemmed); (key_idf, okay_string with_idf); (key_rsj, okay_string with_rsj); (key_statistics, key_idf)]) /\
    idf_statistics split stem featurize tofval avgl_of idf_of rsj_of above unstemmed with_idf with_rsj items notes.
Proof.
  intros HC HL H0 HT Hw. apply answers_iff in HC. destruct HC as (IC & HC & Ic).
  pose proof (idf_made_ok C split stem featurize tofval unstemmed SC IC HC items HL H0 HT avgl_of idf_of rsj_of above with_idf with_rsj c Ic Hw) as W.
  apply wp_exists in W. destruct W as (r & E & ->). eexists. split; [exact E|]. apply idf_all_held.
Qed.

(* ------------------------------------------------------------------ *)
(** * Reading *)
Section Read.
Context (split : Z -> Z -> list word) (stem : word -> word * bool) (featurize : word -> Z) (tofval : Z -> Z).
Context (avgl_of idf_of rsj_of : Z -> Z -> Z) (above : Z -> bool) (unstemmed with_idf with_rsj : bool) (index : Z -> hobj).
Context (items : list iv) (notes : list annotation) (G : gclist items) (HI : indexed index notes).

Lemma first_at_zero f v : noted f notes = at_zero v -> first_value index f = Ok v.
Proof using HI.
  clear split stem featurize tofval avgl_of idf_of rsj_of above unstemmed with_idf with_rsj G items. intros E. assert (gclist (noted f notes)) as Gf.
  { rewrite E. destruct v; cbn; [|exact Logic.I]. unfold finite. cbn [ip iq]. unfold minf, maxf. repeat split; lia. }
  pose proof (HI f Gf) as A. rewrite E in A. apply answers_iff in A. destruct A as (I & H & Is).
  assert (wp (first_value index f) (fun r => r = v)) as W.
  { unfold first_value. inf. step (hop_tau H) as [s x]; [exact Is|unfold minf, maxf; lia|intros [_ T]]. apply wp_ok.
    destruct T as [[T _]|[_ [(Tx & _ & _)|[-> T]]]]; [unfold minf in T; lia| |].
    - destruct v as [v|]; [|destruct Tx]. destruct Tx as [<-|[]]. reflexivity.
    - cbn [ip maxr]. rewrite Z.eqb_refl. destruct v as [v|]; [|reflexivity].
      specialize (T (Iv 0 0 v) (or_introl eq_refl)). cbn [ip] in T. unfold minf in T. lia. }
  apply wp_exists in W. destruct W as (r & -> & ->). reflexivity.
Qed.
Lemma holding_gclist t : gclist (holding split stem tofval unstemmed t items).
Proof. apply (gclist_map_filter _ (fun d => Iv (ip d) (iq d) (tofval (times split stem unstemmed t d)))); [auto|exact G]. Qed.
Context (HS : idf_statistics split stem featurize tofval avgl_of idf_of rsj_of above unstemmed with_idf with_rsj items notes).
Theorem idf_read t : no_clash featurize (idf_keys (t :: flat_map (item_words split stem unstemmed) items)) ->
  idf_avgl featurize index = Ok (Some (avgl_of (total_length items) (size items))) /\
  idf_idf featurize index t = Ok (if with_idf then or_zero (idf_in split stem idf_of unstemmed t items) else 0) /\
  idf_rsj featurize index t = Ok (if with_rsj then or_zero (rsj_in split stem rsj_of above unstemmed t items) else 0) /\
  let o := idf_tf_hopper featurize index t in answers (projT1 o) (projT2 o) (set_of (holding split stem tofval unstemmed t items)).
Proof.
  intros NC. destruct (HS t NC) as (E1 & E2 & E3 & E4). split; [|split; [|split]].
  - apply first_at_zero, E4.
  - unfold idf_idf. rewrite (first_at_zero _ (if with_idf then idf_in split stem idf_of unstemmed t items else None)) by (rewrite E2; destruct with_idf; reflexivity).
    cbn [bind]. destruct with_idf; reflexivity.
  - unfold idf_rsj. rewrite (first_at_zero _ (if with_rsj then rsj_in split stem rsj_of above unstemmed t items else None)) by (rewrite E3; destruct with_rsj; reflexivity).
    cbn [bind]. destruct with_rsj; reflexivity.
  - intros o. subst o. unfold idf_tf_hopper. rewrite <- E1. apply HI. rewrite E1. apply holding_gclist.
Qed.

(** A term of a query with these statistics. *)
Definition idf_term (t : word) : term := Term (projT1 (idf_tf_hopper featurize index t)) (projT2 (idf_tf_hopper featurize index t)) maxr.
Lemma idf_term_over t : no_clash featurize (idf_keys (t :: flat_map (item_words split stem unstemmed) items)) ->
  term_over (holding split stem tofval unstemmed t items) (idf_term t).
Proof.
  intros NC. destruct (idf_read t NC) as (_ & _ & _ & A). eexists. split; [exact A|].
  split; [apply holding_gclist|]. intros x. reflexivity.
Qed.
Lemma holding_in ts : Forall (of_docs items)
  (map (fun t => holding split stem tofval unstemmed t items) ts).
Proof.
  apply Forall_forall. intros l Hl. apply in_map_iff in Hl. destruct Hl as (t & <- & Ht). intros x Hx.
  apply in_map_iff in Hx. destruct Hx as (d & <- & Hd). exists d. cbn [ip iq]. apply filter_In in Hd. split; [apply Hd|auto].
Qed.
Theorem idf_ranking ts : (forall t, In t ts -> no_clash featurize (idf_keys (t :: flat_map (item_words split stem unstemmed) items))) ->
  forall (F : Type) (zero : F) add lt sort gain depth, weak_order lt -> sorts sort ->
  exists top, term_ranking zero add lt sort gain depth (map idf_term ts) = Ok top /\
    best lt depth (doc_results zero add lt gain items (map (fun t => holding split stem tofval unstemmed t items) ts)) top.
Proof.
  intros NC F zero add lt sort gain depth W S. apply terms_best; [exact W|exact S|exact G|apply holding_in|].
  induction ts as [|t r IH]; cbn [map]; constructor; [apply idf_term_over, NC; left; reflexivity|].
  apply IH. intros t' Ht'. apply NC. right. exact Ht'.
Qed.
Theorem idf_bm25 ts : (forall t, In t ts -> no_clash featurize (idf_keys (t :: flat_map (item_words split stem unstemmed) items))) ->
  forall (F : Type) (zero : F) add lt sort depth (weights : list (F * (Z -> Z -> F))),
  weak_order lt -> sorts sort -> exact zero add lt -> (forall d, In d items -> iq d - ip d <= maxf) ->
  let ws := map (fun '(t, (idf, g)) => Wand idf g (idf_term t)) (combine ts weights) in
  Forall2 (fun t w => bounded zero lt (holding split stem tofval unstemmed t items) (Wand (fst w) (snd w) (idf_term t))) ts weights ->
  exists top, bm25_ranking zero add lt sort depth ws = Ok top /\
    best lt depth (doc_results zero add lt (wand_gain zero ws) items (map (fun t => holding split stem tofval unstemmed t items) ts)) top.
Proof.
  intros NC F zero add lt sort depth weights W S X HB ws HW. apply wand_best; [exact W|exact S|exact X|exact G|exact HB|apply holding_in|].
  subst ws. induction HW as [|t [idf g] r rw Hb HW IH]; cbn [map combine]; constructor.
  - cbn [w_term]. split; [|exact Hb]. apply idf_term_over, NC. left. reflexivity.
  - apply IH. intros t' Ht'. apply NC. right. exact Ht'.
Qed.
End Read.

(* ------------------------------------------------------------------ *)
Lemma okay_round b : okay (okay_string b) = b.
Proof. destruct b; reflexivity. Qed.
(** Whatever the parameters hold, the statistics say that they have everything. *)
Lemma flags_always get v1 v2 v3 : get key_unstemmed = Some v1 -> get key_idf = Some v2 -> get key_rsj = Some v3 ->
  forall name, idf_have_ (idf_flags get) name = existsb (word_eq name) [key_avgl; key_tf; key_unstemmed; key_idf; key_rsj].
Proof.
  intros E1 E2 E3 name. unfold idf_have_, idf_flags. rewrite E1, E2, E3. cbn [have_unstemmed have_idf have_rsj existsb].
  destruct (word_eq name key_avgl); [reflexivity|]. destruct (word_eq name key_tf); [reflexivity|].
  destruct (word_eq name key_unstemmed); [reflexivity|]. destruct (word_eq name key_idf); [reflexivity|]. destruct (word_eq name key_rsj); reflexivity.
Qed.
Lemma okay_in v : okay v = true <-> In v okay_words.
Proof.
  unfold okay. rewrite existsb_exists. split.
  - intros (w & Hw & E). apply word_eq_iff in E. subst. exact Hw.
  - intros H. exists v. split; [exact H|]. apply word_eq_iff. reflexivity.
Qed.
Lemma flags_each get before key :
  In (before, key) [([], key_unstemmed); ([key_unstemmed], key_idf); ([key_unstemmed; key_idf], key_rsj)] ->
  (get key <> None -> idf_have_ (idf_flags get) key = true) /\
  (get key = None -> (idf_have_ (idf_flags get) key = true <->
    exists a k v b, before = a ++ k :: b /\ get k = Some v /\ In v okay_words /\ forall k', In k' b -> get k' = None)).
Proof.
  intros [E|[E|[E|[]]]]; injection E as <- <-; unfold idf_have_, idf_flags.
  - destruct (get key_unstemmed) eqn:Eu; (split; [intros H|intros H]); try congruence.
    + destruct (get key_idf), (get key_rsj); reflexivity.
    + split; [destruct (get key_idf), (get key_rsj); discriminate|]. intros (a & k & v & b & E & _). destruct a; discriminate.
  - destruct (get key_idf) eqn:Ei; (split; [intros H|intros H]); try congruence.
    + destruct (get key_unstemmed), (get key_rsj); reflexivity.
    + transitivity (exists v, get key_unstemmed = Some v /\ okay v = true).
      * destruct (get key_unstemmed), (get key_rsj); cbn; split; try discriminate; eauto; intros (? & [= <-] & ?); assumption || discriminate.
      * split.
        -- intros (v & E & O). exists [], key_unstemmed, v, []. split; [reflexivity|]. split; [exact E|]. split; [apply okay_in, O|intros ? []].
        -- intros (a & k & v & b & E & Ev & Iv & _). exists v. destruct a as [|? [|]]; try discriminate. injection E as <- <-.
           split; [exact Ev|apply okay_in, Iv].
  - destruct (get key_rsj) eqn:Er; (split; [intros H|intros H]); try congruence.
    + destruct (get key_unstemmed), (get key_idf); reflexivity.
    + destruct (get key_idf) as [v|] eqn:Ei.
      * transitivity (okay v = true); [destruct (get key_unstemmed); reflexivity|]. split.
        -- intros O. exists [key_unstemmed], key_idf, v, []. split; [reflexivity|]. split; [exact Ei|]. split; [apply okay_in, O|intros ? []].
        -- intros (a & k & v' & b & E & Ev & Iv & N). destruct a as [|? [|? [|]]]; try discriminate.
           ++ injection E as <- <-. specialize (N key_idf (or_introl eq_refl)). congruence.
           ++ injection E as <- <- <-. assert (v' = v) by congruence. subst. apply okay_in, Iv.
      * transitivity (exists v, get key_unstemmed = Some v /\ okay v = true).
        -- destruct (get key_unstemmed); cbn; split; try discriminate; eauto; intros (? & [= <-] & ?); assumption || discriminate.
        -- split.
           ++ intros (v & E & O). exists [], key_unstemmed, v, [key_idf]. split; [reflexivity|]. split; [exact E|]. split; [apply okay_in, O|intros ? [<-|[]]; exact Ei].
           ++ intros (a & k & v & b & E & Ev & Iv & N). exists v. destruct a as [|? [|? [|]]]; try discriminate.
              ** injection E as <- <-. split; [exact Ev|apply okay_in, Iv].
              ** injection E as <- <- <-. congruence.
Qed.
Lemma neither_made C split stem featurize tofval avgl_of idf_of rsj_of above unstemmed c :
  tf_idf_annotations C split stem featurize tofval avgl_of idf_of rsj_of above unstemmed false false c = Ok ([], []).
Proof. reflexivity. Qed.
Lemma no_statistics featurize index notes : indexed index notes -> noted (featurize avgl_word) notes = [] -> idf_avgl featurize index = Ok None.
Proof. intros HI E. exact (first_at_zero index notes HI _ None E). Qed.
