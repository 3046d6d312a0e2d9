(** What the annotations made by tf_df_annotations hold, and rankings over them. *)
From Verif Require Import Base HopperModel GclSpec HopperProofs ArrayProofs UnaryProofs AnswerProofs PostingModel
  VectorModel RankModel RankSpec RankSsr RankTop StatsModel StatsSpec StatsHopper StatsProofs.

Section Notes.
Context (stem : word -> word) (featurize : word -> Z) (word_at : Z -> word).
Notation words_of := (words_of word_at stem).
Notation occurrences := (occurrences word_at stem).
Notation items_with := (items_with word_at stem).
Notation frequencies := (frequencies word_at stem).
Notation tf_of := (tf_of stem word_at).
Notation notes_of := (notes_of stem featurize word_at).
Notation dfs_of := (dfs_of stem featurize word_at).

Notation places := (places stem word_at).

Lemma tag_tf_inj a b : tag_tf ++ a = tag_tf ++ b -> a = b.
Proof. apply app_inv_head. Qed.
Lemma tag_df_inj a b : tag_df ++ a = tag_df ++ b -> a = b.
Proof. apply app_inv_head. Qed.
Lemma tag_diff a b : tag_tf ++ a <> tag_df ++ b. Proof. discriminate. Qed.
Lemma tag_tf_items a : tag_tf ++ a <> total_items_word. Proof. discriminate. Qed.
Lemma tag_tf_length a : tag_tf ++ a <> total_length_word. Proof. discriminate. Qed.
Lemma tag_df_items a : tag_df ++ a <> total_items_word. Proof. discriminate. Qed.
Lemma tag_df_length a : tag_df ++ a <> total_length_word. Proof. discriminate. Qed.
Lemma items_length : total_items_word <> total_length_word. Proof. discriminate. Qed.

Lemma noted_cons f a l : noted f (a :: l) = if afeat a =? f then aiv a :: noted f l else noted f l.
Proof. unfold noted. cbn [filter]. destruct (afeat a =? f); reflexivity. Qed.
Lemma noted_none f l : (forall a, In a l -> afeat a <> f) -> noted f l = [].
Proof.
  induction l as [|a r IH]; intros H; [reflexivity|]. rewrite noted_cons.
  rewrite (proj2 (Z.eqb_neq _ _) (H a (or_introl eq_refl))). apply IH. intros x Hx. apply H. right. exact Hx.
Qed.

Section Term.
(** The stemmed words of all items, and one more. *)
Context (items : list iv) (t : word).
Notation ws := (t :: flat_map words_of items).
Context (NC : no_clash featurize (keys ws)).

Lemma key_tf a : In a ws -> In (tag_tf ++ a) (keys ws).
Proof. intros H. right. right. apply in_app_iff. left. apply in_map_iff. exists a. auto. Qed.
Lemma key_df a : In a ws -> In (tag_df ++ a) (keys ws).
Proof. intros H. right. right. apply in_app_iff. right. apply in_map_iff. exists a. auto. Qed.
Lemma key_items : In total_items_word (keys ws). Proof. left. reflexivity. Qed.
Lemma key_length : In total_length_word (keys ws). Proof. right. left. reflexivity. Qed.
Lemma word_in d a : In d items -> In a (words_of d) -> In a ws.
Proof. intros Hd Ha. right. apply in_flat_map. exists d. auto. Qed.

Lemma occurrences_in d : 0 < occurrences t d <-> In t (words_of d).
Proof. unfold StatsSpec.occurrences. rewrite (count_occ_In wdec). lia. Qed.

Lemma item_noted d : In d items ->
  noted (featurize (tag_tf ++ t)) (item_notes featurize (ip d) (tf_of d)) =
  if 0 <? occurrences t d then [Iv (ip d) (ip d) (occurrences t d)] else [].
Proof.
  intros Hd. pose proof (counts_image word_eq wdec word_eq_iff (fun w => featurize (tag_tf ++ w)) _ _ t (tf_of_counts stem word_at d)) as H.
  cbv beta in H. unfold StatsSpec.occurrences. unfold item_notes, noted. 
  assert (forall m : list (word * Z), map aiv (filter (fun a => afeat a =? featurize (tag_tf ++ t))
            (map (fun '(w, n) => Ann (featurize (tag_tf ++ w)) (Iv (ip d) (ip d) n)) m)) =
          map (fun n => Iv (ip d) (ip d) n) (map snd (filter (fun e => featurize (tag_tf ++ fst e) =? featurize (tag_tf ++ t)) m))) as M.
  { induction m as [|[w n] m IH]; [reflexivity|]. cbn [map filter afeat fst]. destruct (_ =? _); cbn [map aiv snd]; [f_equal|]; exact IH. }
  rewrite M. etransitivity; [apply f_equal, H|].
  2:{ destruct (count_occ wdec (words_of d) t) as [|n]; [reflexivity|]. replace (0 <? Z.of_nat (S n)) with true by lia. reflexivity. }
  intros x Hx Q. apply tag_tf_inj. apply NC; [apply key_tf, (word_in d); assumption|apply key_tf; left; reflexivity|exact Q].
Qed.

Lemma notes_noted l : (forall d, In d l -> In d items) -> noted (featurize (tag_tf ++ t)) (notes_of l) = places t l.
Proof.
  induction l as [|d l IH]; intros H; [reflexivity|]. unfold StatsProofs.notes_of in *. cbn [flat_map]. rewrite noted_app, item_noted by (apply H; left; reflexivity).
  rewrite IH by (intros x Hx; apply H; right; exact Hx). unfold places, StatsSpec.items_with. cbn [filter].
  destruct (0 <? occurrences t d); reflexivity.
Qed.
Lemma notes_other l f : (forall d, In d l -> In d items) -> (forall a, In a ws -> featurize (tag_tf ++ a) <> f) ->
  noted f (notes_of l) = [].
Proof.
  intros H N. apply noted_none. intros a Ha. apply in_flat_map in Ha. destruct Ha as (d & Hd & Ha).
  apply in_map_iff in Ha. destruct Ha as ([w n] & <- & Hw). cbn [afeat]. apply N.
  destruct (tf_of_counts stem word_at d) as (_ & K & _). apply (word_in d); [apply H, Hd|]. apply K.
  apply (in_map fst) in Hw. exact Hw.
Qed.

(** Document frequencies. *)
Definition df_keys (l : list iv) : list Z := flat_map (fun d => map (fun w => featurize (tag_df ++ w)) (map fst (tf_of d))) l.
Lemma item_dfs_fold tf df : item_dfs featurize tf df =
  fold_left (fun m k => bump Z.eqb k m) (map (fun w => featurize (tag_df ++ w)) (map fst tf)) df.
Proof.
  unfold item_dfs. revert df. induction tf as [|[w n] r IH]; intros df; [reflexivity|]. cbn [fold_left map fst]. apply IH.
Qed.
Lemma dfs_fold l : forall df, dfs_of l df = fold_left (fun m k => bump Z.eqb k m) (df_keys l) df.
Proof.
  induction l as [|d l IH]; intros df; [reflexivity|]. unfold df_keys, StatsProofs.dfs_of in *. cbn [fold_left flat_map].
  rewrite IH, item_dfs_fold, <- fold_left_app. reflexivity.
Qed.
Lemma dfs_counts l : zcounts (df_keys l) (dfs_of l []).
Proof.
  rewrite dfs_fold. exact (counts_fold Z.eqb Z.eq_dec Z.eqb_eq (df_keys l) [] [] (counts_nil _ _)).
Qed.
Lemma df_count l : (forall d, In d l -> In d items) ->
  count_occ Z.eq_dec (df_keys l) (featurize (tag_df ++ t)) = length (items_with t l).
Proof.
  induction l as [|d l IH]; intros H; [reflexivity|]. unfold df_keys in *. cbn [flat_map]. rewrite count_occ_app.
  rewrite IH by (intros x Hx; apply H; right; exact Hx). unfold StatsSpec.items_with. cbn [filter].
  assert (count_occ Z.eq_dec (map (fun w => featurize (tag_df ++ w)) (map fst (tf_of d))) (featurize (tag_df ++ t)) =
          if 0 <? occurrences t d then 1%nat else 0%nat) as ->; [|destruct (0 <? occurrences t d); reflexivity].
  destruct (tf_of_counts stem word_at d) as (D & K & _).
  assert (forall l : list word, NoDup l -> (forall w, In w l -> In w (words_of d)) ->
    count_occ Z.eq_dec (map (fun w => featurize (tag_df ++ w)) l) (featurize (tag_df ++ t)) = count_occ wdec l t) as M.
  { clear D K. induction l0 as [|w r IHr]; intros D K; [reflexivity|]. inversion D; subst. cbn [map count_occ].
    rewrite IHr by (auto; intros x Hx; apply K; right; exact Hx).
    destruct (wdec w t) as [->|N]; [destruct (Z.eq_dec _ _); [reflexivity|congruence]|].
    destruct (Z.eq_dec _ _) as [Q|_]; [|reflexivity]. exfalso. apply N, tag_df_inj.
    apply NC; [apply key_df, (word_in d); [apply H; left; reflexivity|apply K; left; reflexivity]|apply key_df; left; reflexivity|exact Q]. }
  rewrite M by (auto; intros w Hw; apply K; exact Hw).
  destruct (0 <? occurrences t d) eqn:Q.
  - apply Z.ltb_lt, occurrences_in, K in Q. apply NoDup_count_occ' ; assumption.
  - apply count_occ_not_In. intros Q'. apply K, occurrences_in in Q'. lia.
Qed.
Lemma df_noted z : noted (featurize (tag_df ++ t)) (map (fun '(f, n) => Ann f (Iv z z n)) (dfs_of items [])) =
  match length (items_with t items) with O => [] | n => [Iv z z (Z.of_nat n)] end.
Proof.
  pose proof (counts_image Z.eqb Z.eq_dec Z.eqb_eq (fun z => z) _ _ (featurize (tag_df ++ t)) (dfs_counts items) (fun x _ E => E)) as H.
  cbv beta in H. rewrite df_count in H by auto.
  assert (forall m : list (Z * Z), noted (featurize (tag_df ++ t)) (map (fun '(f, n) => Ann f (Iv z z n)) m) =
     map (fun n => Iv z z n) (map snd (filter (fun e => fst e =? featurize (tag_df ++ t)) m))) as M.
  { induction m as [|[w n] m IH]; [reflexivity|]. cbn [map]. rewrite noted_cons. cbn [filter afeat fst aiv]. rewrite IH.
    destruct (_ =? _); reflexivity. }
  rewrite M, H. destruct (length (items_with t items)); reflexivity.
Qed.
Lemma df_other z f : (forall a, In a ws -> featurize (tag_df ++ a) <> f) ->
  noted f (map (fun '(f, n) => Ann f (Iv z z n)) (dfs_of items [])) = [].
Proof.
  intros N. apply noted_none. intros a Ha. apply in_map_iff in Ha. destruct Ha as ([g n] & <- & Hg). cbn [afeat].
  destruct (dfs_counts items) as (_ & K & _). apply (in_map fst), K in Hg. cbn [fst] in Hg. unfold df_keys in Hg.
  apply in_flat_map in Hg. destruct Hg as (d & Hd & Hg). apply in_map_iff in Hg. destruct Hg as (w & <- & Hw). apply N.
  destruct (tf_of_counts stem word_at d) as (_ & K' & _). apply (word_in d); [exact Hd|]. apply K'. exact Hw.
Qed.

(** All of it. *)
Lemma all_noted z N L :
  let notes := notes_of items ++ map (fun '(f, n) => Ann f (Iv z z n)) (dfs_of items []) ++
               [Ann (featurize total_items_word) (Iv z z N); Ann (featurize total_length_word) (Iv z z L)] in
  noted (featurize (tag_tf ++ t)) notes = places t items /\
  noted (featurize (tag_df ++ t)) notes =
    match length (items_with t items) with O => [] | n => [Iv z z (Z.of_nat n)] end /\
  noted (featurize total_items_word) notes = [Iv z z N] /\
  noted (featurize total_length_word) notes = [Iv z z L].
Proof.
  assert (forall a b, In a (keys ws) -> In b (keys ws) -> a <> b -> (featurize a =? featurize b) = false) as D.
  { intros a b Ha Hb Nab. apply Z.eqb_neq. intros Q. apply Nab, NC; assumption. }
  assert (forall a b, In a (keys ws) -> In b (keys ws) -> a <> b -> featurize a <> featurize b) as D'.
  { intros a b Ha Hb Nab Q. apply Nab, NC; assumption. }
  pose proof key_items. pose proof key_length. assert (In (tag_tf ++ t) (keys ws)) by (apply key_tf; left; reflexivity).
  assert (In (tag_df ++ t) (keys ws)) by (apply key_df; left; reflexivity).
  cbv zeta. rewrite !noted_app. rewrite !noted_cons. cbn [afeat aiv]. rewrite !Z.eqb_refl.
  rewrite notes_noted by auto. rewrite (df_noted z).
  rewrite !(notes_other items) by (auto; intros a Ha; apply D'; auto using key_tf; discriminate).
  rewrite !df_other by (intros a Ha; apply D'; auto using key_df; discriminate).
  rewrite !D by (assumption || discriminate). change (noted _ []) with (@nil iv).
  rewrite !app_nil_r. auto.
Qed.
End Term.

End Notes.

Lemma in_items_with stem word_at t items d : In d (items_with word_at stem t items) -> In d items.
Proof. unfold items_with. rewrite filter_In. tauto. Qed.
Lemma gclist_map_filter (f : iv -> bool) (g : iv -> iv) l :
  (forall d, ip (g d) = ip d /\ iq (g d) = iq d) -> gclist l -> gclist (map g (filter f l)).
Proof.
  intros E. induction l as [|x l IH]; intros G; [exact I|]. cbn [filter].
  pose proof (IH (gclist_tail _ _ G)) as IH'. destruct (f x); [|exact IH']. cbn [map]. apply gclist_cons; [exact IH'| |].
  - pose proof (gclist_finite _ x G (or_introl eq_refl)) as F. destruct (E x). unfold finite in *. lia.
  - intros y Hy. apply in_map_iff in Hy. destruct Hy as (z & <- & Hz). apply filter_In in Hz.
    pose proof (gclist_lt _ _ _ G (proj1 Hz)). destruct (E x), (E z). lia.
Qed.
Lemma gclist_places stem word_at t items : gclist items -> gclist (places stem word_at t items).
Proof.
  unfold places, items_with. induction items as [|x l IH]; intros G; [exact I|]. cbn [filter].
  pose proof (IH (gclist_tail _ _ G)) as IH'. destruct (_ <? _); [|exact IH']. cbn [map]. apply gclist_cons; [exact IH'| |].
  - pose proof (gclist_finite _ x G (or_introl eq_refl)) as F. unfold finite in *. cbn [ip iq]. lia.
  - intros y Hy. apply in_map_iff in Hy. destruct Hy as (z & <- & Hz). apply filter_In in Hz.
    pose proof (gclist_lt _ _ _ G (proj1 Hz)). cbn [ip iq]. lia.
Qed.

Theorem tf_df_ok C split stem featurize word_at c SC items :
  answers C c SC -> listed SC items -> aligned word_at split items ->
  (forall c d, In c items -> In d items -> iq d - ip c < maxf) -> total_length items <= maxf ->
  exists r, tf_df_annotations C split stem featurize c = Ok r /\
  match items with
  | [] => r = None
  | _ => exists notes, r = Some notes /\ statistics stem featurize word_at items notes
  end.
Proof.
  intros HC HL HA HS HT. apply answers_iff in HC. destruct HC as (IC & HC & Ic). apply wp_exists. inf.
  unfold tf_df_annotations. apply wp_bind.
  eapply wp_mono; [apply (loop_rule (tfdf_inv C stem featurize word_at IC items) (fun s => maxf - td_p C s) (fun s' =>
      td_notes C s' = notes_of stem featurize word_at items /\ td_df C s' = dfs_of stem featurize word_at items [] /\
      td_items C s' = Z.of_nat (length items) /\ td_length C s' = total_length items))|].
  - intros s (? & ? & ? & _ & _ & _ & B & _). lia.
  - intros s Hs. apply (tfdf_step C split stem featurize word_at SC IC HC items HL HA HS HT s Hs).
  - exists [], [], items. cbn [td_hop td_batch td_p td_notes td_df td_items td_length app length].
    split; [reflexivity|]. split; [exact Ic|]. split; [reflexivity|]. split; [lia|]. split; [intros x []|]. split.
    + intros x Hx. apply (gclist_finite _ x (proj1 HL)) in Hx. fin.
    + split; [intros E; lia|]. auto.
  - cbn [td_p]. unfold minf, maxf. reflexivity.
  - intros s (En & Ed & Ei & El). destruct items as [|x l].
    + rewrite Ei. apply wp_ok. reflexivity.
    + rewrite Ei. replace (Z.of_nat (length (x :: l)) =? 0) with false by (cbn [length]; lia). apply wp_ok.
      eexists. split; [reflexivity|]. rewrite En, Ed, El. intros t NC. apply all_noted. exact NC.
Qed.

(** Adding up the values of a list. *)
Lemma sum_ok T t l v : answers T t (set_of l) -> l = [Iv 0 0 v] -> minf <= v <= maxf -> sum_values T t = Ok v.
Proof.
  intros H -> Hv. apply answers_iff in H. destruct H as (I & H & It). unfold sum_values.
  assert (forall s k, I s -> minf + 1 <= k <= maxf -> exists s', h_tau T s k = Ok (s', if k <=? 0 then Iv 0 0 v else maxr) /\ I s') as X.
  { intros s k Is Hk. inf. pose proof (hop_tau H s k Is ltac:(lia)) as W.
    destruct (h_tau T s k) as [[s' r]| |]; try contradiction. destruct W as [Is' W]. exists s'. split; [|exact Is'].
    do 2 f_equal. destruct W as [[E _]|[_ [(Hr & Kr & _)|[-> M]]]]; [lia| |].
    - destruct Hr as [<-|[]]. cbn [ip] in Kr. replace (k <=? 0) with true by lia. reflexivity.
    - specialize (M _ (or_introl eq_refl)). cbn [ip] in M. replace (k <=? 0) with false by lia. reflexivity. }
  pose proof (@loop_rule _ _ (fun '(s, k, total) => I s /\ ((k = minf + 1 /\ total = 0) \/ (k = 1 /\ total = v))) (fun '(s, k, total) => if k <=? 0 then 1 else 0)
    (fun r => r = v) (sum_body T) (t, minf + 1, 0)) as R.
  assert (wp (loop (sum_body T) (t, minf + 1, 0)) (fun r => r = v)) as W.
  { apply R.
    - intros [[s k] n] _. destruct (k <=? 0); lia.
    - intros [[s k] n] [Is Hk]. unfold sum_body.
      destruct (X s k Is ltac:(unfold minf, maxf; unfold minf in Hk; lia)) as (s' & -> & Is'). cbn [bind].
      destruct Hk as [[-> ->]|[-> ->]].
      + replace (minf + 1 <=? 0) with true by (unfold minf; lia). cbn [ip ivl].
        replace (0 <? maxf) with true by (unfold maxf; lia). apply wp_bind, wp_chk; [unfold minf, maxf in *; lia|].
        apply wp_bind, wp_chk; [unfold minf, maxf; lia|]. apply wp_ok. split; [|reflexivity].
        split; [exact Is'|]. right. lia.
      + change (1 <=? 0) with false. cbn [ip maxr]. rewrite Z.ltb_irrefl. apply wp_ok. reflexivity.
    - split; [exact It|]. left. auto.
    - replace (minf + 1 <=? 0) with true by (unfold minf; lia). reflexivity. }
  destruct (loop (sum_body T) (t, minf + 1, 0)) as [r| |]; try contradiction. cbn in W. subst. reflexivity.
Qed.

Section Index.
Context (C : hcls) (stem : word -> word) (featurize : word -> Z) (word_at : Z -> word) (tofval : Z -> Z).
(** The hopper of a feature: warren->idx()->hopper. *)
Context (index : Z -> hobj).
(** The hopper DfStats::tf_hopper makes for a term, src/df_stats.cc:116-123. *)
Definition stats_term (c : St C) (t : word) : term :=
  Term (tf_hopper (projT1 (index (featurize (tag_tf ++ t)))) C tofval)
       (tf_init _ C tofval (projT2 (index (featurize (tag_tf ++ t)))) c) maxr.
Notation valued := (valued stem word_at tofval).
(** The index answers the annotations of a feature whenever none contains another. *)
Definition indexed (notes : list annotation) : Prop :=
  forall f, gclist (noted f notes) -> answers (projT1 (index f)) (projT2 (index f)) (set_of (noted f notes)).

Lemma stats_term_over c SC items notes t : tofval 0 = 0 -> answers C c SC -> listed SC items ->
  noted (featurize (tag_tf ++ t)) notes = places stem word_at t items -> indexed notes ->
  term_over (valued t items) (stats_term c t).
Proof.
  intros Z0 HC [G HQ] E HI.
  pose proof (HI (featurize (tag_tf ++ t))) as A. rewrite E in A. specialize (A (gclist_places stem word_at t items G)).
  exists (counted tofval (set_of (places stem word_at t items)) SC). split.
  - apply tf_answers; [exact Z0|exact A|exact HC|]. intros x Hx. apply in_map_iff in Hx. destruct Hx as (d & <- & Hd).
    cbn [ip iq]. split; [reflexivity|]. exists d. split; [|reflexivity]. apply HQ. eapply in_items_with, Hd.
  - unfold valued, frequencies. rewrite map_map. cbn [ip iq ivl]. split.
    + apply (gclist_map_filter _ (fun d => Iv (ip d) (iq d) (tofval (occurrences word_at stem t d)))); [auto|exact G].
    + intros z. rewrite in_map_iff. split.
      * intros (d & <- & Hd). exists (Iv (ip d) (ip d) (occurrences word_at stem t d)), d. repeat split.
        -- apply in_map_iff. exists d. auto.
        -- apply HQ. eapply in_items_with, Hd.
      * intros (x & y & Hx & Hy & Exy & ->). apply in_map_iff in Hx. destruct Hx as (d & <- & Hd). cbn [ip ivl] in *.
        exists d. split; [|exact Hd].
        assert (d = y) as ->; [|reflexivity]. apply (GC_eq_ip SC); auto.
        -- apply answers_iff in HC. destruct HC as (I & H & _). exact (hop_GC H).
        -- apply HQ. eapply in_items_with, Hd.
Qed.

(** Statistics read back: the number of items, their length, the list of a term and the
    number of items it occurs in. *)
Theorem stats_ok c SC items notes t : tofval 0 = 0 -> answers C c SC -> listed SC items -> items <> [] ->
  Z.of_nat (length items) <= maxf -> total_length items <= maxf ->
  statistics stem featurize word_at items notes -> indexed notes ->
  no_clash featurize (keys (t :: flat_map (words_of word_at stem) items)) ->
  sum_values _ (projT2 (index (featurize total_items_word))) = Ok (Z.of_nat (length items)) /\
  sum_values _ (projT2 (index (featurize total_length_word))) = Ok (total_length items) /\
  length (noted (featurize (tag_tf ++ t)) notes) = length (items_with word_at stem t items) /\
  term_over (valued t items) (stats_term c t).
Proof.
  intros Z0 HC HL NE BI BT HN HI NC. destruct (HN t NC) as (E1 & _ & E3 & E4).
  assert (0 <= total_length items) by (apply total_length_pos; intros d Hd; apply (gclist_finite items d (proj1 HL) Hd)).
  assert (forall v, gclist [Iv 0 0 v]) as G0.
  { intros v. cbn. unfold finite. cbn [ip iq]. unfold minf, maxf. repeat split; lia. }
  split; [|split; [|split]].
  - eapply sum_ok; [apply HI; rewrite E3; apply G0|exact E3|unfold minf, maxf in *; lia].
  - eapply sum_ok; [apply HI; rewrite E4; apply G0|exact E4|unfold minf, maxf in *; lia].
  - rewrite E1. apply map_length.
  - eapply stats_term_over; eassumption.
Qed.

(** Ranking by terms from the words of the items. *)
Lemma places_ranking {F : Type} (zero : F) add lt sort gain c SC items notes depth ts :
  weak_order lt -> sorts sort -> tofval 0 = 0 -> answers C c SC -> listed SC items ->
  (forall t, In t ts -> noted (featurize (tag_tf ++ t)) notes = places stem word_at t items) -> indexed notes ->
  exists top, term_ranking zero add lt sort gain depth (map (stats_term c) ts) = Ok top /\
    best lt depth (doc_results zero add lt gain items (map (fun t => valued t items) ts)) top.
Proof.
  intros W HS Z0 HC HL NC HI. apply terms_best; [exact W|exact HS|exact (proj1 HL)| |].
  - apply Forall_forall. intros l Hl. apply in_map_iff in Hl. destruct Hl as (t & <- & Ht). intros x Hx.
    unfold valued, frequencies in Hx. rewrite map_map in Hx. apply in_map_iff in Hx. destruct Hx as (d & <- & Hd).
    exists d. cbn [ip iq]. split; [eapply in_items_with, Hd|auto].
  - induction ts as [|t r IH]; cbn [map]; constructor.
    + eapply stats_term_over; try eassumption. apply NC. left. reflexivity.
    + apply IH. intros t' Ht'. apply NC. right. exact Ht'.
Qed.
(** The same with BM25: the items below the threshold are skipped. *)
Lemma places_bm25 {F : Type} (zero : F) add lt sort c SC items notes depth ts (weights : list (F * (Z -> Z -> F))) :
  weak_order lt -> sorts sort -> exact zero add lt -> tofval 0 = 0 -> answers C c SC -> listed SC items ->
  (forall d, In d items -> iq d - ip d <= maxf) ->
  (forall t, In t ts -> noted (featurize (tag_tf ++ t)) notes = places stem word_at t items) -> indexed notes ->
  let ws := map (fun '(t, (idf, g)) => Wand idf g (stats_term c t)) (combine ts weights) in
  Forall2 (fun t w => bounded zero lt (valued t items) (Wand (fst w) (snd w) (stats_term c t))) ts weights ->
  exists top, bm25_ranking zero add lt sort depth ws = Ok top /\
    best lt depth (doc_results zero add lt (wand_gain zero ws) items (map (fun t => valued t items) ts)) top.
Proof.
  intros W HS HX Z0 HC HL HB NC HI ws HW. apply wand_best; [exact W|exact HS|exact HX|exact (proj1 HL)|exact HB| |].
  - apply Forall_forall. intros l Hl. apply in_map_iff in Hl. destruct Hl as (t & <- & Ht). intros x Hx.
    unfold valued, frequencies in Hx. rewrite map_map in Hx. apply in_map_iff in Hx. destruct Hx as (d & <- & Hd).
    exists d. cbn [ip iq]. split; [eapply in_items_with, Hd|auto].
  - subst ws. induction HW as [|t [idf g] r rw Hb HW IH]; cbn [map combine]; constructor.
    + cbn [w_term]. split; [|exact Hb]. eapply stats_term_over; try eassumption. apply NC. left. reflexivity.
    + apply IH. intros t' Ht'. apply NC. right. exact Ht'.
Qed.
(** The same from all the statistics. *)
Theorem text_ranking {F : Type} (zero : F) add lt sort gain c SC items notes depth ts :
  weak_order lt -> sorts sort -> tofval 0 = 0 -> answers C c SC -> listed SC items ->
  statistics stem featurize word_at items notes -> indexed notes ->
  (forall t, In t ts -> no_clash featurize (keys (t :: flat_map (words_of word_at stem) items))) ->
  exists top, term_ranking zero add lt sort gain depth (map (stats_term c) ts) = Ok top /\
    best lt depth (doc_results zero add lt gain items (map (fun t => valued t items) ts)) top.
Proof. intros W HS Z0 HC HL HN HI NC. eapply places_ranking; try eassumption. intros t Ht. apply (HN t (NC t Ht)). Qed.
Theorem text_bm25 {F : Type} (zero : F) add lt sort c SC items notes depth ts (weights : list (F * (Z -> Z -> F))) :
  weak_order lt -> sorts sort -> exact zero add lt -> tofval 0 = 0 -> answers C c SC -> listed SC items ->
  (forall d, In d items -> iq d - ip d <= maxf) ->
  statistics stem featurize word_at items notes -> indexed notes ->
  (forall t, In t ts -> no_clash featurize (keys (t :: flat_map (words_of word_at stem) items))) ->
  let ws := map (fun '(t, (idf, g)) => Wand idf g (stats_term c t)) (combine ts weights) in
  Forall2 (fun t w => bounded zero lt (valued t items) (Wand (fst w) (snd w) (stats_term c t))) ts weights ->
  exists top, bm25_ranking zero add lt sort depth ws = Ok top /\
    best lt depth (doc_results zero add lt (wand_gain zero ws) items (map (fun t => valued t items) ts)) top.
Proof. intros W HS HX Z0 HC HL HB HN HI NC ws HW. eapply places_bm25; try eassumption. intros t Ht. apply (HN t (NC t Ht)). Qed.
End Index.
