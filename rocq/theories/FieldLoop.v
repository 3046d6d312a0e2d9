(** All of tf_field_annotations. *)
From Verif Require Import Base HopperModel GclSpec HopperProofs ArrayProofs UnaryProofs AnswerProofs PostingModel
  VectorModel VectorProofs RankDocs RankSsr StatsModel StatsSpec StatsProofs StatsTop FieldModel FieldSpec FieldHopper FieldMade.

Section Loop.
Context (C : hcls) (Fs : list hcls) (split : Z -> Z -> list word) (stem : word -> word) (featurize : word -> Z).
Context (fs : list (list iv)) (J : tup Fs -> Prop) (V : vec_ok Fs (map set_of fs) J) (GF : Forall gclist fs).
Context (SC : iv -> Prop) (IC : St C -> Prop) (HC : hop_ok C SC IC).
Context (items : list iv) (HL : listed SC items) (H0 : forall d, In d items -> 0 <= ip d).
Notation total l := (fold_right Z.add 0 (map (fields_length fs) l)).
Context (HT : total items <= maxf).
Notation W := (W split stem fs).

Definition item_out (d : iv) : list annotation :=
  parts_notes split stem featurize 0 fs d ++ item_notes featurize (ip d) (tally (W d)) ++
  [Ann (featurize length_word) (Iv (ip d) (ip d) (fields_length fs d))].

Definition first_of (l : list iv) : iv := match l with [] => maxr | d :: _ => d end.
Definition fields_inv (s : fields_state C Fs) : Prop :=
  exists done rest, items = done ++ rest /\ IC (fs_hop _ _ s) /\ J (fs_fields _ _ s) /\ fs_iv _ _ s = first_of rest /\
    fs_notes _ _ s = flat_map item_out done /\ fs_df _ _ s = dfs_all featurize W done [] /\
    fs_items _ _ s = Z.of_nat (length done) /\ fs_length _ _ s = total done.

Lemma total_app a b : total (a ++ b) = total a + total b.
Proof. induction a as [|x a IH]; cbn [app map fold_right]; lia. Qed.
Lemma total_pos a : 0 <= total a.
Proof. induction a as [|x a IH]; cbn [map fold_right]; [lia|]. pose proof (fields_length_pos fs x GF). lia. Qed.

Lemma next_item done rest k r : items = done ++ rest -> minf < k <= maxf -> (forall x, In x done -> ip x < k) -> (forall x, In x rest -> k <= ip x) ->
  tau_spec SC k r -> r = first_of rest.
Proof.
  intros E Hk Ha Hb T. destruct HL as [G HQ].
  assert (match rest with [] => r = maxr | y :: _ => r = y end) as Hn.
  { apply (tau_next SC done rest k r (hop_GC HC)); try assumption; try lia.
    - intros x. rewrite <- HQ, E. reflexivity.
    - rewrite <- E. exact G. }
  destruct rest; exact Hn.
Qed.

Lemma fields_step s : fields_inv s -> wp (fields_body C Fs split stem featurize s) (fun r => match r with
  | inl s' => fields_inv s' /\ maxf - ip (fs_iv _ _ s') < maxf - ip (fs_iv _ _ s)
  | inr s' => fs_notes _ _ s' = flat_map item_out items /\ fs_df _ _ s' = dfs_all featurize W items [] /\
      fs_items _ _ s' = Z.of_nat (length items) /\ fs_length _ _ s' = total items end).
Proof.
  intros (done & rest & E & Ic & Ij & Ed & En & Edf & Ei & El). inf. destruct HL as [G HQ].
  unfold fields_body. rewrite Ed. destruct rest as [|d rest]; cbn [first_of].
  - cbn [ip maxr]. rewrite Z.ltb_irrefl. apply wp_ok. rewrite app_nil_r in E. subst done. auto.
  - assert (In d items) as Hd by (rewrite E, in_app_iff; right; left; reflexivity).
    pose proof (gclist_finite items d G Hd) as Fd. assert (ip d < maxf) as Ld by fin. rewrite (proj2 (Z.ltb_lt _ _) Ld).
    assert (total items = total done + fields_length fs d + total rest) as ET by (rewrite E, total_app; cbn [map fold_right]; lia).
    pose proof (total_pos done). pose proof (total_pos rest). pose proof (fields_length_pos fs d GF) as PL.
    step (item_fields_ok split stem featurize Fs _ J V fs eq_refl GF) as [f a]; [exact Ij|exact Fd|lia|lia|intros [Ij' ->]].
    apply wp_bind, wp_chk; [fin2|]. apply wp_bind, wp_chk; [fin2|].
    step (hop_tau HC) as [h d']; [exact Ic|fin|intros [Ic' T]].
    assert (forall x, In x rest -> ip d < ip x) as Hr.
    { intros x Hx. rewrite E in G. apply gclist_app in G. destruct G as [_ G']. apply (gclist_lt rest d x G' Hx). }
    assert (forall x, In x done -> ip x < ip d) as Hl.
    { intros x Hx. rewrite E in G. pose proof (gclist_app_lt done (d :: rest) x d G Hx (or_introl eq_refl)). lia. }
    assert (d' = first_of rest) as ->.
    { apply (next_item (done ++ [d]) rest (ip d + 1)); [rewrite E, <- app_assoc; reflexivity|fin| | |exact T].
      - intros x Hx. apply in_app_iff in Hx. destruct Hx as [Hx|[<-|[]]]; [specialize (Hl x Hx)|]; lia.
      - intros x Hx. specialize (Hr x Hx). lia. }
    apply wp_ok. split.
    + exists (done ++ [d]), rest. cbn [fs_hop fs_fields fs_iv fs_notes fs_df fs_items fs_length].
      split; [rewrite E, <- app_assoc; reflexivity|]. split; [exact Ic'|]. split; [exact Ij'|]. split; [reflexivity|]. split; [|split; [|split]].
      * rewrite En, flat_map_app. cbn [flat_map]. rewrite app_nil_r. unfold item_out. rewrite <- app_assoc. reflexivity.
      * rewrite Edf. unfold dfs_all. rewrite fold_left_app. reflexivity.
      * rewrite Ei, app_length. cbn [length]. lia.
      * rewrite El, total_app. cbn [map fold_right]. lia.
    + cbn [fs_iv]. destruct rest as [|y rest]; cbn [first_of ip maxr]; [fin|]. specialize (Hr y (or_introl eq_refl)). lia.
Qed.

Lemma made_ok c f : IC c -> J f -> wp (tf_field_annotations C Fs split stem featurize c f) (fun r =>
  r = match items with [] => None | _ => Some (flat_map item_out items ++ map (fun '(f, n) => Ann f (Iv 0 0 n)) (dfs_all featurize W items []) ++
    [Ann (featurize total_items_word) (Iv 0 0 (Z.of_nat (length items))); Ann (featurize total_length_word) (Iv 0 0 (total items))]) end).
Proof.
  intros Ic Ij. unfold tf_field_annotations. inf. step (hop_tau HC) as [h d]; [exact Ic|unfold minf, maxf; lia|intros [Ic' T]].
  assert (d = first_of items) as ->.
  { apply (next_item [] items 0); [reflexivity|unfold minf, maxf; lia|intros x []|intros x Hx; exact (H0 x Hx)|exact T]. }
  apply wp_bind.
  eapply wp_mono; [apply (loop_rule fields_inv (fun s => maxf - ip (fs_iv _ _ s)) (fun s' =>
      fs_notes _ _ s' = flat_map item_out items /\ fs_df _ _ s' = dfs_all featurize W items [] /\
      fs_items _ _ s' = Z.of_nat (length items) /\ fs_length _ _ s' = total items))|].
  - intros s (done & rest & E & _ & _ & -> & _). destruct rest as [|x rest]; cbn [first_of ip maxr]; [unfold maxf; lia|].
    assert (In x items) as Hx by (rewrite E, in_app_iff; right; left; reflexivity). pose proof (gclist_finite items x (proj1 HL) Hx). fin.
  - exact fields_step.
  - exists [], items. cbn [fs_hop fs_fields fs_iv fs_notes fs_df fs_items fs_length app length]. repeat split; auto.
  - cbn [fs_iv]. destruct items as [|x l]; cbn [first_of ip maxr]; [reflexivity|].
    specialize (H0 x (or_introl eq_refl)). assert (maxf < Z.pos BIG) by reflexivity. lia.
  - intros s (En & Ed & Ei & El). rewrite Ei. destruct items as [|x l].
    + apply wp_ok. reflexivity.
    + replace (Z.of_nat (length (x :: l)) =? 0) with false by (cbn [length]; lia). apply wp_ok. rewrite En, Ed, El. reflexivity.
Qed.
End Loop.

(* ------------------------------------------------------------------ *)
(** * What the annotations hold *)
Section Hold.
Context (split : Z -> Z -> list word) (stem : word -> word) (featurize : word -> Z).
Context (fs : list (list iv)) (items : list iv) (t : word).
Notation ws := (t :: all_words split stem fs items).
Notation part_words := (part_words split stem).
Notation W := (W split stem fs).
Context (PL : Forall plain ws) (NC : no_clash featurize (field_keys (length fs) ws)).

Lemma plain_in a : In a ws -> plain a. Proof. intros H. rewrite Forall_forall in PL. exact (PL a H). Qed.
Lemma fk_len : In length_word (field_keys (length fs) ws). Proof. left. reflexivity. Qed.
Lemma fk_keys a : In a (keys ws) -> In a (field_keys (length fs) ws). Proof. intros H. right. apply in_app_iff. left. exact H. Qed.
Lemma fk_tf a : In a ws -> In (tag_tf ++ a) (field_keys (length fs) ws).
Proof. intros H. apply fk_keys. right. right. apply in_app_iff. left. apply in_map_iff. exists a. auto. Qed.
Lemma fk_df a : In a ws -> In (tag_df ++ a) (field_keys (length fs) ws).
Proof. intros H. apply fk_keys. right. right. apply in_app_iff. right. apply in_map_iff. exists a. auto. Qed.
Lemma fk_items : In total_items_word (field_keys (length fs) ws). Proof. apply fk_keys. left. reflexivity. Qed.
Lemma fk_length : In total_length_word (field_keys (length fs) ws). Proof. apply fk_keys. right. left. reflexivity. Qed.
Lemma fk_field i a : (i < length fs)%nat -> In a ws -> In (tag_field i ++ a) (field_keys (length fs) ws).
Proof.
  intros Hi H. right. apply in_app_iff. right. apply in_flat_map. exists i. split; [apply in_seq; lia|]. apply in_map_iff. exists a. auto.
Qed.
Lemma W_in d a : In d items -> In a (W d) -> In a ws.
Proof. intros Hd Ha. right. apply in_flat_map. exists d. auto. Qed.
Lemma part_words_in d f a : In d items -> In f fs -> In a (part_words f d) -> In a ws.
Proof. intros Hd Hf Ha. apply (W_in d); [exact Hd|]. apply in_flat_map. exists f. auto. Qed.
Lemma differ a b : In a (field_keys (length fs) ws) -> In b (field_keys (length fs) ws) -> a <> b -> featurize a <> featurize b.
Proof. intros Ha Hb N Q. apply N, NC; assumption. Qed.
Lemma t_in : In t ws. Proof. left. reflexivity. Qed.

Lemma tf_not_length a : In a ws -> tag_tf ++ a <> length_word.
Proof. intros H E. apply tag_tf_inj in E. destruct (plain_in a H) as [_ N]. exact (N E). Qed.
Lemma tf_not_field i a b : In a ws -> tag_tf ++ a <> tag_field i ++ b.
Proof. intros H E. symmetry in E. revert E. apply tag_field_tf. apply plain_in, H. Qed.

(** What the fields of an item give. *)
Lemma parts_other f d : In d items -> (forall i a, (i < length fs)%nat -> In a ws -> featurize (tag_field i ++ a) <> f) ->
  noted f (parts_notes split stem featurize 0 fs d) = [].
Proof.
  intros Hd N.
  assert (forall l j, (forall g, In g l -> In g fs) -> (j + length l <= length fs)%nat -> noted f (parts_notes split stem featurize j l d) = []) as G.
  { induction l as [|g l IH]; intros j Hl Hj; [reflexivity|]. cbn [parts_notes]. cbn [length] in Hj. rewrite noted_app, IH by (try lia; intros x Hx; apply Hl; right; exact Hx).
    rewrite tally_other; [reflexivity|]. intros a Ha. apply N; [lia|]. apply (part_words_in d g); [exact Hd|apply Hl; left; reflexivity|exact Ha]. }
  apply G; [auto|lia].
Qed.
Lemma parts_noted i f d : In d items -> nth_error fs i = Some f ->
  noted (featurize (tag_field i ++ t)) (parts_notes split stem featurize 0 fs d) =
  if 0 <? in_field split stem t f d then [Iv (ip d) (ip d) (in_field split stem t f d)] else [].
Proof.
  intros Hd Hf. assert (i < length fs)%nat as Hi by (apply nth_error_Some; congruence).
  assert (forall j g a, (j < length fs)%nat -> In g fs -> In a (part_words g d) -> featurize (tag_field j ++ a) = featurize (tag_field i ++ t) -> j = i /\ a = t) as Q.
  { intros j g a Hj Hg Ha E. apply tag_field_inj, NC; [apply fk_field; [exact Hj|apply (part_words_in d g); assumption]|apply fk_field; [exact Hi|exact t_in]|exact E]. }
  assert (forall l j, (forall g, In g l -> In g fs) -> (j + length l <= length fs)%nat -> (j <= i)%nat ->
    noted (featurize (tag_field i ++ t)) (parts_notes split stem featurize j l d) =
    match nth_error l (i - j) with Some f => if 0 <? in_field split stem t f d then [Iv (ip d) (ip d) (in_field split stem t f d)] else [] | None => [] end) as G.
  { induction l as [|g l IH]; intros j Hl Hj Hji; [destruct (i - j)%nat; reflexivity|]. cbn [parts_notes]. cbn [length] in Hj. rewrite noted_app.
    assert (In g fs) as Hg by (apply Hl; left; reflexivity).
    assert (forall g, In g l -> In g fs) as Hl' by (intros x Hx; apply Hl; right; exact Hx).
    destruct (Nat.eq_dec j i) as [->|Nj].
    - rewrite Nat.sub_diag. cbn [nth_error].
      assert (noted (featurize (tag_field i ++ t)) (parts_notes split stem featurize (S i) l d) = []) as ->.
      { clear - Hj Hl' Hd Q.
        assert (forall l j, (i < j)%nat -> (forall g, In g l -> In g fs) -> (j + length l <= length fs)%nat -> noted (featurize (tag_field i ++ t)) (parts_notes split stem featurize j l d) = []) as K.
        { clear - Hd Q. induction l as [|g l IH]; intros j Lj Hl Hj; [reflexivity|]. cbn [parts_notes]. cbn [length] in Hj. rewrite noted_app, IH by (try lia; intros x Hx; apply Hl; right; exact Hx).
          rewrite tally_other; [reflexivity|]. intros a Ha E. destruct (Q j g a) as [E' _]; [lia|apply Hl; left; reflexivity|exact Ha|exact E|lia]. }
        apply K; [lia|exact Hl'|lia]. }
      rewrite app_nil_r. rewrite (tally_noted featurize (fun t => tag_field i ++ t) (part_words g d) (ip d) t); [reflexivity|].
      intros a Ha E. apply (Q i g a); [exact Hi|exact Hg|exact Ha|exact E].
    - rewrite tally_other.
      + cbn [app]. rewrite IH by (assumption || lia). replace (i - j)%nat with (S (i - S j)) by lia. reflexivity.
      + intros a Ha E. apply Nj, (Q j g a); [lia|exact Hg|exact Ha|exact E]. }
  rewrite G by (auto; lia). rewrite Nat.sub_0_r, Hf. reflexivity.
Qed.

Lemma W_count d : Z.of_nat (count_occ wdec (W d) t) = in_fields split stem t fs d.
Proof.
  unfold FieldMade.W, in_fields. clear PL NC. induction fs as [|f r IH]; [reflexivity|]. cbn [flat_map map fold_right]. rewrite count_occ_app, Nat2Z.inj_add.
  unfold in_field at 1. f_equal. exact IH.
Qed.

Lemma spots_out (n : iv -> Z) (f : Z) (g : iv -> list annotation) :
  (forall d, In d items -> noted f (g d) = if 0 <? n d then [Iv (ip d) (ip d) (n d)] else []) ->
  forall l, (forall d, In d l -> In d items) -> noted f (flat_map g l) = spots n l.
Proof.
  intros H. induction l as [|d l IH]; intros Hl; [reflexivity|]. cbn [flat_map]. rewrite noted_app, (H d) by (apply Hl; left; reflexivity).
  rewrite IH by (intros x Hx; apply Hl; right; exact Hx). unfold spots. cbn [filter]. destruct (0 <? n d); reflexivity.
Qed.
Lemma none_out (f : Z) (g : iv -> list annotation) : (forall d, In d items -> noted f (g d) = []) -> noted f (flat_map g items) = [].
Proof.
  intros H. assert (forall l, (forall d, In d l -> In d items) -> noted f (flat_map g l) = []) as G.
  { induction l as [|d l IH]; intros Hl; [reflexivity|]. cbn [flat_map]. rewrite noted_app, (H d) by (apply Hl; left; reflexivity).
    apply IH. intros x Hx. apply Hl. right. exact Hx. }
  apply G. auto.
Qed.

Notation out := (item_out split stem featurize fs).
Ltac keys_in := first [exact fk_len|exact fk_items|exact fk_length|apply fk_tf; assumption|apply fk_df; assumption|apply fk_field; assumption].
Lemma item_tf_other f d : In d items -> (forall a, In a ws -> featurize (tag_tf ++ a) <> f) ->
  noted f (item_notes featurize (ip d) (tally (W d))) = [].
Proof. intros Hd N. apply (tally_other featurize f (fun t => tag_tf ++ t) (W d) (ip d)). intros x Hx. apply N, (W_in d); assumption. Qed.
Lemma len_other f d : featurize length_word <> f -> noted f [Ann (featurize length_word) (Iv (ip d) (ip d) (fields_length fs d))] = [].
Proof. intros N. apply noted_none. intros a [<-|[]]. exact N. Qed.

Lemma all_held notes N L : notes = flat_map out items ++ map (fun '(f, n) => Ann f (Iv 0 0 n)) (dfs_all featurize W items []) ++
    [Ann (featurize total_items_word) (Iv 0 0 N); Ann (featurize total_length_word) (Iv 0 0 L)] ->
  (forall i f, nth_error fs i = Some f -> noted (featurize (tag_field i ++ t)) notes = spots (in_field split stem t f) items) /\
  noted (featurize (tag_tf ++ t)) notes = spots (in_fields split stem t fs) items /\
  noted (featurize (tag_df ++ t)) notes =
    match length (filter (fun d => 0 <? in_fields split stem t fs d) items) with O => [] | n => [Iv 0 0 (Z.of_nat n)] end /\
  noted (featurize length_word) notes = map (fun d => Iv (ip d) (ip d) (fields_length fs d)) items /\
  noted (featurize total_items_word) notes = [Iv 0 0 N] /\
  noted (featurize total_length_word) notes = [Iv 0 0 L].
Proof.
  intros ->. pose proof t_in as Ht.
  assert (forall f, featurize total_items_word <> f -> featurize total_length_word <> f ->
    noted f [Ann (featurize total_items_word) (Iv 0 0 N); Ann (featurize total_length_word) (Iv 0 0 L)] = []) as TO.
  { intros f A B. apply noted_none. intros a [<-|[<-|[]]]; assumption. }
  assert (forall f, (forall a, In a ws -> featurize (tag_df ++ a) <> f) ->
    noted f (map (fun '(f, n) => Ann f (Iv 0 0 n)) (dfs_all featurize W items [])) = []) as DO.
  { intros f A. apply df_all_other. intros d x Hd Hx. apply A, (W_in d); assumption. }
  split; [|split; [|split; [|split; [|split]]]].
  - intros i f Hf. assert (i < length fs)%nat as Hi by (apply nth_error_Some; congruence). rewrite !noted_app.
    rewrite (DO (featurize (tag_field i ++ t))) by (intros a Ha; apply differ; try keys_in; discriminate).
    rewrite TO by (apply differ; try keys_in; discriminate). rewrite !app_nil_r.
    apply spots_out; [|auto]. intros d Hd. unfold item_out. rewrite !noted_app, (parts_noted i f d Hd Hf).
    rewrite item_tf_other by (auto; intros a Ha; apply differ; try keys_in; apply tf_not_field, Ha).
    rewrite len_other by (apply differ; try keys_in; intros E; symmetry in E; revert E; apply tag_field_length). rewrite !app_nil_r. reflexivity.
  - rewrite !noted_app. rewrite (DO (featurize (tag_tf ++ t))) by (intros a Ha; apply differ; try keys_in; discriminate).
    rewrite TO by (apply differ; try keys_in; discriminate). rewrite !app_nil_r.
    apply spots_out; [|auto]. intros d Hd. unfold item_out. rewrite !noted_app.
    rewrite parts_other by (auto; intros i a Hi Ha; apply differ; try keys_in; intros E; symmetry in E; revert E; apply tf_not_field, Ht).
    rewrite len_other by (apply differ; try keys_in; intros E; symmetry in E; revert E; apply tf_not_length, Ht). rewrite app_nil_r. cbn [app].
    rewrite <- W_count. apply (tally_noted featurize (fun t => tag_tf ++ t) (W d) (ip d) t).
    intros x Hx E. apply tag_tf_inj, NC; [apply fk_tf, (W_in d); assumption|keys_in|exact E].
  - rewrite !noted_app. rewrite (none_out (featurize (tag_df ++ t))).
    2:{ intros d Hd. unfold item_out. rewrite !noted_app. rewrite parts_other by (auto; intros i a Hi Ha; apply differ; try keys_in; discriminate).
        rewrite item_tf_other by (auto; intros a Ha; apply differ; try keys_in; discriminate). rewrite len_other by (apply differ; try keys_in; discriminate). reflexivity. }
    rewrite TO by (apply differ; try keys_in; discriminate). rewrite app_nil_r. cbn [app].
    rewrite df_all_noted by (intros d x Hd Hx E; apply tag_df_inj, NC; [apply fk_df, (W_in d); assumption|keys_in|exact E]).
    rewrite (filter_ext _ _ (fun d => f_equal (Z.ltb 0) (W_count d)) items). reflexivity.
  - rewrite !noted_app. rewrite (DO (featurize length_word)) by (intros a Ha; apply differ; try keys_in; discriminate).
    rewrite TO by (apply differ; try keys_in; discriminate). rewrite !app_nil_r.
    assert (forall l, (forall d, In d l -> In d items) -> noted (featurize length_word) (flat_map out l) = map (fun d => Iv (ip d) (ip d) (fields_length fs d)) l) as G.
    { induction l as [|d l IH]; intros Hl; [reflexivity|]. cbn [flat_map map]. assert (In d items) as Hd by (apply Hl; left; reflexivity).
      rewrite noted_app, IH by (intros x Hx; apply Hl; right; exact Hx). unfold item_out. rewrite !noted_app.
      rewrite parts_other by (auto; intros i a Hi Ha; apply differ; try keys_in; apply tag_field_length).
      rewrite item_tf_other by (auto; intros a Ha; apply differ; try keys_in; apply tf_not_length, Ha).
      rewrite noted_cons. cbn [afeat aiv]. rewrite Z.eqb_refl. reflexivity. }
    apply G. auto.
  - rewrite !noted_app. rewrite (none_out (featurize total_items_word)).
    2:{ intros d Hd. unfold item_out. rewrite !noted_app. rewrite parts_other by (auto; intros i a Hi Ha; apply differ; try keys_in; discriminate).
        rewrite item_tf_other by (auto; intros a Ha; apply differ; try keys_in; discriminate). rewrite len_other by (apply differ; try keys_in; discriminate). reflexivity. }
    rewrite (DO (featurize total_items_word)) by (intros a Ha; apply differ; try keys_in; discriminate). cbn [app].
    rewrite !noted_cons. cbn [afeat aiv]. rewrite Z.eqb_refl. rewrite (proj2 (Z.eqb_neq _ _)); [reflexivity|]. apply differ; try keys_in; discriminate.
  - rewrite !noted_app. rewrite (none_out (featurize total_length_word)).
    2:{ intros d Hd. unfold item_out. rewrite !noted_app. rewrite parts_other by (auto; intros i a Hi Ha; apply differ; try keys_in; discriminate).
        rewrite item_tf_other by (auto; intros a Ha; apply differ; try keys_in; discriminate). rewrite len_other by (apply differ; try keys_in; discriminate). reflexivity. }
    rewrite (DO (featurize total_length_word)) by (intros a Ha; apply differ; try keys_in; discriminate). cbn [app].
    rewrite !noted_cons. cbn [afeat aiv]. rewrite Z.eqb_refl. rewrite (proj2 (Z.eqb_neq _ _)); [reflexivity|]. apply differ; try keys_in; discriminate.
Qed.
End Hold.
