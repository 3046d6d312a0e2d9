(** The annotations made by tf_annotations over a range of addresses. *)
From Verif Require Import Base HopperModel GclSpec HopperProofs ArrayProofs UnaryProofs AnswerProofs PostingModel
  RankSsr StatsModel StatsSpec StatsProofs StatsTop.

Section Range.
Context (C : hcls) (split : Z -> Z -> list word) (stem : word -> word) (featurize : word -> Z).
Context (word_at : Z -> word).
Notation words_of := (words_of word_at stem).

(** The counts of one item, by feature. *)
Definition ff_of (d : iv) : list (Z * Z) :=
  fold_left (fun m k => bump Z.eqb k m) (map (fun w => featurize (tag_tf ++ w)) (words_of d)) [].
Definition rnotes (items : list iv) : list annotation :=
  flat_map (fun d => map (fun '(f, n) => Ann f (Iv (ip d) (ip d) n)) (ff_of d)) items.

Lemma count_features_ok base last : forall n j tf, base <= j -> j + Z.of_nat n - 1 <= last ->
  count_features stem featurize (map word_at (addresses base last)) base j n tf =
  Ok (fold_left (fun m k => bump Z.eqb k m) (map (fun w => featurize (tag_tf ++ w))
        (map (fun j => stem (word_at j)) (addresses j (j + Z.of_nat n - 1)))) tf).
Proof.
  induction n as [|n IH]; intros j tf H1 H2.
  - unfold addresses. replace (Z.to_nat (j + Z.of_nat 0 - 1 - j + 1)) with 0%nat by lia. reflexivity.
  - cbn [count_features]. rewrite nth_error_map, addresses_nth by lia. cbn [option_map].
    rewrite IH by lia. rewrite (addresses_cons j (j + Z.of_nat (S n) - 1)) by lia. cbn [map fold_left].
    do 2 f_equal. do 3 f_equal. lia.
Qed.
Lemma range_notes_ok base last : forall items notes,
  (forall d, In d items -> base <= ip d <= iq d /\ iq d <= last) ->
  range_notes stem featurize (map word_at (addresses base last)) base items notes = Ok (notes ++ rnotes items).
Proof.
  induction items as [|d r IH]; intros notes H; cbn [range_notes].
  - unfold rnotes. cbn [flat_map]. rewrite app_nil_r. reflexivity.
  - pose proof (H d (or_introl eq_refl)) as Hd. rewrite (count_features_ok base last) by lia. cbn [bind].
    replace (ip d + Z.of_nat (Z.to_nat (iq d - ip d + 1)) - 1) with (iq d) by lia.
    fold (words_of d). fold (ff_of d). rewrite IH by (intros x Hx; apply H; right; exact Hx).
    unfold rnotes. cbn [flat_map]. rewrite <- app_assoc. reflexivity.
Qed.
Lemma rnotes_app a b : rnotes (a ++ b) = rnotes a ++ rnotes b.
Proof. apply flat_map_app. Qed.

(** What they say about a term. *)
Lemma rnotes_noted l t : (forall a, In a (flat_map words_of l) -> featurize (tag_tf ++ a) = featurize (tag_tf ++ t) -> a = t) ->
  noted (featurize (tag_tf ++ t)) (rnotes l) = places stem word_at t l.
Proof.
  induction l as [|d l IH]; intros H; [reflexivity|]. unfold rnotes in *. cbn [flat_map]. rewrite noted_app.
  rewrite IH by (intros a Ha; apply H; cbn [flat_map]; apply in_app_iff; right; exact Ha).
  pose proof (counts_fold Z.eqb Z.eq_dec Z.eqb_eq (map (fun w => featurize (tag_tf ++ w)) (words_of d)) [] [] (counts_nil _ _)) as K.
  cbn [app] in K. fold (ff_of d) in K.
  pose proof (counts_image Z.eqb Z.eq_dec Z.eqb_eq (fun z => z) _ _ (featurize (tag_tf ++ t)) K (fun x _ E => E)) as M. cbv beta in M.
  assert (count_occ Z.eq_dec (map (fun w => featurize (tag_tf ++ w)) (words_of d)) (featurize (tag_tf ++ t)) =
          count_occ wdec (words_of d) t) as CO.
  { assert (forall w, In w (words_of d) -> featurize (tag_tf ++ w) = featurize (tag_tf ++ t) -> w = t) as J
      by (intros w Hw; apply H; cbn [flat_map]; apply in_app_iff; left; exact Hw).
    revert J. generalize (words_of d). induction l0 as [|w r IHr]; intros J; [reflexivity|]. cbn [map count_occ].
    rewrite IHr by (intros x Hx; apply J; right; exact Hx).
    destruct (wdec w t) as [->|N]; destruct (Z.eq_dec _ _) as [Q|Q]; try congruence.
    exfalso. apply N, J; [left; reflexivity|exact Q]. }
  rewrite CO in M.
  assert (forall m : list (Z * Z), noted (featurize (tag_tf ++ t)) (map (fun '(f, n) => Ann f (Iv (ip d) (ip d) n)) m) =
     map (fun n => Iv (ip d) (ip d) n) (map snd (filter (fun e => fst e =? featurize (tag_tf ++ t)) m))) as Q.
  { induction m as [|[w n] m IHm]; [reflexivity|]. cbn [map]. rewrite noted_cons. cbn [filter afeat fst aiv]. rewrite IHm.
    destruct (_ =? _); reflexivity. }
  rewrite Q, M. unfold places, items_with. cbn [filter].
  assert (occurrences word_at stem t d = Z.of_nat (count_occ wdec (words_of d) t)) as O by reflexivity. rewrite O.
  destruct (count_occ wdec (words_of d) t) as [|n]; [reflexivity|]. replace (0 <? Z.of_nat (S n)) with true by lia.
  cbn [map app]. rewrite O. f_equal.
Qed.
Lemma rnotes_other l f : (forall a, In a (flat_map words_of l) -> featurize (tag_tf ++ a) <> f) -> noted f (rnotes l) = [].
Proof.
  intros N. apply noted_none. intros a Ha. apply in_flat_map in Ha. destruct Ha as (d & Hd & Ha).
  apply in_map_iff in Ha. destruct Ha as ([g n] & <- & Hg). cbn [afeat].
  pose proof (counts_fold Z.eqb Z.eq_dec Z.eqb_eq (map (fun w => featurize (tag_tf ++ w)) (words_of d)) [] [] (counts_nil _ _)) as (_ & K & _).
  apply (in_map fst) in Hg. apply K in Hg. cbn [app fst] in Hg. apply in_map_iff in Hg. destruct Hg as (w & <- & Hw). apply N.
  apply in_flat_map. exists d. auto.
Qed.

Context (SC : iv -> Prop) (IC : St C -> Prop) (HC : hop_ok C SC IC).
Context (items : list iv) (HL : listed SC items).
Context (HA : aligned word_at split items).
Context (HS : forall c d, In c items -> In d items -> iq d - ip c < maxf).
Context (HT : total_length items <= maxf).
Context (before tail : list iv) (HB : items = before ++ tail) (stop : Z).

Definition tfr_inv (s : tfr C) : Prop :=
  exists done batch rest, tail = done ++ batch ++ rest /\ IC (tr_hop C s) /\ tr_batch C s = batch /\
    tr_iv C s = hd maxr rest /\ (forall x, In x (done ++ batch) -> iq x <= stop) /\
    (forall x, In x batch -> iq x < stop) /\ tr_notes C s = rnotes done /\
    tr_items C s = Z.of_nat (length (done ++ batch)) /\ tr_length C s = total_length (done ++ batch).

Lemma tail_in d : In d tail -> In d items. Proof. intros H. rewrite HB, in_app_iff. auto. Qed.
Lemma tail_gc : gclist tail.
Proof. destruct HL as [G _]. rewrite HB in G. apply gclist_app in G. tauto. Qed.
Lemma tail_total : total_length tail <= maxf.
Proof.
  destruct HL as [G _]. pose proof HT as T. rewrite HB, total_length_app in T.
  pose proof (total_length_pos before (fun d Hd => gclist_finite items d G ltac:(rewrite HB, in_app_iff; auto))). lia.
Qed.

Lemma range_flush done batch rest notes : tail = done ++ batch ++ rest -> batch <> [] ->
  range_notes stem featurize (split (front_p batch) (back_q batch)) (front_p batch) batch notes = Ok (notes ++ rnotes batch).
Proof.
  intros E N. destruct batch as [|x l]; [congruence|]. destruct (back_q_in l x) as [B1 B2].
  rewrite B2. cbn [front_p].
  assert (forall d, In d (x :: l) -> In d items) as Hin.
  { intros d Hd. apply tail_in. rewrite E, !in_app_iff. auto. }
  assert (gclist (x :: l)) as G.
  { pose proof tail_gc as G. rewrite E in G. apply gclist_app in G. destruct G as [_ G]. apply gclist_app in G. tauto. }
  assert (forall d, In d (x :: l) -> ip x <= ip d <= iq d /\ iq d <= iq (last (x :: l) maxr)) as B.
  { intros d Hd. pose proof (gclist_finite _ d (proj1 HL) (Hin d Hd)). pose proof (last_greatest l x d G Hd).
    destruct Hd as [<-|Hd]; [fin|]. pose proof (gclist_lt l x d G Hd). fin. }
  rewrite HA.
  - apply range_notes_ok. exact B.
  - apply Hin. left. reflexivity.
  - apply Hin. exact B1.
  - pose proof (B _ B1). lia.
Qed.

Lemma tfr_step s : tfr_inv s -> wp (tfr_body C split stem featurize stop s) (fun r => match r with
  | inl s' => tfr_inv s' /\ maxf - ip (tr_iv C s') < maxf - ip (tr_iv C s)
  | inr s' => tfr_inv s' /\ (iq (tr_iv C s') <=? stop) && (iq (tr_iv C s') <? maxf) = false end).
Proof.
  intros (done & batch & rest & E & Ic & Eb & Ed & H1 & H2 & En & Ei & El). inf.
  destruct HL as [G HQ]. unfold tfr_body. destruct ((iq (tr_iv C s) <=? stop) && (iq (tr_iv C s) <? maxf)) eqn:Q.
  - apply andb_prop in Q. destruct Q as [Q1 Q2]. apply Z.leb_le in Q1. apply Z.ltb_lt in Q2.
    destruct rest as [|y rest]; [exfalso; rewrite Ed in Q2; cbn [hd iq maxr] in Q2; lia|]. cbn [hd] in Ed. rewrite Ed in *.
    assert (In y items) as Hy by (apply tail_in; rewrite E, !in_app_iff; right; right; left; reflexivity).
    pose proof (gclist_finite _ y G Hy) as Fy. pose proof (HS y y Hy Hy) as Sy.
    assert (total_length (done ++ batch) + (iq y - ip y + 1) <= maxf /\ 0 <= total_length (done ++ batch)) as TL.
    { assert (tail = (done ++ batch) ++ [y] ++ rest) as E' by (rewrite E, <- app_assoc; reflexivity).
      assert (total_length tail = total_length (done ++ batch) + (iq y - ip y + 1) + total_length rest) as T.
      { rewrite E', (total_length_app (done ++ batch)). cbn [app]. rewrite total_length_cons. lia. }
      assert (forall d, In d (done ++ batch) -> finite d) as F1
        by (intros z Hz; apply (gclist_finite _ z G), tail_in; rewrite E', in_app_iff; auto).
      assert (forall d, In d rest -> finite d) as F2
        by (intros z Hz; apply (gclist_finite _ z G), tail_in; rewrite E', !in_app_iff; auto).
      pose proof (total_length_pos _ F1). pose proof (total_length_pos _ F2). pose proof tail_total. lia. }
    apply wp_bind. apply wp_chk; [fin2|]. apply wp_bind. rewrite El. apply wp_chk; [fin2|]. rewrite Eb.
    assert (back_q (batch ++ [y]) = iq y) as Bq by (unfold back_q; rewrite rev_app_distr; reflexivity).
    assert (tail = done ++ (batch ++ [y]) ++ rest) as E2 by (rewrite E, <- !app_assoc; reflexivity).
    assert (front_p (batch ++ [y]) <= ip y /\ iq y - front_p (batch ++ [y]) < maxf) as Fp.
    { destruct batch as [|x l]; cbn [app front_p]; [split; [lia|exact Sy]|].
      assert (In x items) as Hx by (apply tail_in; rewrite E, !in_app_iff; right; left; left; reflexivity).
      split; [|apply HS; assumption].
      pose proof tail_gc as G'. rewrite E, app_assoc in G'.
      pose proof (gclist_app_lt (done ++ x :: l) (y :: rest) x y G' ltac:(rewrite in_app_iff; right; left; reflexivity) (or_introl eq_refl)). lia. }
    rewrite Bq. apply wp_bind. apply wp_chk; [fin2|].
    assert (td_next : forall h d, IC h -> tau_spec SC (ip y + 1) d -> d = hd maxr rest).
    { intros h d _ Hd. pose proof (tau_next SC (before ++ done ++ batch ++ [y]) rest (ip y + 1) d (hop_GC HC)) as T.
      assert (items = (before ++ done ++ batch ++ [y]) ++ rest) as E3 by (rewrite HB, E2, <- !app_assoc; reflexivity).
      assert (match rest with [] => d = maxr | z :: _ => d = z end) as X.
      { apply T.
        - intros x. rewrite <- HQ, <- E3. reflexivity.
        - rewrite <- E3. exact G.
        - fin.
        - fin.
        - intros x Hx. assert (ip x <= ip y); [|lia]. rewrite !app_assoc, in_app_iff in Hx. destruct Hx as [Hx|[<-|[]]]; [|lia].
          rewrite E3 in G. apply gclist_app in G. destruct G as [G _]. rewrite !app_assoc in G.
          pose proof (gclist_app_lt _ [y] x y G Hx (or_introl eq_refl)). lia.
        - intros x Hx. rewrite HB, E, !app_assoc in G. apply gclist_app in G. destruct G as [_ G].
          pose proof (gclist_lt rest y x G Hx). lia.
        - exact Hd. }
      destruct rest; exact X. }
    assert (tr_items C s + 1 = Z.of_nat (length (done ++ batch ++ [y])) /\
            total_length (done ++ batch) + (iq y - ip y + 1) = total_length (done ++ batch ++ [y])) as [Ei' El'].
    { rewrite Ei, app_assoc, (app_length (done ++ batch)), (total_length_app (done ++ batch)).
      rewrite total_length_cons. change (total_length []) with 0. cbn [length]. lia. }
    assert (ip y < ip (hd maxr rest)) as Ly.
    { destruct rest as [|z rest]; cbn [hd]; [cbn [ip maxr]; fin|].
      pose proof tail_gc as G'. rewrite E in G'. apply gclist_app in G'. destruct G' as [_ G']. apply gclist_app in G'. destruct G' as [_ G'].
      pose proof (gclist_lt _ _ z G' (or_introl eq_refl)). lia. }
    assert (forall x, In x (done ++ batch ++ [y]) -> iq x <= stop) as H1'.
    { intros x Hx. rewrite app_assoc, in_app_iff in Hx. destruct Hx as [Hx|[<-|[]]]; [apply H1, Hx|exact Q1]. }
    assert (batch ++ [y] <> []) as NE by (destruct batch; discriminate).
    destruct ((iq y =? maxf) || (stop <=? iq y) || (huge <? iq y - front_p (batch ++ [y]))) eqn:Fu.
    + rewrite <- Bq at 1. rewrite (range_flush done (batch ++ [y]) rest) by assumption. cbn [bind].
      apply wp_bind. apply wp_chk; [fin|].
      step (hop_tau HC) as [h d]; [exact Ic|fin|intros [Ih Hd]]. apply wp_ok.
      rewrite (td_next h d Ih Hd). split; [|cbn [tr_iv]; lia]. exists (done ++ batch ++ [y]), [], rest.
      cbn [tr_hop tr_iv tr_batch tr_notes tr_items tr_length app]. rewrite !app_nil_r.
      split; [rewrite <- app_assoc; exact E2|]. split; [exact Ih|]. split; [reflexivity|]. split; [reflexivity|].
      split; [exact H1'|]. split; [intros x []|]. rewrite En, <- rnotes_app. auto.
    + cbn [bind]. apply wp_bind. apply wp_chk; [fin|].
      step (hop_tau HC) as [h d]; [exact Ic|fin|intros [Ih Hd]]. apply wp_ok.
      rewrite (td_next h d Ih Hd). split; [|cbn [tr_iv]; lia]. exists done, (batch ++ [y]), rest.
      cbn [tr_hop tr_iv tr_batch tr_notes tr_items tr_length].
      split; [exact E2|]. split; [exact Ih|]. split; [reflexivity|]. split; [reflexivity|]. split; [exact H1'|].
      split; [|auto]. intros x Hx. apply in_app_iff in Hx. destruct Hx as [Hx|[<-|[]]]; [apply H2, Hx|].
      apply orb_false_elim in Fu. destruct Fu as [Fu _]. apply orb_false_elim in Fu. lia.
  - apply wp_ok. split; [|exact Q]. exists done, batch, rest. auto 10.
Qed.
End Range.

Theorem tf_range_ok C split stem featurize word_at c SC items start stop :
  answers C c SC -> listed SC items -> aligned word_at split items ->
  (forall c d, In c items -> In d items -> iq d - ip c < maxf) -> total_length items <= maxf ->
  minf < start < maxf -> (exists d, In d items /\ start <= ip d /\ iq d = stop) ->
  exists notes, tf_annotations C split stem featurize c start stop = Ok (Some notes) /\
  forall t, no_clash featurize (keys (t :: flat_map (words_of word_at stem) items)) ->
    noted (featurize (tag_tf ++ t)) notes = places stem word_at t (in_range start stop items) /\
    noted (featurize total_items_word) notes = [Iv start start (Z.of_nat (length (in_range start stop items)))] /\
    noted (featurize total_length_word) notes = [Iv start start (total_length (in_range start stop items))].
Proof.
  intros HC HL HA HS HT Hst (d0 & D1 & D2 & D3). apply answers_iff in HC. destruct HC as (IC & HC & Ic). inf.
  assert (exists before tail, items = before ++ tail /\ (forall x, In x before -> ip x < start) /\ (forall x, In x tail -> start <= ip x))
    as (before & tail & HB & Hb & Ht).
  { destruct HL as [G _]. clear - G. induction items as [|x l IH].
    - exists [], []. repeat split; intros x [].
    - destruct (IH (gclist_tail _ _ G)) as (b & t & E & Hb & Ht). destruct (Z_lt_le_dec (ip x) start) as [L|L].
      + exists (x :: b), t. split; [rewrite E; reflexivity|]. split; [|exact Ht]. intros y [<-|Hy]; auto.
      + exists [], (x :: l). split; [reflexivity|]. split; [intros y []|]. intros y [<-|Hy]; [exact L|].
        pose proof (gclist_lt _ _ _ G Hy). lia. }
  assert (wp (tf_annotations C split stem featurize c start stop) (fun r => exists notes, r = Some notes /\
    forall t, no_clash featurize (keys (t :: flat_map (words_of word_at stem) items)) ->
    noted (featurize (tag_tf ++ t)) notes = places stem word_at t (in_range start stop items) /\
    noted (featurize total_items_word) notes = [Iv start start (Z.of_nat (length (in_range start stop items)))] /\
    noted (featurize total_length_word) notes = [Iv start start (total_length (in_range start stop items))])) as W.
  2:{ destruct (tf_annotations C split stem featurize c start stop) as [r| |]; try contradiction. destruct W as (notes & -> & W).
      exists notes. auto. }
  unfold tf_annotations. replace (start =? minf) with false by lia.
  step (hop_tau HC) as [h d]; [exact Ic|lia|intros [Ih Hd]].
  assert (d = hd maxr tail) as ->.
  { assert (match tail with [] => d = maxr | y :: _ => d = y end) as X.
    { apply (tau_next SC before tail start d (hop_GC HC)); try assumption; try lia.
      - intros x. rewrite <- HB. symmetry. apply HL.
      - rewrite <- HB. apply HL. }
    destruct tail; exact X. }
  apply wp_bind.
  eapply wp_mono; [apply (loop_rule (tfr_inv C stem featurize word_at IC tail stop) (fun s => maxf - ip (tr_iv C s)) (fun s' =>
     tfr_inv C stem featurize word_at IC tail stop s' /\ (iq (tr_iv C s') <=? stop) && (iq (tr_iv C s') <? maxf) = false))|].
  - intros s (dn & bt & rs & E & _ & _ & -> & _). destruct rs as [|y rs]; cbn [hd]; [cbn [ip maxr]; lia|].
    assert (In y items) as Hy by (rewrite HB, E, !in_app_iff; right; right; right; left; reflexivity).
    pose proof (gclist_finite _ y (proj1 HL) Hy). fin.
  - intros s Hs. exact (tfr_step C split stem featurize word_at SC IC HC items HL HA HS HT before tail HB stop s Hs).
  - exists [], [], tail. cbn [tr_hop tr_iv tr_batch tr_notes tr_items tr_length app length]. repeat split; auto; intros x [].
  - cbn [tr_iv]. destruct tail as [|y rs]; cbn [hd]; [cbn [ip maxr]; unfold maxf; reflexivity|].
    assert (In y items) as Hy by (rewrite HB, !in_app_iff; right; left; reflexivity).
    pose proof (gclist_finite _ y (proj1 HL) Hy). change (Z.pos BIG) with 295147905179352825856. fin2.
  - intros s [(dn & bt & rs & E & _ & Eb & Ei & H1 & H2 & En & Ec & El) Q].
    assert (gclist tail) as GT by (destruct HL as [G _]; rewrite HB in G; apply gclist_app in G; tauto).
    assert (forall x, In x rs -> stop < iq x) as H3.
    { intros x Hx. destruct rs as [|y rs]; [destruct Hx|]. rewrite Ei in Q. cbn [hd] in Q.
      assert (In y items) as Hy by (rewrite HB, E, !in_app_iff; right; right; right; left; reflexivity).
      pose proof (gclist_finite _ y (proj1 HL) Hy) as Fy. assert (stop < iq y) by (fin).
      destruct Hx as [<-|Hx]; [lia|]. rewrite E in GT. apply gclist_app in GT. destruct GT as [_ GT]. apply gclist_app in GT.
      destruct GT as [_ GT]. pose proof (gclist_lt _ _ _ GT Hx). lia. }
    assert (In d0 tail) as D0.
    { rewrite HB in D1. apply in_app_iff in D1. destruct D1 as [D1|D1]; [specialize (Hb _ D1); lia|exact D1]. }
    assert (bt = []) as ->.
    { rewrite E, !in_app_iff in D0. destruct D0 as [D0|[D0|D0]].
      - destruct bt as [|y bt]; [reflexivity|]. exfalso.
        rewrite E in GT. pose proof (gclist_app_lt dn ((y :: bt) ++ rs) d0 y GT D0 ltac:(left; reflexivity)).
        specialize (H1 y ltac:(rewrite in_app_iff; right; left; reflexivity)). lia.
      - specialize (H2 _ D0). lia.
      - specialize (H3 _ D0). lia. }
    assert (in_range start stop items = dn) as ER.
    { unfold in_range. rewrite HB, E. cbn [app]. rewrite !filter_app.
      assert (forall l (p : iv -> bool), (forall x, In x l -> p x = true) -> filter p l = l) as FT.
      { clear. induction l as [|x l IH]; intros p H; [reflexivity|]. cbn [filter]. rewrite (H x (or_introl eq_refl)). f_equal.
        apply IH. intros y Hy. apply H. right. exact Hy. }
      assert (forall l (p : iv -> bool), (forall x, In x l -> p x = false) -> filter p l = []) as FF.
      { clear. induction l as [|x l IH]; intros p H; [reflexivity|]. cbn [filter]. rewrite (H x (or_introl eq_refl)).
        apply IH. intros y Hy. apply H. right. exact Hy. }
      rewrite (FF before), (FT dn), (FF rs); [apply app_nil_r| | |].
      - intros x Hx. specialize (H3 x Hx). lia.
      - intros x Hx. specialize (H1 x ltac:(rewrite in_app_iff; auto)).
        specialize (Ht x ltac:(rewrite E, in_app_iff; auto)). lia.
      - intros x Hx. specialize (Hb x Hx). lia. }
    rewrite app_nil_r in *. rewrite Ec, El, En, ER. rewrite E in D0. cbn [app] in D0. apply in_app_iff in D0.
    destruct D0 as [D0|D0]; [|specialize (H3 _ D0); lia].
    destruct dn as [|x0 dn0]; [destruct D0|]. set (dn := x0 :: dn0) in *.
    replace (Z.of_nat (length dn) =? 0) with false by (unfold dn; cbn [length]; lia). apply wp_ok.
    eexists. split; [reflexivity|]. intros t NC.
    assert (forall a, In a (flat_map (words_of word_at stem) dn) -> In a (flat_map (words_of word_at stem) items)) as Sub.
    { intros a Ha. apply in_flat_map in Ha. destruct Ha as (x & Hx & Ha). apply in_flat_map. exists x. split; [|exact Ha].
      rewrite HB, E, !in_app_iff. auto. }
    set (ws := t :: flat_map (words_of word_at stem) items) in *.
    assert (forall a b, In a (keys ws) -> In b (keys ws) -> a <> b -> (featurize a =? featurize b) = false) as D.
    { intros a b Ha Hb' Nab. apply Z.eqb_neq. intros Q'. apply Nab, NC; assumption. }
    pose proof (key_items stem word_at items t) as K1. pose proof (key_length stem word_at items t) as K2.
    assert (forall a, In a ws -> In (tag_tf ++ a) (keys ws)) as K3 by (intros a Ha; apply key_tf, Ha).
    assert (In (tag_tf ++ t) (keys ws)) as K4 by (apply K3; left; reflexivity).
    fold ws in K1, K2.
    rewrite !noted_app, !noted_cons. cbn [afeat aiv]. rewrite !Z.eqb_refl. change (noted _ []) with (@nil iv).
    rewrite rnotes_noted.
    2:{ intros a Ha Q'. apply tag_tf_inj. apply NC; [apply K3; right; apply Sub, Ha|exact K4|exact Q']. }
    assert (forall w, In w (keys ws) -> (forall a, tag_tf ++ a <> w) -> noted (featurize w) (rnotes stem featurize word_at dn) = []) as RO.
    { intros w Hw N. apply rnotes_other. intros a Ha. apply Z.eqb_neq. apply D; [apply K3; right; apply Sub, Ha|exact Hw|apply N]. }
    rewrite !RO by (assumption || discriminate). rewrite !D by (assumption || discriminate). rewrite app_nil_r. auto.
Qed.
