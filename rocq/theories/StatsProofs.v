(** The annotations made by tf_df_annotations. *)
From Verif Require Import Base HopperModel GclSpec HopperProofs ArrayProofs UnaryProofs PostingModel RankSsr StatsModel StatsSpec.

Ltac fin2 := unfold finite, nests in *; cbn [ip iq ivl] in *; unfold minf, maxf in *; lia.

(* ------------------------------------------------------------------ *)
(** * Counting in a map *)
Section Bump.
Context {K : Type} (eqb : K -> K -> bool) (dec : forall a b : K, {a = b} + {a <> b}).
Context (E : forall a b, eqb a b = true <-> a = b).

Lemma eqb_refl k : eqb k k = true. Proof. apply E. reflexivity. Qed.
Lemma eqb_neq a b : eqb a b = false <-> a <> b.
Proof. rewrite <- (E a b). destruct (eqb a b); split; congruence. Qed.

Lemma bump_keys k (m : list (K * Z)) x : In x (map fst (bump eqb k m)) <-> x = k \/ In x (map fst m).
Proof.
  induction m as [|[k' n] r IH]; cbn [bump map fst In]; [intuition|].
  destruct (eqb k k') eqn:Q; cbn [map fst In].
  - apply E in Q. subst. intuition.
  - rewrite IH. intuition.
Qed.
Lemma bump_nodup k (m : list (K * Z)) : NoDup (map fst m) -> NoDup (map fst (bump eqb k m)).
Proof.
  induction m as [|[k' n] r IH]; cbn [bump map fst]; intros H.
  - repeat constructor. intros [].
  - inversion H as [|? ? N D]; subst. destruct (eqb k k') eqn:Q; cbn [map fst]; [constructor; assumption|].
    constructor; [|apply IH; exact D]. intros H'. apply bump_keys in H'. destruct H' as [->|H']; [|exact (N H')].
    rewrite eqb_refl in Q. discriminate.
Qed.
(** The entry of a key. *)
Definition entry (k : K) (m : list (K * Z)) : list Z := map snd (filter (fun e => eqb (fst e) k) m).
Lemma bump_entry k k' (m : list (K * Z)) : NoDup (map fst m) ->
  entry k (bump eqb k' m) = if eqb k' k then [fold_right Z.add 0 (entry k m) + 1] else entry k m.
Proof.
  induction m as [|[a n] r IH]; cbn [bump map fst]; intros H.
  - unfold entry. cbn [filter fst]. destruct (eqb k' k); reflexivity.
  - inversion H as [|? ? N D]; subst. destruct (eqb k' a) eqn:Q.
    + apply E in Q. subst a. unfold entry. cbn [filter fst]. destruct (eqb k' k) eqn:Q; [|reflexivity].
      cbn [map snd]. apply E in Q. subst k'.
      assert (filter (fun e : K * Z => eqb (fst e) k) r = []) as ->.
      { clear -N E. induction r as [|[b m] r IH]; [reflexivity|]. cbn [filter fst]. cbn [map fst In] in N.
        destruct (eqb b k) eqn:Q; [apply E in Q; subst; intuition|]. apply IH. intuition. }
      cbn [map fold_right]. f_equal; lia.
    + unfold entry in *. cbn [filter fst]. specialize (IH D). destruct (eqb a k) eqn:Q2.
      * apply E in Q2. subst a. rewrite Q in *. cbn [map snd]. rewrite IH. reflexivity.
      * exact IH.
Qed.
(** What a map of counts holds. *)
Definition counts (l : list K) (m : list (K * Z)) : Prop :=
  NoDup (map fst m) /\ (forall x, In x (map fst m) <-> In x l) /\
  forall k, entry k m = match count_occ dec l k with O => [] | n => [Z.of_nat n] end.
Lemma counts_nil : counts [] [].
Proof. split; [constructor|]. split; [intros x; reflexivity|]. intros k. reflexivity. Qed.
Lemma counts_bump l m k : counts l m -> counts (l ++ [k]) (bump eqb k m).
Proof.
  intros (H1 & H2 & H3). split; [apply bump_nodup; exact H1|]. split.
  - intros x. rewrite bump_keys, in_app_iff, H2. cbn [In]. intuition.
  - intros x. rewrite (bump_entry x k m H1), H3, count_occ_app. cbn [count_occ].
    destruct (dec k x) as [<-|N].
    + rewrite eqb_refl. destruct (count_occ dec l k) as [|n]; cbn [fold_right]; [reflexivity|].
      replace (S n + 1)%nat with (S (S n)) by lia. f_equal. lia.
    + apply eqb_neq in N. rewrite N. rewrite Nat.add_0_r. reflexivity.
Qed.
Lemma counts_fold ks : forall l m, counts l m -> counts (l ++ ks) (fold_left (fun m k => bump eqb k m) ks m).
Proof.
  induction ks as [|k r IH]; intros l m H; cbn [fold_left].
  - rewrite app_nil_r. exact H.
  - replace (l ++ k :: r) with ((l ++ [k]) ++ r) by (rewrite <- app_assoc; reflexivity).
    apply IH, counts_bump, H.
Qed.
(** The entries whose image under an injection is that of [k]. *)
Lemma counts_image (g : K -> Z) l m k : counts l m -> (forall x, In x l -> g x = g k -> x = k) ->
  map snd (filter (fun e => g (fst e) =? g k) m) = match count_occ dec l k with O => [] | n => [Z.of_nat n] end.
Proof.
  intros (H1 & H2 & H3) I. rewrite <- H3. unfold entry. f_equal. apply filter_ext_in. intros [a n] Ha. cbn [fst].
  assert (In a l) as Hl by (apply H2; apply (in_map fst) in Ha; exact Ha).
  destruct (eqb a k) eqn:Q.
  - apply E in Q. subst. apply Z.eqb_refl.
  - apply eqb_neq in Q. apply Z.eqb_neq. intros G. apply Q, I; assumption.
Qed.
End Bump.

Lemma word_eq_iff a b : word_eq a b = true <-> a = b.
Proof. unfold word_eq. destruct (list_eq_dec Z.eq_dec a b); split; congruence. Qed.
Notation wdec := (list_eq_dec Z.eq_dec).
Notation wcounts := (counts word_eq wdec).
Notation zcounts := (counts Z.eqb Z.eq_dec).

Lemma addresses_cons p q : p <= q -> addresses p q = p :: addresses (p + 1) q.
Proof.
  intros H. unfold addresses. replace (Z.to_nat (q - p + 1)) with (S (Z.to_nat (q - (p + 1) + 1))) by lia.
  cbn [seq map]. f_equal; [lia|]. rewrite <- seq_shift, map_map. apply map_ext. intros i. lia.
Qed.
Lemma addresses_nth p q j : p <= j <= q -> nth_error (addresses p q) (Z.to_nat (j - p)) = Some j.
Proof.
  intros H. unfold addresses. rewrite nth_error_map.
  rewrite (nth_error_nth' _ 0%nat) by (rewrite seq_length; lia). rewrite seq_nth by lia. cbn [option_map]. f_equal. lia.
Qed.

Lemma noted_app f a b : noted f (a ++ b) = noted f a ++ noted f b.
Proof. unfold noted. rewrite filter_app, map_app. reflexivity. Qed.

Lemma total_length_cons x a : total_length (x :: a) = iq x - ip x + 1 + total_length a.
Proof. reflexivity. Qed.
Lemma total_length_app a b : total_length (a ++ b) = total_length a + total_length b.
Proof. induction a as [|x a IH]; cbn [app]; [change (total_length []) with 0; lia|]. rewrite !total_length_cons, IH. lia. Qed.
Lemma total_length_pos a : (forall d, In d a -> finite d) -> 0 <= total_length a.
Proof.
  induction a as [|x a IH]; intros H; [change (total_length []) with 0; lia|]. rewrite total_length_cons.
  specialize (IH (fun d Hd => H d (or_intror Hd))). pose proof (H x (or_introl eq_refl)). fin.
Qed.

(** The next item of a list after the items [a]. *)
Lemma tau_next (Q : iv -> Prop) a b k r : GC Q -> (forall x, Q x <-> In x (a ++ b)) -> gclist (a ++ b) -> k <> minf -> k <= maxf ->
  (forall x, In x a -> ip x < k) -> (forall x, In x b -> k <= ip x) -> tau_spec Q k r ->
  match b with [] => r = maxr | y :: _ => r = y end.
Proof.
  intros G HQ L N M Ha Hb T. inf. destruct T as [[E _]|[_ [(Hr & Kr & Mr)|[-> Mr]]]]; [lia| |].
  - apply HQ in Hr as Hr'. apply in_app_iff in Hr'. destruct Hr' as [Hr'|Hr']; [specialize (Ha r Hr'); lia|].
    destruct b as [|y b]; [destruct Hr'|].
    assert (Q y) as Hy by (apply HQ, in_app_iff; right; left; reflexivity).
    specialize (Mr y Hy (Hb y (or_introl eq_refl))).
    assert (ip y <= ip r).
    { destruct Hr' as [->|Hr']; [lia|]. apply gclist_app in L. destruct L as [_ L].
      pose proof (gclist_lt _ _ _ L Hr'). lia. }
    apply (GC_eq_ip Q); auto. lia.
  - destruct b as [|y b]; [reflexivity|]. exfalso.
    assert (Q y) as Hy by (apply HQ, in_app_iff; right; left; reflexivity).
    specialize (Mr y Hy). specialize (Hb y (or_introl eq_refl)). lia.
Qed.

Section Make.
Context (C : hcls) (split : Z -> Z -> list word) (stem : word -> word) (featurize : word -> Z).
Context (word_at : Z -> word).
Notation words_of := (words_of word_at stem).

(** The counts of one item. *)
Definition tf_of (d : iv) : list (word * Z) :=
  fold_left (fun m k => bump word_eq k m) (words_of d) [].
Lemma tf_of_counts d : wcounts (words_of d) (tf_of d).
Proof.
  pose proof (counts_fold word_eq wdec word_eq_iff (words_of d) [] [] (counts_nil _ _)) as H.
  exact H.
Qed.

Lemma count_words_ok base last : forall n j tf, base <= j -> j + Z.of_nat n - 1 <= last ->
  count_words stem (map word_at (addresses base last)) base j n tf =
  Ok (fold_left (fun m k => bump word_eq k m) (map (fun j => stem (word_at j)) (addresses j (j + Z.of_nat n - 1))) tf).
Proof.
  induction n as [|n IH]; intros j tf H1 H2.
  - unfold addresses. replace (Z.to_nat (j + Z.of_nat 0 - 1 - j + 1)) with 0%nat by lia. reflexivity.
  - cbn [count_words]. rewrite nth_error_map, addresses_nth by lia. cbn [option_map].
    rewrite IH by lia. rewrite (addresses_cons j (j + Z.of_nat (S n) - 1)) by lia. cbn [map fold_left].
    do 2 f_equal. f_equal. f_equal. lia.
Qed.

(** The annotations and frequencies of a list of items. *)
Definition notes_of (items : list iv) : list annotation :=
  flat_map (fun d => item_notes featurize (ip d) (tf_of d)) items.
Definition dfs_of (items : list iv) (df : list (Z * Z)) : list (Z * Z) :=
  fold_left (fun df d => item_dfs featurize (tf_of d) df) items df.
Lemma batch_notes_ok base last : forall items notes df,
  (forall d, In d items -> base <= ip d <= iq d /\ iq d <= last) ->
  batch_notes stem featurize (map word_at (addresses base last)) base items notes df =
  Ok (notes ++ notes_of items, dfs_of items df).
Proof.
  induction items as [|d r IH]; intros notes df H; cbn [batch_notes].
  - unfold notes_of. cbn [flat_map]. rewrite app_nil_r. reflexivity.
  - pose proof (H d (or_introl eq_refl)) as Hd. rewrite (count_words_ok base last) by lia. cbn [bind].
    replace (ip d + Z.of_nat (Z.to_nat (iq d - ip d + 1)) - 1) with (iq d) by lia.
    fold (words_of d). fold (tf_of d). rewrite IH by (intros x Hx; apply H; right; exact Hx).
    unfold notes_of, dfs_of. cbn [flat_map fold_left]. rewrite <- app_assoc. reflexivity.
Qed.
Lemma notes_of_app a b : notes_of (a ++ b) = notes_of a ++ notes_of b.
Proof. apply flat_map_app. Qed.
Lemma dfs_of_app a b df : dfs_of (a ++ b) df = dfs_of b (dfs_of a df).
Proof. apply fold_left_app. Qed.

Lemma back_q_in l x : In (last (x :: l) maxr) (x :: l) /\ back_q (x :: l) = iq (last (x :: l) maxr).
Proof.
  destruct (@exists_last _ (x :: l) ltac:(discriminate)) as (r & y & E). rewrite E, last_last. split.
  - apply in_app_iff. right. left. reflexivity.
  - unfold back_q. rewrite rev_app_distr. reflexivity.
Qed.
Lemma last_greatest l x d : gclist (x :: l) -> In d (x :: l) -> iq d <= iq (last (x :: l) maxr).
Proof.
  intros G Hd. destruct (@exists_last _ (x :: l) ltac:(discriminate)) as (r & y & E). rewrite E in *. rewrite last_last.
  apply in_app_iff in Hd. destruct Hd as [Hd|[->|[]]]; [|lia].
  pose proof (gclist_app_lt r [y] d y G Hd (or_introl eq_refl)). lia.
Qed.

Context (SC : iv -> Prop) (IC : St C -> Prop) (HC : hop_ok C SC IC).
Context (items : list iv) (HL : listed SC items).
Context (HA : aligned word_at split items).
Context (HS : forall c d, In c items -> In d items -> iq d - ip c < maxf).
Context (HT : total_length items <= maxf).

Lemma items_finite d : In d items -> finite d.
Proof. destruct HL as [G _]. apply gclist_finite. exact G. Qed.
Lemma flush_ok done batch rest notes df : items = done ++ batch ++ rest -> batch <> [] ->
  flush split stem featurize batch notes df = Ok (notes ++ notes_of batch, dfs_of batch df).
Proof.
  intros E N. destruct batch as [|x l]; [congruence|]. destruct (back_q_in l x) as [B1 B2].
  unfold flush. rewrite B2. cbn [front_p].
  assert (forall d, In d (x :: l) -> In d items) as Hin.
  { intros d Hd. rewrite E, !in_app_iff. auto. }
  assert (gclist (x :: l)) as G.
  { destruct HL as [G _]. rewrite E in G. apply gclist_app in G. destruct G as [_ G]. apply gclist_app in G. tauto. }
  assert (forall d, In d (x :: l) -> ip x <= ip d <= iq d /\ iq d <= iq (last (x :: l) maxr)) as B.
  { intros d Hd. pose proof (items_finite d (Hin d Hd)). pose proof (last_greatest l x d G Hd).
    destruct Hd as [<-|Hd]; [fin|]. pose proof (gclist_lt l x d G Hd). fin. }
  rewrite HA.
  - apply batch_notes_ok. exact B.
  - apply Hin. left. reflexivity.
  - apply Hin. exact B1.
  - pose proof (B _ B1). lia.
Qed.

(** The state of the loop after the items [a]. *)
Definition tfdf_inv (s : tfdf C) : Prop :=
  exists done batch rest, items = done ++ batch ++ rest /\ IC (td_hop C s) /\ td_batch C s = batch /\
    minf <= td_p C s <= maxf /\
    (forall x, In x (done ++ batch) -> ip x <= td_p C s) /\ (forall x, In x rest -> td_p C s < ip x) /\
    (td_p C s = maxf -> batch = []) /\
    td_notes C s = notes_of done /\ td_df C s = dfs_of done [] /\
    td_items C s = Z.of_nat (length (done ++ batch)) /\ td_length C s = total_length (done ++ batch).

Lemma tfdf_step s : tfdf_inv s -> wp (tfdf_body C split stem featurize s) (fun r => match r with
  | inl s' => tfdf_inv s' /\ maxf - td_p C s' < maxf - td_p C s
  | inr s' => td_notes C s' = notes_of items /\ td_df C s' = dfs_of items [] /\
      td_items C s' = Z.of_nat (length items) /\ td_length C s' = total_length items end).
Proof.
  intros (done & batch & rest & E & Ic & Eb & Bp & H1 & H2 & H3 & En & Ed & Ei & El). inf.
  destruct HL as [G HQ]. unfold tfdf_body. destruct (td_p C s <? maxf) eqn:Q.
  - apply Z.ltb_lt in Q. apply wp_bind. apply wp_chk; [lia|].
    step (hop_tau HC) as [h d]; [exact Ic|lia|intros [Ih Hd]].
    assert (match rest with [] => d = maxr | y :: _ => d = y end) as Hn.
    { apply (tau_next SC (done ++ batch) rest (td_p C s + 1) d (hop_GC HC)).
      - intros x. rewrite <- HQ, E, app_assoc. reflexivity.
      - rewrite <- app_assoc, <- E. exact G.
      - lia.
      - lia.
      - intros x Hx. specialize (H1 x Hx). lia.
      - intros x Hx. specialize (H2 x Hx). lia.
      - exact Hd. }
    clear Hd. rewrite Eb. destruct rest as [|y rest].
    + subst d. cbn [ip maxr]. rewrite Z.ltb_irrefl. cbn [bind]. rewrite Z.eqb_refl. cbn [bind].
      rewrite app_nil_r in E.
      destruct batch as [|x l].
      * apply wp_ok. split; [|cbn [td_p]; lia]. exists items, [], []. rewrite !app_nil_r in *. subst done.
        cbn [td_hop td_batch td_p td_notes td_df td_items td_length]. split; [reflexivity|]. split; [exact Ih|]. split; [reflexivity|].
        split; [lia|]. split; [intros x Hx; specialize (H1 x Hx); lia|]. split; [intros x []|]. auto.
      * rewrite (flush_ok done (x :: l) []) by (try discriminate; rewrite app_nil_r; exact E). cbn [bind].
        apply wp_ok. split; [|cbn [td_p]; lia]. exists items, [], []. rewrite !app_nil_r in *.
        cbn [td_hop td_batch td_p td_notes td_df td_items td_length].
        split; [reflexivity|]. split; [exact Ih|]. split; [reflexivity|]. split; [lia|]. split.
        { intros z Hz. pose proof (items_finite z Hz). fin. }
        split; [intros z []|]. split; [reflexivity|]. rewrite En, Ed, <- notes_of_app, <- dfs_of_app, <- E.
        rewrite Ei, El, E. auto.
    + subst d. assert (In y items) as Hy by (rewrite E, !in_app_iff; right; right; left; reflexivity).
      pose proof (items_finite y Hy) as Fy. assert (ip y < maxf) as Ly by fin.
      rewrite (proj2 (Z.ltb_lt _ _) Ly). assert (ip y =? maxf = false) as Ny by lia. rewrite Ny.
      pose proof (HS y y Hy Hy) as Sy. specialize (H2 y (or_introl eq_refl)) as H2y.
      assert (total_length (done ++ batch) + (iq y - ip y + 1) <= maxf /\ 0 <= total_length (done ++ batch)) as TL.
      { assert (items = (done ++ batch) ++ [y] ++ rest) as E' by (rewrite E, <- app_assoc; reflexivity).
        assert (total_length items = total_length (done ++ batch) + (iq y - ip y + 1) + total_length rest) as T.
        { rewrite E', (total_length_app (done ++ batch)). cbn [app]. rewrite total_length_cons. lia. }
        assert (forall d, In d (done ++ batch) -> finite d) as F1
          by (intros z Hz; apply items_finite; rewrite E', in_app_iff; auto).
        assert (forall d, In d rest -> finite d) as F2
          by (intros z Hz; apply items_finite; rewrite E', !in_app_iff; auto).
        pose proof (total_length_pos _ F1). pose proof (total_length_pos _ F2). lia. }
      apply wp_bind. apply wp_bind. apply wp_chk; [fin2|]. apply wp_bind. rewrite El. apply wp_chk; [fin2|].
      apply wp_ok. apply wp_bind.
      assert (back_q (batch ++ [y]) = iq y) as Bq by (unfold back_q; rewrite rev_app_distr; reflexivity).
      rewrite Bq.
      assert (front_p (batch ++ [y]) <= ip y /\ iq y - front_p (batch ++ [y]) < maxf) as Fp.
      { assert (In (hd maxr (batch ++ [y])) items /\ front_p (batch ++ [y]) = ip (hd maxr (batch ++ [y])) /\
                ip (hd maxr (batch ++ [y])) <= ip y) as (X1 & X2 & X3).
        { destruct batch as [|x l]; cbn [app hd front_p].
          - repeat split; [exact Hy|lia].
          - repeat split; [rewrite E, !in_app_iff; right; left; left; reflexivity|].
            assert (ip x <= td_p C s) by (apply H1; rewrite in_app_iff; right; left; reflexivity). lia. }
        rewrite X2. split; [exact X3|]. apply HS; assumption. }
      apply wp_bind. apply wp_chk; [fin2|]. apply wp_ok.
      assert (items = done ++ (batch ++ [y]) ++ rest) as E2 by (rewrite E, <- !app_assoc; reflexivity).
      assert (forall x, In x rest -> ip y < ip x) as H2'.
      { intros x Hx. rewrite E, app_assoc in G. apply gclist_app in G. destruct G as [_ G]. apply (gclist_lt rest y x G Hx). }
      assert (forall x, In x (done ++ batch ++ [y]) -> ip x <= ip y) as H1'.
      { intros x Hx. rewrite app_assoc, in_app_iff in Hx. destruct Hx as [Hx|[<-|[]]]; [|lia]. specialize (H1 x Hx). lia. }
      assert (td_items C s + 1 = Z.of_nat (length (done ++ batch ++ [y])) /\
              total_length (done ++ batch) + (iq y - ip y + 1) = total_length (done ++ batch ++ [y])) as [Ei' El'].
      { rewrite Ei, app_assoc, (app_length (done ++ batch)), (total_length_app (done ++ batch)).
        rewrite total_length_cons. change (total_length []) with 0. cbn [length]. lia. }
      destruct (match batch ++ [y] with [] => false | _ :: _ => huge <? iq y - front_p (batch ++ [y]) end) eqn:Fu.
      * rewrite (flush_ok done (batch ++ [y]) rest) by (try exact E2; destruct batch; discriminate). cbn [bind].
        apply wp_ok. split; [|cbn [td_p]; lia]. exists (done ++ batch ++ [y]), [], rest.
        cbn [td_hop td_batch td_p td_notes td_df td_items td_length app]. rewrite !app_nil_r.
        split; [rewrite <- app_assoc; exact E2|]. split; [exact Ih|]. split; [reflexivity|]. split; [fin|].
        split; [exact H1'|]. split; [exact H2'|]. split; [reflexivity|].
        rewrite En, Ed, <- notes_of_app, <- dfs_of_app. auto.
      * apply wp_ok. split; [|cbn [td_p]; lia]. exists done, (batch ++ [y]), rest.
        cbn [td_hop td_batch td_p td_notes td_df td_items td_length app].
        split; [exact E2|]. split; [exact Ih|]. split; [reflexivity|]. split; [fin|].
        split; [exact H1'|]. split; [exact H2'|]. split; [lia|]. auto.
  - apply Z.ltb_ge in Q. apply wp_ok. assert (td_p C s = maxf) as Em by lia. specialize (H3 Em). subst batch.
    destruct rest as [|y rest].
    + rewrite !app_nil_r in *. rewrite H3, app_nil_r in *. subst done. rewrite En, Ed, Ei, El. auto.
    + exfalso. specialize (H2 y (or_introl eq_refl)).
      assert (In y items) as Hy by (rewrite E, !in_app_iff; right; right; left; reflexivity).
      pose proof (items_finite y Hy). fin.
Qed.
End Make.
