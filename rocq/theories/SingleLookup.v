(** Lookups in the files of a single-file index. *)
From Verif Require Import Base HopperModel ArrayDefs GclSpec Bytes CodecModel CodecSpec CodecProofs PostingModel PostingSpec PostingProofs PostingIO
  ShardModel ShardSpec ShardProofs HazelSpec HazelProofs SingleModel SingleSpec.

Lemma name_eqb_spec a b : name_eqb a b = true <-> a = b.
Proof.
  destruct a, b; cbn; split; intros H; try discriminate; try reflexivity.
  - apply Nat.eqb_eq in H. rewrite H. reflexivity.
  - injection H as ->. apply Nat.eqb_refl.
Qed.
Lemma set_same d a o : set d a o a = o.
Proof. unfold set. rewrite (proj2 (name_eqb_spec a a) eq_refl). reflexivity. Qed.
Lemma set_other d a o b : a <> b -> set d a o b = d b.
Proof. intros N. unfold set. destruct (name_eqb a b) eqn:E; [|reflexivity]. apply name_eqb_spec in E. contradiction. Qed.
Lemma exec_app d a b : exec d (a ++ b) = exec (exec d a) b.
Proof. unfold exec. apply fold_left_app. Qed.

(** * locate *)
Lemma idx_at {A} (l : list A) i x : nth_error l i = Some x -> idx l (Z.of_nat i) = Ok x.
Proof. intros H. unfold idx. replace (Z.of_nat i <? 0) with false by lia. rewrite Nat2Z.id, H. reflexivity. Qed.
Lemma idx_in {A} (l : list A) k : 0 <= k < len l -> exists x, idx l k = Ok x /\ nth_error l (Z.to_nat k) = Some x.
Proof.
  intros H. unfold idx. replace (k <? 0) with false by lia. destruct (nth_error l (Z.to_nat k)) as [x|] eqn:E; [eauto|].
  apply nth_error_None in E. unfold len in H. lia.
Qed.
Lemma ordered_nth m : map_order (map (@fst Z Z) m) -> forall i j a b, (i < j)%nat -> nth_error m i = Some a -> nth_error m j = Some b -> fst a < fst b.
Proof.
  induction m as [|x m IH]; intros M i j a b L A B; [destruct i; discriminate|].
  pose proof (map_order_head _ _ M) as Hd. rewrite Forall_forall in Hd. destruct j as [|j]; [lia|]. cbn in B. destruct i as [|i]; cbn in A.
  - injection A as <-. apply Hd. apply in_map. apply nth_error_In in B. exact B.
  - apply (IH (map_order_tail _ _ M) i j); [lia|exact A|exact B].
Qed.
Lemma search_ok m f : map_order (map fst m) -> forall n l h, h - l + 1 <= Z.of_nat n -> 0 <= l -> h < len m -> l <= h + 1 -> 0 <= h ->
  (forall i a, nth_error m i = Some a -> Z.of_nat i < l -> fst a < f) -> (forall i a, nth_error m i = Some a -> h < Z.of_nat i -> f < fst a) ->
  (forall a, nth_error m 0 = Some a -> fst a <= f) ->
  exists r, search n m f l h = Ok r /\
    match r with Some i => exists e, 0 <= i /\ nth_error m (Z.to_nat i) = Some (f, e) | None => forall i a, nth_error m i = Some a -> fst a <> f end.
Proof.
  intros M. induction n as [|n IH]; intros l h N L0 Hm LH H0 Bl Ah Fi; cbn [search].
  - replace (h <=? l) with true by lia. destruct (idx_in m h) as (r & -> & Er); [lia|]. cbn [bind]. eexists. split; [reflexivity|].
    assert (h = l - 1) by lia. specialize (Bl _ _ Er). replace (fst r =? f) with false by lia.
    intros i a Ha. destruct (Z_lt_le_dec (Z.of_nat i) l) as [K|K]; [|assert (f < fst a) by (apply (Ah i a Ha); lia); lia].
    pose proof (ordered_nth m M i (Z.to_nat h) a r) as Q. destruct (Nat.eq_dec i (Z.to_nat h)) as [->|Ne]; [rewrite Er in Ha; injection Ha as <-; lia|].
    specialize (Q ltac:(lia) Ha Er). lia.
  - destruct (h <=? l) eqn:E.
    + destruct (idx_in m h) as (r & -> & Er); [lia|]. cbn [bind]. destruct (fst r =? f) eqn:F; eexists; (split; [reflexivity|]).
      * exists (snd r). split; [lia|]. rewrite Er. destruct r as [g e]. cbn in *. f_equal. f_equal. lia.
      * intros i a Ha. destruct (Z_lt_le_dec h (Z.of_nat i)) as [K|K]; [specialize (Ah i a Ha K); lia|].
        destruct (Z_lt_le_dec (Z.of_nat i) l) as [K'|K']; [specialize (Bl i a Ha K'); lia|]. assert (i = Z.to_nat h) as -> by lia. rewrite Er in Ha. injection Ha as <-. lia.
    + set (k := l + (h - l) / 2). assert (Bk : l <= k < h) by (unfold k; pose proof (Z.div_mod (h - l) 2 ltac:(lia)); pose proof (Z.mod_pos_bound (h - l) 2 ltac:(lia)); lia).
      destruct (idx_in m k) as (r & Ek & Er); [lia|]. rewrite Ek. cbn [bind].
      destruct (fst r <? f) eqn:F1; [|destruct (f <? fst r) eqn:F2].
      * apply IH; [lia|lia|lia|lia|lia| |exact Ah|exact Fi]. intros i a Ha K. destruct (Nat.eq_dec i (Z.to_nat k)) as [->|Ne]; [rewrite Er in Ha; injection Ha as <-; lia|].
        pose proof (ordered_nth m M i (Z.to_nat k) a r ltac:(lia) Ha Er). lia.
      * assert (k <> 0) by (intros K; rewrite K in Er; specialize (Fi r Er); lia).
        apply IH; [lia|lia|lia|lia|lia|exact Bl| |exact Fi]. intros i a Ha K. destruct (Nat.eq_dec i (Z.to_nat k)) as [->|Ne]; [rewrite Er in Ha; injection Ha as <-; lia|].
        pose proof (ordered_nth m M (Z.to_nat k) i r a ltac:(lia) Er Ha). lia.
      * eexists. split; [reflexivity|]. exists (snd r). split; [lia|]. rewrite Er. destruct r as [g e]. cbn in *. f_equal. f_equal. lia.
Qed.
Lemma locate_ok m f : map_order (map fst m) -> exists r, locate m f = Ok r /\
  match r with Some i => exists e, 0 <= i /\ nth_error m (Z.to_nat i) = Some (f, e) | None => forall i a, nth_error m i = Some a -> fst a <> f end.
Proof.
  intros M. unfold locate. destruct m as [|x m]; [exists None; split; [reflexivity|]; intros [|i] a H; discriminate|].
  set (l := x :: m) in *. assert (0 < len l) by (unfold l, len; cbn; lia). destruct (idx_in l (len l - 1)) as (y & -> & Ey); [lia|]. cbn [bind].
  destruct ((f <? fst x) || (fst y <? f)) eqn:E.
  - exists None. split; [reflexivity|]. intros i a Ha K.
    assert (fst x <= fst a) by (destruct i as [|i]; [injection Ha as <-; lia|]; pose proof (ordered_nth l M 0 (S i) x a ltac:(lia) eq_refl Ha); lia).
    assert (fst a <= fst y).
    { destruct (Nat.eq_dec i (Z.to_nat (len l - 1))) as [->|Ne]; [rewrite Ey in Ha; injection Ha as <-; lia|].
      assert (i < length l)%nat by (apply nth_error_Some; rewrite Ha; discriminate).
      pose proof (ordered_nth l M i (Z.to_nat (len l - 1)) a y ltac:(unfold len in *; lia) Ha Ey). lia. }
    lia.
  - destruct (fst x =? f) eqn:F.
    + exists (Some 0). split; [reflexivity|]. exists (snd x). split; [lia|]. cbn. destruct x as [g e]; cbn in *. f_equal. f_equal. lia.
    + apply search_ok; [exact M|unfold len in *; lia|lia|lia|lia|lia| | |].
      * intros i a _ K. lia.
      * intros i a Ha K. assert (i < length l)%nat by (apply nth_error_Some; rewrite Ha; discriminate). unfold len in K. lia.
      * intros a Ha. injection Ha as <-. lia.
Qed.

Section Lookup.
Variables cp cf : compressor.
Lemma filed_features o ix m out : filed cp cf o ix m out -> map fst m = map fst ix.
Proof. induction 1; cbn; [reflexivity|]. rewrite IHfiled. reflexivity. Qed.
Lemma filed_exists ix : Forall (fun r => exists b, write cp cf (snd r) = Ok b) ix -> forall o, exists m out, filed cp cf o ix m out.
Proof.
  induction 1 as [|[f p] ix (b & E) _ IH]; intros o; [exists [], []; constructor|]. destruct (IH (o + len b)) as (m & out & F).
  exists ((f, o + len b) :: m), (b ++ out). constructor; assumption.
Qed.
Lemma filed_addrs o ix m out : filed cp cf o ix m out -> 0 <= o -> o + len out <= maxf -> Forall (fun r => is_addr (fst r)) ix -> Forall (fun r => is_addr (fst r) /\ is_addr (snd r)) m.
Proof.
  induction 1 as [|o f p b ix m out W F IH]; intros O L A; [constructor|]. rewrite len_app in L. inversion A; subst. pose proof (len_nonneg b). pose proof (len_nonneg out).
  constructor; [cbn; split; [assumption|unfold is_addr, minf, maxf in *; lia]|]. apply IH; [lia|lia|assumption].
Qed.
Lemma load_map_ok m : Forall (fun r => is_addr (fst r) /\ is_addr (snd r)) m -> load_map (map_bytes m) = Some m.
Proof.
  intros H. unfold load_map. assert (E : len (map_bytes m) = 16 * len m).
  { clear H. unfold map_bytes. induction m as [|r m IH]; [reflexivity|]. cbn [flat_map]. rewrite len_app, IH. unfold record_bytes. rewrite len_word_bytes. unfold len. cbn [length]. lia. }
  rewrite E. replace (16 * len m mod 16) with 0 by (rewrite Z.mul_comm; symmetry; apply Z_mod_mult). change (0 =? 0) with true. cbv iota. f_equal. clear E.
  induction H as [|[f e] m [A B] _ IH]; [reflexivity|]. cbn [map_bytes flat_map]. unfold record_bytes at 1. cbn [fst snd] in *.
  rewrite (words_app [f; e]) by (constructor; [exact A|constructor; [exact B|constructor]]). cbn [app pairs]. f_equal. exact IH.
Qed.
(** Where the list of a feature stands. *)
Lemma filed_at o ix m out : filed cp cf o ix m out -> map_order (map fst ix) -> forall i f e, nth_error m i = Some (f, e) ->
  exists p b pre post, find_posting ix f = Some p /\ write cp cf p = Ok b /\ out = pre ++ b ++ post /\ e = o + len (pre ++ b) /\
    match i with O => pre = [] | S j => exists g, nth_error m j = Some (g, o + len pre) end.
Proof.
  induction 1 as [|o g p b ix m out W F IH]; intros M i f e E; [destruct i; discriminate|]. cbn [map fst] in M. cbn [find_posting].
  destruct i as [|i]; cbn [nth_error] in E.
  - injection E as <- <-. rewrite Z.eqb_refl. exists p, b, [], out. repeat split; try reflexivity. exact W.
  - assert (g < f).
    { pose proof (map_order_head _ _ M) as Hd. rewrite Forall_forall in Hd. apply Hd. rewrite <- (filed_features _ _ _ _ F). apply (in_map fst _ (f, e)). apply nth_error_In in E. exact E. }
    replace (g =? f) with false by lia. destruct (IH (map_order_tail _ _ M) i f e E) as (p' & b' & pre & post & Fp & Wp & -> & -> & St).
    exists p', b', (b ++ pre), post. split; [exact Fp|]. split; [exact Wp|]. split; [rewrite <- app_assoc; reflexivity|].
    split; [rewrite !len_app; lia|]. destruct i as [|i].
    + rewrite St. cbn. exists g. rewrite app_nil_r. reflexivity.
    + destruct St as (g' & St). exists g'. cbn [nth_error]. rewrite St, len_app. f_equal. f_equal. lia.
Qed.
Lemma filed_none o ix m out f : filed cp cf o ix m out -> (forall i a, nth_error m i = Some a -> fst a <> f) -> find_posting ix f = None.
Proof.
  intros F N. destruct (find_posting ix f) as [p|] eqn:E; [|reflexivity]. apply find_some_in in E. rewrite <- (filed_features _ _ _ _ F) in E.
  apply in_map_iff in E. destruct E as (a & <- & H). apply In_nth_error in H. destruct H as [i H]. elim (N i a H). reflexivity.
Qed.
Lemma read_at_app a b c : read_at (a ++ b ++ c) (len a) (len b) = Ok b.
Proof.
  unfold read_at. pose proof (len_nonneg a). pose proof (len_nonneg b). pose proof (len_nonneg c). rewrite !len_app.
  replace ((len b <? 0) || (len a <? 0) || (len a + (len b + len c) <? len a + len b)) with false by lia. rewrite (slice_app a b c _ _ eq_refl eq_refl). reflexivity.
Qed.
Lemma header_count p l b : holds p l -> storable cp cf p -> write cp cf p = Ok b -> exists h rest, b = h ++ rest /\ len h = 40 /\ exists x y z, words h = [feature p; psize p; x; y; z].
Proof.
  intros H S W. destruct (write_ok cp cf p l H S) as (b' & W' & Wr). rewrite W in W'. injection W' as <-. destruct (header_blob cp cf p b Wr) as (x & y & z & rest & -> & _ & A).
  exists (word_bytes [feature p; psize p; len x; len y; len z]), rest. split; [reflexivity|]. split; [rewrite len_word_bytes; reflexivity|]. exists (len x), (len y), (len z). exact A.
Qed.
(** Every lookup is the one in memory. *)
Lemma lookups ix m out : filed cp cf 0 ix m out -> writable cp cf ix ->
  single_vocab (Sidx m out) = len ix /\ forall f, load_list cp cf (Sidx m out) f = Ok (find_posting ix f) /\
    single_count (Sidx m out) f = Ok (fiver_count ix f) /\ single_hopper cp cf (Sidx m out) f = fiver_hopper ix f.
Proof.
  intros F [M G]. assert (Mm : map_order (map fst m)) by (rewrite (filed_features _ _ _ _ F); exact M).
  split; [unfold single_vocab, len; cbn; rewrite <- (map_length fst m), (filed_features _ _ _ _ F), map_length; reflexivity|].
  intros f. destruct (locate_ok m f Mm) as (r & L & R).
  assert (K : load_list cp cf (Sidx m out) f = Ok (find_posting ix f) /\ single_count (Sidx m out) f = Ok (fiver_count ix f)).
  { unfold load_list, single_count, fiver_count. cbn [sx_map sx_pst]. rewrite L. cbn [bind]. destruct r as [i|]; [|rewrite (filed_none _ _ _ _ f F R); split; reflexivity].
    destruct R as (e & I0 & E). destruct (filed_at _ _ _ _ F M _ _ _ E) as (p & b & pre & post & Fp & W & Eo & Ee & St). rewrite Z.add_0_l in Ee.
    assert (So : start_of (Sidx m out) i = Ok (len pre)).
    { unfold start_of. cbn [sx_map]. destruct (i =? 0) eqn:Ei; destruct (Z.to_nat i) as [|j] eqn:Ej; try lia.
      - rewrite St. reflexivity.
      - destruct St as (g & St). replace (i - 1) with (Z.of_nat j) by lia. rewrite (idx_at _ _ _ St). cbn. reflexivity. }
    destruct (find_good cp cf ix f p G Fp) as (Ff & S & l & H & N & V). cbn [fst snd] in *.
    rewrite So. cbn [bind]. rewrite Fp. replace i with (Z.of_nat (Z.to_nat i)) by lia. rewrite (idx_at _ _ _ E). cbn [bind snd]. split.
    - rewrite Ee, Eo, len_app. replace (len pre + len b - len pre) with (len b) by lia. rewrite read_at_app. cbn [bind].
      destruct (write_read cp cf p l H S) as (b' & Wb & Rf & _). rewrite W in Wb. injection Wb as <-. specialize (Rf []). rewrite app_nil_r in Rf. rewrite Rf. reflexivity.
    - destruct (header_count p l b H S W) as (h & rest & -> & Lh & x & y & z & Wh). rewrite Eo, <- app_assoc, <- Lh, read_at_app. cbn [bind]. rewrite Wh. reflexivity. }
  destruct K as [K1 K2]. split; [exact K1|]. split; [exact K2|]. unfold single_hopper, fiver_hopper. rewrite K1. cbn [bind].
  destruct (find_posting ix f) as [p|] eqn:Fp; [|reflexivity]. destruct (find_good cp cf ix f p G Fp) as (Ff & S & l & H & N & V). cbn [fst snd] in *.
  rewrite (holds_psize _ _ H). replace (Z.of_nat (length l) =? 0) with false by (destruct l; [contradiction|cbn; lia]).
  destruct (Z.of_nat (length l) =? 1) eqn:E1; [|reflexivity]. destruct l as [|x l]; [discriminate|]. destruct H as (_ & _ & H). rewrite (H 0%nat). reflexivity.
Qed.
Lemma open_kept d ix : kept_in cp cf ix d -> Forall (fun r => is_addr (fst r)) ix -> d Idx_NEW = None -> d Pst_NEW = None ->
  exists m out, filed cp cf 0 ix m out /\ open d = Some (Sidx m out).
Proof.
  intros (m & out & F & L & E1 & E2) A N1 N2. exists m, out. split; [exact F|]. unfold open, open_ops, here. rewrite N1, N2. cbn [exec fold_left]. rewrite E1, E2.
  rewrite (load_map_ok m (filed_addrs _ _ _ _ F ltac:(lia) ltac:(lia) A)). reflexivity.
Qed.
End Lookup.
