(** Fast ids do not change the text. *)
From Verif Require Import Base Bytes HopperModel GclSpec HopperProofs ArrayProofs UnaryProofs AnswerProofs VectorModel
  RankSpec RankSsr StatsProofs ForageProofs CodecModel CodecSpec CodecProofs FastidModel.

(** * Collecting *)
Section Ids.
Context (C : hcls) (SC : iv -> Prop) (IC : St C -> Prop) (HC : hop_ok C SC IC).
Context (items : list iv) (HL : listed SC items).
Definition ids_inv (s : St C * iv * list iv) : Prop :=
  let '(h, x, l) := s in exists rest, items = l ++ rest /\ IC h /\ x = hd maxr rest.
Lemma ids_step s : ids_inv s -> wp (ids_body C s) (fun r => match r with
  | inl s' => ids_inv s' /\ maxf - ip (snd (fst s')) < maxf - ip (snd (fst s))
  | inr l => l = items end).
Proof.
  destruct s as [[h x] l]. intros (rest & E & Ih & ->). unfold ids_body. inf.
  destruct rest as [|x rest]; cbn [hd].
  - cbn [ip maxr]. rewrite Z.ltb_irrefl. apply wp_ok. rewrite E, app_nil_r. reflexivity.
  - pose proof HL as [G HQ]. rewrite E in G.
    assert (Ix : In x (l ++ x :: rest)) by (rewrite in_app_iff; right; left; reflexivity).
    pose proof (gclist_finite _ x G Ix) as Fx. unfold finite in Fx.
    replace (ip x <? maxf) with true by lia.
    apply wp_bind, wp_chk; [unfold minf, maxf in *; lia|].
    step (hop_tau HC) as [h' y]; [exact Ih|unfold minf, maxf in *; lia|intros [Ih' Hy]].
    assert (X : match rest with [] => y = maxr | z :: _ => y = z end).
    { apply (tau_next SC (l ++ [x]) rest (ip x + 1) y (hop_GC HC)); try (unfold minf, maxf in *; lia).
      - intros z. rewrite <- !app_assoc. cbn [app]. rewrite <- E. symmetry. apply HQ.
      - rewrite <- !app_assoc. cbn [app]. exact G.
      - intros z Hz. rewrite !in_app_iff in Hz. destruct Hz as [Hz|[<-|[]]]; [|lia].
        pose proof (gclist_app_lt l (x :: rest) z x G Hz ltac:(left; reflexivity)). lia.
      - intros z Hz. apply gclist_app in G. destruct G as [_ G]. pose proof (gclist_lt _ _ _ G Hz). lia.
      - exact Hy. }
    apply wp_ok. split.
    + exists rest. split; [rewrite <- app_assoc; exact E|]. split; [exact Ih'|destruct rest; exact X].
    + cbn [fst snd]. destruct rest as [|z rest]; subst y; [cbn [ip maxr]; unfold minf, maxf in *; lia|].
      apply gclist_app in G. destruct G as [_ G]. pose proof (gclist_lt _ _ z G (or_introl eq_refl)). lia.
Qed.
End Ids.
Theorem ids_ok C c SC items : answers C c SC -> listed SC items -> ids_of C c = Ok items.
Proof.
  intros HC HL. apply answers_iff in HC. destruct HC as (IC & HC & Ic). pose proof HL as [G HQ].
  assert (W : wp (ids_of C c) (fun l => l = items)).
  2:{ destruct (ids_of C c); cbn in W; try contradiction. congruence. }
  unfold ids_of. inf. step (hop_tau HC) as [h y]; [exact Ic|unfold minf, maxf in *; lia|intros [Ih Hy]].
  assert (X : match items with [] => y = maxr | z :: _ => y = z end).
  { apply (tau_next SC [] items (minf + 1) y (hop_GC HC)); try (unfold minf, maxf in *; lia).
    - intros z. symmetry. apply HQ.
    - exact G.
    - intros z [].
    - intros z Hz. pose proof (gclist_finite _ z G Hz) as F. unfold finite in F. lia.
    - exact Hy. }
  eapply wp_mono; [apply (loop_rule (ids_inv C IC items) (fun s => maxf - ip (snd (fst s))) (fun l => l = items))|].
  - intros [[h0 x] l] (rest & E & _ & ->). cbn [fst snd]. destruct rest as [|z rest]; cbn [hd]; [cbn [ip maxr]; lia|].
    assert (finite z) by (apply (gclist_finite _ z G); rewrite E, in_app_iff; right; left; reflexivity). fin.
  - intros s Hs. apply (ids_step C SC IC HC items HL s Hs).
  - exists items. repeat split; auto. destruct items; exact X.
  - cbn [fst snd]. change (Z.pos BIG) with 295147905179352825856. destruct items as [|z rest]; subst y; [cbn [ip maxr]; unfold maxf; lia|].
    pose proof (gclist_finite _ z G (or_introl eq_refl)). fin2.
  - intros l ->. reflexivity.
Qed.

(** * The file *)
Lemma size_back z r : 0 <= z < 18446744073709551616 -> take_size (addr_bytes z ++ r) = Ok (z, r).
Proof.
  intros Hz. unfold take_size. assert (L : length (addr_bytes z) = 8%nat) by reflexivity.
  rewrite app_length, L. replace (8 + length r <? 8)%nat with false by (symmetry; apply Nat.ltb_ge; lia).
  change 8%nat with (length (addr_bytes z)). rewrite firstn_app, firstn_all, Nat.sub_diag, skipn_app, skipn_all, Nat.sub_diag. cbn [firstn skipn app].
  rewrite app_nil_r. do 2 f_equal. unfold addr_bytes. rewrite le_val_le_bytes. apply Z.mod_small. exact Hz.
Qed.
Lemma field_back c b r z : compressed c b = Ok z -> lossless c b -> extra c (len b) + len b < 18446744073709551616 ->
  exists y, z = addr_bytes (len y) ++ y /\ take_field (z ++ r) = Ok (y, r) /\ forall room, len b <= room -> tang c y room = Ok b.
Proof.
  intros E L B. destruct (L _ (Z.le_refl _)) as (y & E1 & E2 & _ & _ & T). unfold compressed in E. rewrite E1 in E. cbn [bind] in E.
  assert (z = addr_bytes (len y) ++ y) as -> by congruence. clear E.
  exists y. split; [reflexivity|]. split; [|exact T]. unfold take_field. rewrite <- (@app_assoc Z), size_back by (unfold len in *; lia). cbn [bind].
  replace (len (y ++ r) <? len y) with false by (unfold len; rewrite app_length; lia).
  unfold len. rewrite Nat2Z.id, firstn_app, firstn_all, Nat.sub_diag, skipn_app, skipn_all, Nat.sub_diag. cbn [firstn skipn app]. rewrite app_nil_r. reflexivity.
Qed.
Lemma size_cut z r k : 0 <= z < 18446744073709551616 ->
  take_size (firstn k (addr_bytes z ++ r)) = if (k <? 8)%nat then UB else Ok (z, firstn (k - 8) r).
Proof.
  intros Hz. destruct (Nat.ltb_spec k 8) as [H|H].
  - unfold take_size. rewrite firstn_length. replace (Nat.min k _ <? 8)%nat with true by (symmetry; apply Nat.ltb_lt; lia). reflexivity.
  - rewrite firstn_app. change (length (addr_bytes z)) with 8%nat. rewrite (firstn_all2 (addr_bytes z)) by exact H. apply size_back, Hz.
Qed.
Lemma field_cut (y r : bytes) k : len y < 18446744073709551616 ->
  take_field (firstn k ((addr_bytes (len y) ++ y) ++ r)) =
    if (k <? length (addr_bytes (len y) ++ y))%nat then UB else Ok (y, firstn (k - length (addr_bytes (len y) ++ y)) r).
Proof.
  intros Hy. rewrite <- app_assoc. unfold take_field. rewrite size_cut by (unfold len in *; lia). rewrite app_length. change (length (addr_bytes (len y))) with 8%nat.
  destruct (Nat.ltb_spec k 8) as [H|H]; cbn [bind].
  { replace (k <? 8 + length y)%nat with true by (symmetry; apply Nat.ltb_lt; lia). reflexivity. }
  unfold len. rewrite !Nat2Z.id. destruct (Nat.ltb_spec k (8 + length y)) as [H1|H1].
  - replace (_ <? _) with true; [reflexivity|]. symmetry. apply Z.ltb_lt. rewrite firstn_length. lia.
  - replace (_ <? _) with false by (symmetry; apply Z.ltb_ge; rewrite firstn_length, app_length; lia).
    rewrite firstn_app, (firstn_all2 y) by lia.
    rewrite firstn_app, firstn_all, Nat.sub_diag, skipn_app, skipn_all, Nat.sub_diag. cbn [firstn skipn app]. rewrite app_nil_r. do 3 f_equal. lia.
Qed.
Lemma compressed_ok c b : lossless c b -> exists z, compressed c b = Ok z.
Proof. intros L. destruct (L _ (Z.le_refl _)) as (y & E1 & _). unfold compressed. rewrite E1. cbn [bind]. eauto. Qed.

Lemma cstr_all t : ~ In 0 t -> cstr t = t.
Proof.
  induction t as [|c t IH]; intros H; [reflexivity|]. cbn [cstr]. replace (c =? 0) with false by (symmetry; apply Z.eqb_neq; intros ->; apply H; left; reflexivity).
  f_equal. apply IH. intros Q. apply H. right. exact Q.
Qed.
Lemma laid_all junk ts : (forall t, In t ts -> ~ In 0 t) -> forall a, laid junk a ts = concat ts.
Proof.
  induction ts as [|t ts IH]; intros H a; [reflexivity|]. cbn [laid concat]. rewrite IH by (intros x Hx; apply H; right; exact Hx).
  f_equal. unfold slot. rewrite cstr_all by (apply H; left; reflexivity). rewrite Nat.eqb_refl. reflexivity.
Qed.
Lemma cstr_length t : (length (cstr t) <= length t)%nat.
Proof. induction t as [|c t IH]; [apply le_n|]. cbn [cstr]. destruct (c =? 0); cbn [length]; lia. Qed.
Lemma laid_length junk ts : forall a, len (laid junk a ts) = len (concat ts).
Proof.
  induction ts as [|t ts IH]; intros a; [reflexivity|]. cbn [laid concat]. specialize (IH (a + len t)). unfold len in *. rewrite !app_length, !Nat2Z.inj_add, IH. f_equal. f_equal.
  unfold slot. pose proof (cstr_length t). destruct (Nat.eqb_spec (length (cstr t)) (length t)); [reflexivity|].
  rewrite !app_length, map_length, seq_length. cbn [length]. lia.
Qed.
Lemma offsets_ascending ts : forall a b, b <= a -> ascending b (offsets a ts).
Proof. induction ts as [|t ts IH]; intros a b H; [exact I|]. cbn [offsets ascending]. split; [exact H|]. apply IH. unfold len. lia. Qed.
Lemma offsets_le ts : forall a x, In x (offsets a ts) -> a <= x <= a + len (concat ts).
Proof.
  induction ts as [|t ts IH]; intros a x H; [destruct H|]. cbn [offsets In concat] in *. unfold len in *. rewrite app_length, Nat2Z.inj_add.
  destruct H as [<-|H]; [lia|]. specialize (IH _ _ H). lia.
Qed.
Lemma offsets_length ts : forall a, length (offsets a ts) = length ts.
Proof. induction ts; intros a0; cbn [offsets length]; auto. Qed.
Lemma ascending_ip items : gclist items -> forall b, (forall x, In x items -> b <= ip x) -> ascending b (map ip items).
Proof.
  induction items as [|x l IH]; intros G b H; [exact I|]. cbn [map ascending]. split; [apply H; left; reflexivity|].
  apply IH; [exact (gclist_tail _ _ G)|]. intros y Hy. pose proof (gclist_lt _ _ _ G Hy). lia.
Qed.
Lemma ascending_iq items : gclist items -> forall b, (forall x, In x items -> b <= iq x) -> ascending b (map iq items).
Proof.
  induction items as [|x l IH]; intros G b H; [exact I|]. cbn [map ascending]. split; [apply H; left; reflexivity|].
  apply IH; [exact (gclist_tail _ _ G)|]. intros y Hy. pose proof (gclist_lt _ _ _ G Hy). lia.
Qed.
Lemma word_bytes_length l : len (word_bytes l) = 8 * len l.
Proof. unfold len. induction l as [|x l IH]; [reflexivity|]. cbn [word_bytes flat_map]. change (flat_map addr_bytes l) with (word_bytes l). rewrite app_length. cbn [length]. change (length (addr_bytes x)) with 8%nat. lia. Qed.

Definition id_texts (translate : Z -> Z -> bytes) (ids : list iv) : list bytes := map (fun x => translate (ip x) (iq x)) ids.
Section File.
Context (tc : compressor) (junk : Z -> Z) (translate : Z -> Z -> bytes) (ids : list iv).
Notation ts := (id_texts translate ids).
Context (G : gclist ids) (P : forall x, In x ids -> 0 <= ip x).
Context (M : 20 * len ids <= maxf) (N : len (concat ts) <= maxf).
Context (L : lossless tc (laid junk 0 ts)) (X : extra tc (len (laid junk 0 ts)) + len (laid junk 0 ts) < 18446744073709551616).
Lemma lossless_p : lossless post_compressor (word_bytes (map ip ids)).
Proof.
  apply post_lossless; [apply ascending_ip; assumption|]. apply Forall_forall. intros a Ha. apply in_map_iff in Ha. destruct Ha as (x & <- & Hx).
  pose proof (gclist_finite _ x G Hx) as F. unfold finite in F. lia.
Qed.
Lemma lossless_q : lossless post_compressor (word_bytes (map iq ids)).
Proof.
  apply post_lossless.
  - apply ascending_iq; [assumption|]. intros x Hx. pose proof (gclist_finite _ x G Hx) as F. specialize (P x Hx). unfold finite in F. lia.
  - apply Forall_forall. intros a Ha. apply in_map_iff in Ha. destruct Ha as (x & <- & Hx).
    pose proof (gclist_finite _ x G Hx) as F. unfold finite in F. lia.
Qed.
Lemma lossless_o : lossless post_compressor (word_bytes (offsets 0 ts)).
Proof.
  apply post_lossless; [apply offsets_ascending; lia|]. apply Forall_forall. intros a Ha. apply offsets_le in Ha. lia.
Qed.
Lemma file_back : exists file, fastid_file tc junk translate ids = Ok file /\
  fast_make tc file = Ok (Fast (len (concat ts)) (len ids) (laid junk 0 ts) (map ip ids) (map iq ids) (offsets 0 ts ++ [len (concat ts)])) /\
  forall k, (k < length file)%nat -> fast_make tc (firstn k file) = UB.
Proof.
  unfold fastid_file. fold (id_texts translate ids).
  destruct (compressed_ok _ _ lossless_p) as (bp & Ep). destruct (compressed_ok _ _ lossless_q) as (bq & Eq).
  destruct (compressed_ok _ _ lossless_o) as (bo & Eo). destruct (compressed_ok _ _ L) as (bt & Et).
  rewrite Ep, Eq, Eo, Et. cbn [bind]. eexists. split; [reflexivity|].
  assert (Lp : len (map ip ids) = len ids) by (unfold len; rewrite map_length; reflexivity).
  assert (Lq : len (map iq ids) = len ids) by (unfold len; rewrite map_length; reflexivity).
  assert (Lo : len (offsets 0 ts) = len ids) by (unfold len, id_texts; rewrite offsets_length, map_length; reflexivity).
  assert (B : forall l, len l = len ids -> extra post_compressor (len (word_bytes l)) + len (word_bytes l) < 18446744073709551616 /\ len (word_bytes l) <= len ids * 8).
  { intros l Hl. rewrite word_bytes_length, Hl. cbn [extra post_compressor post_compressor_with]. replace (8 * len ids / 8) with (len ids) by (rewrite Z.mul_comm, Z.div_mul; lia).
    unfold maxf in M. lia. }
  destruct (field_back _ _ (bq ++ bo ++ bt) _ Ep lossless_p (proj1 (B _ Lp))) as (yp & Zp & Fp & Tp).
  destruct (field_back _ _ (bo ++ bt) _ Eq lossless_q (proj1 (B _ Lq))) as (yq & Zq & Fq & Tq).
  destruct (field_back _ _ bt _ Eo lossless_o (proj1 (B _ Lo))) as (yo & Zo & Fo & To).
  destruct (field_back _ _ [] _ Et L X) as (yt & Zt & Ft & Tt). rewrite app_nil_r in Ft.
  assert (A : forall l b, Forall (fun x => b <= x <= maxf) l -> 0 <= b -> Forall is_addr l).
  { intros l b H H0. revert H. apply Forall_impl. intros a Ha. cbv beta in Ha. unfold is_addr, minf, maxf in *. lia. }
  assert (Wp : words (word_bytes (map ip ids)) = map ip ids).
  { apply words_bytes, (A _ 0); [|lia]. apply Forall_forall. intros a Ha. apply in_map_iff in Ha. destruct Ha as (x & <- & Hx).
    pose proof (gclist_finite _ x G Hx) as F. specialize (P x Hx). unfold finite in F. lia. }
  assert (Wq : words (word_bytes (map iq ids)) = map iq ids).
  { apply words_bytes, (A _ 0); [|lia]. apply Forall_forall. intros a Ha. apply in_map_iff in Ha. destruct Ha as (x & <- & Hx).
    pose proof (gclist_finite _ x G Hx) as F. specialize (P x Hx). unfold finite in F. lia. }
  assert (Wo : words (word_bytes (offsets 0 ts)) = offsets 0 ts).
  { apply words_bytes, (A _ 0); [|lia]. apply Forall_forall. intros a Ha. apply offsets_le in Ha. lia. }
  split.
  - unfold fast_make. rewrite size_back by (unfold len, maxf in *; lia). cbn [bind]. rewrite size_back by (unfold len, maxf in *; lia). cbn [bind].
    rewrite Fp. cbn [bind]. rewrite (Tp _ (proj2 (B _ Lp))). cbn [bind]. rewrite Fq. cbn [bind]. rewrite (Tq _ (proj2 (B _ Lq))). cbn [bind].
    rewrite Fo. cbn [bind]. rewrite (To _ (proj2 (B _ Lo))). cbn [bind]. rewrite Ft. cbn [bind].
    rewrite Tt by (rewrite laid_length; lia). cbn [bind]. rewrite Wp, Wq, Wo. reflexivity.
  - intros k Hk. assert (BY : forall c b z y, compressed c b = Ok z -> lossless c b -> extra c (len b) + len b < 18446744073709551616 -> z = addr_bytes (len y) ++ y -> len y < 18446744073709551616).
    { intros c b z y E1 E2 E3 ->. destruct (E2 _ (Z.le_refl _)) as (y' & F1 & F2 & _). unfold compressed in E1. rewrite F1 in E1. cbn [bind] in E1.
      assert (E4 : addr_bytes (len y') ++ y' = addr_bytes (len y) ++ y) by congruence.
      assert (length y' = length y). { apply (f_equal (@length Z)) in E4. rewrite !app_length in E4. change (length (addr_bytes (len y))) with 8%nat in E4. change (length (addr_bytes (len y'))) with 8%nat in E4. lia. }
      unfold len in *. lia. }
    pose proof (BY _ _ _ _ Ep lossless_p (proj1 (B _ Lp)) Zp) as Bp. pose proof (BY _ _ _ _ Eq lossless_q (proj1 (B _ Lq)) Zq) as Bq.
    pose proof (BY _ _ _ _ Eo lossless_o (proj1 (B _ Lo)) Zo) as Bo. pose proof (BY _ _ _ _ Et L X Zt) as Bt. clear BY.
    unfold fast_make. rewrite size_cut by (unfold len, maxf in *; lia). destruct (Nat.ltb_spec k 8) as [|H1]; [reflexivity|]. cbn [bind].
    rewrite size_cut by (unfold len, maxf in *; lia). destruct (Nat.ltb_spec (k - 8) 8) as [|H2]; [reflexivity|]. cbn [bind].
    rewrite !app_length in Hk. change (length (addr_bytes (len (concat ts)))) with 8%nat in Hk. change (length (addr_bytes (len ids))) with 8%nat in Hk.
    rewrite Zp, Zq, Zo, Zt in *. clear Ep Eq Eo Et Fp Fq Fo Ft Zp Zq Zo Zt.
    rewrite (field_cut yp _ _ Bp). destruct (Nat.ltb_spec (k - 8 - 8) (length (addr_bytes (len yp) ++ yp))) as [|H3]; [reflexivity|]. cbn [bind].
    rewrite (Tp _ (proj2 (B _ Lp))). cbn [bind].
    rewrite (field_cut yq _ _ Bq). match goal with |- context [if ?c then UB else _] => destruct (c) eqn:H4; [reflexivity|apply Nat.ltb_ge in H4] end. cbn [bind].
    rewrite (Tq _ (proj2 (B _ Lq))). cbn [bind].
    rewrite (field_cut yo _ _ Bo). match goal with |- context [if ?c then UB else _] => destruct (c) eqn:H5; [reflexivity|apply Nat.ltb_ge in H5] end. cbn [bind].
    rewrite (To _ (proj2 (B _ Lo))). cbn [bind].
    set (j := (_ - length (addr_bytes (len yo) ++ yo))%nat). replace (addr_bytes (len yt) ++ yt) with ((addr_bytes (len yt) ++ yt) ++ []) by apply app_nil_r.
    rewrite (field_cut yt [] j Bt). replace (j <? length (addr_bytes (len yt) ++ yt))%nat with true; [reflexivity|]. symmetry. apply Nat.ltb_lt.
    unfold j. lia.
Qed.
End File.

(** * Searching *)
Definition rising (a : list Z) : Prop := forall i j, (i < j < length a)%nat -> nth i a 0 < nth j a 0.
Lemma rising_ip items : gclist items -> rising (map ip items).
Proof.
  induction items as [|x l IH]; intros G i j H; [cbn in H; lia|]. cbn [map length] in H. destruct j as [|j]; [lia|]. destruct i as [|i]; cbn [map nth].
  - rewrite map_length in H. assert (Hy : In (nth j l x) l) by (apply nth_In; lia). pose proof (gclist_lt _ _ _ G Hy).
    rewrite (nth_indep _ _ (ip x)) by (rewrite map_length; lia). rewrite map_nth. lia.
  - apply (IH (gclist_tail _ _ G)). lia.
Qed.
Lemma to_int_id z : 0 <= z < 2147483648 -> to_int z = z.
Proof. intros H. unfold to_int. rewrite Z.mod_small by lia. lia. Qed.
Lemma at_index_nth a i : 0 <= i < len a -> at_index a i = Ok (nth (Z.to_nat i) a 0).
Proof.
  intros H. unfold at_index, len in *. replace (i <? 0) with false by lia.
  rewrite (nth_error_nth' a 0) by lia. reflexivity.
Qed.
Lemma search_ok a v : rising a -> len a <= 2147483648 -> forall n l h, 0 <= l -> h < len a -> l <= h + 1 -> h - l + 1 < Z.of_nat n ->
  (forall i, 0 <= i < l -> nth (Z.to_nat i) a 0 < v) -> (forall i, h < i < len a -> v < nth (Z.to_nat i) a 0) ->
  exists w, search n a l h v = Ok w /\ ((0 <= w < len a /\ nth (Z.to_nat w) a 0 = v) \/ (w = -1 /\ ~ In v a)).
Proof.
  intros R B. induction n as [|n IH]; intros l h Hl Hh Hlh Hn Lo Hi; [lia|]. cbn [search]. destruct (Z.leb_spec l h) as [H|H].
  - pose proof (Z.div_pos (h - l) 2 ltac:(lia) ltac:(lia)) as D1. pose proof (Z.div_le_upper_bound (h - l) 2 (h - l) ltac:(lia) ltac:(lia)) as D2.
    assert (Mid : l <= l + (h - l) / 2 <= h) by lia. rewrite to_int_id by lia. set (m := l + (h - l) / 2) in *.
    rewrite at_index_nth by lia. cbn [bind]. destruct (Z.eqb_spec (nth (Z.to_nat m) a 0) v) as [E|E]; [exists m; split; [reflexivity|]; left; split; [lia|exact E]|].
    destruct (Z.ltb_spec v (nth (Z.to_nat m) a 0)) as [V|V].
    + apply IH; [lia|lia|lia|lia|exact Lo|]. intros i Hi'. destruct (Z.eq_dec i m) as [->|Ne]; [exact V|].
      enough (nth (Z.to_nat m) a 0 < nth (Z.to_nat i) a 0) by lia. apply R. unfold len in *. lia.
    + apply IH; [lia|lia|lia|lia| |exact Hi]. intros i Hi'. destruct (Z.eq_dec i m) as [->|Ne]; [lia|].
      enough (nth (Z.to_nat i) a 0 < nth (Z.to_nat m) a 0) by lia. apply R. unfold len in *. lia.
  - exists (-1). split; [reflexivity|]. right. split; [reflexivity|]. intros Q. apply (In_nth _ _ 0) in Q. destruct Q as (i & Hi' & Q).
    unfold len in *. destruct (Z_lt_le_dec (Z.of_nat i) l) as [K|K].
    + specialize (Lo (Z.of_nat i) ltac:(lia)). rewrite Nat2Z.id in Lo. lia.
    + specialize (Hi (Z.of_nat i) ltac:(lia)). rewrite Nat2Z.id in Hi. lia.
Qed.
Lemma offsets_nth ts : forall a w, (w < length ts)%nat -> nth w (offsets a ts ++ [a + len (concat ts)]) 0 = a + len (concat (firstn w ts)) /\
  nth (S w) (offsets a ts ++ [a + len (concat ts)]) 0 = a + len (concat (firstn (S w) ts)).
Proof.
  induction ts as [|t ts IH]; intros a w H; [cbn in H; lia|]. cbn [length] in H.
  assert (E : a + len (concat (t :: ts)) = (a + len t) + len (concat ts)) by (cbn [concat]; unfold len; rewrite app_length; lia).
  rewrite E. cbn [offsets app]. destruct w as [|w].
  - cbn [nth firstn concat]. split; [cbn; lia|]. rewrite app_nil_r. destruct ts as [|u ts]; cbn [offsets app nth concat]; [unfold len; cbn; lia|reflexivity].
  - destruct (IH (a + len t) w ltac:(lia)) as [E1 E2]. cbn [nth] in *. cbn [firstn concat] in *. rewrite E1. rewrite E2.
    unfold len. rewrite !app_length. lia.
Qed.
Lemma concat_cut (ts : list bytes) : forall w, (w < length ts)%nat ->
  firstn (length (nth w ts [])) (skipn (length (concat (firstn w ts))) (concat ts)) = nth w ts [].
Proof.
  induction ts as [|t ts IH]; intros w H; [cbn in H; lia|]. cbn [length] in H. destruct w as [|w]; cbn [nth firstn concat].
  - cbn [length skipn]. rewrite firstn_app, Nat.sub_diag, firstn_all. cbn [firstn]. apply app_nil_r.
  - rewrite app_length, skipn_app, skipn_all2 by lia. replace (length t + length (concat (firstn w ts)) - length t)%nat with (length (concat (firstn w ts))) by lia.
    cbn [app]. apply IH. lia.
Qed.
Lemma firstn_S_length (ts : list bytes) w : (w < length ts)%nat -> len (concat (firstn (S w) ts)) = len (concat (firstn w ts)) + len (nth w ts []).
Proof.
  revert w. induction ts as [|t ts IH]; intros w H; [cbn in H; lia|]. cbn [length] in H. destruct w as [|w]; [cbn [firstn concat nth]; unfold len; rewrite app_length; cbn; lia|].
  specialize (IH w ltac:(lia)). change (firstn (S (S w)) (t :: ts)) with (t :: firstn (S w) ts). change (firstn (S w) (t :: ts)) with (t :: firstn w ts).
  cbn [concat nth]. unfold len in *. rewrite !app_length. lia.
Qed.
Lemma concat_firstn_le (ts : list bytes) w : len (concat (firstn w ts)) <= len (concat ts).
Proof. unfold len. rewrite <- (firstn_skipn w ts) at 2. rewrite concat_app, app_length. lia. Qed.

Theorem translate_same translate other ids text : gclist ids -> len ids <= 2147483648 -> text = concat (id_texts translate ids) ->
  let f := Fast (len (concat (id_texts translate ids))) (len ids) text (map ip ids) (map iq ids) (offsets 0 (id_texts translate ids) ++ [len (concat (id_texts translate ids))]) in
  forall p q, (exists x, In x ids /\ ip x = p /\ iq x = q) \/ other p q = translate p q -> fast_translate other f p q = Ok (translate p q).
Proof.
  intros G B -> f p q HO. set (ts := id_texts translate ids) in *. unfold fast_translate. cbn [f f_p f_m f_q f_offset f_text].
  assert (LM : len (map ip ids) = len ids) by (unfold len; rewrite map_length; reflexivity).
  assert (LQ : len (map iq ids) = len ids) by (unfold len; rewrite map_length; reflexivity).
  assert (LT : length ts = length ids) by (unfold ts, id_texts; apply map_length).
  destruct (search_ok (map ip ids) p (rising_ip _ G) ltac:(lia) (S (length (map ip ids))) 0 (len ids - 1)) as (w & -> & H);
    try (unfold len in *; rewrite ?map_length in *; lia).
  cbn [bind]. destruct H as [[Hw E]|[-> NI]].
  2:{ replace (-1 =? -1) with true by reflexivity. f_equal. destruct HO as [(x & Hx & <- & _)|HO]; [|exact HO]. exfalso. apply NI, in_map, Hx. }
  replace (w =? -1) with false by lia. rewrite at_index_nth by lia. cbn [bind].
  destruct (Z.eqb_spec (nth (Z.to_nat w) (map iq ids) 0) q) as [Q|Q].
  2:{ f_equal. destruct HO as [(x & Hx & Ep & Eq)|HO]; [|exact HO]. exfalso. apply Q. apply (In_nth _ _ (Iv 0 0 0)) in Hx. destruct Hx as (j & Hj & <-).
    assert (J : nth j (map ip ids) 0 = p). { rewrite <- Ep. rewrite (nth_indep _ 0 (ip (Iv 0 0 0))) by (rewrite map_length; lia). apply map_nth. }
    assert (j = Z.to_nat w) as <-.
    { pose proof (rising_ip _ G) as R. unfold rising in R. rewrite map_length in R. unfold len in *. rewrite ?map_length in *. destruct (lt_eq_lt_dec j (Z.to_nat w)) as [[K|K]|K]; [|exact K|].
      - specialize (R j (Z.to_nat w) ltac:(lia)). lia.
      - specialize (R (Z.to_nat w) j ltac:(lia)). lia. }
    rewrite <- Eq. rewrite (nth_indep _ 0 (iq (Iv 0 0 0))) by (rewrite map_length; lia). apply map_nth. }
  set (i := Z.to_nat w) in *. assert (Hi : (i < length ts)%nat) by (unfold len in *; rewrite ?map_length in *; lia).
  assert (LO : len (offsets 0 ts ++ [len (concat ts)]) = len ids + 1) by (unfold len; rewrite app_length, offsets_length, LT; cbn [length]; lia).
  destruct (offsets_nth ts 0 i Hi) as [O1 O2]. rewrite !Z.add_0_l in O1, O2.
  rewrite !at_index_nth by (rewrite LO; lia). cbn [bind]. fold i.
  replace (Z.to_nat (w + 1)) with (S i) by (unfold i; lia). cbn [bind]. rewrite O1, O2, (firstn_S_length ts i Hi).
  pose proof (concat_firstn_le ts (S i)) as LE. rewrite (firstn_S_length ts i Hi) in LE.
  set (a := len (concat (firstn i ts))) in *. replace (a <? 0) with false by (unfold a, len; lia).
  replace (a + len (nth i ts []) <? a) with false by (unfold len; lia). replace (_ <? a + len (nth i ts [])) with false by lia.
  cbn [orb]. replace (a + len (nth i ts []) - a) with (len (nth i ts [])) by lia. unfold len at 1, a, len at 1. rewrite !Nat2Z.id.
  rewrite (concat_cut ts i Hi). f_equal.
  assert (I0 : (i < length ids)%nat) by lia. pose (x := nth i ids (Iv 0 0 0)).
  assert (nth i ts [] = translate (ip x) (iq x)) as ->.
  { unfold ts, id_texts. rewrite (nth_indep _ [] ((fun x => translate (ip x) (iq x)) (Iv 0 0 0))) by (rewrite map_length; lia). apply (map_nth (fun x => translate (ip x) (iq x))). }
  assert (ip x = p) as ->. { rewrite <- E. unfold x. symmetry. rewrite (nth_indep _ 0 (ip (Iv 0 0 0))) by (rewrite map_length; lia). apply map_nth. }
  assert (iq x = q) as ->. { rewrite <- Q. unfold x. symmetry. rewrite (nth_indep _ 0 (iq (Iv 0 0 0))) by (rewrite map_length; lia). apply map_nth. }
  reflexivity.
Qed.
(** With too many ids every search leaves the array. *)
Theorem search_many a m v : 4294967296 < m <= 8589934592 -> search (S (length a)) a 0 (m - 1) v = UB.
Proof.
  intros H. cbn [search]. replace (0 <=? m - 1) with true by lia. rewrite Z.add_0_l, Z.sub_0_r.
  assert (D : 2147483648 <= (m - 1) / 2 < 4294967296) by (split; [apply Z.div_le_lower_bound; lia|apply Z.div_lt_upper_bound; lia]).
  assert (to_int ((m - 1) / 2) < 0).
  { unfold to_int. replace ((m - 1) / 2 + 2147483648) with ((m - 1) / 2 - 2147483648 + 1 * 4294967296) by lia. rewrite Z_mod_plus_full, Z.mod_small by lia. lia. }
  unfold at_index. replace (_ <? 0) with true by lia. reflexivity.
Qed.

(** * All of it *)
Theorem fastid_ok tc junk translate g query C c SC ids :
  g <> [] -> query g = Some (existT St C c) -> answers C c SC -> listed SC ids ->
  let ts := id_texts translate ids in
  (forall x, In x ids -> 0 <= ip x) -> len ids <= 2147483648 -> len (concat ts) <= maxf -> (forall t, In t ts -> ~ In 0 t) ->
  lossless tc (concat ts) -> extra tc (len (concat ts)) <= maxf ->
  exists file f, fastid tc junk translate (Some g) query = Ok (Some file) /\ fast_make tc file = Ok f /\
    (forall other p q, (exists x, In x ids /\ ip x = p /\ iq x = q) \/ other p q = translate p q -> fast_translate other f p q = Ok (translate p q)) /\
    forall k, (k < length file)%nat -> fast_make tc (firstn k file) = UB.
Proof.
  intros NG Q HC HL ts P B N NN L X. pose proof HL as [G _].
  pose proof (laid_all junk ts NN 0) as LA.
  destruct (file_back tc junk translate ids G P) as (file & E1 & E2 & E3); fold ts.
  { unfold maxf. lia. } { exact N. } { rewrite LA. exact L. } { rewrite LA. unfold maxf in *. lia. }
  exists file. eexists. split; [|split; [exact E2|split; [|exact E3]]].
  - unfold fastid. destruct g; [congruence|]. rewrite Q. cbn [projT1 projT2]. rewrite (ids_ok C c SC ids HC HL). cbn [bind]. rewrite E1. reflexivity.
  - intros other. apply translate_same; [exact G|exact B|exact LA].
Qed.
Theorem fastid_same tc junk translate g query C c SC ids :
  g <> [] -> query g = Some (existT St C c) -> answers C c SC -> listed SC ids ->
  let ts := id_texts translate ids in
  (forall x, In x ids -> 0 <= ip x) -> len ids <= 2147483648 -> len (concat ts) <= maxf -> (forall t, In t ts -> ~ In 0 t) ->
  lossless tc (concat ts) -> extra tc (len (concat ts)) <= maxf ->
  exists file f, fastid tc junk translate (Some g) query = Ok (Some file) /\ fast_make tc file = Ok f /\
    forall p q, fast_translate translate f p q = Ok (translate p q).
Proof.
  intros NG Q HC HL ts P B N NN L X. destruct (fastid_ok tc junk translate g query C c SC ids NG Q HC HL P B N NN L X) as (file & f & E1 & E2 & E3 & _).
  exists file, f. split; [exact E1|]. split; [exact E2|]. intros p q. apply E3. right. reflexivity.
Qed.
Theorem fastid_fast tc junk translate g query C c SC ids :
  g <> [] -> query g = Some (existT St C c) -> answers C c SC -> listed SC ids ->
  let ts := id_texts translate ids in
  (forall x, In x ids -> 0 <= ip x) -> len ids <= 2147483648 -> len (concat ts) <= maxf -> (forall t, In t ts -> ~ In 0 t) ->
  lossless tc (concat ts) -> extra tc (len (concat ts)) <= maxf ->
  exists file f, fastid tc junk translate (Some g) query = Ok (Some file) /\ fast_make tc file = Ok f /\
    forall other x, In x ids -> fast_translate other f (ip x) (iq x) = Ok (translate (ip x) (iq x)).
Proof.
  intros NG Q HC HL ts P B N NN L X. destruct (fastid_ok tc junk translate g query C c SC ids NG Q HC HL P B N NN L X) as (file & f & E1 & E2 & E3 & _).
  exists file, f. split; [exact E1|]. split; [exact E2|]. intros other x Hx. apply E3. left. exists x. auto.
Qed.
Theorem fastid_crash tc junk translate g query C c SC ids :
  g <> [] -> query g = Some (existT St C c) -> answers C c SC -> listed SC ids ->
  let ts := id_texts translate ids in
  (forall x, In x ids -> 0 <= ip x) -> len ids <= 2147483648 -> len (concat ts) <= maxf -> (forall t, In t ts -> ~ In 0 t) ->
  lossless tc (concat ts) -> extra tc (len (concat ts)) <= maxf ->
  exists file, fastid tc junk translate (Some g) query = Ok (Some file) /\
    forall k, (k < length file)%nat -> fast_make tc (firstn k file) = UB.
Proof.
  intros NG Q HC HL ts P B N NN L X. destruct (fastid_ok tc junk translate g query C c SC ids NG Q HC HL P B N NN L X) as (file & f & E1 & _ & _ & E4).
  exists file. split; [exact E1|exact E4].
Qed.
Theorem many_ub translate f p q : 4294967296 < f_m f <= 8589934592 -> fast_translate translate f p q = UB.
Proof. intros H. unfold fast_translate. rewrite search_many by exact H. reflexivity. Qed.
Theorem fastid_refused tc junk translate query gcl :
  gcl = None \/ gcl = Some [] \/ (exists g, gcl = Some g /\ query g = None) -> fastid tc junk translate gcl query = Ok None.
Proof. intros [->|[->|(g & -> & E)]]; [reflexivity..|]. destruct g; [reflexivity|]. unfold fastid. rewrite E. reflexivity. Qed.
