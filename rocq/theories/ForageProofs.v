(** What foraging collects, gathers and commits. *)
From Verif Require Import Base HopperModel GclSpec HopperProofs ArrayProofs UnaryProofs AnswerProofs PostingModel
  VectorModel RankModel RankSpec RankSsr RankTop StatsModel StatsSpec StatsHopper StatsProofs StatsTop StatsSum ForageModel.

(** * Collecting *)
Lemma split_at start items : gclist items ->
  exists before tail, items = before ++ tail /\ (forall x, In x before -> ip x < start) /\ (forall x, In x tail -> start <= ip x).
Proof.
  intros G. induction items as [|x l IH].
  - exists [], []. repeat split; intros x [].
  - destruct (IH (gclist_tail _ _ G)) as (b & t & E & Hb & Ht). destruct (Z_lt_le_dec (ip x) start) as [L|L].
    + exists (x :: b), t. split; [rewrite E; reflexivity|]. split; [|exact Ht]. intros y [<-|Hy]; auto.
    + exists [], (x :: l). split; [reflexivity|]. split; [intros y []|]. intros y [<-|Hy]; [exact L|].
      pose proof (gclist_lt _ _ _ G Hy). lia.
Qed.
Lemma filter_all {A} (p : A -> bool) l : (forall x, In x l -> p x = true) -> filter p l = l.
Proof. induction l as [|x l IH]; intros H; [reflexivity|]. cbn [filter]. rewrite (H x (or_introl eq_refl)). f_equal. apply IH. intros y Hy. apply H. right. exact Hy. Qed.
Lemma filter_nil {A} (p : A -> bool) l : (forall x, In x l -> p x = false) -> filter p l = [].
Proof. induction l as [|x l IH]; intros H; [reflexivity|]. cbn [filter]. rewrite (H x (or_introl eq_refl)). apply IH. intros y Hy. apply H. right. exact Hy. Qed.

Section Collect.
Context (C : hcls) (SC : iv -> Prop) (IC : St C -> Prop) (HC : hop_ok C SC IC).
Context (before tail : list iv) (HL : listed SC (before ++ tail)).
Context (last : Z) (HLast : minf <= last <= maxf).
Definition coll_inv (s : St C * iv * list iv) : Prop :=
  let '(h, x, l) := s in exists rest, tail = l ++ rest /\ IC h /\ x = hd maxr rest /\ forall y, In y l -> iq y < last.
Lemma collect_step s : coll_inv s -> wp (collect_body C last s) (fun r => match r with
  | inl s' => coll_inv s' /\ maxf - ip (snd (fst s')) < maxf - ip (snd (fst s))
  | inr l => exists rest, tail = l ++ rest /\ (forall y, In y l -> iq y < last) /\ match rest with [] => True | x :: _ => last <= iq x end end).
Proof.
  destruct s as [[h x] l]. intros (rest & E & Ih & -> & Hl). unfold collect_body. inf.
  destruct rest as [|x rest]; cbn [hd].
  - cbn [iq maxr]. replace (maxf <? last) with false by lia. apply wp_ok. exists []. auto.
  - destruct (iq x <? last) eqn:Q.
    2:{ apply wp_ok. exists (x :: rest). split; [exact E|]. split; [exact Hl|]. lia. }
    pose proof HL as [G HQ]. rewrite E in G.
    assert (Ix : In x (before ++ l ++ x :: rest)) by (rewrite !in_app_iff; right; right; left; reflexivity).
    pose proof (gclist_finite _ x G Ix) as Fx. unfold finite in Fx.
    apply wp_bind, wp_chk; [unfold minf, maxf in *; lia|].
    step (hop_tau HC) as [h' y]; [exact Ih|unfold minf, maxf in *; lia|intros [Ih' Hy]].
    assert (X : match rest with [] => y = maxr | z :: _ => y = z end).
    { apply (tau_next SC (before ++ l ++ [x]) rest (ip x + 1) y (hop_GC HC)); try (unfold minf, maxf in *; lia).
      - intros z. rewrite <- !app_assoc. cbn [app]. rewrite <- E. symmetry. apply HQ.
      - rewrite <- !app_assoc. cbn [app]. exact G.
      - intros z Hz. rewrite !in_app_iff in Hz. destruct Hz as [Hz|[Hz|[<-|[]]]]; [| |lia].
        + rewrite app_assoc in G. pose proof (gclist_app_lt (before ++ l) (x :: rest) z x G ltac:(rewrite in_app_iff; auto) ltac:(left; reflexivity)). lia.
        + rewrite app_assoc in G. pose proof (gclist_app_lt (before ++ l) (x :: rest) z x G ltac:(rewrite in_app_iff; auto) ltac:(left; reflexivity)). lia.
      - intros z Hz. rewrite app_assoc in G. apply gclist_app in G. destruct G as [_ G]. pose proof (gclist_lt _ _ _ G Hz). lia.
      - exact Hy. }
    apply wp_ok. split.
    + exists rest. split; [rewrite <- app_assoc; exact E|]. split; [exact Ih'|]. split; [destruct rest; exact X|].
      intros z Hz. rewrite in_app_iff in Hz. destruct Hz as [Hz|[<-|[]]]; [auto|lia].
    + cbn [fst snd]. destruct rest as [|z rest]; subst y; [cbn [ip maxr]; unfold minf, maxf in *; lia|].
      rewrite app_assoc in G. apply gclist_app in G. destruct G as [_ G]. pose proof (gclist_lt _ _ z G (or_introl eq_refl)). lia.
Qed.
End Collect.
Theorem collect_ok C c SC items start stop : answers C c SC -> listed SC items -> minf <= start <= maxf -> minf <= stop <= maxf ->
  collect C c start stop = Ok (in_range start stop items).
Proof.
  intros HC HL B1 B2. apply answers_iff in HC. destruct HC as (IC & HC & Ic). pose proof HL as [G HQ].
  destruct (split_at start items G) as (before & tail & -> & Hb & Ht). inf.
  assert (W : wp (collect C c start stop) (fun l => l = in_range start stop (before ++ tail))).
  2:{ destruct (collect C c start stop); try contradiction. cbn in W. subst. reflexivity. }
  assert (FN : forall x, In x (before ++ tail) -> finite x) by (intros x Hx; exact (gclist_finite _ x G Hx)).
  unfold collect. apply wp_bind.
  apply wp_mono with (P := fun last => minf <= last <= maxf /\ forall x, finite x -> (iq x < last <-> iq x <= stop)).
  { destruct (stop <? maxf) eqn:Q.
    - apply wp_chk; [unfold minf, maxf in *; lia|]. split; [unfold minf, maxf in *; lia|]. intros x F. lia.
    - apply wp_ok. split; [lia|]. intros x F. unfold finite in F. lia. }
  intros last [BL EL].
  set (k := if start =? minf then minf + 1 else start).
  assert (K : k <> minf /\ minf < k <= maxf /\ forall x, finite x -> (k <= ip x <-> start <= ip x)).
  { unfold k. destruct (start =? minf) eqn:Q; unfold finite, minf, maxf in *; repeat split; try lia. }
  destruct K as (K1 & K2 & K3).
  step (hop_tau HC) as [h x]; [exact Ic|lia|intros [Ih Hx]].
  assert (x = hd maxr tail) as ->.
  { assert (X : match tail with [] => x = maxr | y :: _ => x = y end).
    { apply (tau_next SC before tail k x (hop_GC HC)); try assumption; try lia.
      - intros z. symmetry. apply HQ.
      - intros z Hz. specialize (Hb z Hz). pose proof (FN z ltac:(rewrite in_app_iff; auto)) as F. specialize (K3 z F). lia.
      - intros z Hz. specialize (Ht z Hz). pose proof (FN z ltac:(rewrite in_app_iff; auto)) as F. apply K3; assumption. }
    destruct tail; exact X. }
  eapply wp_mono; [apply (loop_rule (coll_inv C IC tail last) (fun s => maxf - ip (snd (fst s))) (fun l =>
     exists rest, tail = l ++ rest /\ (forall y, In y l -> iq y < last) /\ match rest with [] => True | x :: _ => last <= iq x end))|].
  - intros [[h0 x] l] (rest & E & _ & -> & _). cbn [fst snd]. destruct rest as [|y rest]; cbn [hd]; [cbn [ip maxr]; lia|].
    assert (finite y) by (apply FN; rewrite E, !in_app_iff; right; right; left; reflexivity). fin.
  - intros s Hs. apply (collect_step C SC IC HC before tail HL last BL s Hs).
  - exists tail. repeat split; auto. intros y [].
  - cbn [fst snd]. change (Z.pos BIG) with 295147905179352825856. destruct tail as [|y rest]; cbn [hd]; [cbn [ip maxr]; unfold maxf; lia|].
    assert (finite y) by (apply FN; rewrite !in_app_iff; right; left; reflexivity). fin2.
  - intros l (rest & E & Hl & Hr). unfold in_range. rewrite filter_app, E, filter_app.
    rewrite (filter_nil _ before), (filter_all _ l), (filter_nil _ rest); [symmetry; apply app_nil_r| | |].
    + intros z Hz. assert (In z tail) as Iz by (rewrite E, in_app_iff; auto).
      assert (F : finite z) by (apply FN; rewrite in_app_iff; auto).
      assert (last <= iq z).
      { destruct rest as [|y rest]; [destruct Hz|]. destruct Hz as [<-|Hz]; [exact Hr|]. rewrite E in G. apply gclist_app in G. destruct G as [_ G].
        apply gclist_app in G. destruct G as [_ G]. pose proof (gclist_lt _ _ _ G Hz). lia. }
      pose proof (EL z F). lia.
    + intros z Hz. assert (In z tail) as Iz by (rewrite E, in_app_iff; auto). specialize (Ht z Iz).
      assert (F : finite z) by (apply FN; rewrite in_app_iff; auto). specialize (Hl z Hz). pose proof (EL z F). lia.
    + intros z Hz. specialize (Hb z Hz). lia.
Qed.

(** * Gathering *)
Section Gather.
Context (split : Z -> Z -> list word) (stem : word -> word) (featurize : word -> Z) (label : word) (word_at : Z -> word).
Notation words_of := (words_of word_at stem).
Notation labelled := (labelled featurize label).
Notation notes_of := (notes_of stem labelled word_at).
Notation dfs_of := (dfs_of stem labelled word_at).

Definition stems_ok (stems : list (word * word)) : Prop := forall t s, known t stems = Some s -> s = stem t.
Lemma known_app t a b : known t (a ++ b) = match known t a with Some s => Some s | None => known t b end.
Proof. induction a as [|[k s] a IH]; cbn [app known]; [reflexivity|]. destruct (word_eq t k); auto. Qed.
Lemma count_tokens_ok tokens : forall stems tf, stems_ok stems -> exists stems', stems_ok stems' /\
  count_tokens stem tokens stems tf = (stems', fold_left (fun m k => bump word_eq k m) (map stem tokens) tf).
Proof.
  induction tokens as [|t r IH]; intros stems tf S; cbn [count_tokens map fold_left]; [eauto|].
  destruct (known t stems) as [s|] eqn:K.
  - rewrite (S t s K). apply IH, S.
  - apply IH. intros t' s. rewrite known_app. destruct (known t' stems) eqn:K'; [intro H; injection H as <-; eauto|].
    cbn [known]. destruct (word_eq t' t) eqn:Q; [|discriminate]. apply word_eq_iff in Q. subst. congruence.
Qed.
Definition aligned1 (d : iv) : Prop := split (ip d) (iq d) = map word_at (addresses (ip d) (iq d)).
(** What has been gathered from [items]. *)
Definition gather (items : list iv) (g : gatherer) : Prop :=
  g_min g = fold_left Z.min (map ip items) maxf /\ g_items g = Z.of_nat (length items) /\ g_length g = total_length items /\
  g_df g = dfs_of items [] /\ stems_ok (g_stems g) /\ g_notes g = notes_of items.
Lemma forage1_ok items d g : gather items g -> finite d -> aligned1 d -> 0 <= total_length items -> total_length (items ++ [d]) <= maxf ->
  exists g', forage1 split stem featurize label d g = Ok (Some g') /\ gather (items ++ [d]) g'.
Proof.
  intros (G1 & G2 & G3 & G4 & G5 & G6) F A P B. unfold forage1. unfold finite in F.
  assert (E : (iq d <? ip d) || (ip d =? minf) || (iq d =? maxf) = false) by lia. rewrite E.
  rewrite total_length_app in B. unfold total_length at 2 in B. cbn [fold_right] in B.
  assert (C : forall x, minf <= x <= maxf -> chk x = Ok x).
  { intros x H. unfold chk. replace (_ && _) with true by lia. reflexivity. }
  rewrite C by (unfold minf, maxf in *; lia). cbn [bind]. rewrite C by (unfold minf, maxf in *; lia). cbn [bind].
  rewrite C by (unfold minf, maxf in *; lia). cbn [bind].
  destruct (count_tokens_ok (split (ip d) (iq d)) (g_stems g) [] G5) as (stems' & S & ->). eexists. split; [reflexivity|].
  assert (T : fold_left (fun m k => bump word_eq k m) (map stem (split (ip d) (iq d))) [] = tf_of stem word_at d).
  { rewrite A, map_map. reflexivity. }
  rewrite T. unfold gather. cbn [g_min g_items g_length g_df g_stems g_notes].
  rewrite map_app, fold_left_app, app_length, total_length_app, dfs_of_app, notes_of_app, G1, G2, G3, G4, G6. repeat split; auto.
  - cbn [length]. lia.
  - unfold total_length at 3. cbn [fold_right]. lia.
  - unfold StatsProofs.notes_of at 3. cbn [flat_map]. rewrite app_nil_r. reflexivity.
Qed.
Lemma forage_range_ok intervals : forall n start items g, gather items g -> (start + n <= length intervals)%nat ->
  (forall d, In d (items ++ intervals) -> finite d /\ aligned1 d) -> total_length (items ++ firstn n (skipn start intervals)) <= maxf ->
  exists g', forage_range split stem featurize label intervals start n g = Ok (Some g') /\ gather (items ++ firstn n (skipn start intervals)) g'.
Proof.
  induction n as [|n IH]; intros start items g G L V B; cbn [forage_range].
  - exists g. cbn [firstn]. rewrite app_nil_r. auto.
  - destruct (nth_error intervals start) as [d|] eqn:E; [|apply nth_error_None in E; lia].
    assert (S : skipn start intervals = d :: skipn (S start) intervals).
    { clear - E. revert start E. induction intervals as [|x r IH]; intros [|s] E; try discriminate; cbn in *; [injection E as ->; reflexivity|]. apply IH, E. }
    rewrite S in *. cbn [firstn] in *.
    assert (Id : In d intervals) by (eapply nth_error_In; eauto). destruct (V d ltac:(rewrite in_app_iff; auto)) as [Fd Ad].
    assert (P : forall l, (forall x, In x l -> finite x) -> 0 <= total_length l) by (intros l Hl; apply total_length_pos; exact Hl).
    replace (items ++ d :: firstn n (skipn (Datatypes.S start) intervals)) with ((items ++ [d]) ++ firstn n (skipn (Datatypes.S start) intervals)) in * by (rewrite <- app_assoc; reflexivity).
    assert (Sub : forall x, In x (firstn n (skipn (Datatypes.S start) intervals)) -> In x intervals).
    { intros x Hx. rewrite <- (firstn_skipn (Datatypes.S start) intervals), in_app_iff. right.
      rewrite <- (firstn_skipn n (skipn (Datatypes.S start) intervals)), in_app_iff. auto. }
    destruct (forage1_ok items d g G Fd Ad) as (g1 & -> & G1).
    { apply P. intros x Hx. apply V. rewrite in_app_iff. auto. }
    { rewrite total_length_app in B. pose proof (P (firstn n (skipn (Datatypes.S start) intervals)) (fun x Hx => proj1 (V x ltac:(rewrite in_app_iff; auto)))). lia. }
    cbn [bind]. apply IH; auto; [lia|]. intros x Hx. rewrite !in_app_iff in Hx. destruct Hx as [[Hx|[<-|[]]]|Hx]; apply V; rewrite in_app_iff; auto.
Qed.
Lemma min_first x l : gclist (x :: l) -> fold_left Z.min (map ip (x :: l)) maxf = ip x.
Proof.
  intros G. pose proof (gclist_finite _ x G (or_introl eq_refl)) as F. unfold finite in F. cbn [map fold_left]. rewrite Z.min_r by lia.
  assert (H : forall y, In y l -> ip x < ip y) by (intros y Hy; pose proof (gclist_lt _ _ _ G Hy); lia).
  clear G F. revert H. induction l as [|y l IH]; intros H; [reflexivity|]. cbn [map fold_left]. rewrite Z.min_l by (pose proof (H y (or_introl eq_refl)); lia).
  apply IH. intros z Hz. apply H. right. exact Hz.
Qed.
(** The annotations of a part of the items. *)
Definition part_notes (items : list iv) : list annotation :=
  notes_of items ++ map (fun '(f, n) => Ann f (Iv (front_p items) (front_p items) n)) (dfs_of items []) ++
  [Ann (labelled total_items_word) (Iv (front_p items) (front_p items) (Z.of_nat (length items)));
   Ann (labelled total_length_word) (Iv (front_p items) (front_p items) (total_length items))].
Lemma gathered_ok items g : gather items g -> gclist items ->
  gathered featurize label g = match items with [] => None | _ => Some (part_notes items) end.
Proof.
  intros (G1 & G2 & G3 & G4 & G5 & G6) G. unfold gathered. rewrite G1, G2, G3, G4, G6. destruct items as [|x l]; [reflexivity|].
  rewrite (min_first x l G). pose proof (gclist_finite _ x G (or_introl eq_refl)) as F. unfold finite in F.
  replace (ip x =? maxf) with false by lia. reflexivity.
Qed.
End Gather.
