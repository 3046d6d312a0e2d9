(** Ranking by the tiers of a query text. *)
From Verif Require Import Base Bytes HopperModel GclSpec GclProofs HopperProofs UnaryProofs UnaryModel VectorModel QueryModel QuerySpec ParseProofs QuerySem
  PropsQuery RankModel RankSpec RankTop TierModel TierSpec TierParse TierProofs TierSem.

(** ** The trees of tiers *)
Definition tier_tree (e : sexpr) : Prop := exists g, (forall c, In c g -> Forall plain c) /\ e = tier_query g.
Lemma plain_not_quote t : plain t -> (peek t =? 34) = false.
Proof. intros (_ & _ & H). unfold is_quote_char in H. destruct (peek t =? 34); [discriminate|reflexivity]. Qed.
Lemma word_expands split t : plain t -> expand_phrases split (word_query t) = Ok (word_query t).
Proof.
  intros H. unfold word_query. cbn [expand_phrases]. rewrite (plain_not_quote t H), andb_false_r. reflexivity.
Qed.
Lemma node_expands split k xs : k <> TERM -> Forall (fun x => expand_phrases split x = Ok x) xs -> expand_phrases split (SX k [] 0 xs) = Ok (SX k [] 0 xs).
Proof.
  intros Hk HF. cbn [expand_phrases]. assert (op_beq k TERM = false) as -> by (destruct k; try reflexivity; contradiction). cbn [andb].
  match goal with |- bind (?go xs) _ = _ => assert (go xs = Ok xs) as -> end; [|reflexivity].
  induction HF as [|x xs Hx HF IH]; [reflexivity|]. rewrite Hx. cbn [bind]. rewrite IH. reflexivity.
Qed.
Lemma node_optimized count k xs : k <> CONTAINED_IN -> Forall (fun x => optimize_ count x = x) xs -> optimize_ count (SX k [] 0 xs) = SX k [] 0 xs.
Proof.
  intros Hk HF. cbn [optimize_]. assert (map (optimize_ count) xs = xs) as ->.
  { induction HF as [|x xs Hx HF IH]; [reflexivity|]. cbn. congruence. }
  destruct k; try reflexivity. contradiction.
Qed.
Lemma node_fits E k xs : k <> MATERIALIZE -> Forall (mats_fit E) xs -> mats_fit E (SX k [] 0 xs).
Proof. intros Hk HF. cbn. split; [intros; contradiction|]. induction HF as [|x xs Hx HF IH]; [exact I|]. split; assumption. Qed.
(** A property of trees that holds of words and passes to the nodes of a tier. *)
Lemma tier_ind (P : sexpr -> Prop) g : (forall c t, In c g -> In t c -> P (word_query t)) ->
  (forall k xs, k = ONE_OF \/ k = ALL_OF \/ k = FOLLOWED_BY -> xs <> [] -> Forall P xs -> P (SX k [] 0 xs)) ->
  g <> [] -> (forall c, In c g -> c <> []) -> P (tier_query g).
Proof.
  intros HW HN Hn Hc.
  assert (forall c, In c g -> P (set_query c)) as HS.
  { intros c Hi. pose proof (Hc c Hi) as Nc. destruct c as [|t [|u c]]; [contradiction| |].
    - apply HN; [auto|discriminate|]. constructor; [apply (HW _ t Hi); left; reflexivity|]. constructor; [apply (HW _ t Hi); left; reflexivity|constructor].
    - apply HN; [auto|discriminate|]. apply Forall_map, Forall_forall. intros x Hx. apply (HW _ x Hi Hx). }
  destruct g as [|c [|c' g]]; [contradiction|apply HS; left; reflexivity|]. apply HN; [auto|discriminate|]. apply Forall_map, Forall_forall. exact HS.
Qed.
Lemma phrased_plain E split t x : plain t -> phrased E split t x <-> E t x.
Proof.
  intros H. apply plain_not_quote in H. unfold phrased. split.
  - intros [(p & _ & -> & _)|[_ Hx]]; [discriminate|exact Hx].
  - intros Hx. right. split; [|exact Hx]. intros p _ ->. discriminate.
Qed.

(** The hopper of a tier. *)
Lemma tier_hopper E split idx count enabled text g : tokens_indexed E split -> index_for idx E ->
  from_string text = Ok (Some (tier_query g)) -> (forall c, In c g -> Forall plain c) -> g <> [] -> (forall c, In c g -> c <> []) ->
  exists o, gcl_hopper idx count enabled split text = Ok (Some o) /\ answers (projT1 o) (projT2 o) (meaning (phrased E split) (tier_query g)).
Proof.
  intros HT HI HP HW Hn Hc. assert (forall c t, In c g -> In t c -> plain t) as HWt.
  { intros c t Hi Ht. specialize (HW c Hi). rewrite Forall_forall in HW. auto. }
  apply (C06_query_text E split HT idx HI count enabled text (tier_query g) HP).
  - apply tier_ind; [intros; constructor| |exact Hn|exact Hc]. intros k xs Hk Hx HF. apply valid_comb; assumption.
  - intros e' _ Ex. rewrite (tier_ind (fun e => expand_phrases split e = Ok e) g) in Ex; [|intros; apply word_expands; eauto| |exact Hn|exact Hc].
    2: { intros k xs Hk _ HF. apply node_expands; [destruct Hk as [->|[->| ->]]; discriminate|exact HF]. }
    assert (e' = tier_query g) as -> by congruence.
    rewrite (tier_ind (fun e => optimize_ count e = e) g); [|reflexivity| |exact Hn|exact Hc].
    2: { intros k xs Hk _ HF. apply node_optimized; [destruct Hk as [->|[->| ->]]; discriminate|exact HF]. }
    apply tier_ind; [|intros k xs Hk _ HF; apply node_fits; [destruct Hk as [->|[->| ->]]; discriminate|exact HF]|exact Hn|exact Hc].
    intros c t _ _. cbn. split; [discriminate|exact I].
Qed.

Lemma tiers_same {F T U : Type} (rank : T -> res (list (result (F := F)))) (rank' : U -> res (list result)) fake depth ts us :
  Forall2 (fun t u => rank t = rank' u) ts us -> tiered_ranking rank fake depth ts = tiered_ranking rank' fake depth us.
Proof.
  intros H. assert (forall st, add_tiers rank fake depth ts st = add_tiers rank' fake depth us st) as HA.
  { induction H as [|t u ts us E H IH]; intros st; [reflexivity|]. cbn [add_tiers]. rewrite E. destruct (rank' u) as [r| |]; cbn [bind]; [|reflexivity..].
    destruct (Nat.eqb _ _); [reflexivity|apply IH]. }
  destruct H; [reflexivity|]. unfold tiered_ranking. apply HA.
Qed.
Lemma fold_same f : (forall A A' B B', same A A' -> same B B' -> same (f A B) (f A' B')) ->
  forall Ts Us T U, same T U -> Forall2 same Ts Us -> same (fold_left f Ts T) (fold_left f Us U).
Proof. intros Hf Ts Us T U HT HF. revert T U HT. induction HF as [|A B Ts Us H HF IH]; intros T U HT; [exact HT|]. apply IH. apply Hf; assumption. Qed.
Lemma and_same A A' B B' : same A A' -> same B B' -> same (sem_and A B) (sem_and A' B').
Proof. intros HA HB. apply innermost_ext. intros x _. split; intros [(a & Ha & Na) (b & Hb & Nb)]; (split; [exists a|exists b]; (split; [apply HA + apply HB; assumption|assumption])). Qed.
Lemma or_same A A' B B' : same A A' -> same B B' -> same (sem_or A B) (sem_or A' B').
Proof. intros HA HB. apply innermost_ext. intros x _. split; intros [(a & Ha & Na)|(a & Ha & Na)]; [left|right|left|right]; exists a; (split; [apply HA + apply HB; assumption|assumption]). Qed.
Lemma fby_same A A' B B' : same A A' -> same B B' -> same (sem_fby A B) (sem_fby A' B').
Proof. intros HA HB. apply innermost_ext. intros x _. split; intros (a & b & Ha & Hb & K); exists a, b; (split; [apply HA; exact Ha|]); (split; [apply HB; exact Hb|exact K]). Qed.
Lemma set_same E E' c : (forall t, In t c -> same (E t) (E' t)) -> same (meaning E (set_query c)) (meaning E' (set_query c)).
Proof.
  intros H. destruct c as [|t [|u c]].
  - intros x. reflexivity.
  - apply fby_same; apply H; left; reflexivity.
  - change (same (fold_left sem_and (map (meaning E) (map word_query (u :: c))) (E t)) (fold_left sem_and (map (meaning E') (map word_query (u :: c))) (E' t))).
    rewrite !meaning_words. apply fold_same; [exact and_same|apply H; left; reflexivity|].
    assert (forall t, In t (u :: c) -> same (E t) (E' t)) as H' by (intros x Hx; apply H; right; exact Hx). clear H. induction (u :: c) as [|x l IH]; constructor.
    + apply H'. left. reflexivity.
    + apply IH. intros y Hy. apply H'. right. exact Hy.
Qed.
Lemma tier_same E E' g : (forall c t, In c g -> In t c -> same (E t) (E' t)) -> same (meaning E (tier_query g)) (meaning E' (tier_query g)).
Proof.
  intros H. destruct g as [|c [|c' g]].
  - intros x. reflexivity.
  - apply set_same. intros t. apply H. left. reflexivity.
  - change (same (fold_left sem_or (map (meaning E) (map set_query (c' :: g))) (meaning E (set_query c)))
             (fold_left sem_or (map (meaning E') (map set_query (c' :: g))) (meaning E' (set_query c)))).
    rewrite !map_map. apply fold_same; [exact or_same|apply set_same; intros t; apply H; left; reflexivity|].
    assert (forall x t, In x (c' :: g) -> In t x -> same (E t) (E' t)) as H' by (intros x t Hx; apply H; right; exact Hx). clear H. induction (c' :: g) as [|x l IH]; constructor.
    + apply set_same. intros t. apply H'. left. reflexivity.
    + apply IH. intros y t Hy. apply H'. right. exact Hy.
Qed.
Lemma holds_ext E E' d c : (forall t x, In t c -> E t x <-> E' t x) -> holds E d c -> holds E' d c.
Proof.
  intros H. destruct c as [|t [|u c]]; cbn [holds].
  - intros _ x [].
  - intros (a & b & Ha & Hb & K). exists a, b. split; [apply H; [left; reflexivity|exact Ha]|]. split; [apply H; [left; reflexivity|exact Hb]|exact K].
  - intros K x Hx. destruct (K x Hx) as (a & Ha & Na). exists a. split; [apply H; assumption|exact Na].
Qed.
Lemma tier_matches E g d (o : hobj) : g <> [] -> (forall c, In c g -> c <> []) -> finite d ->
  answers (projT1 o) (projT2 o) (meaning E (tier_query g)) ->
  (exists x, meaning E (tier_query g) x /\ nests d x) <-> exists c, In c g /\ holds E d c.
Proof.
  intros Hn Hc Fd A. destruct (tier_met E g d Hn Hc) as [M1 M2]. split; [exact M1|]. intros H. destruct (met_dec _ _ _ d A Fd) as [K|K]; [exact K|].
  exfalso. exact (M2 Fd H K).
Qed.

Section Top.
Context {F : Type} (zero : F) (add : F -> F -> F) (lt gt near : F -> F -> bool) (sort : sorter) (rarity : bytes -> F).
Theorem ranked_by_text E split idx count enabled C c SC cs weight fake depth query :
  weak_order lt -> weak_order gt -> sorts sort -> answers C c SC -> listed SC cs -> apart SC ->
  tokens_indexed E split -> index_for idx E -> (forall t x, E t x -> 0 <= ip x) -> (forall p q, positive zero add lt (weight p q)) ->
  exists out groups picks alls,
    tiered_by_text zero add lt gt near split sort rarity idx count enabled weight fake C c depth query = Ok out /\
    tiers_of zero add gt near rarity (split query) groups /\
    Forall2 (tier_results zero add E weight cs) groups alls /\
    tiered lt depth alls [] picks /\ map place out = map place picks /\
    forall i r, nth_error out i = Some r -> rscore r = fake (depth - i)%nat.
Proof.
  intros HL HG HS HC LC HA HT HI HN HW.
  destruct (build_ok zero add gt near sort rarity split query HG HS) as (tiers & groups & E1 & HO & E2).
  { intros t Ht. destruct (HT query) as [_ K]. destruct (K t Ht) as (A & B & D & _). split; [exact A|]. split; assumption. }
  assert (forall g, In g groups -> g <> [] /\ (forall c, In c g -> c <> [] /\ Forall plain c)) as HGr.
  { destruct HO as (kept & (left_out & _ & HR & _) & _ & HP & _ & HCut). intros g Hg. split.
    - clear - HCut Hg. induction groups as [|h gs IH]; [contradiction|]. cbn [cut] in HCut. destruct HCut as [A B]. destruct Hg as [->|Hg]; [|auto]. destruct g; [contradiction|discriminate].
    - intros x Hx. assert (In x (concat groups)) as Hc by (apply in_concat; exists g; auto). apply HP in Hc. destruct Hc as [Nx Px]. split; [exact Nx|].
      apply Forall_forall. intros t Ht. apply (part_in _ _ Px) in Ht. assert (In t (split query)) as Hq by (apply HR; apply in_or_app; left; exact Ht).
      destruct (HT query) as [_ K]. destruct (K t Hq) as (A & B & D & _). split; [exact A|]. split; assumption. }
  assert (forall t, proper (phrased E split t)) as HPr.
  { assert (forall t x, E t x -> 0 <= ip x <= iq x) as HE.
    { intros t x Hx. destruct (HI t) as [[Fx _] _]. specialize (Fx x Hx). specialize (HN t x Hx). unfold finite in Fx. lia. }
    intros t x [(p & _ & _ & H)|[_ H]]; [|exact (HE t x H)]. destruct (split p) as [|u [|u' us]]; [exact (HE _ x H)|exact (HE _ x H)|].
    destruct H as (Fx & _ & _ & H). destruct (H 0%nat u eq_refl) as (v & Hv). apply HE in Hv. cbn [ip iq] in Hv. unfold finite in Fx. lia. }
  (* the hoppers and their solutions *)
  assert (exists os sols, Forall2 (fun text o => gcl_hopper idx count enabled split text = Ok (Some o)) tiers os /\
     Forall2 (fun t xs => weighty zero add lt weight xs /\ exists S, answers (projT1 t) (projT2 t) S /\ listed S xs) os sols /\
     Forall2 (fun g xs => exists o : hobj, answers (projT1 o) (projT2 o) (meaning (phrased E split) (tier_query g)) /\ listed (meaning (phrased E split) (tier_query g)) xs) groups sols)
    as (os & sols & O1 & O2 & O3).
  { clear E1 HO. induction E2 as [|text g tiers groups Ep E2 IH]; [exists [], []; split; [constructor|split; constructor]|].
    destruct IH as (os & sols & O1 & O2 & O3); [intros h Hh; apply HGr; right; exact Hh|].
    destruct (HGr g (or_introl eq_refl)) as [Ng Hg].
    destruct (tier_hopper E split idx count enabled text g HT HI Ep) as (o & Eo & Ao); [intros x Hx; apply Hg; exact Hx|exact Ng|intros x Hx; apply Hg; exact Hx|].
    destruct (answers_listed _ _ _ Ao) as (xs & Lx). exists (o :: os), (xs :: sols).
    split; [constructor; assumption|]. split; [|constructor; [exists o; auto|assumption]]. constructor; [|assumption]. split; [|eauto].
    intros x Hx. split; [|apply HW]. destruct Lx as [Gx Lx]. apply Lx in Hx.
    pose proof (tier_proper (phrased E split) g Ng (fun c Hc => proj1 (Hg c Hc)) HPr) as HP.
    specialize (HP x Hx). destruct Ao as [[Fx _] _]. specialize (Fx x Hx). unfold finite in Fx. lia. }
  destruct (tiers_best zero add lt sort C c SC cs weight fake depth os sols HL HS HC LC HA O2) as (out & picks & alls & R1 & R2 & R3 & R4 & R5).
  exists out, groups, picks, alls. split; [|split; [exact HO|split; [|auto]]].
  - unfold tiered_by_text. rewrite E1. cbn [bind]. rewrite <- R1. apply tiers_same. clear - O1. induction O1 as [|t o ts os Eo O1 IH]; constructor; [|exact IH].
    unfold ssr_by_text, tier_rank, ssr_ranking. destruct (Nat.eqb depth 0); [reflexivity|]. rewrite Eo. reflexivity.
  - clear - O3 R2 HGr HC LC. revert alls R2. induction O3 as [|g xs groups sols (o & Ao & Lx) O3 IH]; intros alls R2; inversion R2 as [|? all ? alls' Hall R2']; subst; constructor.
    + destruct (HGr g (or_introl eq_refl)) as [Ng Hg].
      assert (forall c t, In c g -> In t c -> same (phrased E split t) (E t)) as HSm.
      { intros x t Hx Ht y. apply phrased_plain. destruct (Hg x Hx) as [_ HF]. rewrite Forall_forall in HF. auto. }
      exists xs. unfold matching in Hall. eexists. split; [split; [apply Lx|]; intros x; rewrite (proj2 Lx); apply (tier_same _ _ _ HSm)|]. split; [exact Hall|].
      intros d Hd. cbn beta. destruct LC as [GC' LC]. destruct HC as [[FC _] _]. pose proof (FC d (proj1 (LC d) Hd)) as Fd.
      assert ((minf <=? ip d) && (ip d <? maxf) = true) as -> by (unfold finite in Fd; lia). cbn [andb].
      destruct (tier_met (phrased E split) g d Ng (fun c Hc => proj1 (Hg c Hc))) as [M1 M2].
      assert (existsb (inside d) xs = true <-> met (meaning (phrased E split) (tier_query g)) d) as ->.
      { rewrite existsb_exists. unfold met, inside, nests. split; intros (x & Hx & N); exists x; (split; [apply Lx; exact Hx|lia]). }
      split.
      * intros H. destruct (M1 H) as (x & Hx & K). exists x. split; [exact Hx|]. revert K. apply holds_ext. intros t y Ht. apply (HSm x t Hx Ht).
      * intros (x & Hx & K). destruct (met_dec _ _ _ d Ao Fd) as [Q|Q]; [exact Q|]. exfalso. apply (M2 Fd); [|exact Q]. exists x. split; [exact Hx|].
        revert K. apply holds_ext. intros t y Ht. symmetry. apply (HSm x t Hx Ht).
    + apply IH; [intros h Hh; apply HGr; right; exact Hh|exact R2'].
Qed.

(** With room for all containers, those that hold a set of the words are ranked. *)
Lemma tiered_all (K : list Z) : NoDup K -> forall alls seen picks d,
  Forall (fun all => NoDup (map rcp all) /\ incl (map rcp all) K) alls -> NoDup seen -> incl seen K -> (length K <= d + length seen)%nat ->
  tiered lt d alls seen picks ->
  forall k, In k (map rcp picks) <-> ~ In k seen /\ exists all : list (result (F := F)), In all alls /\ In k (map rcp all).
Proof.
  clear zero add gt near sort rarity. intros NK. induction alls as [|all alls IH]; intros seen picks d HF NS IS LK HT k; cbn [tiered] in HT.
  - subst. cbn. split; [contradiction|]. intros (_ & all & [] & _).
  - inversion HF as [|? ? [NA IA] HF']; subst. destruct HT as (pick & top' & -> & (left_out & PM & LP & _) & HT).
    assert (forall x, In x (map rcp (unseen seen all)) <-> In x (map rcp all) /\ ~ In x seen) as HU.
    { intros x. unfold unseen. rewrite !in_map_iff. split.
      - intros (r & <- & Hr). apply filter_In in Hr. destruct Hr as [Hr Hn]. split; [exists r; auto|]. intros Hi. apply negb_true_iff in Hn.
        assert (existsb (Z.eqb (rcp r)) seen = true) as Y by (apply existsb_exists; exists (rcp r); split; [exact Hi|apply Z.eqb_refl]). congruence.
      - intros ((r & <- & Hr) & Hn). exists r. split; [reflexivity|]. apply filter_In. split; [exact Hr|]. apply negb_true_iff.
        destruct (existsb (Z.eqb (rcp r)) seen) eqn:Y; [|reflexivity]. apply existsb_exists in Y. destruct Y as (y & Hy & Ey). apply Z.eqb_eq in Ey. subst. contradiction. }
    assert (NoDup (map rcp (unseen seen all))) as NU.
    { clear - NA. unfold unseen. induction all as [|r all IHa]; [constructor|]. cbn [filter map] in *. inversion NA; subst. destruct (negb _); [|auto]. cbn [map]. constructor; [|auto].
      intros Hi. apply H1. apply in_map_iff in Hi. destruct Hi as (r' & Er & Hr). apply filter_In in Hr. apply in_map_iff. exists r'. tauto. }
    assert (length seen + length (unseen seen all) <= length K)%nat as LS.
    { rewrite <- (map_length rcp (unseen seen all)), <- app_length. apply NoDup_incl_length.
      - apply nodup_app_disjoint; [exact NS|exact NU|]. intros x Hx Hy. apply HU in Hy. tauto.
      - intros x Hx. apply in_app_or in Hx. destruct Hx as [Hx|Hx]; [auto|]. apply HU in Hx. apply IA. tauto. }
    assert (left_out = []) as -> .
    { pose proof (Permutation_length PM) as PL. rewrite app_length in PL. destruct left_out; [reflexivity|]. cbn [length] in PL. lia. }
    rewrite app_nil_r in PM. assert (forall x, In x (map rcp pick) <-> In x (map rcp all) /\ ~ In x seen) as HPk.
    { intros x. rewrite <- HU. split; apply Permutation_in; apply Permutation_map; [symmetry|]; exact PM. }
    assert (NoDup (map rcp pick)) as NP by (apply (Permutation_NoDup (Permutation_map rcp PM)); exact NU).
    rewrite map_app, in_app_iff. rewrite (IH (map rcp pick ++ seen) top' (d - length pick)%nat HF').
    + rewrite in_app_iff, HPk. split.
      * intros [[H1 H2]|[H1 (a & Ha & Hk)]]; [split; [exact H2|]; exists all; split; [left; reflexivity|exact H1]|]. split; [tauto|]. exists a. split; [right; exact Ha|exact Hk].
      * intros [H1 (a & [<-|Ha] & Hk)]; [left; auto|]. destruct (in_dec Z.eq_dec k (map rcp all)); [left; auto|]. right. split; [tauto|]. exists a. auto.
    + apply nodup_app_disjoint; [exact NP|exact NS|]. intros x Hx. apply HPk in Hx. tauto.
    + intros x Hx. apply in_app_or in Hx. destruct Hx as [Hx|Hx]; [|auto]. apply HPk in Hx. apply IA. tauto.
    + rewrite app_length, map_length. lia.
    + exact HT.
Qed.
Lemma gclist_starts l : gclist l -> NoDup (map ip l) /\ (forall x y r, l = x :: r -> In y r -> ip x < ip y).
Proof.
  clear. induction l as [|x l IH]; intros H; [split; [constructor|intros; discriminate]|]. cbn [gclist] in H. destruct H as (_ & H1 & H2). destruct (IH H2) as [A B].
  assert (forall y, In y l -> ip x < ip y) as L.
  { intros y Hy. destruct l as [|z l]; [contradiction|]. destruct Hy as [<-|Hy]; [lia|]. specialize (B z y l eq_refl Hy). lia. }
  split; [|intros a y r E Hy; injection E as <- <-; auto]. cbn [map]. constructor; [|exact A]. intros Hi. apply in_map_iff in Hi. destruct Hi as (y & E & Hy). specialize (L y Hy). lia.
Qed.
Lemma filter_starts (keep : iv -> bool) l : NoDup (map ip l) -> NoDup (map ip (filter keep l)) /\ incl (map ip (filter keep l)) (map ip l).
Proof.
  clear. induction l as [|x l IH]; intros H; [split; [constructor|intros y []]|]. cbn [map] in H. inversion H; subst. destruct (IH H3) as [A B]. cbn [filter]. destruct (keep x).
  - cbn [map]. split; [constructor; [|exact A]; intros Hi; apply H2; apply B; exact Hi|]. intros y [<-|Hy]; [left; reflexivity|right; apply B; exact Hy].
  - split; [exact A|]. intros y Hy. right. apply B. exact Hy.
Qed.
Lemma results_starts weight xs ds all : Forall2 (ssr_result zero add weight xs) ds all -> map rcp all = map ip ds.
Proof. induction 1 as [|d r ds all (H & _) HF IH]; [reflexivity|]. cbn. congruence. Qed.
Lemma places_starts (a b : list (result (F := F))) : map place a = map place b -> map rcp a = map rcp b.
Proof. revert b. induction a as [|x a IH]; intros [|y b] E; try discriminate; [reflexivity|]. cbn in E. injection E as E1 E2 E3 E4 E. cbn. f_equal; auto. Qed.

Theorem found_by_text E split idx count enabled C c SC cs weight fake depth query :
  weak_order lt -> weak_order gt -> sorts sort -> answers C c SC -> listed SC cs -> apart SC ->
  tokens_indexed E split -> index_for idx E -> (forall t x, E t x -> 0 <= ip x) -> (forall p q, positive zero add lt (weight p q)) ->
  (length cs <= depth)%nat ->
  exists out kept,
    tiered_by_text zero add lt gt near split sort rarity idx count enabled weight fake C c depth query = Ok out /\
    rarest gt rarity (split query) kept /\
    (forall r, In r out -> exists d, In d cs /\ rcp r = ip d) /\
    forall d, In d cs -> (In (ip d) (map rcp out) <->
      (exists t u, In t kept /\ In u kept /\ t <> u /\ met (E t) d /\ met (E u) d) \/ (exists t, In t kept /\ holds E d [t])).
Proof.
  intros HL HG HS HC LC HA HT HI HN HW HD.
  destruct (ranked_by_text E split idx count enabled C c SC cs weight fake depth query HL HG HS HC LC HA HT HI HN HW)
    as (out & groups & picks & alls & R & HO & HR & HTi & HP & _).
  destruct HO as (kept & HK & ND & HIn & _ & _). exists out, kept. split; [exact R|]. split; [exact HK|].
  destruct LC as [GCs LC]. destruct (gclist_starts cs GCs) as [NS _].
  assert (Forall (fun all => NoDup (map rcp all) /\ incl (map rcp all) (map ip cs)) alls) as HF.
  { clear - HR NS. induction HR as [|g all groups alls (xs & keep & _ & H & _) HR IH]; constructor; [|exact IH].
    rewrite (results_starts _ _ _ _ H). apply filter_starts. exact NS. }
  assert (forall k, In k (map rcp out) <-> exists all, In all alls /\ In k (map rcp all)) as HA'.
  { intros k. rewrite (places_starts _ _ HP). rewrite (tiered_all (map ip cs) NS alls [] picks depth HF); [|constructor|intros x []|rewrite map_length; cbn; lia|exact HTi].
    split; [intros [_ H]; exact H|]. intros H. split; [intros []|exact H]. }
  split.
  - intros r Hr. assert (In (rcp r) (map rcp out)) as Hi by (apply in_map; exact Hr). apply HA' in Hi. destruct Hi as (all & Ha & Hk).
    rewrite Forall_forall in HF. destruct (HF all Ha) as [_ I]. apply I in Hk. apply in_map_iff in Hk. destruct Hk as (d & E1 & Hd). exists d. auto.
  - intros d Hd. rewrite HA'.
    assert ((exists all, In all alls /\ In (ip d) (map rcp all)) <-> exists c, In c (concat groups) /\ holds E d c) as ->.
    { clear HA' HTi HF R HP HIn ND. assert (forall d', In d' cs -> ip d' = ip d -> d' = d) as INJ.
      { intros d' Hd' E1. clear - NS Hd Hd' E1. induction cs as [|x l IH]; [contradiction|]. cbn [map] in NS. inversion NS; subst.
        destruct Hd as [->|Hd], Hd' as [->|Hd']; [reflexivity| | |auto]; exfalso; apply H1; [rewrite <- E1|rewrite E1]; apply in_map; assumption. }
      induction HR as [|g all groups alls (xs & keep & _ & H & Hk) HR IH].
      - split; [intros (a & [] & _)|intros (x & [] & _)].
      - assert (In (ip d) (map rcp all) <-> exists c, In c g /\ holds E d c) as H1.
        { rewrite (results_starts _ _ _ _ H), <- (Hk d Hd), in_map_iff. split.
          - intros (d' & E1 & Hd'). apply filter_In in Hd'. destruct Hd' as [Hd' K]. rewrite <- (INJ d' Hd' E1). exact K.
          - intros K. exists d. split; [reflexivity|]. apply filter_In. auto. }
        cbn [concat]. split.
        + intros (a & [<-|Ha] & Hi).
          * apply H1 in Hi. destruct Hi as (x & Hx & K). exists x. split; [apply in_or_app; left; exact Hx|exact K].
          * destruct (proj1 IH) as (x & Hx & K); [exists a; auto|]. exists x. split; [apply in_or_app; right; exact Hx|exact K].
        + intros (x & Hx & K). apply in_app_or in Hx. destruct Hx as [Hx|Hx].
          * exists all. split; [left; reflexivity|]. apply H1. exists x. auto.
          * destruct (proj2 IH) as (a & Ha & Hi); [exists x; auto|]. exists a. split; [right; exact Ha|exact Hi]. }
    destruct HK as (left_out & NKL & _).
    assert (forall l (t : bytes), In t l -> part [t] l) as P1.
    { clear. assert (forall l : list bytes, part [] l) as P0 by (induction l; constructor; assumption).
      induction l as [|x l IH]; intros t Ht; [contradiction|]. destruct Ht as [->|Ht]; [apply part_keep, P0|apply part_skip; auto]. }
    assert (forall l (t u : bytes), In t l -> In u l -> t <> u -> part [t; u] l \/ part [u; t] l) as P2.
    { clear - P1. induction l as [|x l IH]; intros t u Ht Hu N; [contradiction|].
      destruct Ht as [->|Ht], Hu as [->|Hu]; [contradiction|left; apply part_keep; auto|right; apply part_keep; auto|].
      destruct (IH t u Ht Hu N); [left|right]; apply part_skip; assumption. }
    split.
    + intros (x & Hx & K). apply HIn in Hx. destruct Hx as [Nx Px]. destruct x as [|t [|u x]]; [contradiction| |].
      * right. exists t. split; [apply (part_in _ _ Px); left; reflexivity|exact K].
      * left. exists t, u. split; [apply (part_in _ _ Px); left; reflexivity|]. split; [apply (part_in _ _ Px); right; left; reflexivity|].
        split; [|split; apply K; [left|right; left]; reflexivity].
        intros <-. assert (NoDup kept) as NK by (clear - NKL; induction kept as [|y k IH]; [constructor|]; cbn in NKL; inversion NKL; subst; constructor; [intros Y; apply H1; apply in_or_app; left; exact Y|auto]).
        clear - Px NK. remember (t :: t :: x) as l eqn:El. induction Px as [|y l0 k P IH|y l0 k P IH]; [discriminate|inversion NK; auto|].
        injection El as -> ->. inversion NK; subst. apply H1. apply (part_in _ _ P). left. reflexivity.
    + intros [(t & u & Ht & Hu & N & Mt & Mu)|(t & Ht & K)].
      * destruct (P2 kept t u Ht Hu N) as [P|P]; [exists [t; u]|exists [u; t]]; (split; [apply HIn; split; [discriminate|exact P]|]); intros y [<-|[<-|[]]]; assumption.
      * exists [t]. split; [apply HIn; split; [discriminate|apply P1; exact Ht]|exact K].
Qed.
Theorem found_by_words E split idx count enabled C c SC cs weight fake depth query :
  weak_order lt -> weak_order gt -> sorts sort -> answers C c SC -> listed SC cs -> apart SC ->
  tokens_indexed E split -> index_for idx E -> (forall t x, E t x -> 0 <= ip x) -> (forall p q, positive zero add lt (weight p q)) ->
  (length cs <= depth)%nat ->
  exists out kept,
    tiered_by_text zero add lt gt near split sort rarity idx count enabled weight fake C c depth query = Ok out /\
    rarest gt rarity (split query) kept /\
    (forall r, In r out -> exists d, In d cs /\ rcp r = ip d) /\
    forall d, In d cs -> (In (ip d) (map rcp out) <->
      (exists t u, In t kept /\ In u kept /\ t <> u /\ (exists x, E t x /\ nests d x) /\ (exists x, E u x /\ nests d x)) \/
      (exists t a b, In t kept /\ E t a /\ E t b /\ nests d a /\ nests d b /\ iq a < ip b)).
Proof.
  intros. destruct (found_by_text E split idx count enabled C c SC cs weight fake depth query) as (out & kept & A & B & D & K); try assumption.
  exists out, kept. split; [exact A|]. split; [exact B|]. split; [exact D|]. intros d Hd. rewrite (K d Hd). split; (intros [X|X]; [left; exact X|right]).
  - destruct X as (t & Ht & a & b & Y). exists t, a, b. split; [exact Ht|exact Y].
  - destruct X as (t & a & b & Ht & Y). exists t. split; [exact Ht|]. exists a, b. exact Y.
Qed.
End Top.
