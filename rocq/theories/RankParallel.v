(** Ranking in ranges by several threads gives the ranking of the whole. *)
From Verif Require Import Base HopperModel GclSpec HopperProofs GclProofs ArrayProofs UnaryProofs
  RankModel RankSpec RankProofs RankSsr.

(** * The ranges *)
Lemma range_begin_0 start span d : range_begin start span d 0 = start.
Proof. unfold range_begin. rewrite !Z.mul_0_r, Zdiv_0_l. lia. Qed.
Lemma range_begin_d start span d : 0 < d -> range_begin start span d d = start + span.
Proof.
  intros H. unfold range_begin. rewrite Z.div_mul by lia.
  pose proof (Z_div_mod_eq_full span d). lia.
Qed.
Lemma range_begin_mono start span d n m : 0 < d -> 0 <= span -> 0 <= n <= m ->
  range_begin start span d n <= range_begin start span d m.
Proof.
  intros Hd Hs H. unfold range_begin. pose proof (Z.div_pos span d Hs Hd).
  pose proof (Z.mod_pos_bound span d Hd).
  assert ((span mod d) * n / d <= (span mod d) * m / d) by (apply Z.div_le_mono; nia). nia.
Qed.

Lemma matching_split xs cs b m e : b <= m <= e ->
  Permutation (matching xs cs b e) (matching xs cs b m ++ matching xs cs m e).
Proof.
  intros H. unfold matching. induction cs as [|c cs IH]; [constructor|]. cbn [filter].
  destruct (existsb (inside c) xs); [|rewrite !andb_false_r; exact IH]. rewrite !andb_true_r.
  destruct (Z.leb_spec b (ip c)) as [H1|H1], (Z.ltb_spec (ip c) m) as [H2|H2],
    (Z.leb_spec m (ip c)) as [H3|H3], (Z.ltb_spec (ip c) e) as [H4|H4]; cbn [andb]; try lia; try exact IH.
  - apply perm_skip, IH.
  - eapply perm_trans; [apply perm_skip, IH|]. apply Permutation_middle.
Qed.

Section Par.
Context {F : Type} (zero : F) (add : F -> F -> F) (lt : F -> F -> bool) (sort : sorter).
Context (W : weak_order lt) (HS : sorts sort).
Context (weight : Z -> Z -> F) (xs cs : list iv).
Notation answer := (ssr_answer zero add lt weight xs cs).

Lemma answer_join b m e depth t1 t2 : b <= m <= e ->
  answer b m depth t1 -> answer m e depth t2 ->
  answer b e depth (top_results lt sort t1 t2 depth).
Proof.
  intros H (a1 & F1 & B1) (a2 & F2 & B2).
  destruct (Permutation_Forall2 (Permutation_sym (matching_split xs cs b m e H)) (Forall2_app F1 F2))
    as (all & P & Fall).
  exists all. split; [exact Fall|]. eapply best_perm; [exact P|]. apply best_top2; assumption.
Qed.

Lemma answer_fold (f : nat -> Z) depth b0 : forall n i rs top,
  (forall j, (j < i + n)%nat -> f j <= f (S j)) -> b0 <= f i ->
  answer b0 (f i) depth top ->
  Forall2 (fun r t => answer (fst r) (snd r) depth t) (map (fun j => (f j, f (S j))) (seq i n)) rs ->
  answer b0 (f (i + n)%nat) depth (fold_left (fun top r => top_results lt sort top r depth) rs top).
Proof.
  induction n as [|n IH]; intros i rs top Hm Hb Ht HF; cbn [seq map] in HF.
  - inversion HF; subst. rewrite Nat.add_0_r. exact Ht.
  - inversion HF as [|? r ? rs' Hr HF']; subst. cbn [fold_left fst snd] in *.
    replace (i + S n)%nat with (S i + n)%nat by lia. apply IH; [|specialize (Hm i ltac:(lia)); lia| |exact HF'].
    + intros j Hj. apply Hm. lia.
    + eapply answer_join; [|exact Ht|exact Hr]. specialize (Hm i ltac:(lia)). lia.
Qed.
Lemma answer_empty b depth : answer b b depth [].
Proof.
  exists []. split; [|apply best_nil].
  replace (matching xs cs b b) with (@nil iv); [constructor|].
  symmetry. apply filter_none. intros c _.
  destruct (Z.leb_spec b (ip c)), (Z.ltb_spec (ip c) b); try lia; reflexivity.
Qed.
End Par.

Section ParTop.
Context {F : Type} (zero : F) (add : F -> F -> F) (lt : F -> F -> bool) (sort : sorter).
Context (W : weak_order lt) (HS : sorts sort).
Context (A C : hcls) (weight : Z -> Z -> F).
Context (SA SC : iv -> Prop) (IA : St A -> Prop) (IC : St C -> Prop).
Context (HA : hop_ok A SA IA) (HC : hop_ok C SC IC).
Context (xs cs : list iv) (LA : listed SA xs) (LC : listed SC cs).
Context (Hap : apart SC).
Context (Hlen : forall x, SA x -> iq x - ip x <= maxf).
Context (Hpos : forall x, SA x -> positive zero add lt (weight (ip x) (iq x))).
Context (Hspan : forall c d, SC c -> SC d -> iq d - ip c < maxf).
Notation answer := (ssr_answer zero add lt weight xs cs).

Lemma workers_ok h c depth : IA h -> IC c -> forall ranges,
  Forall (fun r => minf <= fst r <= maxf /\ minf <= snd r <= maxf) ranges ->
  wp (workers zero add lt sort A C weight h c depth ranges)
     (Forall2 (fun r t => answer (fst r) (snd r) depth t) ranges).
Proof.
  intros Ih Ic ranges HF. induction HF as [|[b e] ranges [Hb He] HF IH]; cbn [workers].
  - apply wp_ok. constructor.
  - cbn [fst snd] in *. apply wp_bind. eapply wp_mono.
    + apply (ssr_ranking_ok zero add lt sort W HS A C weight SA SC IA IC HA HC xs cs LA LC Hap Hlen Hpos); assumption.
    + intros t Ht. apply wp_bind. eapply wp_mono; [exact IH|]. intros ts Hts. apply wp_ok.
      constructor; assumption.
Qed.

Lemma matching_all b e : (forall c, In c cs -> b <= ip c < e) ->
  matching xs cs b e = matching xs cs minf maxf.
Proof.
  intros H. apply filter_ext_in. intros c Hc. specialize (H c Hc).
  assert (FC : finite c) by (apply (proj1 (hop_GC HC)), LC, Hc). unfold finite in FC.
  rewrite (proj2 (Z.leb_le b _)), (proj2 (Z.leb_le minf _)), (proj2 (Z.ltb_lt _ e)), (proj2 (Z.ltb_lt _ maxf));
    [reflexivity|clear - FC; lia|clear - H; lia|clear - FC; lia|clear - H; lia].
Qed.

Lemma parallel_ssr_ok hardware threads h c depth : IA h -> IC c ->
  wp (parallel_ssr zero add lt sort A C weight hardware threads h c depth)
     (answer minf maxf depth).
Proof.
  intros Ih Ic. unfold parallel_ssr.
  destruct (Nat.eqb_spec depth 0) as [->|Hd].
  { pose proof (ssr_ranking_ok zero add lt sort W HS A C weight SA SC IA IC HA HC xs cs LA LC Hap Hlen Hpos
      h c 0 minf maxf Ih Ic ltac:(inf; lia) ltac:(inf; lia)) as H. exact H. }
  step (hop_tau HC) as [c1 r]; [exact Ic|inf; lia|]. intros [Ic1 Hr].
  assert (Er : r = hd maxr cs).
  { apply (tau_hd SC (minf + 1) r [] cs); [exact LC|lia|exact Hr|intros ? []|].
    intros x Hx. assert (FX : finite x) by (apply (proj1 (hop_GC HC)), LC, Hx). unfold finite in FX. lia. }
  destruct (Z.eqb_spec (ip r) maxf) as [E1|E1].
  { apply wp_ok. exists []. split; [|apply best_nil].
    assert (cs = []) as ->; [|constructor].
    destruct cs as [|x l] eqn:E; [reflexivity|]. exfalso. rewrite Er in E1. cbn [hd] in E1.
    assert (FX : finite x) by (apply (proj1 (hop_GC HC)), LC; left; reflexivity). unfold finite in FX. lia. }
  assert (Sr : SC r).
  { apply LC. rewrite Er in E1 |- *. destruct cs as [|x l]; [exfalso; apply E1; reflexivity|]. left. reflexivity. }
  cbv zeta. step (hop_ohr HC) as [c2 r']; [exact Ic1|inf; lia|]. intros [_ Hr'].
  assert (Sr' : SC r' /\ forall x, SC x -> ip x <= ip r').
  { destruct Hr' as [[E _]|[_ [(H1 & H2 & H3)|[-> H3]]]]; [inf; lia| |].
    - split; [exact H1|]. intros x Hx. apply H3; [exact Hx|].
      pose proof (proj1 (hop_GC HC) x Hx) as FX. unfold finite in FX. lia.
    - exfalso. specialize (H3 r Sr). pose proof (proj1 (hop_GC HC) r Sr) as FX. unfold finite in FX. lia. }
  destruct Sr' as [Sr' Hlast].
  pose proof (proj1 (hop_GC HC) r' Sr') as FR'. pose proof (proj1 (hop_GC HC) r Sr) as FR.
  unfold finite in FR, FR'.
  destruct (Z.eqb_spec (ip r') minf) as [E2|_]; [lia|].
  destruct (Z.eqb_spec (iq r') maxf) as [E3|_]; [lia|].
  apply wp_bind, wp_chk; [lia|].
  assert (Hfirst : forall x, In x cs -> ip r <= ip x).
  { intros x Hx. rewrite Er. destruct cs as [|y l] eqn:E; [destruct Hx|]. cbn [hd].
    destruct Hx as [<-|Hx]; [lia|]. pose proof (gclist_head _ _ _ (proj1 LC) Hx). lia. }
  assert (Hall : forall x, In x cs -> ip r <= ip x < iq r' + 1).
  { intros x Hx. specialize (Hfirst x Hx). specialize (Hlast x (proj1 (proj2 LC x) Hx)). lia. }
  assert (EM : matching xs cs (ip r) (iq r' + 1) = matching xs cs minf maxf) by (apply matching_all, Hall).
  assert (EA : forall t, answer (ip r) (iq r' + 1) depth t -> answer minf maxf depth t).
  { intros t (all & H1 & H2). exists all. rewrite <- EM. auto. }
  destruct (Z.leb_spec (iq r' + 1) (ip r)) as [H1|H1]; [exfalso; specialize (Hlast r Sr); lia|].
  apply wp_bind, wp_chk; [specialize (Hspan r r' Sr Sr'); unfold minf, maxf in *; lia|].
  set (span := iq r' + 1 - ip r).
  set (d := Z.min (allowed_threads hardware threads) (Z.max 1 (span / minimum_parallel_tokens))).
  destruct (Z.leb_spec d 1) as [H2|H2].
  { eapply wp_mono; [|exact EA].
    apply (ssr_ranking_ok zero add lt sort W HS A C weight SA SC IA IC HA HC xs cs LA LC Hap Hlen Hpos);
      [exact Ih|exact Ic|lia|lia]. }
  set (f := fun i => range_begin (ip r) span d (Z.of_nat i)).
  assert (Em : map (fun i => (range_begin (ip r) span d (Z.of_nat i), range_begin (ip r) span d (Z.of_nat i + 1)))
                 (seq 0 (Z.to_nat d)) = map (fun j => (f j, f (S j))) (seq 0 (Z.to_nat d))).
  { apply map_ext. intros i. unfold f. rewrite Nat2Z.inj_succ. unfold Z.succ. reflexivity. }
  rewrite Em. clear Em.
  assert (Hmono : forall i j, (i <= j)%nat -> f i <= f j).
  { intros i j Hij. apply range_begin_mono; unfold span; lia. }
  assert (F0 : f 0%nat = ip r) by apply range_begin_0.
  assert (Fd : f (Z.to_nat d) = iq r' + 1).
  { unfold f. rewrite Z2Nat.id by lia. rewrite range_begin_d by lia. unfold span. lia. }
  apply wp_bind. eapply wp_mono.
  - apply (workers_ok h c depth Ih Ic). apply Forall_forall. intros [b e] Hbe.
    apply in_map_iff in Hbe. destruct Hbe as (j & [= <- <-] & Hj). apply in_seq in Hj. cbn [fst snd].
    pose proof (Hmono 0%nat j ltac:(lia)). pose proof (Hmono j (S j) ltac:(lia)).
    pose proof (Hmono (S j) (Z.to_nat d) ltac:(lia)). lia.
  - intros rs Hrs. apply wp_ok. apply EA. rewrite <- Fd.
    change (Z.to_nat d) with (0 + Z.to_nat d)%nat at 1.
    apply answer_fold; [exact W|exact HS| | | |exact Hrs].
    + intros j _. apply Hmono. lia.
    + lia.
    + rewrite F0. apply answer_empty.
Qed.
End ParTop.
