(** The ranking theorems, for hoppers that answer their lists. *)
From Verif Require Import Base HopperModel GclSpec HopperProofs GclProofs ArrayProofs UnaryProofs VectorModel
  RankModel RankSpec RankProofs RankSsr RankParallel RankFuse RankDocs RankWand.

Section Top.
Context {F : Type} (zero : F) (add : F -> F -> F) (lt : F -> F -> bool) (sort stable_sort : sorter).
Notation result := (result (F := F)).

(** Two rankings of the same results have the same scores, up to ties. *)
Lemma best_unique depth all (t1 t2 : list result) : weak_order lt -> best lt depth all t1 -> best lt depth all t2 ->
  Forall2 (fun a b => lt (rscore a) (rscore b) = false /\ lt (rscore b) (rscore a) = false) t1 t2.
Proof.
  intros W B1 B2.
  assert (K : forall t1 t2 : list result, best lt depth all t1 -> best lt depth all t2 -> forall i a b,
             nth_error t1 i = Some a -> nth_error t2 i = Some b -> lt (rscore a) (rscore b) = false).
  { clear t1 t2 B1 B2. intros t1 t2 (l1 & P1 & L1 & S1 & D1) (l2 & P2 & L2 & S2 & D2) i a b Ha Hb.
    destruct (lt (rscore a) (rscore b)) eqn:E; [exfalso|reflexivity].
    set (f := fun r : result => lt (rscore a) (rscore r)).
    pose proof (Permutation_length (perm_filter f _ _ P1)) as N1.
    pose proof (Permutation_length (perm_filter f _ _ P2)) as N2.
    apply nth_error_split in Ha. destruct Ha as (u1 & v1 & -> & Hi1).
    apply nth_error_split in Hb. destruct Hb as (u2 & v2 & -> & Hi2).
    destruct (ssorted_app _ _ _ S1) as (_ & S1' & _). inversion S1' as [|? ? _ A1]; subst.
    rewrite Forall_forall in A1.
    rewrite <- app_assoc, filter_app in N1. cbn [app filter] in N1.
    assert (f a = false) as Efa by apply W. rewrite Efa, filter_app in N1.
    rewrite (filter_none f v1), (filter_none f l1) in N1.
    - cbn [app] in N1. rewrite app_nil_r in N1. pose proof (filter_short f u1).
      rewrite <- app_assoc, filter_app, app_length in N2. cbn [app filter] in N2.
      assert (f b = true) as Efb by exact E. rewrite Efb in N2. cbn [length] in N2.
      rewrite (filter_all f u2) in N2; [lia|]. intros x Hx.
      destruct (ssorted_app _ _ _ S2) as (_ & _ & A2).
      specialize (A2 x b Hx (or_introl eq_refl)). cbn in A2. unfold f.
      eapply (lt_le_lt lt W); [exact E|exact A2].
    - intros x Hx. apply D1; [apply in_or_app; right; left; reflexivity|exact Hx].
    - intros x Hx. apply A1, Hx. }
  assert (L : length t1 = length t2).
  { destruct B1 as (? & _ & L1 & _), B2 as (? & _ & L2 & _). lia. }
  assert (K1 := K t1 t2 B1 B2). assert (K2 := K t2 t1 B2 B1). clear - L K1 K2.
  revert t2 L K1 K2. induction t1 as [|a t1 IH]; intros [|b t2] L K1 K2; try discriminate L; constructor.
  - split; [apply (K1 0%nat); reflexivity|apply (K2 0%nat); reflexivity].
  - apply IH; [cbn in L; lia| |].
    + intros i x y Hx Hy. apply (K1 (S i)); assumption.
    + intros i x y Hx Hy. apply (K2 (S i)); assumption.
Qed.
Lemma shortest_unique l x y : shortest l x -> shortest l y -> ip x = ip y /\ iq x = iq y \/ x = y.
Proof.
  intros (a & b & E & Ha & Hb) (a' & b' & E' & Ha' & Hb'). right. rewrite E in E'. clear E.
  revert a' Ha' E'. induction a as [|z a IH]; intros [|z' a'] Ha' E'; cbn [app] in E'; inversion E'; subst.
  - reflexivity.
  - exfalso. specialize (Ha' z' (or_introl eq_refl)).
    assert (H : In y (a' ++ y :: b')) by (apply in_or_app; right; left; reflexivity).
    specialize (Hb y H). lia.
  - exfalso. specialize (Ha y (or_introl eq_refl)).
    assert (H : In x (a ++ x :: b)) by (apply in_or_app; right; left; reflexivity).
    specialize (Hb' x H). lia.
  - apply (IH (fun u Hu => Ha u (or_intror Hu)) a' (fun u Hu => Ha' u (or_intror Hu))). assumption.
Qed.
Lemma ssr_result_unique weight sols c (r r' : result) :
  ssr_result zero add weight sols c r -> ssr_result zero add weight sols c r' -> r = r'.
Proof.
  intros (A1 & A2 & A3 & x & Hx & A4 & A5) (B1 & B2 & B3 & y & Hy & B4 & B5).
  assert (E : ip x = ip y /\ iq x = iq y) by (destruct (shortest_unique _ _ _ Hx Hy) as [E|E]; [exact E|subst; auto]).
  destruct r as [r1 r2 r3 r4 r5], r' as [q1 q2 q3 q4 q5]. cbn [rp rq rcp rcq rscore] in *. destruct E. congruence.
Qed.
Lemma answer_unique weight sols conts start stop depth t1 t2 : weak_order lt ->
  ssr_answer zero add lt weight sols conts start stop depth t1 ->
  ssr_answer zero add lt weight sols conts start stop depth t2 ->
  Forall2 (fun a b => lt (rscore a) (rscore b) = false /\ lt (rscore b) (rscore a) = false) t1 t2.
Proof.
  intros W (all1 & F1 & B1) (all2 & F2 & B2).
  assert (all2 = all1) as ->; [|eapply best_unique; eassumption].
  clear B1 B2. revert all2 F2. induction F1 as [|c r cs rs H HF IH]; intros all2 F2; inversion F2; subst; [reflexivity|].
  f_equal; [eapply ssr_result_unique; eassumption|apply IH; assumption].
Qed.

(** What is asked of the solutions: lengths that a difference of addresses can
    hold, and weights that count. *)
Definition weighty (weight : Z -> Z -> F) (xs : list iv) : Prop :=
  forall x, In x xs -> iq x - ip x <= maxf /\ positive zero add lt (weight (ip x) (iq x)).

Theorem ssr_best A C a c SA SC xs cs weight depth start stop :
  weak_order lt -> sorts sort -> answers A a SA -> answers C c SC -> listed SA xs -> listed SC cs ->
  apart SC -> weighty weight xs -> minf <= start <= maxf -> minf <= stop <= maxf ->
  exists top, ssr_ranking zero add lt sort A C weight a c depth start stop = Ok top /\
    ssr_answer zero add lt weight xs cs start stop depth top.
Proof.
  intros W HS HA HC LA LC Hap Hw H1 H2.
  apply answers_iff in HA. destruct HA as (IA & HA & Ia). apply answers_iff in HC. destruct HC as (IC & HC & Ic).
  apply wp_exists. eapply ssr_ranking_ok; eauto; intros x Hx; apply Hw, LA, Hx.
Qed.
Theorem parallel_best A C a c SA SC xs cs weight depth hardware threads :
  weak_order lt -> sorts sort -> answers A a SA -> answers C c SC -> listed SA xs -> listed SC cs ->
  apart SC -> weighty weight xs -> (forall c d, SC c -> SC d -> iq d - ip c < maxf) ->
  exists top one, parallel_ssr zero add lt sort A C weight hardware threads a c depth = Ok top /\
    ssr_ranking zero add lt sort A C weight a c depth minf maxf = Ok one /\
    ssr_answer zero add lt weight xs cs minf maxf depth top /\
    Forall2 (fun a b => lt (rscore a) (rscore b) = false /\ lt (rscore b) (rscore a) = false) top one.
Proof.
  intros W HS HA HC LA LC Hap Hw Hsp.
  destruct (ssr_best A C a c SA SC xs cs weight depth minf maxf W HS HA HC LA LC Hap Hw) as (one & E1 & A1);
    [inf; lia|inf; lia|].
  apply answers_iff in HA. destruct HA as (IA & HA & Ia). apply answers_iff in HC. destruct HC as (IC & HC & Ic).
  assert (K : wp (parallel_ssr zero add lt sort A C weight hardware threads a c depth)
                (ssr_answer zero add lt weight xs cs minf maxf depth)).
  { eapply parallel_ssr_ok; eauto; intros x Hx; apply Hw, LA, Hx. }
  apply wp_exists in K. destruct K as (top & E2 & A2). exists top, one.
  split; [exact E2|]. split; [exact E1|]. split; [exact A2|]. eapply answer_unique; eassumption.
Qed.

(** A term's hopper answers the list [l]. *)
Definition term_over (l : list iv) (t : term) : Prop :=
  exists S, answers (t_cls t) (t_hop t) S /\ listed S l.
Lemma term_over_over l t : term_over l t -> over l t.
Proof.
  intros (S & HA & HL). apply answers_iff in HA. destruct HA as (I & HA & Ii). exists S, I.
  split; [exact (fun s k Is Hk => hop_tau HA s k Is Hk)|auto].
Qed.
Theorem terms_best_over gain docs lists depth ts :
  weak_order lt -> sorts sort -> gclist docs -> Forall (of_docs docs) lists -> Forall2 over lists ts ->
  exists top, term_ranking zero add lt sort gain depth ts = Ok top /\
    best lt depth (doc_results zero add lt gain docs lists) top.
Proof.
  intros W HS GD HD HF. apply wp_exists. apply term_ranking_ok; auto. apply Forall_forall, HD.
Qed.
Theorem terms_best gain docs lists depth ts :
  weak_order lt -> sorts sort -> gclist docs -> Forall (of_docs docs) lists -> Forall2 term_over lists ts ->
  exists top, term_ranking zero add lt sort gain depth ts = Ok top /\
    best lt depth (doc_results zero add lt gain docs lists) top.
Proof.
  intros W HS GD HD HF. apply terms_best_over; auto.
  clear HD. induction HF; constructor; [apply term_over_over; assumption|assumption].
Qed.

(** The terms of a BM25 query: the weight of each is not below zero and not
    below what it adds to a document. *)
Definition bounded (l : list iv) (w : wand (F := F)) : Prop :=
  lt (w_idf w) zero = false /\
  forall x, In x l -> lt (w_idf w) (w_gain w (ivl x) (iq x - ip x + 1)) = false.
(** What the i-th term adds. *)
Definition wand_gain (ws : list (wand (F := F))) (i : nat) (v p q : Z) : F :=
  match nth_error ws i with Some w => w_gain w v (q - p + 1) | None => zero end.
Theorem wand_best_over docs lists depth ws :
  weak_order lt -> sorts sort -> exact zero add lt -> gclist docs -> (forall d, In d docs -> iq d - ip d <= maxf) ->
  Forall (of_docs docs) lists -> Forall2 (fun l w => over l (w_term w) /\ bounded l w) lists ws ->
  exists top, bm25_ranking zero add lt sort depth ws = Ok top /\
    best lt depth (doc_results zero add lt (wand_gain ws) docs lists) top.
Proof.
  intros W HS HX GD HL HD HF.
  destruct (Nat.eq_dec depth 0) as [->|Hd].
  { exists []. split; [reflexivity|]. exists (doc_results zero add lt (wand_gain ws) docs lists).
    split; [reflexivity|]. split; [reflexivity|]. split; [constructor|]. intros t r []. }
  set (orig := map (fun lw => Entry (w_idf (snd lw)) (w_gain (snd lw)) (fst lw)) (combine lists ws)).
  assert (E1 : map e_list orig = lists).
  { unfold orig. rewrite map_map. cbn [e_list]. clear - HF. induction HF; cbn; [reflexivity|]. f_equal. assumption. }
  assert (E2 : Forall2 wover orig ws).
  { unfold orig. clear - HF. induction HF as [|l w lists ws [H _] HF IH]; cbn; constructor; [|exact IH].
    split; [reflexivity|split; [reflexivity|]]. exact H. }
  assert (E3 : forall e, In e orig -> lt (e_idf e) zero = false /\
             forall x, In x (e_list e) -> lt (e_idf e) (e_gain e (ivl x) (iq x - ip x + 1)) = false).
  { unfold orig. clear - HF. induction HF as [|l w lists ws [_ H] HF IH]; cbn; intros e He; [destruct He|].
    destruct He as [<-|He]; [exact H|exact (IH e He)]. }
  assert (E4 : forall e, In e orig -> of_docs docs (e_list e)).
  { intros e He. rewrite Forall_forall in HD. apply HD. rewrite <- E1. apply in_map, He. }
  apply wp_exists. rewrite <- E1.
  apply bm25_ok; auto; [|lia].
  intros j e v p q Hj. unfold wand_gain.
  assert (G : forall j e, nth_error orig j = Some e -> exists w, nth_error ws j = Some w /\ w_gain w = e_gain e).
  { unfold orig. clear - HF. induction HF as [|l w lists ws _ HF IH]; intros [|j] e Hj; cbn in Hj; try discriminate.
    - injection Hj as <-. exists w. auto.
    - exact (IH j e Hj). }
  destruct (G j e Hj) as (w & -> & ->). reflexivity.
Qed.
Theorem wand_best docs lists depth ws :
  weak_order lt -> sorts sort -> exact zero add lt -> gclist docs -> (forall d, In d docs -> iq d - ip d <= maxf) ->
  Forall (of_docs docs) lists -> Forall2 (fun l w => term_over l (w_term w) /\ bounded l w) lists ws ->
  exists top, bm25_ranking zero add lt sort depth ws = Ok top /\
    best lt depth (doc_results zero add lt (wand_gain ws) docs lists) top.
Proof.
  intros W HS HX GD HL HD HF. apply wand_best_over; auto.
  clear HD. induction HF as [|l w lists ws [H B] HF IH]; constructor; [|exact IH]. split; [apply term_over_over, H|exact B].
Qed.

Theorem containers_found C c SC cs (ranking : list result) :
  answers C c SC -> listed SC cs -> (forall r, In r ranking -> minf < rp r < maxf /\ minf < rq r < maxf) ->
  exists out, add_container C c ranking = Ok out /\ Forall2 (contained cs) ranking out.
Proof.
  intros HC LC HB. apply answers_iff in HC. destruct HC as (IC & HC & Ic). apply wp_exists.
  eapply add_container_ok; eassumption.
Qed.

(** The results of a tier. *)
Definition tier_rank (weight : Z -> Z -> F) (C : hcls) (c : St C) (depth : nat) (t : hobj) : res (list result) :=
  ssr_ranking zero add lt sort (projT1 t) C weight (projT2 t) c depth minf maxf.
Theorem tiers_best C c SC cs weight fake depth (tiers : list hobj) sols :
  weak_order lt -> sorts sort -> answers C c SC -> listed SC cs -> apart SC ->
  Forall2 (fun t xs => weighty weight xs /\ exists S, answers (projT1 t) (projT2 t) S /\ listed S xs) tiers sols ->
  exists out picks alls,
    tiered_ranking (tier_rank weight C c depth) fake depth tiers = Ok out /\
    Forall2 (fun xs all => Forall2 (ssr_result zero add weight xs) (matching xs cs minf maxf) all) sols alls /\
    tiered lt depth alls [] picks /\ map place out = map place picks /\
    forall i r, nth_error out i = Some r -> rscore r = fake (depth - i)%nat.
Proof.
  intros W HS HC LC Hap HF.
  assert (K : exists alls,
     Forall2 (fun xs all => Forall2 (ssr_result zero add weight xs) (matching xs cs minf maxf) all) sols alls /\
     Forall2 (fun t all => wp (tier_rank weight C c depth t) (best lt depth all) /\ NoDup (map rcp all)) tiers alls).
  { induction HF as [|t xs tiers sols [Hw (S & HA & LA)] HF IH]; [exists []; split; constructor|].
    destruct IH as (alls & H1 & H2).
    destruct (ssr_best _ C _ c S SC xs cs weight depth minf maxf W HS HA HC LA LC Hap Hw) as (top & E & all & HR & HB);
      [inf; lia|inf; lia|].
    exists (all :: alls). split; constructor; auto. split.
    - change (tier_rank weight C c depth t = Ok top) in E. rewrite E. apply wp_ok. exact HB.
    - assert (Em : map rcp all = map ip (matching xs cs minf maxf)).
      { clear - HR. induction HR as [|d r ds rs (E & _) HF IH]; [reflexivity|]. cbn. rewrite E, IH. reflexivity. }
      rewrite Em. unfold matching. pose proof (proj1 LC) as G. clear - G. revert G.
      set (f := fun c0 => _). clearbody f.
      induction cs as [|d ds IH]; intros G; cbn [filter map]; [constructor|].
      destruct (f d); [|apply IH, (gclist_tail _ _ G)]. cbn [map]. constructor; [|apply IH, (gclist_tail _ _ G)].
      intros H. apply in_map_iff in H. destruct H as (y & E & Hy). apply filter_In in Hy.
      pose proof (gclist_head _ _ _ G (proj1 Hy)). lia. }
  destruct K as (alls & H1 & H2). unfold tiered_ranking. destruct tiers as [|t tiers'].
  { inversion H2; subst. inversion H1; subst. exists [], [], []. split; [reflexivity|]. split; [constructor|].
    split; [reflexivity|]. split; [reflexivity|]. intros [|i] r Hr; discriminate. }
  pose proof (tiers_ok zero add lt (tier_rank weight C c depth) fake depth (t :: tiers') alls H2 [] []) as K.
  specialize (K (NoDup_nil _) eq_refl ltac:(cbn; lia)).
  assert (K0 : forall i (r : result), nth_error [] i = Some r -> rscore r = fake (depth - i)%nat)
    by (intros [|i] r Hr; discriminate).
  specialize (K K0). apply wp_exists in K. destruct K as (out & E & picks & O1 & O2 & O3).
  cbn [length map app] in O1, O2. rewrite Nat.sub_0_r in O2.
  exists out, picks, alls. split; [exact E|]. split; [exact H1|]. split; [exact O2|]. split; [exact O1|exact O3].
Qed.
End Top.
