(** Rankings that score documents term by term return the best documents. *)
From Verif Require Import Base HopperModel GclSpec HopperProofs GclProofs ArrayProofs UnaryProofs
  RankModel RankSpec RankProofs RankSsr.

(** The first entry of [l] that starts at or after [k]. *)
Definition next (l : list iv) (k : Z) : iv := hd maxr (filter (fun x => k <=? ip x) l).

Lemma filter_all {A} (f : A -> bool) l : (forall x, In x l -> f x = true) -> filter f l = l.
Proof.
  induction l as [|x l IH]; intros H; [reflexivity|]. cbn. rewrite H by (left; reflexivity).
  rewrite IH; [reflexivity|]. intros y Hy. apply H. right. exact Hy.
Qed.
Lemma next_split a b k : (forall x, In x a -> ip x < k) -> (forall x, In x b -> k <= ip x) ->
  next (a ++ b) k = hd maxr b.
Proof.
  intros Ha Hb. unfold next. rewrite filter_app, filter_none, filter_all; [reflexivity| |].
  - intros x Hx. apply Z.leb_le, Hb, Hx.
  - intros x Hx. apply Z.leb_gt, Ha, Hx.
Qed.
Lemma tau_next S l k r : listed S l -> minf < k -> tau_spec S k r -> r = next l k.
Proof.
  intros HL Hk Hr. destruct (split_ip l k (proj1 HL)) as (a & b & -> & Ha & Hb).
  rewrite next_split by assumption. eapply tau_hd; eassumption.
Qed.
Lemma next_cases l k : gclist l ->
  (next l k = maxr /\ forall x, In x l -> ip x < k) \/
  (In (next l k) l /\ k <= ip (next l k) < maxf /\ forall x, In x l -> k <= ip x -> ip (next l k) <= ip x).
Proof.
  intros G. destruct (split_ip l k G) as (a & b & -> & Ha & Hb).
  rewrite next_split by assumption. destruct b as [|y b]; cbn [hd].
  - left. split; [reflexivity|]. rewrite app_nil_r. exact Ha.
  - right. split; [apply in_or_app; right; left; reflexivity|]. split.
    + pose proof (gclist_finite _ y G) as Fy. split; [apply Hb; left; reflexivity|].
      assert (finite y) by (apply Fy, in_or_app; right; left; reflexivity). fin.
    + intros x Hx Hk. apply in_app_or in Hx. destruct Hx as [Hx|[<-|Hx]]; [specialize (Ha x Hx); lia|lia|].
      apply gclist_app in G. destruct G as [_ G]. pose proof (gclist_head _ _ _ G Hx). lia.
Qed.
Lemma next_ge l k : gclist l -> k <= maxf -> k <= ip (next l k) <= maxf.
Proof.
  intros G Hk. destruct (next_cases l k G) as [[-> _]|(_ & H & _)]; [cbn; lia|lia].
Qed.
(** Nothing starts in between. *)
Lemma next_skip l k k' : gclist l -> k <= k' -> k' <= ip (next l k) -> next l k' = next l k.
Proof.
  intros G H1 H2. unfold next. f_equal. apply filter_ext_in. intros x Hx.
  destruct (next_cases l k G) as [[E H]|(_ & _ & H)].
  - specialize (H x Hx). rewrite (proj2 (Z.leb_gt k (ip x))), (proj2 (Z.leb_gt k' (ip x))) by lia. reflexivity.
  - destruct (Z.leb_spec k (ip x)) as [H3|H3].
    + specialize (H x Hx H3). apply Z.leb_le. lia.
    + apply Z.leb_gt. lia.
Qed.
Lemma gclist_ip_inj l x y : gclist l -> In x l -> In y l -> ip x = ip y -> x = y.
Proof.
  induction l as [|z l IH]; intros G Hx Hy E; [destruct Hx|].
  destruct Hx as [->|Hx], Hy as [->|Hy]; [reflexivity| | |].
  - pose proof (gclist_head _ _ _ G Hy). lia.
  - pose proof (gclist_head _ _ _ G Hx). lia.
  - apply IH; auto. exact (gclist_tail _ _ G).
Qed.
Lemma find_next l k : gclist l -> k < maxf ->
  find (fun x => ip x =? k) l = if ip (next l k) =? k then Some (next l k) else None.
Proof.
  intros G Hk. destruct (find (fun x => ip x =? k) l) as [x|] eqn:E.
  - apply find_some in E. destruct E as [Hx E]. apply Z.eqb_eq in E.
    destruct (next_cases l k G) as [[_ H]|(H1 & H2 & H3)]; [specialize (H x Hx); lia|].
    assert (E2 : ip (next l k) = k) by (specialize (H3 x Hx ltac:(lia)); lia).
    rewrite E2, Z.eqb_refl. f_equal. apply (gclist_ip_inj l); [exact G|exact Hx|exact H1|lia].
  - destruct (Z.eqb_spec (ip (next l k)) k) as [E2|_]; [|reflexivity]. exfalso.
    destruct (next_cases l k G) as [[H _]|(H1 & _)]; [rewrite H in E2; cbn in E2; lia|].
    apply (find_none _ _ E) in H1. apply Z.eqb_neq in H1. congruence.
Qed.

(** The earliest of the next entries. *)
Definition early (k : Z) (lists : list (list iv)) (b : iv) : iv :=
  fold_left (fun b l => if ip (next l k) <? ip b then next l k else b) lists b.
Lemma early_le k lists : forall b, ip (early k lists b) <= ip b.
Proof.
  induction lists as [|l lists IH]; intros b; [cbn; lia|]. cbn [early fold_left].
  change (ip (early k lists (if ip (next l k) <? ip b then next l k else b)) <= ip b).
  etransitivity; [apply IH|]. destruct (Z.ltb_spec (ip (next l k)) (ip b)); lia.
Qed.
Lemma early_min k lists : forall b l, In l lists -> ip (early k lists b) <= ip (next l k).
Proof.
  induction lists as [|l0 lists IH]; intros b l Hl; [destruct Hl|]. cbn [early fold_left].
  change (ip (early k lists (if ip (next l0 k) <? ip b then next l0 k else b)) <= ip (next l k)).
  destruct Hl as [->|Hl]; [|apply IH, Hl]. etransitivity; [apply early_le|].
  destruct (Z.ltb_spec (ip (next l k)) (ip b)); lia.
Qed.
Lemma early_in k lists : forall b, early k lists b = b \/ exists l, In l lists /\ early k lists b = next l k.
Proof.
  induction lists as [|l0 lists IH]; intros b; [left; reflexivity|]. cbn [early fold_left].
  fold (early k lists (if ip (next l0 k) <? ip b then next l0 k else b)).
  destruct (IH (if ip (next l0 k) <? ip b then next l0 k else b)) as [E|(l & Hl & E)].
  - rewrite E. destruct (ip (next l0 k) <? ip b); [right; exists l0; split; [left; reflexivity|reflexivity]|left; reflexivity].
  - right. exists l. split; [right; exact Hl|exact E].
Qed.

(** The term's hopper answers the list [l]; [stands l k]: its last answer is
    the first entry at or after [k]. *)
Definition over (l : list iv) (t : term) : Prop :=
  exists S (I : St (t_cls t) -> Prop),
    (forall s k, I s -> minf <= k <= maxf -> wp (h_tau (t_cls t) s k) (fun '(s', r) => I s' /\ tau_spec S k r)) /\
    I (t_hop t) /\ listed S l.
Definition stands (k : Z) (l : list iv) (t : term) : Prop := over l t /\ t_iv t = next l k.

Lemma advance_ok l t k : over l t -> minf < k <= maxf -> wp (advance t k) (stands k l).
Proof.
  intros (S & I & H & Hi & HL) Hk. unfold advance.
  step H as [h r]; [exact Hi|lia|]. intros [Hi' Hr]. apply wp_ok. split.
  - exists S, I. cbn [t_cls t_hop]. auto.
  - cbn [t_iv]. eapply tau_next; [exact HL|lia|exact Hr].
Qed.
Lemma over_gclist l t : over l t -> gclist l.
Proof. intros (S & I & _ & _ & HL). apply HL. Qed.
Lemma stands_skip k k' l t : k <= k' -> k' <= ip (next l k) -> stands k l t -> stands k' l t.
Proof.
  intros H1 H2 [Ho E]. split; [exact Ho|]. rewrite next_skip with (k := k); auto.
  exact (over_gclist _ _ Ho).
Qed.

Lemma first_docs_ok lists ts : Forall2 over lists ts -> forall b,
  wp (first_docs ts b)
     (fun '(ts', d) => Forall2 (stands (minf + 1)) lists ts' /\ d = early (minf + 1) lists b).
Proof.
  induction 1 as [|l t lists ts Ho HF IH]; intros b; cbn [first_docs].
  - apply wp_ok. split; [constructor|reflexivity].
  - apply wp_bind. eapply wp_mono; [apply (advance_ok l t); [exact Ho|inf; lia]|]. intros t' Ht'.
    cbv zeta. apply wp_bind. eapply wp_mono; [apply IH|]. intros [ts' d] [HF' E]. apply wp_ok.
    split; [constructor; assumption|]. rewrite E. rewrite (proj2 Ht'). reflexivity.
Qed.

(** The documents before [k]. *)
Definition early_docs (k : Z) (docs : list iv) : list iv := filter (fun d => ip d <? k) docs.
Definition between (k k' : Z) (docs : list iv) : list iv :=
  filter (fun d => (k <=? ip d) && (ip d <? k')) docs.
Lemma early_docs_app k k' docs : gclist docs -> k <= k' ->
  early_docs k' docs = early_docs k docs ++ between k k' docs.
Proof.
  intros G H. destruct (split_ip docs k G) as (a & b & -> & Ha & Hb).
  unfold early_docs, between. rewrite !filter_app.
  rewrite (filter_all (fun d => ip d <? k') a), (filter_all (fun d => ip d <? k) a).
  - rewrite (filter_none (fun d => ip d <? k) b), app_nil_r.
    + rewrite (filter_none (fun d => (k <=? ip d) && (ip d <? k')) a).
      * cbn [app]. f_equal. apply filter_ext_in. intros x Hx. rewrite (proj2 (Z.leb_le _ _) (Hb x Hx)). reflexivity.
      * intros x Hx. specialize (Ha x Hx). rewrite (proj2 (Z.leb_gt _ _) Ha). reflexivity.
    + intros x Hx. apply Z.ltb_ge, Hb, Hx.
  - intros x Hx. apply Z.ltb_lt, Ha, Hx.
  - intros x Hx. apply Z.ltb_lt. specialize (Ha x Hx). lia.
Qed.
Lemma early_docs_all docs : gclist docs -> early_docs maxf docs = docs.
Proof.
  intros G. apply filter_all. intros x Hx. pose proof (gclist_finite _ _ G Hx). apply Z.ltb_lt. fin.
Qed.
Lemma between_app a b c docs : gclist docs -> a <= b <= c ->
  between a c docs = between a b docs ++ between b c docs.
Proof.
  intros G H. destruct (split_ip docs b G) as (l & r & -> & Hl & Hr). unfold between.
  rewrite !filter_app.
  rewrite (filter_none (fun d => (b <=? ip d) && (ip d <? c)) l), (filter_none (fun d => (a <=? ip d) && (ip d <? b)) r).
  - rewrite app_nil_r. cbn [app]. f_equal; apply filter_ext_in; intros x Hx.
    + specialize (Hl x Hx). rewrite (proj2 (Z.ltb_lt (ip x) b)), (proj2 (Z.ltb_lt (ip x) c)) by lia. reflexivity.
    + specialize (Hr x Hx). rewrite (proj2 (Z.leb_le a (ip x))), (proj2 (Z.leb_le b (ip x))) by lia. reflexivity.
  - intros x Hx. specialize (Hr x Hx). rewrite (proj2 (Z.ltb_ge (ip x) b)) by lia. apply andb_false_r.
  - intros x Hx. specialize (Hl x Hx). rewrite (proj2 (Z.leb_gt b (ip x))) by lia. reflexivity.
Qed.
Lemma between_one d docs : gclist docs -> In d docs -> between (ip d) (ip d + 1) docs = [d].
Proof.
  intros G. induction docs as [|x docs IH]; intros Hd; [destruct Hd|]. unfold between. cbn [filter].
  destruct Hd as [->|Hd].
  - rewrite (proj2 (Z.leb_le (ip d) (ip d))), (proj2 (Z.ltb_lt (ip d) (ip d + 1))) by lia. cbn [andb].
    f_equal. apply filter_none. intros y Hy. pose proof (gclist_head _ _ _ G Hy).
    rewrite (proj2 (Z.ltb_ge (ip y) (ip d + 1))) by lia. apply andb_false_r.
  - pose proof (gclist_head _ _ _ G Hd).
    rewrite (proj2 (Z.leb_gt (ip d) (ip x))) by lia. cbn [andb]. apply IH; [exact (gclist_tail _ _ G)|exact Hd].
Qed.

(** No term has an entry between [k] and the earliest next entry. *)
Lemma find_gap l k d : gclist l -> k <= ip d < ip (next l k) -> find (fun x => ip x =? ip d) l = None.
Proof.
  intros G H. destruct (find (fun x => ip x =? ip d) l) as [x|] eqn:E; [|reflexivity]. exfalso.
  apply find_some in E. destruct E as [Hx E]. apply Z.eqb_eq in E.
  destruct (next_cases l k G) as [[_ H']|(_ & _ & H')]; specialize (H' x Hx); lia.
Qed.

Section Docs.
Context {F : Type} (zero : F) (add : F -> F -> F) (lt : F -> F -> bool) (sort : sorter).
Context (gain : nat -> Z -> Z -> Z -> F).
Notation result := (result (F := F)).

Lemma score_doc_ok d lists ts : minf < ip d < maxf -> Forall2 (stands (ip d)) lists ts ->
  forall i score nx,
  wp (score_doc add gain i d ts score nx)
     (fun '(ts', s, n) => Forall2 (stands (ip d + 1)) lists ts' /\
        s = doc_score add gain i d lists score /\ n = early (ip d + 1) lists nx).
Proof.
  intros Hd. induction 1 as [|l t lists ts Ho HF IH]; intros i score nx; cbn [score_doc doc_score].
  - apply wp_ok. split; [constructor|split; reflexivity].
  - pose proof (over_gclist _ _ (proj1 Ho)) as G. pose proof (proj2 Ho) as E.
    rewrite E. rewrite (find_next l (ip d) G) by lia.
    pose proof (next_ge l (ip d) G ltac:(lia)) as HN.
    destruct (Z.eqb_spec (ip (next l (ip d))) (ip d)) as [E2|E2]; cbv zeta.
    + apply wp_bind, wp_chk; [inf; lia|]. apply wp_bind.
      eapply wp_mono; [apply (advance_ok l t); [exact (proj1 Ho)|lia]|]. intros t' Ht'.
      apply wp_bind. eapply wp_mono; [apply IH|]. intros [[ts' s] n] (HF' & Es & En). apply wp_ok.
      split; [constructor; assumption|]. split; [exact Es|]. rewrite En, (proj2 Ht'). reflexivity.
    + assert (Ho' : stands (ip d + 1) l t) by (apply (stands_skip (ip d)); [lia|lia|exact Ho]).
      apply wp_bind. eapply wp_mono; [apply IH|]. intros [[ts' s] n] (HF' & Es & En). apply wp_ok.
      split; [constructor; assumption|]. split; [exact Es|]. rewrite En. rewrite <- E, (proj2 Ho'). reflexivity.
Qed.

Notation results := (doc_results zero add lt gain).
Lemma results_app a b lists : results (a ++ b) lists = results a lists ++ results b lists.
Proof. unfold doc_results. rewrite filter_app, map_app. reflexivity. Qed.
Lemma results_none docs lists :
  (forall d, In d docs -> lt zero (doc_score add gain 0 d lists zero) = false) -> results docs lists = [].
Proof. intros H. unfold doc_results. rewrite filter_none; [reflexivity|exact H]. Qed.
Lemma score_none d lists : (forall l, In l lists -> find (fun x => ip x =? ip d) l = None) ->
  forall i s, doc_score add gain i d lists s = s.
Proof.
  induction lists as [|l lists IH]; intros H i s; [reflexivity|]. cbn [doc_score].
  rewrite H by (left; reflexivity). apply IH. intros l' Hl'. apply H. right. exact Hl'.
Qed.
Lemma score_same d d' lists : ip d = ip d' -> iq d = iq d' -> forall i s,
  doc_score add gain i d lists s = doc_score add gain i d' lists s.
Proof.
  intros E1 E2. induction lists as [|l lists IH]; intros i s; [reflexivity|]. cbn [doc_score].
  rewrite E1, E2. apply IH.
Qed.
Context (W : weak_order lt) (HS : sorts sort).
Context (docs : list iv) (GD : gclist docs).
Context (lists : list (list iv)) (HD : forall l, In l lists -> of_docs docs l).

Lemma lists_gclist k ts : Forall2 (stands k) lists ts -> forall l, In l lists -> gclist l.
Proof.
  clear. intros H l Hl. induction H as [|l0 t ls ts H HF IH]; [destruct Hl|].
  destruct Hl as [->|Hl]; [exact (over_gclist _ _ (proj1 H))|auto].
Qed.
(** Moving on to the earliest next entry. *)
Lemma stands_early k ts : minf < k <= maxf -> Forall2 (stands k) lists ts ->
  let d := early k lists maxr in
  k <= ip d <= maxf /\ Forall2 (stands (ip d)) lists ts /\
  (ip d = maxf \/ exists d', In d' docs /\ ip d' = ip d /\ iq d' = iq d) /\
  results (between k (ip d) docs) lists = [].
Proof.
  intros Hk HF d. pose proof (lists_gclist _ _ HF) as GL.
  assert (H1 : k <= ip d <= maxf).
  { split; [|apply (early_le k lists maxr)].
    destruct (early_in k lists maxr) as [E|(l & Hl & E)]; subst d; rewrite E; [cbn; lia|].
    apply next_ge; [apply GL, Hl|lia]. }
  split; [exact H1|]. split; [|split].
  - assert (HM : forall l, In l lists -> ip d <= ip (next l k)) by (intros l Hl; apply early_min, Hl).
    clearbody d. clear - HF HM H1. induction HF as [|l t ls ts H HF IH]; constructor.
    + apply (stands_skip k); [lia|apply HM; left; reflexivity|exact H].
    + apply IH. intros l' Hl'. apply HM. right. exact Hl'.
  - destruct (early_in k lists maxr) as [E|(l & Hl & E)].
    + left. subst d. rewrite E. reflexivity.
    + destruct (next_cases l k (GL l Hl)) as [[E2 _]|(H & _)].
      * left. subst d. rewrite E, E2. reflexivity.
      * right. subst d. rewrite E. exact (HD l Hl _ H).
  - apply results_none. intros x Hx. apply filter_In in Hx. destruct Hx as [Hx Hb].
    apply andb_true_iff in Hb. destruct Hb as [Hb1 Hb2]. apply Z.leb_le in Hb1. apply Z.ltb_lt in Hb2.
    rewrite score_none; [apply W|]. intros l Hl. apply (find_gap l k); [apply GL, Hl|].
    pose proof (early_min k lists maxr l Hl). subst d. lia.
Qed.

Context (depth : nat) (Hdepth : (0 < depth)%nat).

Definition daat_inv (s : list term * iv * (list result * list result)) : Prop :=
  let '(ts, d, (top, current)) := s in
  minf < ip d <= maxf /\ Forall2 (stands (ip d)) lists ts /\
  (ip d = maxf \/ exists d', In d' docs /\ ip d' = ip d /\ iq d' = iq d) /\
  collected zero lt depth (results (early_docs (ip d) docs) lists) top current.
Definition daat_mu (s : list term * iv * (list result * list result)) : Z :=
  let '(ts, d, _) := s in maxf - ip d.


Lemma daat_step s : daat_inv s ->
  wp (daat_body zero add lt sort gain depth s)
     (fun r => match r with
               | inl s' => daat_inv s' /\ daat_mu s' < daat_mu s
               | inr top => best lt depth (results docs lists) top
               end).
Proof.
  destruct s as [[ts d] [top current]]. intros (Hd & HF & Hdoc & Hcol). unfold daat_body.
  destruct (Z.ltb_spec (ip d) maxf) as [H|H].
  - apply wp_bind. eapply wp_mono; [apply (score_doc_ok d lists ts ltac:(lia) HF)|].
    intros [[ts' s] n] (HF' & Es & En). apply wp_ok. change (Iv maxf maxf 0) with maxr in En.
    destruct (stands_early (ip d + 1) ts' ltac:(lia) HF') as (H1 & H2 & H3 & H4).
    rewrite <- En in H1, H2, H3, H4. split; [|cbn [daat_mu]; lia].
    destruct Hdoc as [Hdoc|(d' & Hd' & E1 & E2)]; [lia|].
    assert (ER : results (early_docs (ip n) docs) lists =
                 results (early_docs (ip d) docs) lists ++ results [d'] lists).
    { rewrite (early_docs_app (ip d) (ip n) docs GD ltac:(lia)), results_app.
      rewrite (between_app (ip d) (ip d + 1) (ip n) docs GD ltac:(lia)), results_app, H4, app_nil_r.
      rewrite <- E1, between_one by assumption. reflexivity. }
    assert (EO : results [d'] lists = if lt zero s then [res3 (ip d) (iq d) s] else []).
    { unfold doc_results. cbn [filter map]. rewrite (score_same d' d lists E1 E2), <- Es.
      destruct (lt zero s); [|reflexivity]. cbn [map].
      rewrite (score_same d' d lists E1 E2), <- Es, E1, E2. reflexivity. }
    rewrite EO in ER.
    destruct (keep lt sort depth (target_of zero top depth) (res3 (ip d) (iq d) s) (top, current))
      as [top' cur'] eqn:EK.
    split; [lia|]. split; [exact H2|]. split; [exact H3|]. rewrite ER. clear ER.
    destruct (lt zero s) eqn:EZ.
    + eapply keep_ok; eauto.
    + rewrite app_nil_r.
      rewrite (keep_zero zero lt sort W depth _ _ _ (res3 (ip d) (iq d) s) Hdepth Hcol EZ) in EK.
      injection EK as <- <-. exact Hcol.
  - apply wp_ok. replace (ip d) with maxf in Hcol by lia. rewrite early_docs_all in Hcol by exact GD.
    eapply collected_best; [exact W|exact HS|exact Hcol].
Qed.

End Docs.

Lemma term_ranking_ok {F : Type} (zero : F) (add : F -> F -> F) (lt : F -> F -> bool) (sort : sorter)
  (gain : nat -> Z -> Z -> Z -> F) docs lists depth ts :
  weak_order lt -> sorts sort -> gclist docs -> (forall l, In l lists -> of_docs docs l) ->
  Forall2 over lists ts ->
  wp (term_ranking zero add lt sort gain depth ts)
     (best lt depth (doc_results zero add lt gain docs lists)).
Proof.
  intros W HS GD HD HF. unfold term_ranking. destruct (Nat.eqb_spec depth 0) as [->|Hdep].
  { apply wp_ok. exists (doc_results zero add lt gain docs lists). split; [reflexivity|].
    split; [reflexivity|]. split; [constructor|]. intros t r []. }
  apply wp_bind. eapply wp_mono; [apply (first_docs_ok lists ts HF)|]. intros [ts' d] [HF' E].
  change (Iv maxf maxf 0) with maxr in E.
  destruct (stands_early zero add lt gain W docs lists HD (minf + 1) ts' ltac:(inf; lia) HF') as (H1 & H2 & H3 & H4).
  rewrite <- E in H1, H2, H3, H4.
  eapply loop_rule with (Inv := daat_inv zero add lt gain docs lists depth) (mu := daat_mu).
  - intros [[ts0 d0] [top cur]] (Hd0 & _). cbn [daat_mu]. lia.
  - intros s Hs. apply daat_step; auto; lia.
  - split; [lia|]. split; [exact H2|]. split; [exact H3|].
    rewrite (early_docs_app (minf + 1) (ip d) docs GD ltac:(lia)), results_app, H4, app_nil_r.
    assert (early_docs (minf + 1) docs = []) as ->.
    { apply filter_none. intros x Hx. pose proof (gclist_finite _ _ GD Hx). apply Z.ltb_ge. fin. }
    apply collected_nil. lia.
  - cbn [daat_mu]. unfold minf, maxf, BIG in *. lia.
Qed.

(** Finding the container of each result. *)
Lemma add_container_ok {F : Type} (C : hcls) S I conts : hop_ok C S I -> listed S conts ->
  forall (ranking : list (result (F := F))), (forall r, In r ranking -> minf < rp r < maxf /\ minf < rq r < maxf) ->
  forall c, I c -> wp (add_container C c ranking) (Forall2 (contained conts) ranking).
Proof.
  intros H HL. induction ranking as [|r ranking IH]; intros HB c Hc; cbn [add_container].
  - apply wp_ok. constructor.
  - destruct (HB r (or_introl eq_refl)) as [Bp Bq].
    step (hop_rho H) as [c' x]; [exact Hc|lia|]. intros [Hc' Hx].
    apply wp_bind. eapply wp_mono; [apply IH; [intros y Hy; apply HB; right; exact Hy|exact Hc']|].
    intros rs Hrs. apply wp_ok. constructor; [|exact Hrs].
    destruct (split_iq conts (rq r) (proj1 HL)) as (a & b & E & Ha & Hb).
    assert (Ex : x = hd maxr b).
    { apply (rho_hd S (rq r) x a b); [rewrite <- E; exact HL|lia|exact Hx|exact Ha|exact Hb]. }
    unfold set_container. destruct b as [|d b]; cbn [hd] in Ex; subst x.
    + cbn [ip iq maxr]. rewrite (proj2 (Z.leb_gt maxf (rp r))) by lia. cbn [andb].
      split; [reflexivity|split; [reflexivity|split; [reflexivity|]]]. right. split; [|reflexivity].
      intros y Hy. rewrite E, app_nil_r in Hy. specialize (Ha y Hy). lia.
    + specialize (Hb d (or_introl eq_refl)) as Hd. rewrite (proj2 (Z.leb_le (rq r) (iq d)) Hd), andb_true_r.
      destruct (Z.leb_spec (ip d) (rp r)) as [Hp|Hp].
      * split; [reflexivity|split; [reflexivity|split; [reflexivity|]]]. left. exists a, d, b.
        split; [exact E|]. split; [lia|]. split; [|split; reflexivity].
        intros y Hy. specialize (Ha y Hy). lia.
      * split; [reflexivity|split; [reflexivity|split; [reflexivity|]]]. right. split; [|reflexivity].
        intros y Hy. rewrite E in Hy. apply in_app_or in Hy. destruct Hy as [Hy|[<-|Hy]]; [specialize (Ha y Hy); lia|lia|].
        pose proof (proj1 HL) as G. rewrite E in G. apply gclist_app in G. destruct G as [_ G].
        pose proof (gclist_head _ _ _ G Hy). lia.
Qed.
