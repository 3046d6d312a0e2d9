(** Shortest substring ranking returns the best containers. *)
From Verif Require Import Base HopperModel GclSpec HopperProofs GclProofs ArrayProofs UnaryProofs
  RankModel RankSpec RankProofs.

Lemma split_ip l k : gclist l ->
  exists a b, l = a ++ b /\ (forall x, In x a -> ip x < k) /\ (forall x, In x b -> k <= ip x).
Proof.
  induction l as [|x l IH]; intros G.
  - exists [], []. split; [reflexivity|split; intros ? []].
  - destruct (Z.ltb_spec (ip x) k) as [H|H].
    + destruct (IH (gclist_tail _ _ G)) as (a & b & -> & Ha & Hb). exists (x :: a), b.
      split; [reflexivity|split; [|exact Hb]]. intros y [<-|Hy]; [exact H|exact (Ha y Hy)].
    + exists [], (x :: l). split; [reflexivity|split; [intros ? []|]].
      intros y [<-|Hy]; [exact H|]. pose proof (gclist_head _ _ _ G Hy). lia.
Qed.
Lemma split_iq l k : gclist l ->
  exists a b, l = a ++ b /\ (forall x, In x a -> iq x < k) /\ (forall x, In x b -> k <= iq x).
Proof.
  induction l as [|x l IH]; intros G.
  - exists [], []. split; [reflexivity|split; intros ? []].
  - destruct (Z.ltb_spec (iq x) k) as [H|H].
    + destruct (IH (gclist_tail _ _ G)) as (a & b & -> & Ha & Hb). exists (x :: a), b.
      split; [reflexivity|split; [|exact Hb]]. intros y [<-|Hy]; [exact H|exact (Ha y Hy)].
    + exists [], (x :: l). split; [reflexivity|split; [intros ? []|]].
      intros y [<-|Hy]; [exact H|]. pose proof (gclist_head _ _ _ G Hy). lia.
Qed.
Lemma gclist_app a b : gclist (a ++ b) -> gclist a /\ gclist b.
Proof.
  induction a as [|x a IH]; cbn [app]; intros G; [split; [exact I|exact G]|].
  destruct (IH (gclist_tail _ _ G)) as [Ga Gb]. split; [|exact Gb].
  apply gclist_cons; [exact Ga|apply (gclist_finite _ x G); left; reflexivity|].
  intros y Hy. apply (gclist_head _ _ _ G). apply in_or_app. left. exact Hy.
Qed.
Lemma gclist_app_lt a b x y : gclist (a ++ b) -> In x a -> In y b -> ip x < ip y /\ iq x < iq y.
Proof.
  induction a as [|z a IH]; cbn [app]; intros G Hx Hy; [destruct Hx|].
  destruct Hx as [->|Hx]; [apply (gclist_head _ _ _ G), in_or_app; right; exact Hy|].
  apply IH; auto. exact (gclist_tail _ _ G).
Qed.

Lemma tau_hd S k r a b : listed S (a ++ b) -> minf < k -> tau_spec S k r ->
  (forall x, In x a -> ip x < k) -> (forall x, In x b -> k <= ip x) -> r = hd maxr b.
Proof.
  intros [G L] Hk [[E _]|[_ [(H1 & H2 & H3)|[-> H3]]]] Ha Hb; [lia| |].
  - apply L in H1. apply in_app_or in H1. destruct H1 as [H1|H1]; [specialize (Ha r H1); lia|].
    destruct b as [|x b]; [destruct H1|]. cbn [hd]. destruct H1 as [->|H1]; [reflexivity|].
    destruct (gclist_app _ _ G) as [_ Gb]. pose proof (gclist_head _ _ _ Gb H1).
    assert (ip r <= ip x).
    { apply H3; [apply L, in_or_app; right; left; reflexivity|apply Hb; left; reflexivity]. }
    lia.
  - destruct b as [|x b]; [reflexivity|]. exfalso.
    assert (Sx : S x) by (apply L, in_or_app; right; left; reflexivity).
    specialize (H3 x Sx). specialize (Hb x (or_introl eq_refl)). lia.
Qed.
Lemma rho_hd S k r a b : listed S (a ++ b) -> minf < k -> rho_spec S k r ->
  (forall x, In x a -> iq x < k) -> (forall x, In x b -> k <= iq x) -> r = hd maxr b.
Proof.
  intros [G L] Hk [[E _]|[_ [(H1 & H2 & H3)|[-> H3]]]] Ha Hb; [lia| |].
  - apply L in H1. apply in_app_or in H1. destruct H1 as [H1|H1]; [specialize (Ha r H1); lia|].
    destruct b as [|x b]; [destruct H1|]. cbn [hd]. destruct H1 as [->|H1]; [reflexivity|].
    destruct (gclist_app _ _ G) as [_ Gb]. pose proof (gclist_head _ _ _ Gb H1).
    assert (iq r <= iq x).
    { apply H3; [apply L, in_or_app; right; left; reflexivity|apply Hb; left; reflexivity]. }
    lia.
  - destruct b as [|x b]; [reflexivity|]. exfalso.
    assert (Sx : S x) by (apply L, in_or_app; right; left; reflexivity).
    specialize (H3 x Sx). specialize (Hb x (or_introl eq_refl)). lia.
Qed.
Lemma hd_ge b k : (forall x, In x b -> k <= ip x) -> k <= maxf -> k <= ip (hd maxr b).
Proof. destruct b as [|x b]; cbn [hd]; intros H1 H2; [exact H2|]. apply H1. left. reflexivity. Qed.
Lemma hd_geq b k : (forall x, In x b -> k <= iq x) -> k <= maxf -> k <= iq (hd maxr b).
Proof. destruct b as [|x b]; cbn [hd]; intros H1 H2; [exact H2|]. apply H1. left. reflexivity. Qed.
Lemma filter_none {A} (f : A -> bool) l : (forall x, In x l -> f x = false) -> filter f l = [].
Proof.
  induction l as [|x l IH]; intros H; [reflexivity|]. cbn. rewrite H by (left; reflexivity).
  apply IH. intros y Hy. apply H. right. exact Hy.
Qed.
Lemma existsb_none {A} (f : A -> bool) l : (forall x, In x l -> f x = false) -> existsb f l = false.
Proof.
  induction l as [|x l IH]; intros H; [reflexivity|]. cbn. rewrite H by (left; reflexivity).
  apply IH. intros y Hy. apply H. right. exact Hy.
Qed.
Lemma existsb_filter {A} (f : A -> bool) l : existsb f l = negb (match filter f l with [] => true | _ => false end).
Proof. induction l as [|x l IH]; [reflexivity|]. cbn. destruct (f x); [reflexivity|exact IH]. Qed.
Lemma Forall2_snoc {A B} (R : A -> B -> Prop) l l' x y :
  Forall2 R l l' -> R x y -> Forall2 R (l ++ [x]) (l' ++ [y]).
Proof. intros H Hxy. apply Forall2_app; [exact H|constructor; [exact Hxy|constructor]]. Qed.

Lemma shortest_snoc l x y : shortest l x ->
  shortest (l ++ [y]) (if iq y - ip y <? iq x - ip x then y else x).
Proof.
  intros (a & b & -> & Ha & Hb). destruct (Z.ltb_spec (iq y - ip y) (iq x - ip x)) as [H|H].
  - exists (a ++ x :: b), []. split; [reflexivity|split; [|intros ? []]].
    intros z Hz. apply in_app_or in Hz. destruct Hz as [Hz|[<-|Hz]]; [specialize (Ha z Hz)| |specialize (Hb z Hz)]; lia.
  - exists a, (b ++ [y]). split; [rewrite <- app_assoc; reflexivity|split; [exact Ha|]].
    intros z Hz. apply in_app_or in Hz. destruct Hz as [Hz|[<-|[]]]; [exact (Hb z Hz)|exact H].
Qed.

Lemma hd_bounds l : (forall x, In x l -> finite x) ->
  minf < ip (hd maxr l) <= maxf /\ minf < iq (hd maxr l) <= maxf /\ ip (hd maxr l) <= iq (hd maxr l).
Proof.
  destruct l as [|x l]; cbn [hd]; intros H; [cbn [ip iq maxr]; inf; lia|].
  specialize (H x (or_introl eq_refl)). fin.
Qed.
Lemma hd_lt l : (forall x, In x l -> finite x) -> ip (hd maxr l) < maxf -> exists x r, l = x :: r.
Proof. destruct l as [|x l]; cbn [hd]; intros _ H; [cbn in H; lia|eauto]. Qed.
Lemma hd_ltq l : (forall x, In x l -> finite x) -> iq (hd maxr l) < maxf -> exists x r, l = x :: r.
Proof. destruct l as [|x l]; cbn [hd]; intros _ H; [cbn in H; lia|eauto]. Qed.
Lemma inside_maxr l : (forall x, In x l -> finite x) -> filter (inside maxr) l = [].
Proof.
  intros H. apply filter_none. intros x Hx. specialize (H x Hx). unfold inside.
  cbn [ip iq maxr]. destruct (Z.leb_spec maxf (ip x)); [exfalso; fin|reflexivity].
Qed.
Lemma inside_before c l : (forall x, In x l -> ip x < ip c) -> filter (inside c) l = [].
Proof.
  intros H. apply filter_none. intros x Hx. specialize (H x Hx). unfold inside.
  destruct (Z.leb_spec (ip c) (ip x)); [lia|reflexivity].
Qed.
Lemma inside_past c l : (forall x, In x l -> iq c < iq x) -> filter (inside c) l = [].
Proof.
  intros H. apply filter_none. intros x Hx. specialize (H x Hx). unfold inside.
  destruct (Z.leb_spec (iq x) (iq c)); [lia|]. apply andb_false_r.
Qed.
Lemma shortest_in l x : shortest l x -> In x l.
Proof. intros (a & b & -> & _). apply in_or_app. right. left. reflexivity. Qed.

Section SsrOk.
Context {F : Type} (zero : F) (add : F -> F -> F) (lt : F -> F -> bool) (sort : sorter).
Context (W : weak_order lt) (HS : sorts sort).
Context (A C : hcls) (weight : Z -> Z -> F).
Context (SA SC : iv -> Prop) (IA : St A -> Prop) (IC : St C -> Prop).
Context (HA : hop_ok A SA IA) (HC : hop_ok C SC IC).
Context (xs cs : list iv) (LA : listed SA xs) (LC : listed SC cs).
Context (Hap : apart SC).
Context (Hlen : forall x, SA x -> iq x - ip x <= maxf).
Context (Hpos : forall x, SA x -> positive zero add lt (weight (ip x) (iq x))).
Notation result := (result (F := F)).
Notation score := (ssr_score zero add weight).

Lemma score_snoc l x : score (l ++ [x]) = add (score l) (weight (ip x) (iq x)).
Proof. unfold ssr_score. rewrite fold_left_app. reflexivity. Qed.
Lemma score_sign l : (forall x, In x l -> SA x) -> score l = zero \/ lt zero (score l) = true.
Proof.
  induction l as [|x l IH] using rev_ind; intros Hl; [left; reflexivity|].
  right. rewrite score_snoc. apply Hpos; [apply Hl, in_or_app; right; left; reflexivity|].
  apply IH. intros y Hy. apply Hl, in_or_app. left. exact Hy.
Qed.
Lemma score_pos l : (forall x, In x l -> SA x) -> l <> [] -> lt zero (score l) = true.
Proof.
  destruct l as [|x l _] using rev_ind; intros Hl Hne; [congruence|]. rewrite score_snoc.
  apply Hpos; [apply Hl, in_or_app; right; left; reflexivity|].
  apply score_sign. intros y Hy. apply Hl, in_or_app. left. exact Hy.
Qed.

(** The passage kept so far. *)
Definition passage (l : list iv) (bp bq : Z) : Prop :=
  (l = [] /\ bp = maxf /\ bq = maxf) \/ exists x, shortest l x /\ bp = ip x /\ bq = iq x.
Lemma passage_snoc l bp bq x : (forall y, In y l -> SA y) ->
  passage l bp bq ->
  let shorter := (bp =? maxf) || (iq x - ip x <? bq - bp) in
  passage (l ++ [x]) (if shorter then ip x else bp) (if shorter then iq x else bq).
Proof.
  intros Hl [(-> & -> & ->)|(y & Hy & -> & ->)]; cbv zeta.
  - rewrite Z.eqb_refl. cbn [orb]. right. exists x. split; [|auto]. exists [], [].
    split; [reflexivity|split; intros ? []].
  - assert (FY : finite y) by (apply (proj1 (hop_GC HA)), Hl, shortest_in, Hy).
    destruct (Z.eqb_spec (ip y) maxf) as [E|_]; [exfalso; fin|]. cbn [orb]. right.
    pose proof (shortest_snoc l y x Hy) as HS'. eexists. split; [exact HS'|].
    destruct (iq x - ip x <? iq y - ip y); auto.
Qed.

Context (depth : nat) (Hd : (0 < depth)%nat) (stop : Z) (Hstop : minf <= stop <= maxf).
(** Containers before [cs1] start too early. *)
Context (pre cs1 : list iv) (Ecs : cs = pre ++ cs1).
Definition wanted (l : list iv) : list iv :=
  filter (fun c => (ip c <? stop) && existsb (inside c) xs) l.
Notation ssrT := (ssr (F := F) A C).
Notation result_of := (ssr_result zero add weight xs).

Definition ssr_inv (s : ssrT) : Prop :=
  IA (s_hop _ _ s) /\ IC (s_chop _ _ s) /\
  exists done rest fin todo all,
    xs = done ++ rest /\ s_p _ _ s = ip (hd maxr rest) /\ s_q _ _ s = iq (hd maxr rest) /\
    cs1 = fin ++ todo /\ s_cp _ _ s = ip (hd maxr todo) /\ s_cq _ _ s = iq (hd maxr todo) /\
    Forall2 result_of (wanted fin) all /\
    collected zero lt depth all (s_top _ _ s) (s_current _ _ s) /\
    (forall x, In x done -> ip x <= s_cq _ _ s) /\
    s_score _ _ s = score (filter (inside (hd maxr todo)) done) /\
    passage (filter (inside (hd maxr todo)) done) (s_best_p _ _ s) (s_best_q _ _ s) /\
    (s_p _ _ s = maxf -> s_cq _ _ s < maxf -> s_cp _ _ s < stop ->
       s_target _ _ s = target_of zero (s_top _ _ s) depth).
Definition ssr_mu (s : ssrT) : Z := (maxf - s_p _ _ s) + (maxf - s_cq _ _ s).

Lemma xs_S x : In x xs -> SA x. Proof. apply (proj2 LA). Qed.
Lemma xs_fin x : In x xs -> finite x. Proof. intros H. apply (proj1 (hop_GC HA)), xs_S, H. Qed.
Lemma cs_S x : In x cs -> SC x. Proof. apply (proj2 LC). Qed.
Lemma cs_fin x : In x cs -> finite x. Proof. intros H. apply (proj1 (hop_GC HC)), cs_S, H. Qed.


Lemma ssr_mu_nonneg s : ssr_inv s -> 0 <= ssr_mu s.
Proof.
  intros (_ & _ & done & rest & fin & todo & all & Ex & Ep & Eq & Ec & Ecp & Ecq & _).
  unfold ssr_mu. rewrite Ep, Ecq.
  assert (H1 : forall x, In x rest -> finite x) by (intros x Hx; apply xs_fin; rewrite Ex; apply in_or_app; auto).
  assert (H2 : forall x, In x todo -> finite x).
  { intros x Hx. apply cs_fin. rewrite Ecs, Ec. rewrite !in_app_iff. auto. }
  pose proof (hd_bounds _ H1). pose proof (hd_bounds _ H2). lia.
Qed.


Lemma no_match c : filter (inside c) xs = [] -> existsb (inside c) xs = false.
Proof. intros H. rewrite existsb_filter, H. reflexivity. Qed.
Lemma wanted_none l : (forall c, In c l -> filter (inside c) xs = []) -> wanted l = [].
Proof. intros H. apply filter_none. intros c Hc. rewrite (no_match c (H c Hc)). apply andb_false_r. Qed.
Lemma wanted_app a b : wanted (a ++ b) = wanted a ++ wanted b.
Proof. apply filter_app. Qed.

Lemma flush_ok c done rest all top current bp bq :
  xs = done ++ rest -> filter (inside c) rest = [] -> ip c < stop ->
  collected zero lt depth all top current ->
  passage (filter (inside c) done) bp bq ->
  let r := Res bp bq (ip c) (iq c) (score (filter (inside c) done)) in
  exists all', Forall2 result_of (wanted [c]) all' /\
    (all' = [] /\ lt zero (rscore r) = false \/ all' = [r] /\ lt zero (rscore r) = true).
Proof.
  intros Ex Hr Hc Hcol Hp r. subst r. cbn [rscore].
  assert (Ef : filter (inside c) xs = filter (inside c) done).
  { rewrite Ex, filter_app, Hr, app_nil_r. reflexivity. }
  unfold wanted. cbn [filter]. rewrite (proj2 (Z.ltb_lt _ _) Hc). cbn [andb].
  rewrite existsb_filter, Ef. destruct Hp as [(E & _ & _)|(x & Hx & -> & ->)].
  - rewrite E. exists []. split; [constructor|]. left. split; [reflexivity|]. apply W.
  - assert (Hne : filter (inside c) done <> []).
    { intros E. apply shortest_in in Hx. rewrite E in Hx. destruct Hx. }
    exists [Res (ip x) (iq x) (ip c) (iq c) (score (filter (inside c) done))]. split.
    + destruct (filter (inside c) done) eqn:E; [congruence|]. cbn [negb]. constructor; [|constructor].
      unfold ssr_result. cbn [rp rq rcp rcq rscore]. rewrite Ef.
      split; [reflexivity|split; [reflexivity|split; [reflexivity|]]]. exists x. auto.
    + right. split; [reflexivity|]. apply score_pos; [|exact Hne].
      intros y Hy. apply filter_In in Hy. apply xs_S. rewrite Ex. apply in_or_app. left. apply Hy.
Qed.

Lemma ssr_step s : ssr_inv s ->
  wp (ssr_body zero add lt sort A C weight depth stop s)
     (fun r => match r with
               | inl s' => ssr_inv s' /\ ssr_mu s' < ssr_mu s
               | inr s' => s' = s /\ ~ (s_p _ _ s < maxf /\ s_cq _ _ s < maxf /\ s_cp _ _ s < stop)
               end).
Proof.
  intros (Ia & Ic & done & rest & fi & todo & all & Ex & Ep & Eq & Ec & Ecp & Ecq & HF & Hcol & Hdone & Hsc & Hpas & Htg).
  unfold ssr_body.
  destruct (Z.ltb_spec (s_p A C s) maxf) as [H1|H1]; cbn [andb]; [|apply wp_ok; split; [reflexivity|lia]].
  destruct (Z.ltb_spec (s_cq A C s) maxf) as [H2|H2]; cbn [andb]; [|apply wp_ok; split; [reflexivity|lia]].
  destruct (Z.ltb_spec (s_cp A C s) stop) as [H3|H3]; [|apply wp_ok; split; [reflexivity|lia]].
  assert (Fr : forall x, In x rest -> finite x) by (intros x Hx; apply xs_fin; rewrite Ex; apply in_or_app; auto).
  assert (Fd : forall x, In x done -> finite x) by (intros x Hx; apply xs_fin; rewrite Ex; apply in_or_app; auto).
  assert (Ft : forall x, In x todo -> finite x).
  { intros x Hx. apply cs_fin. rewrite Ecs, Ec. rewrite !in_app_iff. auto. }
  rewrite Ep in H1. destruct (hd_lt _ Fr H1) as (X & rest' & ->). cbn [hd] in Ep, Eq, H1.
  rewrite Ecq in H2. destruct (hd_ltq _ Ft H2) as (c & todo' & ->). cbn [hd] in Ecp, Ecq, H2, Hsc, Hpas.
  pose proof (Fr X (or_introl eq_refl)) as FX. pose proof (Ft c (or_introl eq_refl)) as FC.
  assert (SX : SA X) by (apply xs_S; rewrite Ex; apply in_or_app; right; left; reflexivity).
  assert (Gx : gclist (done ++ X :: rest')) by (rewrite <- Ex; apply LA).
  assert (Gc : gclist (pre ++ fi ++ c :: todo')) by (rewrite <- Ec, <- Ecs; apply LC).
  destruct (Z.ltb_spec (s_p A C s) (s_cp A C s)) as [H4|H4].
  - (* tau(cp) *)
    step (hop_tau HA) as [h r]; [exact Ia|rewrite Ecp; fin|]. intros [Ih Hr]. apply wp_ok.
    rewrite Ecp in Hr.
    destruct (split_ip (X :: rest') (ip c)) as (a & b & Eab & Ha & Hb).
    { apply gclist_app in Gx. apply Gx. }
    assert (Ex' : xs = (done ++ a) ++ b) by (rewrite <- app_assoc, <- Eab; exact Ex).
    assert (Ha' : forall x, In x (done ++ a) -> ip x < ip c).
    { intros x Hx. apply in_app_or in Hx. destruct Hx as [Hx|Hx]; [|exact (Ha x Hx)].
      assert (ip x < ip X) by (eapply gclist_app_lt; [exact Gx|exact Hx|left; reflexivity]). lia. }
    assert (Er : r = hd maxr b).
    { apply (tau_hd SA (ip c) r (done ++ a) b); [rewrite <- Ex'; exact LA|fin|exact Hr|exact Ha'|exact Hb]. }
    assert (Ff : filter (inside c) (done ++ a) = filter (inside c) done).
    { rewrite filter_app, (inside_before c a) by exact Ha. apply app_nil_r. }
    split.
    + split; [exact Ih|split; [exact Ic|]].
      exists (done ++ a), b, fi, (c :: todo'), all.
      cbn [s_p s_q s_cp s_cq s_score s_target s_best_p s_best_q s_top s_current hd].
      rewrite Er, Ff. split; [exact Ex'|]. do 2 (split; [reflexivity|]). split; [exact Ec|].
      split; [exact Ecp|split; [exact Ecq|]]. split; [exact HF|split; [exact Hcol|]].
      split; [|split; [exact Hsc|split; [exact Hpas|auto]]].
      intros x Hx. specialize (Ha' x Hx). rewrite Ecq. fin.
    + unfold ssr_mu. cbn [s_p s_cq]. rewrite Er.
      assert (ip c <= ip (hd maxr b)) by (apply hd_ge; [exact Hb|fin]). lia.
  - destruct (Z.ltb_spec (s_cq A C s) (s_q A C s)) as [H5|H5].
    + (* past the container *)
      assert (Hrest : filter (inside c) (X :: rest') = []).
      { apply inside_past. intros x Hx. assert (iq X <= iq x).
        { destruct Hx as [<-|Hx]; [lia|]. apply gclist_app in Gx. destruct Gx as [_ Gx].
          pose proof (gclist_head _ _ _ Gx Hx). lia. }
        lia. }
      destruct (flush_ok c done (X :: rest') all _ _ _ _ Ex Hrest ltac:(lia) Hcol Hpas)
        as (all' & HF' & Hall').
      rewrite <- Hsc in Hall'. rewrite Ecp, Ecq.
      destruct (keep lt sort depth (target_of zero (s_top A C s) depth)
                  (Res (s_best_p A C s) (s_best_q A C s) (ip c) (iq c) (s_score A C s))
                  (s_top A C s, s_current A C s)) as [top' cur'] eqn:EK.
      assert (Hcol' : collected zero lt depth (all ++ all') top' cur').
      { destruct Hall' as [[-> Hz]|[-> Hz]].
        - rewrite app_nil_r. rewrite (keep_zero zero lt sort W depth all) in EK; [|exact Hd|exact Hcol|exact Hz].
          injection EK as <- <-. exact Hcol.
        - eapply keep_ok; [exact W|exact HS|exact Hd|exact Hcol|exact Hz|exact EK]. }
      step (hop_rho HC) as [ch r]; [exact Ic|rewrite Eq; fin|]. intros [Ich Hr]. apply wp_ok.
      rewrite Eq in Hr.
      destruct (split_iq todo' (iq X)) as (mid & b & Emb & Hm & Hb).
      { apply gclist_app in Gc. destruct Gc as [_ Gc]. apply gclist_app in Gc. destruct Gc as [_ Gc].
        exact (gclist_tail _ _ Gc). }
      assert (Ecs' : cs = (pre ++ fi ++ c :: mid) ++ b).
      { rewrite Ecs, Ec, Emb, <- !app_assoc. reflexivity. }
      assert (Sc : SC c) by (apply cs_S; rewrite Ecs', !in_app_iff; left; right; right; left; reflexivity).
      assert (Hafter : forall d, In d todo' -> SC d /\ iq c < ip d).
      { intros d Hd'. assert (Sd : SC d).
        { apply cs_S. rewrite Ecs, Ec, !in_app_iff. right. right. right. exact Hd'. }
        split; [exact Sd|]. apply Hap; [exact Sc|exact Sd|].
        apply gclist_app in Gc. destruct Gc as [_ Gc]. apply gclist_app in Gc. destruct Gc as [_ Gc].
        apply (gclist_head _ _ _ Gc Hd'). }
      assert (Er : r = hd maxr b).
      { apply (rho_hd SC (iq X) r (pre ++ fi ++ c :: mid) b); [rewrite <- Ecs'; exact LC|fin|exact Hr| |exact Hb].
        intros d Hd'. rewrite !in_app_iff in Hd'. destruct Hd' as [Hd'|[Hd'|[<-|Hd']]].
        - assert (iq d < iq c); [|lia]. eapply gclist_app_lt; [exact Gc|exact Hd'|].
          apply in_or_app. right. left. reflexivity.
        - assert (iq d < iq c); [|lia]. apply gclist_app in Gc. destruct Gc as [_ Gc].
          eapply gclist_app_lt; [exact Gc|exact Hd'|left; reflexivity].
        - lia.
        - exact (Hm d Hd'). }
      assert (Hdone' : forall d x, In d todo' -> In x done -> ip x < ip d).
      { intros d x Hd' Hx. specialize (Hdone x Hx). destruct (Hafter d Hd'). lia. }
      assert (Hbq : iq X <= iq (hd maxr b)) by (apply hd_geq; [exact Hb|fin]).
      assert (Hempty : filter (inside (hd maxr b)) done = []).
      { destruct b as [|d b]; [apply inside_maxr; exact Fd|]. cbn [hd]. apply inside_before.
        intros x Hx. apply Hdone'; [rewrite Emb; apply in_or_app; right; left; reflexivity|exact Hx]. }
      split.
      * split; [exact Ia|split; [exact Ich|]].
        exists done, (X :: rest'), (fi ++ c :: mid), b, (all ++ all').
        cbn [s_p s_q s_cp s_cq s_score s_target s_best_p s_best_q s_top s_current hd].
        rewrite Er. split; [exact Ex|]. split; [exact Ep|split; [exact Eq|]].
        split; [rewrite Ec, Emb, <- app_assoc; reflexivity|]. do 2 (split; [reflexivity|]).
        split.
        { change (c :: mid) with ([c] ++ mid). rewrite !wanted_app.
          rewrite (wanted_none mid); [rewrite app_nil_r; apply Forall2_app; assumption|].
          intros d Hd'. rewrite Ex, filter_app, inside_before, inside_past; [reflexivity| |].
          - intros x Hx. specialize (Hm d Hd'). assert (iq X <= iq x); [|lia].
            destruct Hx as [<-|Hx]; [lia|]. apply gclist_app in Gx. destruct Gx as [_ Gx].
            pose proof (gclist_head _ _ _ Gx Hx). lia.
          - intros x Hx. apply Hdone'; [rewrite Emb; apply in_or_app; left; exact Hd'|exact Hx]. }
        split; [exact Hcol'|]. split.
        { intros x Hx. specialize (Hdone x Hx). lia. }
        rewrite Hempty. split; [reflexivity|]. split; [left; auto|]. intros E. exfalso. lia.
      * unfold ssr_mu. cbn [s_p s_cq]. rewrite Er. lia.
    + (* inside the container *)
      assert (Hin : inside c X = true).
      { unfold inside. rewrite (proj2 (Z.leb_le _ _)), (proj2 (Z.leb_le _ _)); [reflexivity|lia|lia]. }
      assert (Sd : forall y, In y (filter (inside c) done) -> SA y).
      { intros y Hy. apply filter_In in Hy. apply xs_S. rewrite Ex. apply in_or_app. left. apply Hy. }
      apply wp_bind, wp_chk; [rewrite Ep, Eq; pose proof (Hlen X SX) as HL; clear - FX HL; unfold finite, minf, maxf in *; lia|].
      apply wp_bind, wp_chk.
      { destruct Hpas as [(_ & -> & ->)|(y & Hy & -> & ->)]; [unfold minf, maxf; lia|].
        apply shortest_in, Sd in Hy. pose proof (Hlen y Hy) as HL. pose proof (proj1 (hop_GC HA) y Hy) as FY.
        clear - HL FY. unfold finite, minf, maxf in *; lia. }
      apply wp_bind, wp_chk; [rewrite Ep; fin|].
      step (hop_tau HA) as [h r]; [exact Ia|rewrite Ep; fin|]. intros [Ih Hr]. apply wp_ok.
      rewrite Ep in Hr.
      assert (Ex' : xs = (done ++ [X]) ++ rest') by (rewrite <- app_assoc; exact Ex).
      assert (Hrest' : forall x, In x rest' -> ip X + 1 <= ip x).
      { intros x Hx. apply gclist_app in Gx. destruct Gx as [_ Gx].
        pose proof (gclist_head _ _ _ Gx Hx). lia. }
      assert (Er : r = hd maxr rest').
      { apply (tau_hd SA (ip X + 1) r (done ++ [X]) rest'); [rewrite <- Ex'; exact LA|fin|exact Hr| |exact Hrest'].
        intros x Hx. apply in_app_or in Hx. destruct Hx as [Hx|[<-|[]]]; [|lia].
        assert (ip x < ip X) by (eapply gclist_app_lt; [exact Gx|exact Hx|left; reflexivity]). lia. }
      assert (Ff : filter (inside c) (done ++ [X]) = filter (inside c) done ++ [X]).
      { rewrite filter_app. cbn [filter]. rewrite Hin. reflexivity. }
      assert (Hge : ip X + 1 <= ip (hd maxr rest')) by (apply hd_ge; [exact Hrest'|fin]).
      split.
      * split; [exact Ih|split; [exact Ic|]].
        exists (done ++ [X]), rest', fi, (c :: todo'), all.
        cbn [s_p s_q s_cp s_cq s_score s_target s_best_p s_best_q s_top s_current hd].
        rewrite Er, Ff. split; [exact Ex'|]. do 2 (split; [reflexivity|]). split; [exact Ec|].
        split; [exact Ecp|split; [exact Ecq|]]. split; [exact HF|split; [exact Hcol|]].
        split; [|split; [|split; [|auto]]].
        -- intros x Hx. apply in_app_or in Hx. destruct Hx as [Hx|[<-|[]]]; [exact (Hdone x Hx)|]. fin.
        -- rewrite score_snoc, Hsc, Ep, Eq. reflexivity.
        -- rewrite Ep, Eq. apply passage_snoc; [exact Sd|exact Hpas].
      * unfold ssr_mu. cbn [s_p s_cq]. rewrite Er, Ep. lia.
Qed.
End SsrOk.

Lemma shortest_exists l : l <> [] -> exists x, shortest l x.
Proof.
  induction l as [|y l IH] using rev_ind; intros H; [congruence|].
  destruct l as [|z l'].
  - exists y, [], []. split; [reflexivity|split; intros ? []].
  - destruct IH as [x Hx]; [congruence|]. eexists. apply shortest_snoc, Hx.
Qed.
Lemma results_exist {F} (zero : F) add weight xs l :
  (forall c, In c l -> existsb (inside c) xs = true) ->
  exists all, Forall2 (ssr_result zero add weight xs) l all.
Proof.
  induction l as [|c l IH]; intros H; [exists []; constructor|].
  destruct IH as [all Hall]; [intros d Hd; apply H; right; exact Hd|].
  pose proof (H c (or_introl eq_refl)) as Hc. rewrite existsb_filter in Hc.
  destruct (shortest_exists (filter (inside c) xs)) as [x Hx].
  { intros E. rewrite E in Hc. discriminate. }
  exists (Res (ip x) (iq x) (ip c) (iq c) (ssr_score zero add weight (filter (inside c) xs)) :: all).
  constructor; [|exact Hall]. unfold ssr_result. cbn [rp rq rcp rcq rscore].
  split; [reflexivity|split; [reflexivity|split; [reflexivity|]]]. exists x. auto.
Qed.

Section SsrTop.
Context {F : Type} (zero : F) (add : F -> F -> F) (lt : F -> F -> bool) (sort : sorter).
Context (W : weak_order lt) (HS : sorts sort).
Context (A C : hcls) (weight : Z -> Z -> F).
Context (SA SC : iv -> Prop) (IA : St A -> Prop) (IC : St C -> Prop).
Context (HA : hop_ok A SA IA) (HC : hop_ok C SC IC).
Context (xs cs : list iv) (LA : listed SA xs) (LC : listed SC cs).
Context (Hap : apart SC).
Context (Hlen : forall x, SA x -> iq x - ip x <= maxf).
Context (Hpos : forall x, SA x -> positive zero add lt (weight (ip x) (iq x))).

Lemma answer_none depth start stop :
  matching xs cs start stop = [] -> ssr_answer zero add lt weight xs cs start stop depth [].
Proof. intros E. exists []. rewrite E. split; [constructor|]. apply best_nil. Qed.

Lemma matching_app a b start stop :
  matching xs (a ++ b) start stop = matching xs a start stop ++ matching xs b start stop.
Proof. apply filter_app. Qed.
Lemma matching_early l start stop : (forall c, In c l -> ip c < start) -> matching xs l start stop = [].
Proof.
  intros H. apply filter_none. intros c Hc. specialize (H c Hc).
  destruct (Z.leb_spec start (ip c)); [lia|reflexivity].
Qed.
Lemma matching_late l start stop : (forall c, In c l -> stop <= ip c) -> matching xs l start stop = [].
Proof.
  intros H. apply filter_none. intros c Hc. specialize (H c Hc).
  destruct (Z.ltb_spec (ip c) stop); [lia|]. rewrite andb_false_r. reflexivity.
Qed.
Lemma matching_wanted l start stop : (forall c, In c l -> start <= ip c) ->
  matching xs l start stop = wanted xs stop l.
Proof.
  intros H. apply filter_ext_in. intros c Hc. specialize (H c Hc).
  rewrite (proj2 (Z.leb_le _ _) H). reflexivity.
Qed.
Lemma matching_minf start stop :
  matching xs cs (if start =? minf then start + 1 else start) stop = matching xs cs start stop.
Proof.
  destruct (Z.eqb_spec start minf) as [->|_]; [|reflexivity].
  apply filter_ext_in. intros c Hc. assert (FC : finite c) by (apply (proj1 (hop_GC HC)), LC, Hc).
  rewrite (proj2 (Z.leb_le (minf + 1) (ip c))), (proj2 (Z.leb_le minf (ip c))) by (clear - FC; unfold finite in FC; lia).
  reflexivity.
Qed.

Lemma ssr_ranking_ok h c depth start stop :
  IA h -> IC c -> minf <= start <= maxf -> minf <= stop <= maxf ->
  wp (ssr_ranking zero add lt sort A C weight h c depth start stop)
     (ssr_answer zero add lt weight xs cs start stop depth).
Proof.
  intros Ih Ic Hstart Hstop. unfold ssr_ranking.
  destruct (Nat.eqb_spec depth 0) as [->|Hd].
  { apply wp_ok. destruct (results_exist zero add weight xs (matching xs cs start stop)) as [all Hall].
    { intros d Hd. apply filter_In in Hd. destruct Hd as [_ Hd]. rewrite !andb_true_iff in Hd. apply Hd. }
    exists all. split; [exact Hall|]. exists all. split; [reflexivity|]. split; [reflexivity|].
    split; [constructor|]. intros t r []. }
  cbv zeta. unfold ssr_answer. rewrite <- (matching_minf start stop).
  fold (ssr_answer zero add lt weight xs cs (if start =? minf then start + 1 else start) stop depth).
  assert (Hs : minf < (if start =? minf then start + 1 else start) <= maxf).
  { destruct (Z.eqb_spec start minf); inf; lia. }
  set (st := if start =? minf then start + 1 else start) in *. clearbody st. clear start Hstart.
  destruct (Z.leb_spec stop st) as [H1|H1].
  { apply wp_ok. apply answer_none. apply filter_none. intros d _.
    destruct (Z.leb_spec st (ip d)); [|reflexivity].
    destruct (Z.ltb_spec (ip d) stop); [lia|reflexivity]. }
  step (hop_tau HC) as [c' r]; [exact Ic|lia|]. intros [Ic' Hr].
  destruct (split_ip cs st (proj1 LC)) as (pre & cs1 & Ecs & Hpre & Hcs1).
  assert (Er : r = hd maxr cs1).
  { apply (tau_hd SC st r pre cs1); [rewrite <- Ecs; exact LC|lia|exact Hr|exact Hpre|exact Hcs1]. }
  assert (Fcs : forall x, In x cs1 -> finite x).
  { intros x Hx. apply (proj1 (hop_GC HC)), LC. rewrite Ecs. apply in_or_app. right. exact Hx. }
  assert (EM : matching xs cs st stop = wanted xs stop cs1).
  { rewrite Ecs, matching_app, (matching_early pre) by exact Hpre. apply matching_wanted, Hcs1. }
  destruct (Z.leb_spec stop (ip r)) as [H2|H2].
  { apply wp_ok. apply answer_none. rewrite Ecs, matching_app, (matching_early pre) by exact Hpre.
    apply matching_late. intros d Hd'. rewrite Er in H2. destruct cs1 as [|y cs1]; [destruct Hd'|].
    cbn [hd] in H2. destruct Hd' as [<-|Hd']; [exact H2|].
    assert (G : gclist (y :: cs1)) by (eapply (proj2 (gclist_app pre (y :: cs1) _))).
    pose proof (gclist_head _ _ _ G Hd'). lia.
    Unshelve. rewrite <- Ecs. apply LC. }
  rewrite Er in H2 |- *. assert (Hcp : minf < ip (hd maxr cs1) < maxf).
  { pose proof (hd_bounds cs1 Fcs). lia. }
  step (hop_tau HA) as [h' x]; [exact Ih|lia|]. intros [Ih' Hx].
  destruct (split_ip xs (ip (hd maxr cs1)) (proj1 LA)) as (done & rest & Ex & Hdone & Hrest).
  assert (Ex' : x = hd maxr rest).
  { apply (tau_hd SA (ip (hd maxr cs1)) x done rest); [rewrite <- Ex; exact LA|lia|exact Hx|exact Hdone|exact Hrest]. }
  apply wp_bind. eapply wp_mono.
  - eapply loop_rule with
      (Inv := ssr_inv zero add lt A C weight IA IC xs depth stop cs1)
      (mu := ssr_mu A C)
      (Post := fun s => ssr_inv zero add lt A C weight IA IC xs depth stop cs1 s /\
                        ~ (s_p _ _ s < maxf /\ s_cq _ _ s < maxf /\ s_cp _ _ s < stop)).
    + intros s Hs'. apply (ssr_mu_nonneg zero add lt A C weight SA SC IA IC HA HC xs cs LA LC depth ltac:(lia) stop pre cs1 Ecs s Hs').
    + intros s Hs'. eapply wp_mono.
      * apply (ssr_step zero add lt sort W HS A C weight SA SC IA IC HA HC xs cs LA LC Hap Hlen Hpos depth ltac:(lia) stop pre cs1 Ecs s Hs').
      * intros [s'|s'] Q; [exact Q|]. destruct Q as [-> Q]. split; [exact Hs'|exact Q].
    + split; [exact Ih'|split; [exact Ic'|]]. exists done, rest, [], cs1, [].
      cbn [s_p s_q s_cp s_cq s_score s_target s_best_p s_best_q s_top s_current].
      rewrite Ex'. split; [exact Ex|]. do 2 (split; [reflexivity|]). split; [reflexivity|].
      do 2 (split; [reflexivity|]). split; [constructor|]. split; [apply collected_nil; lia|].
      assert (Ff : filter (inside (hd maxr cs1)) done = []) by (apply inside_before; exact Hdone).
      rewrite Ff. pose proof (hd_bounds cs1 Fcs) as HB.
      split; [intros y Hy; specialize (Hdone y Hy); lia|]. split; [reflexivity|].
      split; [left; auto|]. intros _ _ _. unfold target_of. cbn [length].
      destruct (Nat.eqb_spec 0 depth) as [E|_]; [congruence|reflexivity].
    + unfold ssr_mu. cbn [s_p s_cq]. rewrite Ex'.
      assert (Fr : forall y, In y rest -> finite y).
      { intros y Hy. apply (proj1 (hop_GC HA)), LA. rewrite Ex. apply in_or_app. right. exact Hy. }
      pose proof (hd_bounds rest Fr). pose proof (hd_bounds cs1 Fcs). unfold minf, maxf, BIG in *. lia.
  - clear h' x Ih' Hx Ex' done rest Ex Hdone Hrest c' Ic' Hr r Er H2 Hcp.
    intros s [(_ & _ & done & rest & fi & todo & all & Ex & Ep & Eq & Ec & Ecp & Ecq & HF & Hcol & Hdone & Hsc & Hpas & Htg) Hexit].
    apply wp_ok. unfold ssr_answer. rewrite EM, Ec, wanted_app.
    assert (Fr : forall y, In y rest -> finite y).
    { intros y Hy. apply (proj1 (hop_GC HA)), LA. rewrite Ex. apply in_or_app. right. exact Hy. }
    assert (Ft : forall y, In y todo -> finite y).
    { intros y Hy. apply Fcs. rewrite Ec. apply in_or_app. right. exact Hy. }
    assert (Gt : gclist todo).
    { pose proof (proj1 LC) as G. rewrite Ecs, Ec in G. apply gclist_app in G. destruct G as [_ G].
      apply gclist_app in G. apply G. }
    pose proof (hd_bounds rest Fr) as Br.
    destruct (Z.ltb_spec (s_cq A C s) maxf) as [H2|H2]; [destruct (Z.ltb_spec (s_cp A C s) stop) as [H3|H3]|].
    + (* a container is pending *)
      assert (Ep' : s_p A C s = maxf) by lia.
      assert (rest = []) as ->.
      { destruct rest as [|y rest]; [reflexivity|]. exfalso. cbn [hd] in Ep.
        pose proof (Fr y (or_introl eq_refl)) as Fy. unfold finite in Fy. lia. }
      rewrite app_nil_r in Ex. subst done.
      rewrite Ecq in H2. destruct (hd_ltq _ Ft H2) as (d & todo' & ->). cbn [hd] in *.
      assert (Et : wanted xs stop todo' = []).
      { apply wanted_none. intros e He. apply inside_before. intros y Hy. specialize (Hdone y Hy).
        assert (iq d < ip e); [|lia]. apply Hap.
        - apply LC. rewrite Ecs, Ec, !in_app_iff. right. right. left. reflexivity.
        - apply LC. rewrite Ecs, Ec, !in_app_iff. right. right. right. exact He.
        - apply (gclist_head _ _ _ Gt He). }
      destruct (flush_ok zero add lt W weight SA xs LA Hpos depth stop
                  d xs [] all (s_top A C s) (s_current A C s) (s_best_p A C s) (s_best_q A C s))
        as (all' & HF' & Hall'); [rewrite app_nil_r; reflexivity|reflexivity|lia|exact Hcol|exact Hpas|].
      rewrite <- Hsc in Hall'.
      exists (all ++ all'). split.
      { apply Forall2_app; [exact HF|]. change (d :: todo') with ([d] ++ todo').
        rewrite wanted_app, Et, app_nil_r. exact HF'. }
      rewrite (Htg Ep' ltac:(lia) H3). rewrite !andb_true_r, Ecp, Ecq.
      destruct Hall' as [[-> Hz]|[-> Hz]].
      * rewrite app_nil_r. cbn [rscore] in Hz.
        pose proof (target_nonneg zero lt W depth all _ _ ltac:(lia) Hcol) as Hn.
        rewrite (lt_neg lt W _ _ _ Hn Hz). eapply collected_best; [exact W|exact HS|exact Hcol].
      * apply (collected_last zero lt sort W HS depth all (s_top A C s) (s_current A C s)
                 (Res (s_best_p A C s) (s_best_q A C s) (ip d) (iq d) (s_score A C s)));
          [lia|exact Hcol|exact Hz].
    + exists all. rewrite !andb_false_r. split.
      * assert (wanted xs stop todo = []) as ->; [|rewrite app_nil_r; exact HF].
        apply filter_none. intros e He. rewrite Ecp in H3. destruct todo as [|d todo]; [destruct He|].
        cbn [hd] in H3. assert (ip d <= ip e).
        { destruct He as [<-|He]; [lia|]. pose proof (gclist_head _ _ _ Gt He). lia. }
        destruct (Z.ltb_spec (ip e) stop); [lia|reflexivity].
      * eapply collected_best; [exact W|exact HS|exact Hcol].
    + exists all. rewrite andb_false_r. cbn [andb]. split.
      * destruct todo as [|d todo]; [cbn; rewrite app_nil_r; exact HF|]. exfalso.
        cbn [hd] in Ecq. pose proof (Ft d (or_introl eq_refl)) as Fd. unfold finite in Fd. lia.
      * eapply collected_best; [exact W|exact HS|exact Hcol].
Qed.
End SsrTop.
