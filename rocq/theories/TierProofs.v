(** The tiers that are built. *)
From Verif Require Import Base Bytes HopperModel GclSpec QueryModel QuerySpec ParseProofs RankModel RankSpec TierModel TierSpec TierParse.

(** ** Parts of a list, by the bits of a number *)
Fixpoint bits {A} (i : BinNums.positive) (l : list A) : list A :=
  match i, l with
  | _, [] => []
  | xH, t :: _ => [t]
  | xO i', _ :: r => bits i' r
  | xI i', t :: r => t :: bits i' r
  end.
Fixpoint parts {A} (l : list A) : list (list A) :=
  match l with [] => [] | x :: r => [x] :: parts r ++ map (cons x) (parts r) end.
Definition numbers (k : nat) : list BinNums.positive := map Pos.of_succ_nat (seq 0 (Nat.pow 2 k - 1)).

Lemma numbers_in k p : In p (numbers k) <-> (Pos.to_nat p < Nat.pow 2 k)%nat.
Proof.
  unfold numbers. rewrite in_map_iff. split.
  - intros (n & <- & H). apply in_seq in H. rewrite SuccNat2Pos.id_succ. lia.
  - intros H. exists (pred (Pos.to_nat p)). pose proof (Pos2Nat.is_pos p). split; [|apply in_seq; lia].
    apply Pos2Nat.inj. rewrite SuccNat2Pos.id_succ. lia.
Qed.
Lemma numbers_nodup k : NoDup (numbers k).
Proof. apply FinFun.Injective_map_NoDup; [|apply seq_NoDup]. intros a b E. apply SuccNat2Pos.inj. exact E. Qed.
Lemma numbers_next k : Permutation (numbers (S k)) (xH :: map xO (numbers k) ++ map xI (numbers k)).
Proof.
  apply NoDup_Permutation; [apply numbers_nodup| |].
  - constructor.
    + rewrite in_app_iff, !in_map_iff. intros [(x & E & _)|(x & E & _)]; discriminate.
    + assert (forall l m : list BinNums.positive, NoDup l -> NoDup m -> (forall x, In x l -> ~ In x m) -> NoDup (l ++ m)) as HA.
      { induction l as [|x l IH]; intros m Hl Hm Hd; [exact Hm|]. inversion Hl; subst. cbn. constructor.
        - rewrite in_app_iff. intros [|]; [contradiction|]. apply (Hd x); [left; reflexivity|assumption].
        - apply IH; [assumption|assumption|]. intros y Hy. apply Hd. right. exact Hy. }
      apply HA; [apply FinFun.Injective_map_NoDup; [intros a b E; congruence|apply numbers_nodup]..|].
      intros x Hx Hy. apply in_map_iff in Hx, Hy. destruct Hx as (a & <- & _), Hy as (b & E & _). discriminate.
  - intros p. cbn [In]. rewrite in_app_iff, !in_map_iff, numbers_in. rewrite Nat.pow_succ_r'. split.
    + intros H. destruct p as [p|p|]; [right; right|right; left|left; reflexivity]; exists p; (split; [reflexivity|]);
        apply numbers_in; rewrite ?Pos2Nat.inj_xI, ?Pos2Nat.inj_xO in H; lia.
    + intros [<-|[(q & <- & H)|(q & <- & H)]]; [|apply numbers_in in H; rewrite ?Pos2Nat.inj_xI, ?Pos2Nat.inj_xO; lia..].
      change (Pos.to_nat 1) with 1%nat. pose proof (Nat.pow_nonzero 2 k). lia.
Qed.
Lemma bits_parts {A} (l : list A) : Permutation (map (fun p => bits p l) (numbers (length l))) (parts l).
Proof.
  induction l as [|x r IH]; [constructor|]. cbn [length parts].
  etransitivity; [apply Permutation_map; apply numbers_next|]. cbn [map bits]. rewrite map_app, !map_map. cbn [bits].
  constructor. apply Permutation_app; [exact IH|]. rewrite <- (map_map (fun p => bits p r) (cons x)). apply Permutation_map. exact IH.
Qed.
Lemma parts_spec {A} (l : list A) c : In c (parts l) <-> c <> [] /\ part c l.
Proof.
  revert c. induction l as [|x r IH]; intros c; cbn [parts].
  - split; [contradiction|]. intros [H P]. inversion P; subst. contradiction.
  - cbn [In]. rewrite in_app_iff, in_map_iff. split.
    + intros [<-|[H|(d & <- & H)]].
      * split; [discriminate|]. apply part_keep. clear. induction r; constructor; assumption.
      * apply IH in H. destruct H. split; [assumption|]. apply part_skip. assumption.
      * apply IH in H. destruct H. split; [discriminate|]. apply part_keep. assumption.
    + intros [H P]. inversion P as [|y c' l' P'|y c' l' P']; subst.
      * right. left. apply IH. auto.
      * destruct c' as [|z c']; [left; reflexivity|]. right. right. exists (z :: c'). split; [reflexivity|]. apply IH. split; [discriminate|assumption].
Qed.
Lemma part_in {A} (c l : list A) : part c l -> forall x, In x c -> In x l.
Proof. induction 1; intros y Hy; [contradiction|right; auto|]. destruct Hy; [left; assumption|right; auto]. Qed.
Lemma part_len {A} (c l : list A) : part c l -> (length c <= length l)%nat.
Proof. induction 1; cbn; lia. Qed.
Lemma nodup_app_disjoint {A} (l m : list A) : NoDup l -> NoDup m -> (forall x, In x l -> ~ In x m) -> NoDup (l ++ m).
Proof.
  revert m. induction l as [|x l IH]; intros m Hl Hm Hd; [exact Hm|]. inversion Hl; subst. cbn. constructor.
  - rewrite in_app_iff. intros [|]; [contradiction|]. apply (Hd x); [left; reflexivity|assumption].
  - apply IH; [assumption|assumption|]. intros y Hy. apply Hd. right. exact Hy.
Qed.
Lemma parts_nodup {A} (l : list A) : NoDup l -> NoDup (parts l).
Proof.
  induction 1 as [|x r Hx Hr IH]; [constructor|]. cbn [parts]. constructor.
  - rewrite in_app_iff, in_map_iff. intros [H|(d & E & H)].
    + apply parts_spec in H. destruct H as [_ H]. apply Hx. apply (part_in _ _ H). left. reflexivity.
    + apply parts_spec in H. destruct H as [H _]. congruence.
  - apply nodup_app_disjoint; [exact IH|apply FinFun.Injective_map_NoDup; [intros a b E; congruence|exact IH]|].
    intros c Hc Hd. apply in_map_iff in Hd. destruct Hd as (d & <- & _). apply parts_spec in Hc. destruct Hc as [_ Hc].
    apply Hx. apply (part_in _ _ Hc). left. reflexivity.
Qed.
Lemma parts_length {A} (l : list A) : (length (parts l) + 1 = Nat.pow 2 (length l))%nat.
Proof. induction l as [|x r IH]; [reflexivity|]. cbn [parts length]. rewrite Nat.pow_succ_r', app_length, map_length. lia. Qed.

Section Build.
Context {F : Type} (zero : F) (add : F -> F -> F) (gt near : F -> F -> bool) (sort : sorter) (rarity : bytes -> F).
Notation weight_of := (weight_of zero).
Notation total := (total zero add rarity).

Lemma fresh_spec raw : forall seen, NoDup (fresh seen raw) /\ (forall t, In t (fresh seen raw) <-> In t raw /\ ~ In t seen).
Proof.
  induction raw as [|x raw IH]; intros seen; cbn [fresh]; [split; [constructor|]; intros t; cbn; tauto|].
  assert (existsb (eqb_bytes x) seen = true <-> In x seen) as HX.
  { rewrite existsb_exists. split; [intros (y & Hy & E); apply eqb_bytes_eq in E; subst; exact Hy|intros H; exists x; split; [exact H|apply eqb_bytes_refl]]. }
  destruct (existsb (eqb_bytes x) seen) eqn:E.
  - destruct (IH seen) as [A B]. split; [exact A|]. intros t. rewrite B. cbn [In]. split; [tauto|]. intros [[Hx|Hx] Hs]; [|tauto]. subst. exfalso. apply Hs. tauto.
  - assert (~ In x seen) as Hn by (rewrite <- HX; discriminate). destruct (IH (x :: seen)) as [A B]. split.
    + constructor; [|exact A]. rewrite B. cbn [In]. tauto.
    + intros t. cbn [In]. rewrite B. cbn [In]. split; [intros [Hx|Hx]; [subst|]; tauto|]. intros [[Hx|Hx] Hs]; [tauto|].
      destruct (list_eq_dec Z.eq_dec x t); tauto.
Qed.
Lemma term_weights_at terms : forall w t, (forall u, In u terms -> True) ->
  weight_of (fold_left (fun w t => (t, rarity t) :: w) terms w) t = if existsb (eqb_bytes t) terms then rarity t else weight_of w t.
Proof.
  induction terms as [|u terms IH]; intros w t _; [reflexivity|]. cbn [fold_left existsb]. rewrite IH by auto. cbn [weight_of TierModel.weight_of].
  destruct (eqb_bytes t u) eqn:E1, (existsb (eqb_bytes t) terms); cbn [orb]; try reflexivity.
  - apply eqb_bytes_eq in E1. subst. rewrite eqb_bytes_refl. reflexivity.
  - destruct (eqb_bytes u t) eqn:E2; [|reflexivity]. apply eqb_bytes_eq in E2. subst. rewrite eqb_bytes_refl in E1. discriminate.
Qed.
Lemma term_weights_ok terms t : In t terms -> weight_of (term_weights rarity terms) t = rarity t.
Proof.
  intros H. unfold term_weights. rewrite term_weights_at by auto. assert (existsb (eqb_bytes t) terms = true) as ->; [|reflexivity].
  apply existsb_exists. exists t. split; [exact H|apply eqb_bytes_refl].
Qed.

(** What the bits choose. *)
Lemma nth_skip (terms : list bytes) j : (1 < Nat.pow 2 (length (skipn j terms)))%nat ->
  exists t, nth_error terms j = Some t /\ skipn j terms = t :: skipn (S j) terms /\ In t terms.
Proof.
  revert terms. induction j as [|j IH]; intros [|x l] H; cbn [skipn length] in H; try (cbn in H; lia).
  - exists x. split; [reflexivity|]. split; [reflexivity|left; reflexivity].
  - destruct (IH l H) as (t & A & B & C). exists t. split; [exact A|]. split; [exact B|right; exact C].
Qed.
Lemma choose_ok terms w : (forall t, In t terms -> weight_of w t = rarity t) -> forall i j cur v,
  (Pos.to_nat i < Nat.pow 2 (length (skipn j terms)))%nat ->
  choose zero add terms w i j cur v = Ok (cur ++ bits i (skipn j terms), fold_left (fun s t => add s (rarity t)) (bits i (skipn j terms)) v).
Proof.
  intros HW. induction i as [i IH|i IH|]; intros j cur v Hi; cbn [choose];
    destruct (nth_skip terms j) as (t & E & K & HI); try (rewrite ?Pos2Nat.inj_xI, ?Pos2Nat.inj_xO in Hi; pose proof (Pos2Nat.is_pos i); lia); try exact Hi;
    rewrite ?E; cbn [bind]; rewrite K in Hi; cbn [length] in Hi; rewrite Nat.pow_succ_r' in Hi; rewrite K; cbn [bits].
  - rewrite Pos2Nat.inj_xI in Hi. rewrite IH by lia. cbn [fold_left]. rewrite (HW t HI), <- app_assoc. reflexivity.
  - rewrite Pos2Nat.inj_xO in Hi. rewrite IH by lia. reflexivity.
  - cbn [fold_left]. rewrite (HW t HI). reflexivity.
Qed.

(** The loop over the numbers. *)
Definition small (kept : list bytes) : Prop := Forall plain kept /\ (length kept <= 16)%nat.
Lemma part_plain kept c : small kept -> part c kept -> c <> [] ->
  Forall plain c /\ c <> [] /\ Z.of_nat (length c) <= 4294967295.
Proof.
  clear. intros [H L] P N. rewrite Forall_forall in *. split; [|split; [exact N|]].
  - intros t Ht. apply H. apply (part_in _ _ P). exact Ht.
  - apply part_len in P. lia.
Qed.
Lemma text_apart kept c d : small kept -> part c kept -> c <> [] -> part d kept -> d <> [] -> subquery_text c = subquery_text d -> c = d.
Proof.
  intros S P N P' N'. destruct (part_plain kept c S P N) as (A & B & C), (part_plain kept d S P' N') as (A' & B' & C').
  apply set_text_inj; assumption.
Qed.
Lemma text_no_term c t : plain t -> subquery_text c <> t.
Proof.
  intros (N & H & _) E. destruct (set_text_head c) as (s & Es). rewrite Es in E. subst t. cbn in H. discriminate.
Qed.
Lemma bits_part {A} (l : list A) p : (Pos.to_nat p < Nat.pow 2 (length l))%nat -> bits p l <> [] /\ part (bits p l) l.
Proof.
  intros H. apply parts_spec. apply (Permutation_in _ (bits_parts l)). apply in_map_iff. exists p. split; [reflexivity|]. apply numbers_in. exact H.
Qed.
Definition chosen (kept : list bytes) (n : nat) : list bytes := bits (Pos.of_succ_nat n) kept.
Lemma chosen_part kept n : (S n < Nat.pow 2 (length kept))%nat -> chosen kept n <> [] /\ part (chosen kept n) kept.
Proof. intros H. apply bits_part. rewrite SuccNat2Pos.id_succ. exact H. Qed.
Lemma subqueries_ok kept : small kept -> forall m subs w,
  (m < Nat.pow 2 (length kept))%nat ->
  (forall t, In t kept -> weight_of w t = rarity t) ->
  exists w', subqueries zero add kept m subs w = Ok (subs ++ map subquery_text (map (chosen kept) (rev (seq 0 m))), w') /\
    (forall n, (n < m)%nat -> weight_of w' (subquery_text (chosen kept n)) = total (chosen kept n)) /\
    (forall s, ~ In s (map (fun n => subquery_text (chosen kept n)) (seq 0 m)) -> weight_of w' s = weight_of w s).
Proof.
  intros HS. induction m as [|m IH]; intros subs w Hm HW; cbn [subqueries].
  - exists w. rewrite app_nil_r. split; [reflexivity|]. split; [intros; lia|reflexivity].
  - rewrite choose_ok; [|exact HW|cbn [skipn]; rewrite SuccNat2Pos.id_succ; exact Hm]. cbn [bind skipn app]. fold (chosen kept m). set (c := chosen kept m).
    destruct (chosen_part kept m Hm) as [Nc Pc]. fold c in Nc, Pc.
    destruct (IH (subs ++ [subquery_text c]) ((subquery_text c, fold_left (fun s t => add s (rarity t)) c zero) :: w)) as (w' & E & W1 & W2).
    + lia.
    + intros t Ht. cbn [TierModel.weight_of]. destruct (eqb_bytes (subquery_text c) t) eqn:Eb; [|auto].
      apply eqb_bytes_eq in Eb. exfalso. revert Eb. apply text_no_term. destruct HS as [HS _]. rewrite Forall_forall in HS. auto.
    + exists w'. split; [|split].
      * rewrite E, <- app_assoc. do 2 f_equal. rewrite seq_S, rev_app_distr. reflexivity.
      * intros n Hn. destruct (Nat.eq_dec n m) as [->|Hd]; [|apply W1; lia]. fold c.
        destruct (in_dec (list_eq_dec Z.eq_dec) (subquery_text c) (map (fun n => subquery_text (chosen kept n)) (seq 0 m))) as [Hin|Hout].
        -- apply in_map_iff in Hin. destruct Hin as (n' & Et & Hn'). apply in_seq in Hn'.
           destruct (chosen_part kept n') as [N' P']; [lia|]. rewrite <- Et, W1 by lia. f_equal.
           exact (text_apart kept _ _ HS P' N' Pc Nc Et).
        -- rewrite (W2 _ Hout). cbn [TierModel.weight_of]. rewrite eqb_bytes_refl. reflexivity.
      * intros s Hs. rewrite seq_S, map_app in Hs. rewrite W2 by (intros H; apply Hs; apply in_or_app; left; exact H).
        cbn [TierModel.weight_of]. destruct (eqb_bytes (subquery_text c) s) eqn:Eb; [|reflexivity]. apply eqb_bytes_eq in Eb.
        exfalso. apply Hs. apply in_or_app. right. left. exact Eb.
Qed.

(** Cutting into tiers. *)
Lemma group_ok w : forall cs c r tiers,
  (forall d, In d cs -> weight_of w (subquery_text d) = total d) ->
  Forall (fun d => near (total c) (total d) = true) r ->
  exists r' gs, group zero near w (map subquery_text cs) (map subquery_text (c :: r)) (total c) tiers =
      tiers ++ map (fun g => tier_text (map subquery_text g)) ((c :: r') :: gs) /\
    concat ((c :: r') :: gs) = (c :: r) ++ cs /\ cut zero add near rarity ((c :: r') :: gs).
Proof.
  induction cs as [|d cs IH]; intros c r tiers HW HN; cbn [map group].
  - exists r, []. cbn [map concat cut]. split; [reflexivity|]. split; [reflexivity|]. auto.
  - rewrite (HW d) by (left; reflexivity). destruct (near (total c) (total d)) eqn:E.
    + destruct (IH c (r ++ [d]) tiers) as (r' & gs & H1 & H2 & H3); [intros x Hx; apply HW; right; exact Hx|apply Forall_app; split; [exact HN|constructor; [exact E|constructor]]|].
      exists r', gs. split; [|split; [|exact H3]].
      * etransitivity; [|exact H1]. cbn [map]. rewrite map_app. reflexivity.
      * rewrite H2. cbn [app]. rewrite <- app_assoc. reflexivity.
    + destruct (IH d [] (tiers ++ [tier_text (map subquery_text (c :: r))])) as (r' & gs & H1 & H2 & H3); [intros x Hx; apply HW; right; exact Hx|constructor|].
      exists r, ((d :: r') :: gs). split; [|split].
      * etransitivity; [exact H1|]. rewrite <- app_assoc. reflexivity.
      * cbn [concat] in *. rewrite H2. reflexivity.
      * cbn [cut]. split; [|exact H3]. split; [exact HN|exact E].
Qed.

Lemma heavier_weak w : weak_order gt -> weak_order (heavier zero gt w).
Proof. intros (A & B & C). unfold heavier. split; [intros a; apply A|]. split; intros a b c; [apply B|apply C]. Qed.
Lemma sorted_firstn {A} (R : A -> A -> Prop) n l : StronglySorted R l ->
  StronglySorted R (firstn n l) /\ forall a b, In a (firstn n l) -> In b (skipn n l) -> R a b.
Proof.
  revert l. induction n as [|n IH]; intros l H; [split; [constructor|contradiction]|]. destruct H as [|x l H HF]; cbn [firstn skipn]; [split; [constructor|contradiction]|].
  destruct (IH l H) as [A1 A2]. rewrite Forall_forall in HF. split.
  - constructor; [exact A1|]. apply Forall_forall. intros y Hy. apply HF. rewrite <- (firstn_skipn n l). apply in_or_app. left. exact Hy.
  - intros a b [->|Ha] Hb; [|exact (A2 a b Ha Hb)]. apply HF. rewrite <- (firstn_skipn n l). apply in_or_app. right. exact Hb.
Qed.
Lemma sorted_ext {A} (R Q : A -> A -> Prop) l : (forall a b, In a l -> In b l -> R a b -> Q a b) -> StronglySorted R l -> StronglySorted Q l.
Proof.
  intros H S. induction S as [|x l S IH HF]; [constructor|]. constructor.
  - apply IH. intros a b Ha Hb. apply H; right; assumption.
  - rewrite Forall_forall in *. intros y Hy. apply H; [left; reflexivity|right; exact Hy|auto].
Qed.
Lemma sorted_map {A B} (f : A -> B) (R : B -> B -> Prop) l : StronglySorted R (map f l) -> StronglySorted (fun a b => R (f a) (f b)) l.
Proof. induction l as [|x l IH]; intros H; [constructor|]. cbn in H. inversion H; subst. constructor; [auto|]. rewrite Forall_map in *. assumption. Qed.

Theorem build_ok split query : weak_order gt -> sorts sort -> (forall t, In t (split query) -> plain t) ->
  exists tiers groups, build_tiers zero add gt near split sort rarity query = Ok tiers /\
    tiers_of zero add gt near rarity (split query) groups /\
    Forall2 (fun text g => from_string text = Ok (Some (tier_query g))) tiers groups.
Proof.
  intros HG HSo HP. unfold build_tiers. destruct (split query) as [|t0 raw0] eqn:Eraw.
  { exists [], []. split; [reflexivity|]. split; [|constructor]. exists []. split; [|split; [constructor|split; [|split; constructor]]].
    - exists []. split; [constructor|]. split; [intros t; reflexivity|]. split; [cbn; lia|]. split; [intros H; contradiction|]. split; [constructor|]. intros k t [].
    - intros c. split; [contradiction|]. intros [N P]. inversion P; subst. contradiction. }
  rewrite <- Eraw in *. clear Eraw t0 raw0. set (raw := split query) in *.
  destruct (fresh_spec raw []) as [FN FI]. set (ts := fresh [] raw) in *. set (w := term_weights rarity ts).
  destruct (HSo bytes (heavier zero gt w) ts (heavier_weak w HG)) as [SP SO]. set (ss := sort bytes (heavier zero gt w) ts) in *.
  set (kept := firstn SANE ss).
  assert (forall t, In t ss -> weight_of w t = rarity t) as HWs.
  { intros t Ht. apply term_weights_ok. apply Permutation_in with ss; [symmetry; exact SP|exact Ht]. }
  assert (forall t, In t ss <-> In t raw) as HIs.
  { intros t. split; intros H.
    - apply FI. apply Permutation_in with ss; [symmetry; exact SP|exact H].
    - apply Permutation_in with ts; [exact SP|]. apply FI. cbn. tauto. }
  assert (NoDup ss) as NS by (apply Permutation_NoDup with ts; assumption).
  assert (forall t, In t kept -> In t ss) as HK by (intros t Ht; rewrite <- (firstn_skipn SANE ss); apply in_or_app; left; exact Ht).
  assert (NoDup kept) as NK.
  { rewrite <- (firstn_skipn SANE ss) in NS. fold kept in NS. revert NS. generalize (skipn SANE ss) as l. induction kept as [|x k IH]; intros l H; [constructor|].
    cbn in H. inversion H; subst. constructor; [intros Hx; apply H2; apply in_or_app; left; exact Hx|]. apply IH with l; [|assumption].
    intros t Ht. apply HK. right. exact Ht. }
  assert (length kept <= 16)%nat as LK by (unfold kept; rewrite firstn_length; unfold SANE; lia).
  assert (small kept) as SK.
  { split; [|exact LK]. apply Forall_forall. intros t Ht. apply HP. apply HIs. apply HK. exact Ht. }
  assert (rarest gt rarity raw kept) as HR.
  { exists (skipn SANE ss). unfold kept at 1 2. rewrite firstn_skipn. split; [exact NS|]. split; [exact HIs|]. split; [exact LK|]. split.
    - intros H. unfold kept. rewrite firstn_length. destruct (Nat.le_gt_cases (length ss) SANE) as [L|L]; [exfalso; apply H; apply skipn_all2; exact L|unfold SANE in *; lia].
    - assert (StronglySorted (fun a b => gt (rarity b) (rarity a) = false) ss) as S'.
      { eapply sorted_ext; [|exact SO]. intros a b Ha Hb H. unfold heavier in H. rewrite !HWs in H by assumption. exact H. }
      destruct (sorted_firstn _ SANE ss S') as [A1 A2]. split; [exact A1|exact A2]. }
  set (N := (Nat.pow 2 (length kept) - 1)%nat).
  assert (Nat.pow 2 (length kept) <> 0)%nat as NZ by (apply Nat.pow_nonzero; discriminate).
  destruct (subqueries_ok kept SK N [] w) as (w' & E & W1 & _); [unfold N; lia|intros t Ht; apply HWs, HK, Ht|].
  rewrite E. cbn [bind app].
  set (cs0 := map (chosen kept) (rev (seq 0 N))) in *.
  assert (Permutation cs0 (parts kept)) as PC.
  { unfold cs0. etransitivity; [apply Permutation_map; symmetry; apply Permutation_rev|]. etransitivity; [|apply bits_parts]. unfold numbers.
    rewrite map_map. apply Permutation_refl. }
  destruct (HSo bytes (heavier zero gt w') (map subquery_text cs0) (heavier_weak w' HG)) as [QP QO].
  set (qs := sort bytes (heavier zero gt w') (map subquery_text cs0)) in *.
  destruct (Permutation_map_inv subquery_text cs0 (Permutation_sym QP)) as (cs & Ecs & PCS). 
  assert (forall c, In c cs -> weight_of w' (subquery_text c) = total c) as HWc.
  { intros c Hc. apply (Permutation_in _ (Permutation_sym PCS)) in Hc. unfold cs0 in Hc. apply in_map_iff in Hc. destruct Hc as (n & <- & Hn).
    apply in_rev in Hn. apply in_seq in Hn. apply W1. lia. }
  assert (Permutation cs (parts kept)) as PCP by (etransitivity; [symmetry; exact PCS|exact PC]).
  assert (StronglySorted (fun a b => gt (total b) (total a) = false) cs) as SC.
  { rewrite Ecs in QO. apply sorted_map in QO. eapply sorted_ext; [|exact QO]. intros a b Ha Hb H. unfold heavier in H. rewrite !HWc in H by assumption. exact H. }
  assert (exists groups, group zero near w' qs [] zero [] = map (fun g => tier_text (map subquery_text g)) groups /\ concat groups = cs /\
     cut zero add near rarity groups) as (groups & G1 & G2 & G3).
  { rewrite Ecs. destruct cs as [|c cs1]; [exists []; split; [reflexivity|split; [reflexivity|exact I]]|]. cbn [map group].
    rewrite (HWc c) by (left; reflexivity).
    destruct (group_ok w' cs1 c [] []) as (r' & gs & H1 & H2 & H3); [intros d Hd; apply HWc; right; exact Hd|constructor|].
    exists ((c :: r') :: gs). split; [exact H1|]. split; [exact H2|exact H3]. }
  rewrite G1. exists (map (fun g => tier_text (map subquery_text g)) groups), groups. split; [reflexivity|]. split.
  - exists kept. split; [exact HR|]. rewrite G2. split; [apply Permutation_NoDup with (parts kept); [symmetry; exact PCP|apply parts_nodup; exact NK]|].
    split; [|split; [exact SC|exact G3]]. intros c. rewrite <- parts_spec. split; apply Permutation_in; [exact PCP|symmetry; exact PCP].
  - assert (forall g, In g groups -> g <> [] /\ Z.of_nat (length g) <= 4294967295 /\ forall c, In c g -> c <> [] /\ part c kept) as HGr.
    { intros g Hg. split; [|split].
      - clear - G3 Hg. induction groups as [|h gs IH]; [contradiction|]. cbn [cut] in G3. destruct G3 as [A B]. destruct Hg as [->|Hg]; [|auto]. destruct g; [contradiction|discriminate].
      - assert (length g <= length (concat groups))%nat as L.
        { clear - Hg. induction groups as [|h gs IH]; [contradiction|]. cbn [concat]. rewrite app_length. destruct Hg as [->|Hg]; [lia|]. specialize (IH Hg). lia. }
        rewrite G2, (Permutation_length PCP) in L. pose proof (parts_length kept) as PL.
        assert (Z.of_nat (length (parts kept)) + 1 <= 65536); [|lia].
        assert (Z.of_nat (Nat.pow 2 (length kept)) <= 65536); [|lia]. rewrite Nat2Z.inj_pow. change 65536 with (2 ^ 16). apply Z.pow_le_mono_r; lia.
      - intros c Hc. apply parts_spec. apply (Permutation_in _ PCP). rewrite <- G2. apply in_concat. exists g. auto. }
    clear - zero add gt near sort rarity HGr SK. induction groups as [|g gs IH]; [constructor|]. cbn [map]. constructor; [|apply IH; intros h Hh; apply HGr; right; exact Hh].
    destruct (HGr g (or_introl eq_refl)) as (A & B & D). apply tier_parse; [exact A|exact B|]. intros c Hc. destruct (D c Hc) as [Nc Pc].
    apply part_plain with kept; assumption.
Qed.
End Build.
