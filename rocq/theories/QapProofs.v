(** Proofs about QapModel.v. *)
From Verif Require Import Base HopperModel VectorModel FeatModel RankModel RankSpec RankProofs StatsModel StatsProofs
  IcoverModel QapModel QapSpec.

(* ------------------------------------------------------------------ *)
(** * The order of texts *)
Lemma before_iff a : forall b, string_before a b = true <-> text_before a b.
Proof.
  induction a as [|x a IH]; intros [|y b]; cbn [string_before].
  - split; [discriminate|]. intros [(x & m & E)|(c & x & y & l & m & E & _)]; [discriminate|]. destruct c; discriminate.
  - split; [|reflexivity]. intros _. left. exists y, b. reflexivity.
  - split; [discriminate|]. intros [(z & m & E)|(c & z & y & l & m & _ & E & _)]; [destruct a; discriminate|]. destruct c; discriminate.
  - destruct (Z.ltb_spec x y) as [H|H].
    { split; [|reflexivity]. intros _. right. exists [], x, y, a, b. auto. }
    destruct (Z.ltb_spec y x) as [H2|H2].
    { split; [discriminate|]. intros [(z & m & E)|(c & z & w & l & m & E1 & E2 & L)].
      - cbn in E. assert (y = x) by congruence. lia.
      - destruct c as [|c0 c]; cbn in E1, E2.
        + assert (x = z /\ y = w) by (split; congruence). lia.
        + assert (x = c0 /\ y = c0) by (split; congruence). lia. }
    assert (x = y) by lia. subst y. rewrite IH. split.
    + intros [(z & m & ->)|(c & z & w & l & m & -> & -> & L)].
      * left. exists z, m. reflexivity.
      * right. exists (x :: c), z, w, l, m. auto.
    + intros [(z & m & E)|(c & z & w & l & m & E1 & E2 & L)].
      * cbn in E. left. exists z, m. congruence.
      * destruct c as [|c0 c]; cbn in E1, E2.
        -- assert (x = z /\ x = w) by (split; congruence). lia.
        -- right. exists c, z, w, l, m. split; [congruence|]. split; [congruence|exact L].
Qed.
Lemma before_trans a : forall b c, string_before a b = true -> string_before b c = true -> string_before a c = true.
Proof.
  induction a as [|x a IH]; intros [|y b] [|z c]; cbn [string_before]; try discriminate; auto.
  destruct (Z.ltb_spec x y), (Z.ltb_spec y z), (Z.ltb_spec x z), (Z.ltb_spec y x), (Z.ltb_spec z y), (Z.ltb_spec z x); try lia; try discriminate; auto.
  all: intros; eapply IH; eauto.
Qed.
Lemma before_total a : forall b, string_before a b = false -> string_before b a = false -> a = b.
Proof.
  induction a as [|x a IH]; intros [|y b]; cbn [string_before]; try discriminate; auto.
  destruct (Z.ltb_spec x y), (Z.ltb_spec y x); try lia; try discriminate. intros. f_equal; [lia|auto].
Qed.
Lemma set_add_ok t l : StronglySorted text_before l ->
  StronglySorted text_before (set_add t l) /\ forall u, In u (set_add t l) <-> u = t \/ In u l.
Proof.
  induction 1 as [|x l S [IH1 IH2] Fx]; cbn [set_add].
  - split; [constructor; constructor|]. intros u. cbn. intuition.
  - destruct (string_before t x) eqn:E1.
    + split; [|intros u; cbn; intuition]. constructor; [constructor; assumption|]. constructor; [apply before_iff, E1|].
      rewrite Forall_forall in *. intros y Hy. apply before_iff. eapply before_trans; [exact E1|]. apply before_iff, Fx, Hy.
    + destruct (string_before x t) eqn:E2.
      * split.
        -- constructor; [exact IH1|]. rewrite Forall_forall in *. intros y Hy. apply IH2 in Hy. destruct Hy as [->|Hy]; [apply before_iff, E2|auto].
        -- intros u. cbn. rewrite IH2. intuition.
      * rewrite (before_total _ _ E1 E2). split; [constructor; assumption|]. intros u. cbn. intuition.
Qed.
Lemma set_of_ok tokens : distinct tokens (fold_left (fun l t => set_add t l) tokens []).
Proof.
  assert (G : forall l acc, StronglySorted text_before acc ->
    StronglySorted text_before (fold_left (fun l t => set_add t l) l acc) /\
    forall u, In u (fold_left (fun l t => set_add t l) l acc) <-> In u acc \/ In u l).
  { induction l as [|t l IH]; intros acc S; cbn [fold_left]; [split; [exact S|intros u; cbn; tauto]|].
    destruct (set_add_ok t acc S) as [S1 I1]. destruct (IH _ S1) as [S2 I2]. split; [exact S2|].
    intros u. rewrite I2, I1. cbn. intuition. }
  destruct (G tokens [] (SSorted_nil _)) as [S I]. split; [exact S|]. intros t. rewrite I. cbn. intuition.
Qed.

Lemma word_eqP t u : word_eq t u = if list_eq_dec Z.eq_dec t u then true else false.
Proof.
  destruct (list_eq_dec Z.eq_dec t u) as [E|N]; [apply word_eq_iff, E|].
  destruct (word_eq t u) eqn:E; [|reflexivity]. apply word_eq_iff in E. contradiction.
Qed.
Lemma existsb_in t (l : list (list Z)) :
  existsb (word_eq t) l = if in_dec (list_eq_dec Z.eq_dec) t l then true else false.
Proof.
  destruct (in_dec (list_eq_dec Z.eq_dec) t l) as [I|N].
  - apply existsb_exists. exists t. split; [exact I|apply word_eq_iff; reflexivity].
  - destruct (existsb (word_eq t) l) eqn:E; [|reflexivity]. apply existsb_exists in E. destruct E as (u & Iu & Eu).
    apply word_eq_iff in Eu. subst. contradiction.
Qed.
Lemma as_addr_id z : minf <= z <= maxf -> as_addr z = z.
Proof.
  unfold as_addr, wrap64, minf, maxf. intros H. destruct (Z.ltb_spec (z mod 18446744073709551616) 9223372036854775808) as [L|L].
  - destruct (Z.le_gt_cases 0 z); [apply Z.mod_small; lia|].
    assert (z mod 18446744073709551616 = z + 18446744073709551616) by (symmetry; apply Z.mod_unique with (-1); lia). lia.
  - destruct (Z.le_gt_cases 0 z); [rewrite Z.mod_small in L by lia; lia|].
    assert (z mod 18446744073709551616 = z + 18446744073709551616) by (symmetry; apply Z.mod_unique with (-1); lia). lia.
Qed.

Section Qap.
Context {F : Type} (zero : F) (add : F -> F -> F) (lt : F -> F -> bool) (sort : sorter).
Context (cube : F -> F) (rare : list Z -> Z -> F).
Context (translate : Z -> Z -> list Z) (split : list Z -> list (list Z)) (tokenize : list Z -> list (Z * Z)).
Notation result := (result (F := F)).

(** A passage in its container, and a window that does not leave the addresses. *)
Definition passage_fits (window : Z) (r : result) : Prop :=
  minf <= rcp r /\ rcp r <= rp r /\ rp r <= rq r /\ rq r <= rcq r /\ rcq r <= maxf /\
  0 <= window /\ minf <= rp r - window /\ rq r + window <= maxf.

Lemma start_ok window r : passage_fits window r -> qap_start window r = around_from window r.
Proof.
  clear. intros H. unfold passage_fits in H. unfold qap_start, around_from. rewrite as_addr_id by lia.
  destruct (Z.ltb_spec (rp r - window) (rcp r)); lia.
Qed.
Lemma fragment_ok window r : passage_fits window r -> qap_fragment translate window r = around translate window r.
Proof.
  intros H. unfold qap_fragment, around. rewrite start_ok by exact H. f_equal. unfold passage_fits in H. clear - H. rewrite as_addr_id by lia.
  destruct (Z.ltb_spec (rcq r) (rq r + window)); lia.
Qed.

Lemma locations_ok (r : result) t : rp r <= rq r -> forall tokens place loc,
  forall d, distance r place = d ->
  qap_locations (rq r) tokens place d loc t =
  match loc t with
  | Some l => Some (settle r (places t tokens place) l)
  | None => match places t tokens place with [] => None | p :: ps => Some (settle r ps (distance r p)) end
  end.
Proof.
  clear. intros Hpq. induction tokens as [|u rest IH]; intros place loc d <-; cbn [qap_locations places].
  - destruct (loc t); reflexivity.
  - assert (D : (if rq r <? place + 1 then (if 0 <? distance r place then distance r place - 1 else distance r place) + 1
              else (if 0 <? distance r place then distance r place - 1 else distance r place)) = distance r (place + 1)).
    { unfold distance. destruct (Z.ltb_spec place (rp r)), (Z.ltb_spec (rq r) (place + 1)), (Z.ltb_spec (place + 1) (rp r)),
        (Z.leb_spec place (rq r)), (Z.leb_spec (place + 1) (rq r)); try lia;
      repeat match goal with |- context [if 0 <? ?x then _ else _] => destruct (Z.ltb_spec 0 x) end; lia. }
    rewrite (IH (place + 1) _ _ (eq_sym D)).
    destruct (list_eq_dec Z.eq_dec t u) as [<-|N]; cbn [app].
    + assert (Et : word_eq t t = true) by (apply word_eq_iff; reflexivity).
      destruct (loc t) as [l|] eqn:El.
      * change (settle r (place :: places t rest (place + 1)) l) with
          (settle r (places t rest (place + 1)) (if place <? l then distance r place else l)).
        destruct (place <? l) eqn:E; [cbv beta; rewrite Et; reflexivity|rewrite El; reflexivity].
      * cbv beta. rewrite Et. reflexivity.
    + assert (Et : word_eq t u = false).
      { destruct (word_eq t u) eqn:E; [|reflexivity]. apply word_eq_iff in E. contradiction. }
      destruct (match loc u with None => true | Some l => place <? l end); cbv beta; [rewrite Et|]; reflexivity.
Qed.

Lemma where_ok window r t : passage_fits window r ->
  qap_where translate split window r t = word_distance translate split window r t.
Proof.
  intros H. unfold qap_where, word_distance. rewrite fragment_ok by exact H. rewrite start_ok by exact H.
  rewrite (locations_ok r t ltac:(unfold passage_fits in H; clear - H; lia) _ _ _ (Z.max (rp r - around_from window r) 0)); [reflexivity|].
  unfold passage_fits in H. unfold distance, around_from. clear - H.
  destruct (Z.ltb_spec (Z.max (rcp r) (rp r - window)) (rp r)); [lia|].
  destruct (Z.leb_spec (Z.max (rcp r) (rp r - window)) (rq r)); lia.
Qed.
Notation earnings := (earnings rare translate split).
Notation weight_of := (weight_of add cube rare translate split).
Lemma weigh_ok window t : forall covers w, Forall (passage_fits window) covers ->
  fold_left (qap_weigh add rare translate split window) covers w t =
  match w t, earnings window t covers with
  | None, [] => None
  | None, g :: gs => Some (fold_left add gs g)
  | Some v, gs => Some (fold_left add gs v)
  end.
Proof.
  induction covers as [|r covers IH]; intros w H; cbn [fold_left]; [destruct (w t); reflexivity|].
  inversion H as [|? ? Hr Hc]; subst. rewrite (IH _ Hc). unfold qap_weigh at 1. rewrite where_ok by exact Hr.
  cbn [QapSpec.earnings flat_map]. unfold QapSpec.earnings.
  destruct (word_distance translate split window r t) as [d|]; cbn [app]; [|reflexivity].
  destruct (w t); reflexivity.
Qed.
Lemma weights_ok window query covers t : Forall (passage_fits window) covers ->
  qap_weights add cube rare translate split window query covers t = weight_of window query covers t.
Proof.
  intros H. unfold qap_weights, QapSpec.weight_of. rewrite existsb_in.
  destruct (in_dec (list_eq_dec Z.eq_dec) t (split query)); [reflexivity|]. rewrite weigh_ok by exact H.
  destruct (earnings window t covers); reflexivity.
Qed.
Notation scored := (scored zero add cube rare translate split).
Lemma score_ok window query covers c : Forall (passage_fits window) covers ->
  scored window query covers c (qap_score zero add split (qap_weights add cube rare translate split window query covers) c).
Proof.
  intros H. exists (fold_left (fun l t => set_add t l) (split c) []). split; [apply set_of_ok|].
  unfold qap_score. generalize (fold_left (fun l t => set_add t l) (split c) []) zero. induction l as [|t l IH]; intros z; cbn [fold_left]; [reflexivity|].
  rewrite weights_ok by exact H. apply IH.
Qed.

(** * Candidates *)
Lemma app_same_length (a b x y : list Z) : length a = length b -> a ++ x = b ++ y -> a = b /\ x = y.
Proof.
  clear. revert b. induction a as [|u a IH]; intros [|v b] L E; try discriminate; [auto|].
  cbn in L, E. injection E as -> E. destruct (IH b ltac:(lia) E) as [-> ->]. auto.
Qed.
Lemma slice_ok (text : list Z) (o e : Z) : 0 <= o -> o <= e -> e <= Z.of_nat (length text) -> e < 18446744073709551616 ->
  exists c x y, substr text o (wrap64 (e - o)) = Ok c /\ text = x ++ c ++ y /\ Z.of_nat (length x) = o /\ Z.of_nat (length (x ++ c)) = e.
Proof.
  clear. intros H1 H2 H3 H4. unfold substr, wrap64. rewrite Z.mod_small by lia.
  destruct (Z.ltb_spec (Z.of_nat (length text)) o); [lia|].
  set (x := firstn (Z.to_nat o) text). set (c := firstn (Z.to_nat (e - o)) (skipn (Z.to_nat o) text)).
  exists c, x, (skipn (Z.to_nat (e - o)) (skipn (Z.to_nat o) text)). split; [reflexivity|]. split.
  - unfold x, c. rewrite firstn_skipn, firstn_skipn. reflexivity.
  - assert (length x = Z.to_nat o) by (apply firstn_length_le; lia).
    assert (length c = Z.to_nat (e - o)) by (apply firstn_length_le; rewrite skipn_length; lia).
    rewrite app_length. lia.
Qed.
Lemma slice_same (text x c y x' c' y' : list Z) : text = x ++ c ++ y -> text = x' ++ c' ++ y' -> length x = length x' ->
  length (x ++ c) = length (x' ++ c') -> c = c'.
Proof.
  clear. intros -> E L1 L2. rewrite !app_length in L2.
  assert (E1 : x = x' /\ c ++ y = c' ++ y') by (apply app_same_length; auto).
  destruct E1 as [_ E1]. apply (app_same_length c c' y y') in E1; [tauto|lia].
Qed.
Lemma runs_ok text len : (0 < len)%nat -> in_order (tokenize text) text -> Z.of_nat (length text) < 18446744073709551616 ->
  forall n i, (i + n + len <= length (tokenize text))%nat ->
  wp (qap_runs text (tokenize text) len i n) (fun cs => forall c, In c cs <->
    exists k a b x y, (i <= k < i + n)%nat /\ nth_error (tokenize text) k = Some a /\ nth_error (tokenize text) (k + len - 1) = Some b /\
      text = x ++ c ++ y /\ Z.of_nat (length x) = fst a /\ Z.of_nat (length (x ++ c)) = fst b + snd b).
Proof.
  intros Hl [O1 O2] Ht. induction n as [|n IH]; intros i Hi; cbn [qap_runs].
  - apply wp_ok. intros c. split; [intros []|]. intros (k & _ & _ & _ & _ & H & _). exfalso. clear - H. lia.
  - assert (exists a, nth_error (tokenize text) i = Some a) as (a & Ea).
    { destruct (nth_error (tokenize text) i) eqn:E; [eauto|]. apply nth_error_None in E. exfalso. clear - E Hi Hl. lia. }
    assert (exists b, nth_error (tokenize text) (i + len - 1) = Some b) as (b & Eb).
    { destruct (nth_error (tokenize text) (i + len - 1)) eqn:E; [eauto|]. apply nth_error_None in E. exfalso. clear - E Hi Hl. lia. }
    assert (I1 : idx (tokenize text) (Z.of_nat i) = Ok a).
    { unfold idx. destruct (Z.ltb_spec (Z.of_nat i) 0) as [H|_]; [exfalso; clear - H; lia|]. rewrite Nat2Z.id, Ea. reflexivity. }
    assert (I2 : idx (tokenize text) (Z.of_nat i + Z.of_nat len - 1) = Ok b).
    { unfold idx. destruct (Z.ltb_spec (Z.of_nat i + Z.of_nat len - 1) 0) as [H|_]; [exfalso; clear - H Hl; lia|].
      replace (Z.to_nat (Z.of_nat i + Z.of_nat len - 1)) with (i + len - 1)%nat by (clear - Hl; lia). rewrite Eb. reflexivity. }
    rewrite I1, I2. cbn [bind].
    pose proof (nth_error_In _ _ Ea) as Ia. pose proof (nth_error_In _ _ Eb) as Ib. destruct a as [ao al], b as [bo bl]. cbn [fst snd].
    destruct (O1 _ _ Ia) as (A1 & A2 & A3). destruct (O1 _ _ Ib) as (B1 & B2 & B3).
    assert (Hab : ao <= bo + bl).
    { destruct (Nat.eq_dec len 1) as [->|Hn].
      - replace (i + 1 - 1)%nat with i in Eb by (clear; lia). assert (ao = bo) by congruence. clear - H B2. lia.
      - pose proof (O2 i (i + len - 1)%nat _ _ ltac:(clear - Hl Hn; lia) Ea Eb) as H. cbn in H. clear - H A2 B2. lia. }
    destruct (slice_ok text ao (bo + bl) A1 Hab B3 ltac:(clear - B3 Ht; lia)) as (c0 & x0 & y0 & E0 & T0 & L0 & L1).
    rewrite E0. cbn [bind]. apply wp_bind. eapply wp_mono; [apply (IH (S i)); clear - Hi; lia|].
    intros cs Hcs. cbv beta in Hcs. apply wp_ok. intros c. cbn [In]. rewrite Hcs. split.
    + intros [<-|(k & a' & b' & x & y & Hk & R)].
      * exists i, (ao, al), (bo, bl), x0, y0. split; [clear; lia|]. auto.
      * exists k, a', b', x, y. split; [clear - Hk; lia|exact R].
    + intros (k & a' & b' & x & y & Hk & Ea' & Eb' & T & X1 & X2). destruct (Nat.eq_dec k i) as [->|Hn].
      * left. rewrite Ea in Ea'. injection Ea' as <-. rewrite Eb in Eb'. injection Eb' as <-. cbn in X1, X2.
        apply (slice_same text x0 c0 y0 x c y T0 T); clear - L0 L1 X1 X2; lia.
      * right. exists k, a', b', x, y. split; [clear - Hk Hn; lia|]. auto.
Qed.
Lemma candidates_ok text len : (0 < len)%nat -> in_order (tokenize text) text -> Z.of_nat (length text) < 18446744073709551616 ->
  wp (qap_candidates tokenize len text) (fun cs => forall c, In c cs <-> candidate tokenize len text c).
Proof.
  intros Hl HO Ht. unfold qap_candidates, candidate. cbv zeta. destruct (Nat.leb_spec (length (tokenize text)) len) as [H|H].
  - apply wp_ok. intros c. cbn. split.
    + intros [<-|[]]. left. auto.
    + intros [[_ ->]|(i & _ & _ & _ & _ & Hi & _)]; [auto|]. exfalso. clear - H Hi. lia.
  - eapply wp_mono; [apply (runs_ok text len Hl HO Ht); clear - H; lia|]. intros cs Hcs c. cbv beta in Hcs. rewrite Hcs. split.
    + intros (k & a & b & x & y & Hk & R). right. exists k, a, b, x, y. split; [clear - Hk H; lia|exact R].
    + intros [[Hle _]|(k & a & b & x & y & Hk & R)]; [exfalso; clear - H Hle; lia|]. exists k, a, b, x, y. split; [clear - Hk; lia|exact R].
Qed.
Lemma all_ok len : (0 < len)%nat -> forall texts j,
  (forall text, In text texts -> in_order (tokenize text) text /\ Z.of_nat (length text) < 18446744073709551616) ->
  wp (qap_all tokenize len j texts) (fun cs => forall k c, In (k, c) cs <->
    exists i text, k = (j + i)%nat /\ nth_error texts i = Some text /\ candidate tokenize len text c).
Proof.
  intros Hl. induction texts as [|text texts IH]; intros j H; cbn [qap_all].
  - apply wp_ok. intros k c. split; [intros []|]. intros (i & t & _ & E & _). destruct i; discriminate.
  - destruct (H text (or_introl eq_refl)) as [HO Ht]. apply wp_bind. eapply wp_mono; [exact (candidates_ok text len Hl HO Ht)|].
    intros cs Hcs. cbv beta in Hcs. apply wp_bind. eapply wp_mono; [apply (IH (S j)); intros t It; apply H; right; exact It|].
    intros more Hm. cbv beta in Hm. apply wp_ok. intros k c. rewrite in_app_iff, Hm, in_map_iff. split.
    + intros [(c' & [= <- <-] & Hc)|(i & t & -> & E & Hc)].
      * exists 0%nat, text. split; [clear; lia|]. split; [reflexivity|]. apply Hcs, Hc.
      * exists (S i), t. split; [clear; lia|]. auto.
    + intros ([|i] & t & -> & E & Hc).
      * left. injection E as <-. exists c. split; [f_equal; clear; lia|apply Hcs, Hc].
      * right. exists i, t. split; [clear; lia|]. auto.
Qed.

(** * Picking *)
Context (W : weak_order lt) (HS : sorts sort).
Lemma better_order : weak_order (qap_better lt).
Proof.
  destruct W as (W1 & W2 & W3). unfold qap_better. split; [|split].
  - intros a. apply W1.
  - intros a b c H1 H2. eapply W2; eauto.
  - intros a b c H. destruct (W3 _ (snd b) _ H); auto.
Qed.
Definition descending (l : list (nat * list Z * F)) : Prop := StronglySorted (fun a b => lt (snd a) (snd b) = false) l.
Lemma pick_ok : forall l depth seen, descending l ->
  let out := qap_pick depth seen l in
  (length out <= depth)%nat /\ incl out l /\ descending out /\ NoDup (map (fun x => fst (fst x)) out) /\
  (forall x, In x out -> ~ In (fst (fst x)) seen) /\
  forall x, In x l -> ~ In (fst (fst x)) seen ->
    (exists y, In y out /\ fst (fst y) = fst (fst x) /\ lt (snd y) (snd x) = false) \/
    (length out = depth /\ forall y, In y out -> lt (snd y) (snd x) = false).
Proof.
  induction l as [|[[j c] s] l IH]; intros depth seen D; cbn zeta.
  - destruct depth; cbn; (split; [clear; lia|]); (split; [intros ? []|]); (split; [constructor|]); (split; [constructor|]); (split; [intros ? []|]); intros ? [].
  - inversion D as [|? ? D' Fx]; subst. rewrite Forall_forall in Fx. destruct depth as [|d]; cbn [qap_pick].
    + split; [clear; cbn; lia|]. split; [intros ? []|]. split; [constructor|]. split; [constructor|]. split; [intros ? []|].
      intros x _ _. right. split; [reflexivity|intros ? []].
    + destruct (existsb (Nat.eqb j) seen) eqn:E.
      * destruct (IH (S d) seen D') as (I1 & I2 & I3 & I4 & I5 & I6). split; [exact I1|]. split; [intros x Hx; right; apply I2, Hx|].
        split; [exact I3|]. split; [exact I4|]. split; [exact I5|]. intros x [<-|Hx] Hn; [|auto].
        exfalso. apply Hn. cbn. apply existsb_exists in E. destruct E as (k & Hk & Ek). apply Nat.eqb_eq in Ek. subst. exact Hk.
      * assert (Hj : ~ In j seen).
        { intros Hj. assert (existsb (Nat.eqb j) seen = true); [|congruence]. apply existsb_exists. exists j. split; [exact Hj|apply Nat.eqb_refl]. }
        destruct (IH d (j :: seen) D') as (I1 & I2 & I3 & I4 & I5 & I6). set (out := qap_pick d (j :: seen) l) in *.
        split; [cbn; clear - I1; lia|]. split; [intros x [<-|Hx]; [left; reflexivity|right; apply I2, Hx]|].
        split; [constructor; [exact I3|apply Forall_forall; intros y Hy; apply Fx, I2, Hy]|].
        split.
        { cbn. constructor; [|exact I4]. intros Hin. apply in_map_iff in Hin. destruct Hin as (y & Ey & Hy). apply (I5 y Hy). left. congruence. }
        split; [intros x [<-|Hx]; [exact Hj|]; intros Hs; apply (I5 x Hx); right; exact Hs|].
        intros x Hx Hn. assert (Hs : lt s (snd x) = false).
        { destruct Hx as [<-|Hx]; [apply W|exact (Fx x Hx)]. }
        destruct (Nat.eq_dec (fst (fst x)) j) as [Ej|Nj].
        { left. exists (j, c, s). split; [left; reflexivity|]. split; [exact (eq_sym Ej)|exact Hs]. }
        destruct Hx as [<-|Hx]; [cbn in Nj; congruence|].
        destruct (I6 x Hx ltac:(intros [H|H]; [congruence|contradiction])) as [(y & Hy & Ey & Ly)|[L A]].
        -- left. exists y. split; [right; exact Hy|]. auto.
        -- right. split; [cbn; congruence|]. intros y [<-|Hy]; [exact Hs|auto].
Qed.

Lemma answers_ok depth len window query covers : (0 < len)%nat -> Forall (passage_fits window) covers ->
  (forall r, In r covers -> in_order (tokenize (around translate window r)) (around translate window r) /\
    Z.of_nat (length (around translate window r)) < 18446744073709551616) ->
  exists out, qap_answers zero add lt sort cube rare translate split tokenize depth len window query covers = Ok out /\
    answers_of zero add lt cube rare translate split tokenize depth len window query covers out.
Proof.
  intros Hl Hc Ht. unfold qap_answers. cbv zeta.
  assert (Em : map (qap_fragment translate window) covers = map (around translate window) covers).
  { apply map_ext_in. intros r Hr. apply fragment_ok. rewrite Forall_forall in Hc. auto. }
  rewrite Em. set (w := qap_weights add cube rare translate split window query covers).
  apply wp_exists. apply wp_bind. eapply wp_mono; [apply (all_ok len Hl _ 0%nat)|].
  - intros text Hi. apply in_map_iff in Hi. destruct Hi as (r & <- & Hr). auto.
  - intros cs Hcs. cbv beta in Hcs. apply wp_ok. set (scored := map _ cs).
    destruct (HS _ (qap_better lt) scored better_order) as [P O]. set (l := sort _ (qap_better lt) scored) in *.
    assert (D : descending l) by exact O.
    destruct (pick_ok l depth [] D) as (I1 & I2 & I3 & I4 & _ & I6).
    exists (qap_pick depth [] l). split; [reflexivity|]. split; [exact I1|]. split; [exact I4|]. split; [exact I3|].
    assert (Sc : forall j c s, In (j, c, s) l <-> In (j, c) cs /\ s = qap_score zero add split w c).
    { intros j c s. transitivity (In (j, c, s) scored); [split; apply Permutation_in; [symmetry|]; exact P|]. unfold scored.
      rewrite in_map_iff. split.
      - intros ([j' c'] & [= <- <- <-] & Hin). auto.
      - intros [Hin ->]. exists (j, c). auto. }
    assert (Nt : forall i text, nth_error (map (around translate window) covers) i = Some text <->
       exists r, nth_error covers i = Some r /\ text = around translate window r).
    { intros i text. rewrite nth_error_map. destruct (nth_error covers i) as [r|]; cbn; split.
      - intros [= <-]. eauto.
      - intros (r' & [= <-] & ->). reflexivity.
      - discriminate.
      - intros (r' & E & _). discriminate. }
    split.
    + intros j c s Hin. apply I2, Sc in Hin. destruct Hin as [Hin ->]. apply Hcs in Hin. destruct Hin as (i & text & -> & E & Hcand).
      apply Nt in E. destruct E as (r & E & ->). exists r. split; [exact E|]. split; [exact Hcand|]. exact (score_ok window query covers c Hc).
    + intros j r c E Hcand. exists (qap_score zero add split w c). split; [exact (score_ok window query covers c Hc)|].
      assert (Hin : In (j, c, qap_score zero add split w c) l).
      { apply Sc. split; [|reflexivity]. apply Hcs. exists j, (around translate window r). split; [reflexivity|]. split; [apply Nt; eauto|exact Hcand]. }
      destruct (I6 _ Hin (fun H => H)) as [([[j' c'] s'] & Hy & Ej & Ly)|[L A]].
      * left. exists c', s'. cbn in Ej, Ly. subst j'. auto.
      * right. auto.
Qed.
End Qap.
