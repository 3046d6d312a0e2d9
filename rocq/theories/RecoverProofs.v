(** Proofs about the choice of shards on reopening. *)
From Verif Require Import Base Bytes NameModel NameSpec NameProofs.
From Coq Require Import Sorting.Permutation Sorting.Sorted.

Lemma apart_nil : apart [].
Proof. constructor. Qed.
Lemma apart_snoc l x : apart l -> Forall (fun y => s_end y < s_start x) l -> apart (l ++ [x]).
Proof.
  induction l as [|a l IH]; intros A F; cbn; [repeat constructor|]. inversion A; inversion F; subst. constructor; [apply IH; assumption|].
  apply Forall_app. split; [assumption|]. repeat constructor. assumption.
Qed.
Lemma apart_two l x y : apart l -> In x l -> In y l -> range_ok x -> range_ok y -> x = y \/ s_end x < s_start y \/ s_end y < s_start x.
Proof.
  induction 1 as [|a l S IH F]; intros Hx Hy Ox Oy; [destruct Hx|]. rewrite Forall_forall in F.
  destruct Hx as [->|Hx], Hy as [->|Hy]; auto.
Qed.
(** * normalize *)
Section Normalize.
(** Invariant: [done] are the shards seen so far. *)
Lemma loop_ok : forall found living dead done l d,
  (forall x y, In x done -> In y found -> s_start x <= s_start y) ->
  StronglySorted (fun a b => ~ shard_lt b a) found -> Forall range_ok found -> Forall range_ok done ->
  Permutation done (rev living ++ rev dead) -> apart (rev living) -> (forall x, In x dead -> exists y, In y living /\ within x y) ->
  (forall x b, hd_error living = Some b -> In x done -> s_end x <= s_end b) ->
  normalize_loop found living dead = Some (l, d) ->
  Permutation (done ++ found) (l ++ d) /\ apart l /\ (forall x, In x d -> exists y, In y l /\ within x y).
Proof.
  induction found as [|x found IH]; intros living dead done l d Hsep S O Od P A D M H; cbn [normalize_loop] in H.
  { injection H as <- <-. rewrite app_nil_r. split; [exact P|]. split; [exact A|]. intros x Hx. apply in_rev in Hx.
    destruct (D x Hx) as (y & Hy & W). exists y. split; [apply in_rev in Hy; exact Hy|exact W]. }
  inversion S as [|? ? S1 F]; inversion O as [|? ? Ox O1]; subst.
  assert (Sep' : forall a y, In a (done ++ [x]) -> In y found -> s_start a <= s_start y).
  { intros a y Ha Hy. apply in_app_or in Ha. destruct Ha as [Ha|[<-|[]]]; [apply Hsep; [exact Ha|right; exact Hy]|].
    rewrite Forall_forall in F. specialize (F y Hy). unfold shard_lt in F. lia. }
  assert (Od' : Forall range_ok (done ++ [x])) by (apply Forall_app; split; [exact Od|repeat constructor; apply Ox]).
  assert (Ol : forall y, In y living -> range_ok y).
  { intros y Hy. rewrite Forall_forall in Od. apply Od. apply (Permutation_in _ (Permutation_sym P)). apply in_or_app. left. rewrite <- in_rev. exact Hy. }
  replace (done ++ x :: found) with ((done ++ [x]) ++ found) by (rewrite <- app_assoc; reflexivity).
  destruct living as [|b living].
  - apply (IH [x] dead (done ++ [x]) l d); try assumption.
    + cbn [rev app] in P |- *. rewrite <- P. symmetry. apply Permutation_cons_append.
    + repeat constructor.
    + intros a Ha. destruct (D a Ha) as (y & [] & _).
    + cbn. intros a c E Ha. injection E as <-. apply in_app_or in Ha. destruct Ha as [Ha|[<-|[]]]; [|lia].
      apply (Permutation_in _ P) in Ha. cbn in Ha. apply in_rev in Ha. destruct (D a Ha) as (y & [] & _).
  - destruct (Z.ltb_spec (s_end b) (s_start x)) as [L|L].
    + apply (IH (x :: b :: living) dead (done ++ [x]) l d); try assumption.
      * change (rev (x :: b :: living)) with (rev (b :: living) ++ [x]). rewrite P, <- !app_assoc. apply Permutation_app_head. apply Permutation_app_comm.
      * change (rev (x :: b :: living)) with (rev (b :: living) ++ [x]). apply apart_snoc; [exact A|]. apply Forall_forall. intros y Hy.
        assert (Hy' : In y done) by (apply (Permutation_in _ (Permutation_sym P)), in_or_app; left; exact Hy).
        specialize (M y b eq_refl Hy'). lia.
      * intros a Ha. destruct (D a Ha) as (y & Hy & W). exists y. split; [right; exact Hy|exact W].
      * cbn. intros a c E Ha. injection E as <-. apply in_app_or in Ha. destruct Ha as [Ha|[<-|[]]]; [|lia].
        specialize (M a b eq_refl Ha). destruct Ox. lia.
    + destruct (Z.leb_spec (s_end x) (s_end b)) as [L2|L2]; [|discriminate].
      apply (IH (b :: living) (x :: dead) (done ++ [x]) l d); try assumption.
      * change (rev (x :: dead)) with (rev dead ++ [x]). rewrite P, <- !app_assoc. reflexivity.
      * intros a [<-|Ha]; [|apply D; exact Ha]. exists b. split; [left; reflexivity|]. split; [|exact L2].
        apply Hsep; [|left; reflexivity]. apply (Permutation_in _ (Permutation_sym P)), in_or_app. left. rewrite <- in_rev. left. reflexivity.
      * intros a c E Ha. injection E as <-. apply in_app_or in Ha. destruct Ha as [Ha|[<-|[]]]; [apply (M a b eq_refl Ha)|exact L2].
Qed.
Lemma loop_fail : forall found living dead done,
  (forall x y, In x done -> In y found -> ~ shard_lt y x) ->
  StronglySorted (fun a b => ~ shard_lt b a) found -> Forall range_ok found ->
  (forall b, In b living -> In b done) -> (living = [] -> done = []) ->
  (forall x b, hd_error living = Some b -> In x done -> s_end x <= s_end b) ->
  normalize_loop found living dead = None ->
  exists b x, In b (done ++ found) /\ In x (done ++ found) /\ s_start b < s_start x /\ s_start x <= s_end b /\ s_end b < s_end x /\
    forall y, In y (done ++ found) -> within b y -> s_end y <= s_end b.
Proof.
  induction found as [|x found IH]; intros living dead done Hsep S O L N M H; cbn [normalize_loop] in H; [discriminate|].
  inversion S as [|? ? S1 F]; inversion O as [|? ? Ox O1]; subst.
  assert (Sep' : forall a y, In a (done ++ [x]) -> In y found -> ~ shard_lt y a).
  { intros a y Ha Hy. apply in_app_or in Ha. destruct Ha as [Ha|[<-|[]]]; [apply Hsep; [exact Ha|right; exact Hy]|].
    rewrite Forall_forall in F. exact (F y Hy). }
  replace (done ++ x :: found) with ((done ++ [x]) ++ found) by (rewrite <- app_assoc; reflexivity).
  destruct living as [|b living].
  { rewrite (N eq_refl) in *. apply (IH [x] dead); try assumption; [|discriminate|].
    - intros b [<-|[]]. left. reflexivity.
    - cbn. intros a c E [<-|[]]. injection E as <-. lia. }
  destruct (Z.ltb_spec (s_end b) (s_start x)) as [E|E].
  { apply (IH (x :: b :: living) dead); try assumption; [|discriminate|].
    - intros c [<-|Hc]; apply in_or_app; [right; left; reflexivity|left; apply L; exact Hc].
    - cbn. intros a c E' Ha. injection E' as <-. apply in_app_or in Ha. destruct Ha as [Ha|[<-|[]]]; [|lia].
      specialize (M a b eq_refl Ha). destruct Ox. lia. }
  destruct (Z.leb_spec (s_end x) (s_end b)) as [E2|E2].
  { apply (IH (b :: living) (x :: dead)); try assumption; [|discriminate|].
    - intros c Hc. apply in_or_app. left. apply L. exact Hc.
    - cbn. intros a c E' Ha. injection E' as <-. apply in_app_or in Ha. destruct Ha as [Ha|[<-|[]]]; [apply (M a b eq_refl Ha)|exact E2]. }
  exists b, x. assert (Hb : In b done) by (apply L; left; reflexivity). pose proof (Hsep b x Hb (or_introl eq_refl)) as K. unfold shard_lt in K.
  split; [apply in_or_app; left; apply in_or_app; left; exact Hb|]. split; [apply in_or_app; left; apply in_or_app; right; left; reflexivity|].
  split; [lia|]. split; [lia|]. split; [lia|]. intros y Hy W. rewrite <- app_assoc in Hy. apply in_app_or in Hy. destruct Hy as [Hy|Hy].
  - exact (M y b eq_refl Hy).
  - pose proof (Hsep b y Hb Hy) as Ky. unfold shard_lt in Ky. unfold within in W. lia.
Qed.
Theorem normalize_some : forall sort found living dead, sorts shard_lt sort -> Forall range_ok found ->
  normalize sort found = Some (living, dead) -> Permutation found (living ++ dead) /\ selects found living.
Proof.
  intros sort found living dead Hs O H. destruct (Hs found) as [P S]. unfold normalize in H.
  destruct (loop_ok (sort found) [] [] [] living dead) as (Q & A & D); try assumption; try (now constructor).
  - intros x y [].
  - apply Forall_forall. intros x Hx. rewrite Forall_forall in O. apply O. apply (Permutation_in _ (Permutation_sym P)). exact Hx.
  - intros x [].
  - intros x b E. discriminate.
  - cbn [app] in Q. assert (Q' : Permutation found (living ++ dead)) by (rewrite P; exact Q). split; [exact Q'|]. split; [|split].
    + intros x Hx. apply (Permutation_in _ (Permutation_sym Q')). apply in_or_app. left. exact Hx.
    + exact A.
    + intros x Hx. apply (Permutation_in _ Q') in Hx. apply in_app_or in Hx. destruct Hx as [Hx|Hx]; [|apply D; exact Hx].
      exists x. split; [exact Hx|]. unfold within. lia.
Qed.
Lemma normalize_clash : forall sort found, sorts shard_lt sort -> Forall range_ok found -> normalize sort found = None ->
  exists b x, In b found /\ In x found /\ s_start b < s_start x /\ s_start x <= s_end b /\ s_end b < s_end x.
Proof.
  intros sort found Hs O H. destruct (Hs found) as [P S].
  destruct (loop_fail (sort found) [] [] []) as (b & x & Hb & Hx & L1 & L2 & L3 & Mx); try assumption.
  - intros a y [].
  - apply Forall_forall. intros x Hx. rewrite Forall_forall in O. apply O. apply (Permutation_in _ (Permutation_sym P)). exact Hx.
  - intros b [].
  - reflexivity.
  - intros a b E. discriminate.
  - exists b, x. cbn [app] in *. repeat split; try assumption; apply (Permutation_in _ (Permutation_sym P)); assumption.
Qed.
Theorem normalize_none : forall sort found kept, sorts shard_lt sort -> Forall range_ok found -> normalize sort found = None -> ~ selects found kept.
Proof.
  intros sort found kept Hs O H (K1 & K2 & K3). destruct (Hs found) as [P S].
  destruct (loop_fail (sort found) [] [] []) as (b & x & Hb & Hx & L1 & L2 & L3 & Mx); try assumption.
  - intros a y [].
  - apply Forall_forall. intros x Hx. rewrite Forall_forall in O. apply O. apply (Permutation_in _ (Permutation_sym P)). exact Hx.
  - intros b [].
  - reflexivity.
  - intros a b E. discriminate.
  - cbn [app] in *. assert (Hb' := Permutation_in _ (Permutation_sym P) Hb). assert (Hx' := Permutation_in _ (Permutation_sym P) Hx).
    destruct (K3 b Hb') as (y & Hy & W1). destruct (K3 x Hx') as (z & Hz & W2). rewrite Forall_forall in O.
    assert (E : y = z).
    { destruct (apart_two kept y z K2 Hy Hz) as [E|[E|E]]; [apply O, K1, Hy|apply O, K1, Hz|exact E| |]; unfold within in *; pose proof (O _ Hx'); unfold range_ok in *; exfalso; lia. }
    subst z. specialize (Mx y (Permutation_in _ P (K1 _ Hy)) W1). unfold within in W2. lia.
Qed.
End Normalize.

(** * What is selected is determined *)
Lemma apart_map_eq : forall l1 l2, apart l1 -> apart l2 -> Forall range_ok l1 -> Forall range_ok l2 ->
  (forall x, In x l1 -> exists y, In y l2 /\ range y = range x) -> (forall y, In y l2 -> exists x, In x l1 /\ range x = range y) ->
  map range l1 = map range l2.
Proof.
  induction l1 as [|a l1 IH]; intros l2 A1 A2 O1 O2 H1 H2.
  - destruct l2 as [|b l2]; [reflexivity|]. destruct (H2 b (or_introl eq_refl)) as (x & [] & _).
  - destruct l2 as [|b l2]; [destruct (H1 a (or_introl eq_refl)) as (x & [] & _)|].
    inversion A1 as [|? ? A1' F1]; inversion A2 as [|? ? A2' F2]; inversion O1 as [|? ? Oa O1']; inversion O2 as [|? ? Ob O2']; subst.
    rewrite Forall_forall in F1, F2. unfold range_ok, range in *.
    assert (E : range a = range b).
    { destruct (H1 a (or_introl eq_refl)) as (y & Hy & Ey). destruct Hy as [->|Hy]; [symmetry; exact Ey|].
      destruct (H2 b (or_introl eq_refl)) as (x & Hx & Ex). destruct Hx as [->|Hx]; [exact Ex|].
      specialize (F1 x Hx). specialize (F2 y Hy). injection Ey as E1 E2. injection Ex as E3 E4. lia. }
    cbn [map]. f_equal; [exact E|]. unfold range in E. injection E as E1 E2. apply IH; try assumption.
    + intros x Hx. destruct (H1 x (or_intror Hx)) as (y & [<-|Hy] & Ey); [|exists y; auto]. specialize (F1 x Hx). injection Ey as E3 E4. lia.
    + intros y Hy. destruct (H2 y (or_intror Hy)) as (x & [<-|Hx] & Ex); [|exists x; auto]. specialize (F2 y Hy). injection Ex as E3 E4. lia.
Qed.
(** Selections from two sets of shards, where one has all the kept shards of the other,
    keep the same ranges. *)
Definition picks (found : shard -> Prop) (kept : list shard) : Prop :=
  (forall x, In x kept -> found x) /\ apart kept /\ forall x, found x -> exists y, In y kept /\ within x y.
Theorem picks_same : forall (f1 f2 : shard -> Prop) k1 k2, (forall x, f1 x -> range_ok x) -> picks f1 k1 -> picks f2 k2 ->
  (forall x, f2 x -> f1 x) -> (forall x, In x k1 -> f2 x) -> map range k1 = map range k2.
Proof.
  intros f1 f2 k1 k2 O (A1 & B1 & C1) (A2 & B2 & C2) H21 H12.
  assert (O1 : forall x, In x k1 -> range_ok x) by (intros; apply O; auto).
  assert (O2 : forall x, In x k2 -> range_ok x) by (intros; apply O; auto).
  assert (X : forall x, In x k1 -> exists y, In y k2 /\ range y = range x).
  { intros x Hx. destruct (C2 x (H12 x Hx)) as (y & Hy & W). destruct (C1 y (H21 _ (A2 _ Hy))) as (z & Hz & W').
    assert (x = z) as <-.
    { destruct (apart_two k1 x z B1 Hx Hz (O1 _ Hx) (O1 _ Hz)) as [E|E]; [exact E|]. specialize (O1 _ Hx). unfold within, range_ok in *. exfalso. lia. }
    exists y. split; [exact Hy|]. unfold range, within in *. f_equal; lia. }
  apply apart_map_eq; try assumption; try (apply Forall_forall; assumption).
  intros y Hy. destruct (C1 y (H21 _ (A2 _ Hy))) as (z & Hz & W'). destruct (X z Hz) as (y' & Hy' & E').
  assert (y = y') as <-.
  { destruct (apart_two k2 y y' B2 Hy Hy' (O2 _ Hy) (O2 _ Hy')) as [E|E]; [exact E|]. specialize (O2 _ Hy). unfold range, within, range_ok in *.
    injection E' as E1 E2. exfalso. lia. }
  exists z. split; [exact Hz|]. symmetry. exact E'.
Qed.
Theorem selects_same : forall f1 k1 f2 k2, Forall range_ok f1 -> selects f1 k1 -> selects f2 k2 ->
  (forall x, In x f2 -> In x f1) -> (forall x, In x k1 -> In x f2) -> map range k1 = map range k2.
Proof.
  intros f1 k1 f2 k2 O A B H21 H12. rewrite Forall_forall in O. exact (picks_same (fun x => In x f1) (fun x => In x f2) k1 k2 O A B H21 H12).
Qed.

(** * sanitize *)
Definition shard_of (prefix n : bytes) (x : shard) : Prop := s_name x = n /\ names_range prefix n (s_start x) (s_end x).
Lemma parse_all_ok prefix names : forall l, parse_all prefix names = Some l <-> Forall2 (shard_of prefix) names l.
Proof.
  induction names as [|n names IH]; intros l; cbn [parse_all].
  - split; [intros H; injection H as <-; constructor|]. intros H. inversion H. reflexivity.
  - destruct (parse_shard_name n prefix) as [[s e]|] eqn:Ep.
    + destruct (parse_all prefix names) as [r|].
      * split.
        -- intros H. injection H as <-. constructor; [split; [reflexivity|apply parse_exact; exact Ep]|]. apply IH. reflexivity.
        -- intros H. inversion H as [|? x ? r' Hx Hr]; subst. apply IH in Hr. injection Hr as <-. destruct Hx as [<- Hx]. apply parse_exact in Hx.
           rewrite Ep in Hx. injection Hx as -> ->. destruct x. reflexivity.
      * split; [discriminate|]. intros H. inversion H as [|? x ? r' Hx Hr]; subst. apply IH in Hr. discriminate.
    + split; [discriminate|]. intros H. inversion H as [|? x ? r' Hx Hr]; subst. destruct Hx as [_ Hx]. apply parse_exact in Hx. rewrite Ep in Hx. discriminate.
Qed.
Lemma parse_all_none prefix names : parse_all prefix names = None -> exists n, In n names /\ forall s e, ~ names_range prefix n s e.
Proof.
  induction names as [|n names IH]; cbn [parse_all]; [discriminate|]. destruct (parse_shard_name n prefix) as [[s e]|] eqn:Ep.
  - destruct (parse_all prefix names); [discriminate|]. intros _. destruct (IH eq_refl) as (m & Hm & K). exists m. split; [right; exact Hm|exact K].
  - intros _. exists n. split; [left; reflexivity|]. intros s e K. apply parse_exact in K. rewrite Ep in K. discriminate.
Qed.
Lemma parsed_in prefix names l : parse_all prefix names = Some l -> forall x, In x l <-> (In (s_name x) names /\ names_range prefix (s_name x) (s_start x) (s_end x)).
Proof.
  intros H. apply parse_all_ok in H. intros x. induction H as [|n y names l Hy _ IH]; cbn [In]; [tauto|]. destruct Hy as [<- Hy]. rewrite IH. split.
  - intros [->|[A B]]; [auto|]. auto.
  - intros [[E|A] B]; [|auto]. left. destruct x as [xs xe xn], y as [ys ye yn]. cbn in *. subst yn. destruct (range_unique _ _ _ _ _ _ Hy B) as [-> ->]. reflexivity.
Qed.
Lemma parsed_ok prefix names l : parse_all prefix names = Some l -> Forall range_ok l.
Proof. intros H. apply Forall_forall. intros x Hx. apply (parsed_in _ _ _ H) in Hx. destruct Hx as [_ (A & _)]. exact A. Qed.
Lemma verify_dead_ok living dead : (forall x, In x dead -> exists y, In y living /\ within x y) -> verify_dead living dead = true.
Proof.
  intros H. apply forallb_forall. intros x Hx. destruct (H x Hx) as (y & Hy & W). apply existsb_exists. exists y. split; [exact Hy|].
  unfold range_contains, within in *. lia.
Qed.
(** The shards a list of names names. *)
Definition named (prefix : bytes) (names : list bytes) (x : shard) : Prop := In (s_name x) names /\ names_range prefix (s_name x) (s_start x) (s_end x).
Theorem sanitize_some : forall sort prefix names living removed, sorts shard_lt sort ->
  sanitize_names sort prefix names = Some (living, removed) ->
  Permutation names (map s_name living ++ removed) /\ (forall n, In n names -> exists s e, names_range prefix n s e) /\
  (forall x, In x living -> named prefix names x) /\ apart living /\ (forall x, named prefix names x -> exists y, In y living /\ within x y).
Proof.
  intros sort prefix names living removed Hs H. unfold sanitize_names in H. destruct (parse_all prefix names) as [found|] eqn:Ep; [|discriminate].
  destruct (normalize sort found) as [[l d]|] eqn:En; [|discriminate]. destruct (verify_dead l d) eqn:Ev; [|discriminate]. injection H as <- <-.
  destruct (normalize_some sort found l d Hs (parsed_ok _ _ _ Ep) En) as [P (A & B & C)].
  assert (Nm : names = map s_name found).
  { clear - Ep. apply parse_all_ok in Ep. induction Ep as [|n x names l [<- _] _ IH]; [reflexivity|]. cbn. f_equal. exact IH. }
  split; [rewrite Nm, <- map_app; apply Permutation_map; exact P|]. split; [|split; [|split; [exact B|]]].
  - intros n Hn. rewrite Nm in Hn. apply in_map_iff in Hn. destruct Hn as (x & <- & Hx). apply (parsed_in _ _ _ Ep) in Hx. destruct Hx as [_ K]. eauto.
  - intros x Hx. apply (parsed_in _ _ _ Ep), A, Hx.
  - intros x Hx. apply C. apply (parsed_in _ _ _ Ep). exact Hx.
Qed.
Lemma sanitize_clash : forall sort prefix names, sorts shard_lt sort -> sanitize_names sort prefix names = None ->
  (exists n, In n names /\ forall s e, ~ names_range prefix n s e) \/
  exists b x, named prefix names b /\ named prefix names x /\ s_start b < s_start x /\ s_start x <= s_end b /\ s_end b < s_end x.
Proof.
  intros sort prefix names Hs H. unfold sanitize_names in H. destruct (parse_all prefix names) as [found|] eqn:Ep; [|left; apply parse_all_none; exact Ep].
  right. pose proof (parsed_ok _ _ _ Ep) as O. destruct (normalize sort found) as [[l d]|] eqn:En.
  - destruct (normalize_some sort found l d Hs O En) as [P (A & B & C)]. rewrite verify_dead_ok in H; [discriminate|].
    intros x Hx. apply C. apply (Permutation_in _ (Permutation_sym P)), in_or_app. right. exact Hx.
  - destruct (normalize_clash sort found Hs O En) as (b & x & Hb & Hx & K). exists b, x. split; [exact (proj1 (parsed_in _ _ _ Ep b) Hb)|].
    split; [exact (proj1 (parsed_in _ _ _ Ep x) Hx)|exact K].
Qed.
Theorem sanitize_none : forall sort prefix names, sorts shard_lt sort -> sanitize_names sort prefix names = None ->
  (exists n, In n names /\ forall s e, ~ names_range prefix n s e) \/
  (forall kept, apart kept -> (forall x, In x kept -> named prefix names x) -> exists x, named prefix names x /\ forall y, In y kept -> ~ within x y).
Proof.
  intros sort prefix names Hs H. unfold sanitize_names in H. destruct (parse_all prefix names) as [found|] eqn:Ep; [|left; apply parse_all_none; exact Ep].
  right. pose proof (parsed_ok _ _ _ Ep) as O. destruct (normalize sort found) as [[l d]|] eqn:En.
  - destruct (normalize_some sort found l d Hs O En) as [P (A & B & C)]. rewrite verify_dead_ok in H; [discriminate|].
    intros x Hx. apply C. apply (Permutation_in _ (Permutation_sym P)), in_or_app. right. exact Hx.
  - intros kept K1 K2. pose proof (normalize_none sort found kept Hs O En) as N.
    assert (D : forall x, {exists y, In y kept /\ within x y} + {forall y, In y kept -> ~ within x y}).
    { intros x. clear. induction kept as [|y kept IH]; [right; intros y []|].
      assert (W : {within x y} + {~ within x y}).
      { unfold within. destruct (Z_le_gt_dec (s_start y) (s_start x)); [|right; lia]. destruct (Z_le_gt_dec (s_end x) (s_end y)); [left; lia|right; lia]. }
      destruct W as [W|W]; [left; exists y; split; [left; reflexivity|exact W]|].
      destruct IH as [E|E]; [left|right]; [destruct E as (z & Hz & Wz); exists z; split; [right; exact Hz|exact Wz]|].
      intros z [<-|Hz]; [exact W|apply E; exact Hz]. }
    assert (Q : Exists (fun x => forall y, In y kept -> ~ within x y) found \/ Forall (fun x => exists y, In y kept /\ within x y) found).
    { clear - D. induction found as [|x found [E|F]]; [right; constructor|left; apply Exists_cons_tl; exact E|].
      destruct (D x) as [K|K]; [right; constructor; assumption|left; apply Exists_cons_hd; exact K]. }
    destruct Q as [Q|Q].
    + apply Exists_exists in Q. destruct Q as (x & Hx & K). exists x. split; [apply (parsed_in _ _ _ Ep); exact Hx|exact K].
    + exfalso. apply N. rewrite Forall_forall in Q. split; [|split; [exact K1|exact Q]]. intros x Hx. apply (parsed_in _ _ _ Ep), K2, Hx.
Qed.
(** Run again after some of the files to remove are gone: the same ranges are kept. *)
Theorem sanitize_again : forall sort prefix names names' living removed, sorts shard_lt sort ->
  sanitize_names sort prefix names = Some (living, removed) ->
  (forall n, In n names' -> In n names) -> (forall n, In n names -> ~ In n names' -> In n removed) -> NoDup names ->
  exists living' removed', sanitize_names sort prefix names' = Some (living', removed') /\ map range living' = map range living /\
    (forall n, In n removed' -> In n names').
Proof.
  intros sort prefix names names' living removed Hs H H1 H2 Nd. destruct (sanitize_some _ _ _ _ _ Hs H) as (P & A & B & C & D).
  assert (Liv : forall x, In x living -> named prefix names' x).
  { intros x Hx. destruct (B x Hx) as [K1 K2]. split; [|exact K2]. destruct (in_dec (list_eq_dec Z.eq_dec) (s_name x) names') as [I|I]; [exact I|].
    exfalso. specialize (H2 _ K1 I). apply (Permutation_NoDup P) in Nd. clear - Nd H2 Hx.
    induction living as [|y living IH]; [destruct Hx|]. cbn in Nd. inversion Nd as [|? ? N1 N2]; subst. destruct Hx as [->|Hx]; [|apply IH; assumption].
    apply N1. apply in_or_app. right. exact H2. }
  destruct (sanitize_names sort prefix names') as [[l' r']|] eqn:E.
  - exists l', r'. split; [reflexivity|]. destruct (sanitize_some _ _ _ _ _ Hs E) as (P' & A' & B' & C' & D'). split.
    + unfold sanitize_names in H, E. destruct (parse_all prefix names) as [f1|] eqn:E1; [|discriminate]. destruct (parse_all prefix names') as [f2|] eqn:E2; [|discriminate].
      symmetry. apply (selects_same f1 living f2 l').
      * exact (parsed_ok _ _ _ E1).
      * split; [intros x Hx; apply (parsed_in _ _ _ E1), B, Hx|]. split; [exact C|]. intros x Hx. apply D, (parsed_in _ _ _ E1), Hx.
      * split; [intros x Hx; apply (parsed_in _ _ _ E2), B', Hx|]. split; [exact C'|]. intros x Hx. apply D', (parsed_in _ _ _ E2), Hx.
      * intros x Hx. apply (parsed_in _ _ _ E1). apply (parsed_in _ _ _ E2) in Hx. destruct Hx as [K1 K2]. split; [apply H1; exact K1|exact K2].
      * intros x Hx. apply (parsed_in _ _ _ E2), Liv, Hx.
    + intros n Hn. apply (Permutation_in _ (Permutation_sym P')), in_or_app. right. exact Hn.
  - exfalso. destruct (sanitize_none _ _ _ Hs E) as [(n & Hn & K)|K].
    + destruct (A n (H1 n Hn)) as (s & e & Q). exact (K s e Q).
    + destruct (K living C Liv) as (x & [Kx1 Kx2] & Q). destruct (D x (conj (H1 _ Kx1) Kx2)) as (y & Hy & W). exact (Q y Hy W).
Qed.

(** * combine *)
Lemma verify_order_ok l : forall prev, verify_order prev l = true <->
  Forall range_ok l /\ apart l /\ match prev with None => True | Some e => Forall (fun x => e < s_start x) l end.
Proof.
  induction l as [|x l IH]; intros prev; cbn [verify_order].
  - split; [intros _; split; [constructor|split; [constructor|destruct prev; constructor]]|reflexivity].
  - rewrite !andb_true_iff, IH. unfold range_ok. split.
    + intros ((A & B) & C & D & E). assert (Ox : 0 <= s_start x <= s_end x) by lia. split; [constructor; assumption|].
      split; [constructor; assumption|]. destruct prev as [e|]; [|exact I]. constructor; [lia|]. eapply Forall_impl; [|exact E]. cbn. lia.
    + intros (A & B & C). inversion A; inversion B; subst. split; [split; [lia|]|auto]. destruct prev as [e|]; [|reflexivity]. inversion C; subst. lia.
Qed.
Definition disjoint (a b : shard) : Prop := s_end a < s_start b \/ s_end b < s_start a.
Lemma drop_before_spec hs s : apart hs -> exists pre, hs = pre ++ drop_before hs s /\ Forall (fun h => s_end h < s) pre /\
  match drop_before hs s with [] => True | h :: _ => s <= s_end h end.
Proof.
  induction 1 as [|h hs A IH F]; cbn [drop_before]; [exists []; auto|]. destruct (Z.ltb_spec (s_end h) s) as [L|L].
  - destruct IH as (pre & E & P & M). exists (h :: pre). split; [cbn; f_equal; exact E|]. split; [constructor; assumption|exact M].
  - exists []. split; [reflexivity|]. split; [constructor|exact L].
Qed.
Lemma apart_app a b : apart (a ++ b) -> apart a /\ apart b.
Proof.
  induction a as [|x a IH]; cbn; intros H; [split; [constructor|exact H]|]. inversion H as [|? ? H1 H2]; subst. apply IH in H1. apply Forall_app in H2.
  destruct H1, H2. split; [constructor|]; assumption.
Qed.
Lemma combine_loop_ok : forall fivers hazels kept gone, apart fivers -> Forall range_ok fivers -> apart hazels -> Forall range_ok hazels ->
  combine_loop fivers hazels = Some (kept, gone) ->
  Permutation fivers (kept ++ gone) /\ (forall x, In x gone -> exists h, In h hazels /\ within x h) /\
  (forall x h, In x kept -> In h hazels -> disjoint x h) /\ apart kept /\ (forall x, In x kept -> In x fivers).
Proof.
  induction fivers as [|f fivers IH]; intros hazels kept gone Af Of Ah Oh H; cbn [combine_loop] in H.
  { injection H as <- <-. split; [constructor|]. split; [intros x []|]. split; [intros x h []|]. split; [constructor|intros x []]. }
  inversion Af as [|? ? Af' Ff]; inversion Of as [|? ? Of0 Of']; subst. rewrite Forall_forall in Ff.
  destruct (drop_before_spec hazels (s_start f) Ah) as (pre & E & Pre & M). set (hs := drop_before hazels (s_start f)) in *. clearbody hs.
  assert (Ahs : apart hs /\ Forall range_ok hs). { subst hazels. apply apart_app in Ah. apply Forall_app in Oh. tauto. } destruct Ahs as [Ahs Ohs].
  assert (PreOk : forall x h, In x (f :: fivers) -> In h pre -> disjoint x h).
  { intros x h Hx Hh. rewrite Forall_forall in Pre. specialize (Pre h Hh). right. destruct Hx as [<-|Hx]; [exact Pre|]. specialize (Ff x Hx). unfold range_ok in Of0. lia. }
  assert (Keep : forall kept' gone', combine_loop fivers hs = Some (kept', gone') -> (forall h, In h hs -> disjoint f h) ->
    Permutation (f :: fivers) ((f :: kept') ++ gone') /\ (forall x, In x gone' -> exists h, In h hazels /\ within x h) /\
    (forall x h, In x (f :: kept') -> In h hazels -> disjoint x h) /\ apart (f :: kept') /\ (forall x, In x (f :: kept') -> In x (f :: fivers))).
  { intros kept' gone' Hc Hd. destruct (IH hs kept' gone' Af' Of' Ahs Ohs Hc) as (P & G & K & A & I). split; [cbn; constructor; exact P|]. split; [|split; [|split]].
    - intros x Hx. destruct (G x Hx) as (h & Hh & W). exists h. split; [rewrite E; apply in_or_app; right; exact Hh|exact W].
    - intros x h Hx Hh. rewrite E in Hh. apply in_app_or in Hh. destruct Hh as [Hh|Hh].
      + apply PreOk; [|exact Hh]. destruct Hx as [<-|Hx]; [left; reflexivity|right; apply I; exact Hx].
      + destruct Hx as [<-|Hx]; [apply Hd; exact Hh|apply K; assumption].
    - constructor; [exact A|]. apply Forall_forall. intros x Hx. apply Ff, I, Hx.
    - intros x [<-|Hx]; [left; reflexivity|right; apply I; exact Hx]. }
  destruct hs as [|h hs].
  - destruct (combine_loop fivers []) as [[k g]|] eqn:Ec; [|discriminate]. injection H as <- <-. apply Keep; [reflexivity|]. intros h [].
  - inversion Ahs as [|? ? Ahs' Fh]; inversion Ohs as [|? ? Oh0 Oh']; subst. rewrite Forall_forall in Fh.
    destruct (ranges_overlap h f) eqn:Eo.
    + destruct (range_contains h f) eqn:Er; [|discriminate]. destruct (combine_loop fivers (h :: hs)) as [[k g]|] eqn:Ec; [|discriminate]. injection H as <- <-.
      destruct (IH (h :: hs) k g Af' Of' Ahs Ohs Ec) as (P & G & K & A & I). split; [|split; [|split; [|split]]].
      * apply Permutation_cons_app. exact P.
      * intros x [<-|Hx].
        -- exists h. split; [apply in_or_app; right; left; reflexivity|]. unfold range_contains in Er. unfold within. lia.
        -- destruct (G x Hx) as (h' & Hh & W). exists h'. split; [apply in_or_app; right; exact Hh|exact W].
      * intros x h' Hx Hh. apply in_app_or in Hh. destruct Hh as [Hh|Hh]; [apply PreOk; [right; apply I; exact Hx|exact Hh]|apply K; assumption].
      * exact A.
      * intros x Hx. right. apply I. exact Hx.
    + destruct (combine_loop fivers (h :: hs)) as [[k g]|] eqn:Ec; [|discriminate]. injection H as <- <-. apply Keep; [reflexivity|].
      intros h' [<-|Hh]; unfold ranges_overlap in Eo; unfold disjoint.
      * lia.
      * specialize (Fh h' Hh). unfold range_ok in *. lia.
Qed.
Lemma combine_loop_none : forall fivers hazels, apart fivers -> Forall range_ok fivers -> apart hazels -> Forall range_ok hazels ->
  combine_loop fivers hazels = None -> exists f h, In f fivers /\ In h hazels /\ ~ disjoint f h /\ ~ within f h.
Proof.
  induction fivers as [|f fivers IH]; intros hazels Af Of Ah Oh H; cbn [combine_loop] in H; [discriminate|].
  inversion Af as [|? ? Af' Ff]; inversion Of as [|? ? Of0 Of']; subst.
  destruct (drop_before_spec hazels (s_start f) Ah) as (pre & E & Pre & M). set (hs := drop_before hazels (s_start f)) in *. clearbody hs.
  assert (Ahs : apart hs /\ Forall range_ok hs). { subst hazels. apply apart_app in Ah. apply Forall_app in Oh. tauto. } destruct Ahs as [Ahs Ohs].
  assert (Rec : combine_loop fivers hs = None -> exists f0 h, In f0 (f :: fivers) /\ In h hazels /\ ~ disjoint f0 h /\ ~ within f0 h).
  { intros Hc. destruct (IH hs Af' Of' Ahs Ohs Hc) as (f0 & h & A & B & C). exists f0, h. split; [right; exact A|]. split; [rewrite E; apply in_or_app; right; exact B|exact C]. }
  destruct hs as [|h hs].
  - destruct (combine_loop fivers []) as [[k g]|] eqn:Ec; [discriminate|]. apply Rec. reflexivity.
  - destruct (ranges_overlap h f) eqn:Eo.
    + destruct (range_contains h f) eqn:Er.
      * destruct (combine_loop fivers (h :: hs)) as [[k g]|] eqn:Ec; [discriminate|]. apply Rec. reflexivity.
      * exists f, h. split; [left; reflexivity|]. split; [rewrite E; apply in_or_app; right; left; reflexivity|].
        unfold ranges_overlap, range_contains, disjoint, within in *. lia.
    + destruct (combine_loop fivers (h :: hs)) as [[k g]|] eqn:Ec; [discriminate|]. apply Rec. reflexivity.
Qed.
(** Shards that do not overlap, in the order of their starts, are apart. *)
Lemma pairs_perm (l1 l2 : list shard) : Permutation l1 l2 -> ForallOrdPairs disjoint l1 -> ForallOrdPairs disjoint l2.
Proof.
  assert (Sym : forall a b, disjoint a b -> disjoint b a) by (unfold disjoint; tauto).
  induction 1 as [|x a b P IH|x y a|a b c P1 IH1 P2 IH2]; intros H.
  - exact H.
  - inversion H as [|? ? F Q]; subst. constructor; [apply (Permutation_Forall P); exact F|apply IH; exact Q].
  - inversion H as [|? ? F Q]; subst. inversion Q as [|? ? F' Q']; subst. inversion F; subst. constructor; [constructor; [apply Sym; assumption|assumption]|].
    constructor; assumption.
  - auto.
Qed.
Lemma apart_pairs l : apart l -> ForallOrdPairs disjoint l.
Proof. induction 1 as [|a l A IH F]; constructor; [|exact IH]. eapply Forall_impl; [|exact F]. unfold disjoint. tauto. Qed.
Lemma pairs_app a b : ForallOrdPairs disjoint a -> ForallOrdPairs disjoint b -> (forall x y, In x a -> In y b -> disjoint x y) -> ForallOrdPairs disjoint (a ++ b).
Proof.
  induction 1 as [|x a F H IH]; intros Hb C; [exact Hb|]. cbn. constructor.
  - apply Forall_app. split; [exact F|]. apply Forall_forall. intros y Hy. apply C; [left; reflexivity|exact Hy].
  - apply IH; [exact Hb|]. intros y z Hy Hz. apply C; [right; exact Hy|exact Hz].
Qed.
Lemma pairs_apart l : ForallOrdPairs disjoint l -> Forall range_ok l -> StronglySorted (fun a b => ~ owsla_lt b a) l -> apart l.
Proof.
  induction 1 as [|x l F H IH]; intros O S; [constructor|]. inversion O as [|? ? Ox O']; inversion S as [|? ? S' Fx]; subst.
  constructor; [apply IH; assumption|]. rewrite Forall_forall in *. intros y Hy. specialize (F y Hy). specialize (Fx y Hy). specialize (O' y Hy).
  unfold disjoint, owsla_lt, range_ok in *. lia.
Qed.
Theorem combine_some : forall merge fivers hazels shards gone, sorts owsla_lt merge ->
  combine merge fivers hazels = Some (shards, gone) ->
  apart shards /\ Forall range_ok shards /\ (exists kept, Permutation fivers (kept ++ gone) /\ Permutation (hazels ++ kept) shards) /\
  (forall f, In f gone -> exists h, In h hazels /\ within f h).
Proof.
  intros merge fivers hazels shards gone Hm H. unfold combine in H.
  destruct (verify_order None fivers) eqn:Ef; [|discriminate]. destruct (verify_order None hazels) eqn:Eh; [|discriminate]. cbn [andb] in H.
  apply verify_order_ok in Ef, Eh. destruct Ef as (Of & Af & _). destruct Eh as (Oh & Ah & _).
  destruct (combine_loop fivers hazels) as [[kept g]|] eqn:Ec; [|discriminate]. injection H as <- <-.
  destruct (combine_loop_ok fivers hazels kept g Af Of Ah Oh Ec) as (P & G & K & A & I). destruct (Hm (hazels ++ kept)) as [Pm Sm].
  assert (O' : Forall range_ok (merge (hazels ++ kept))).
  { apply (Permutation_Forall Pm). apply Forall_app. split; [exact Oh|]. apply Forall_forall. intros x Hx. rewrite Forall_forall in Of. apply Of, I, Hx. }
  split; [|split; [exact O'|split]].
  - apply pairs_apart; [|exact O'|exact Sm]. apply (pairs_perm _ _ Pm). apply pairs_app; [apply apart_pairs; exact Ah|apply apart_pairs; exact A|].
    intros h x Hh Hx. specialize (K x h Hx Hh). unfold disjoint in *. tauto.
  - exists kept. split; [exact P|exact Pm].
  - exact G.
Qed.
Theorem combine_none : forall merge fivers hazels, apart fivers -> Forall range_ok fivers -> apart hazels -> Forall range_ok hazels ->
  combine merge fivers hazels = None -> exists f h, In f fivers /\ In h hazels /\ ~ within f h /\ exists n, covers f n /\ covers h n.
Proof.
  intros merge fivers hazels Af Of Ah Oh H. unfold combine in H.
  rewrite (proj2 (verify_order_ok fivers None)) in H by auto. rewrite (proj2 (verify_order_ok hazels None)) in H by auto. cbn [andb] in H.
  destruct (combine_loop fivers hazels) as [[k g]|] eqn:Ec; [discriminate|]. destruct (combine_loop_none _ _ Af Of Ah Oh Ec) as (f & h & Hf & Hh & D & W).
  exists f, h. split; [exact Hf|]. split; [exact Hh|]. split; [exact W|]. rewrite Forall_forall in Of, Oh. specialize (Of f Hf). specialize (Oh h Hh).
  unfold disjoint, covers, range_ok in *. exists (Z.max (s_start f) (s_start h)). lia.
Qed.
