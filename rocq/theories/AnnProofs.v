(** From a batch of annotations to the lists of an index (C14). *)
From Verif Require Import Base HopperModel ArrayDefs GclSpec ArrayProofs UnaryProofs CodecModel PostingModel PostingSpec PostingProofs.
From Coq Require Import Permutation Sorted.

Definition valid (x : iv) : bool := ip x <=? iq x.
(** What ann_loop keeps of the intervals of one feature, after back [b]. *)
Fixpoint keep (b : option iv) (l : list iv) : list iv :=
  match l with
  | [] => []
  | x :: r =>
      if valid x then
        match b with
        | None => x :: keep (Some x) r
        | Some y => if (ip y <=? ip x) && (iq y <=? iq x) then x :: keep (Some x) r else keep b r
        end
      else keep b r
  end.

Lemma ann_loop_eq f pre rest : Forall (fun a => afeat a = f) pre ->
  match rest with [] => True | a :: _ => afeat a <> f end ->
  forall acc cq cf,
  ann_loop f (pre ++ rest) acc cq cf =
    (rev (keep (hd_error acc) (map aiv pre)) ++ acc,
     cq && forallb (fun x => negb (valid x && (ip x <? iq x))) (map aiv pre),
     cf && forallb (fun x => negb (valid x && negb (fzero (ivl x)))) (map aiv pre), rest).
Proof.
  intros F R. induction F as [|a pre Ha _ IH]; intros acc cq cf.
  - cbn [app map keep forallb rev]. rewrite !andb_true_r. destruct rest as [|a rest]; [reflexivity|].
    cbn [ann_loop]. apply Z.eqb_neq in R. rewrite R. reflexivity.
  - cbn [app ann_loop map keep forallb]. rewrite Ha, Z.eqb_refl. set (x := aiv a).
    fold (valid x). destruct (valid x) eqn:Ev; [|rewrite IH; reflexivity].
    assert (E1 : (if ip x <? iq x then false else cq) = cq && negb (ip x <? iq x)) by (destruct (ip x <? iq x), cq; reflexivity).
    assert (E2 : (if negb (fzero (ivl x)) then false else cf) = cf && negb (negb (fzero (ivl x)))) by (destruct (fzero (ivl x)), cf; reflexivity).
    rewrite E1, E2. cbn [andb].
    destruct acc as [|b acc]; cbn [hd_error].
    + rewrite IH. cbn [hd_error rev]. rewrite <- !app_assoc, !andb_assoc. reflexivity.
    + destruct ((ip b <=? ip x) && (iq b <=? iq x)).
      * rewrite IH. cbn [hd_error rev]. rewrite <- !app_assoc, !andb_assoc. reflexivity.
      * rewrite IH. cbn [hd_error]. rewrite !andb_assoc. reflexivity.
Qed.

(** Sorted by end, later start first. *)
Definition iv_le (x y : iv) : Prop := iq x < iq y \/ (iq x = iq y /\ ip y <= ip x).

Lemma keep_in l : StronglySorted iv_le l -> forall b x,
  match b with None => True | Some y => forall z, In z l -> iq y <= iq z end ->
  In x (keep b l) <->
  match b with None => True | Some y => ip y <= ip x end /\ ip x <= iq x /\
  exists l1 l2, l = l1 ++ x :: l2 /\ forall y, In y l1 -> ip y <= iq y -> ip y <= ip x.
Proof.
  induction l as [|a l IH]; intros S b x Hb.
  - split; [intros []|]. intros (_ & _ & [|? ?] & ? & E & _); discriminate.
  - apply StronglySorted_inv in S. destruct S as [S Sa]. rewrite Forall_forall in Sa.
    assert (Hal : forall z, In z l -> iq a <= iq z) by (intros z Hz; specialize (Sa z Hz); unfold iv_le in Sa; lia).
    assert (Hb' : match b with None => True | Some y => forall z, In z l -> iq y <= iq z end)
      by (destruct b; [intros z Hz; apply Hb; right; exact Hz|trivial]).
    assert (SK : forall P : Prop, (ip a <= iq a -> ip a <= ip x \/ P) -> ~ P -> 
       (exists l1 l2, l = l1 ++ x :: l2 /\ (forall y, In y l1 -> ip y <= iq y -> ip y <= ip x)) ->
       exists l1 l2, a :: l = l1 ++ x :: l2 /\ forall y, In y l1 -> ip y <= iq y -> ip y <= ip x).
    { intros P HP NP (l1 & l2 & -> & H). exists (a :: l1), l2. split; [reflexivity|]. intros y [<-|Hy] Hv; [|auto].
      destruct (HP Hv); [assumption|contradiction]. }
    cbn [keep]. unfold valid. destruct (ip a <=? iq a) eqn:Ea.
    + assert (TK : In x (a :: keep (Some a) l) <->
                   ip x <= iq x /\ exists l1 l2, a :: l = l1 ++ x :: l2 /\ forall y, In y l1 -> ip y <= iq y -> ip y <= ip x).
      { cbn [In]. rewrite (IH S (Some a) x Hal). split.
        - intros [->|(H1 & H2 & H3)].
          + split; [lia|]. exists [], l. split; [reflexivity|]. intros y [].
          + split; [exact H2|]. apply (SK False); auto.
        - intros (H2 & l1 & l2 & E & H3). destruct l1 as [|a' l1]; injection E as -> ->; [auto|]. right.
          split; [apply H3; [left; reflexivity|lia]|]. split; [exact H2|]. exists l1, l2. split; [reflexivity|].
          intros y Hy. apply H3. right; exact Hy. }
      destruct b as [y|].
      * specialize (Hb a (or_introl eq_refl)). 
        destruct ((ip y <=? ip a) && (iq y <=? iq a)) eqn:Ey.
        -- rewrite TK. split; [|tauto]. intros (H2 & l1 & l2 & E & H3). split; [|split; [exact H2|exists l1, l2; auto]].
           destruct l1 as [|a' l1]; injection E as -> ->; [lia|]. specialize (H3 a' (or_introl eq_refl)). lia.
        -- rewrite (IH S (Some y) x Hb'). split.
           ++ intros (H1 & H2 & H3). split; [exact H1|]. split; [exact H2|]. apply (SK False); [lia|auto|exact H3].
           ++ intros (H1 & H2 & l1 & l2 & E & H3). split; [exact H1|]. split; [exact H2|].
              destruct l1 as [|a' l1]; injection E as -> ->; [lia|]. exists l1, l2. split; [reflexivity|].
              intros z Hz. apply H3. right; exact Hz.
      * rewrite TK. tauto.
    + rewrite (IH S b x Hb'). split.
      * intros (H1 & H2 & H3). split; [exact H1|]. split; [exact H2|]. apply (SK False); [lia|auto|exact H3].
      * intros (H1 & H2 & l1 & l2 & E & H3). split; [exact H1|]. split; [exact H2|].
        destruct l1 as [|a' l1]; injection E as -> ->; [lia|]. exists l1, l2. split; [reflexivity|].
        intros z Hz. apply H3. right; exact Hz.
Qed.

Lemma keep_kept l : StronglySorted iv_le l -> forall x, In x (keep None l) <->
  (In x l /\ ip x <= iq x) /\ forall y, In y l /\ ip y <= iq y -> nests x y -> ip y = ip x.
Proof.
  intros S x. rewrite (keep_in l S None x Logic.I). split.
  - intros (_ & Hv & l1 & l2 & -> & H). split; [split; [apply in_app_iff; right; left; reflexivity|exact Hv]|].
    intros y [Hy Vy] [N1 N2]. apply in_app_iff in Hy. destruct Hy as [Hy|[<-|Hy]]; [specialize (H y Hy Vy); lia|reflexivity|].
    apply SS_tail in S. apply StronglySorted_inv in S. destruct S as [_ F]. rewrite Forall_forall in F. specialize (F y Hy).
    unfold iv_le in F. lia.
  - intros [[Hx Hv] H]. split; [trivial|]. split; [exact Hv|]. apply in_split in Hx. destruct Hx as (l1 & l2 & ->).
    exists l1, l2. split; [reflexivity|]. intros y Hy Vy.
    pose proof (SS_app _ _ _ S y x Hy (or_introl eq_refl)) as R. unfold iv_le in R.
    destruct (Z_le_gt_dec (ip y) (ip x)); [assumption|].
    assert (ip y = ip x); [|lia]. apply H; [split; [apply in_app_iff; auto|exact Vy]|]. unfold nests; lia.
Qed.

Lemma keep_sorted l : StronglySorted iv_le l -> forall b,
  match b with None => True | Some y => forall z, In z l -> iq y <= iq z end ->
  StronglySorted (fun x y => ip x <= ip y /\ iv_le x y) (keep b l).
Proof.
  induction l as [|a l IH]; intros S b Hb; [constructor|]. apply StronglySorted_inv in S. destruct S as [S Sa]. rewrite Forall_forall in Sa.
  assert (Hal : forall z, In z l -> iq a <= iq z) by (intros z Hz; specialize (Sa z Hz); unfold iv_le in Sa; lia).
  assert (Hb' : match b with None => True | Some y => forall z, In z l -> iq y <= iq z end)
    by (destruct b; [intros z Hz; apply Hb; right; exact Hz|trivial]).
  assert (T : StronglySorted (fun x y => ip x <= ip y /\ iv_le x y) (a :: keep (Some a) l)).
  { constructor; [apply IH; assumption|]. rewrite Forall_forall. intros y Hy. apply (keep_in l S (Some a) y Hal) in Hy.
    destruct Hy as (H & _ & l1 & l2 & -> & _). split; [exact H|]. apply Sa. apply in_app_iff. right; left; reflexivity. }
  cbn [keep]. destruct (valid a); [|apply IH; assumption]. destruct b as [y|]; [|exact T].
  destruct ((ip y <=? ip a) && (iq y <=? iq a)); [exact T|]. apply IH; assumption.
Qed.

Lemma sorted_rising l : StronglySorted (fun x y => ip x <= ip y /\ iv_le x y) l -> rising l.
Proof.
  induction l as [|x l IH]; intros S; [exact Logic.I|]. apply StronglySorted_inv in S. destruct S as [S F]. cbn [rising].
  split; [|exact (IH S)]. destruct l as [|y l]; [trivial|]. inversion F as [|? ? [H1 H2] _]; subst. unfold iv_le in H2. lia.
Qed.
Lemma sorted_gcdup l : StronglySorted (fun x y => ip x <= ip y /\ iv_le x y) l ->
  (forall x, In x l -> finite x) -> (forall x y, In x l -> In y l -> ip x = ip y -> x = y) -> gcdup l.
Proof.
  induction l as [|x l IH]; intros S F D; [exact Logic.I|]. apply StronglySorted_inv in S. destruct S as [S Sx]. cbn [gcdup].
  split; [apply F; left; reflexivity|]. split; [|apply IH; [exact S| |]; intros; [apply F|apply D]; try (right; assumption); assumption].
  destruct l as [|y l]; [trivial|]. inversion Sx as [|? ? [H1 H2] _]; subst. unfold iv_le in H2.
  destruct (Z.eq_dec (ip x) (ip y)) as [E|E].
  - right. apply D; [left; reflexivity|right; left; reflexivity|exact E].
  - left. lia.
Qed.

(** The posting of one group. *)
Definition group (f : Z) (l : list annotation) : list iv := map aiv (filter (fun a => afeat a =? f) l).
Definition group_posting (f : Z) (xs : list iv) : posting :=
  Posting f (map ip (keep None xs))
    (if forallb (fun x => negb (valid x && (ip x <? iq x))) xs then [] else map iq (keep None xs))
    (if forallb (fun x => negb (valid x && negb (fzero (ivl x)))) xs then [] else map ivl (keep None xs)).

Lemma keep_sub l b x : In x (keep b l) -> In x l /\ valid x = true.
Proof.
  revert b. induction l as [|a l IH]; intros b H; [contradiction|]. cbn [keep] in H.
  destruct (valid a) eqn:E; [|destruct (IH _ H); split; [right|]; assumption].
  destruct b as [y|].
  - destruct ((ip y <=? ip a) && (iq y <=? iq a)).
    + destruct H as [<-|H]; [split; [left; reflexivity|exact E]|destruct (IH _ H); split; [right|]; assumption].
    + destruct (IH _ H); split; [right|]; assumption.
  - destruct H as [<-|H]; [split; [left; reflexivity|exact E]|destruct (IH _ H); split; [right|]; assumption].
Qed.

Lemma group_holds f xs : Forall value_ok xs -> holds (group_posting f xs) (keep None xs).
Proof.
  intros V. rewrite Forall_forall in V. apply rep_holds. unfold group_posting.
  destruct (forallb (fun x => negb (valid x && (ip x <? iq x))) xs) eqn:Eq;
  destruct (forallb (fun x => negb (valid x && negb (fzero (ivl x)))) xs) eqn:Ef;
  constructor; cbn [postings qostings fostings feature]; rewrite ?map_length; auto.
  all: unfold ends, vals; cbn [qostings postings fostings].
  all: try (rewrite forallb_forall in Eq); try (rewrite forallb_forall in Ef).
  all: try (apply map_ext_in; intros x Hx; apply keep_sub in Hx; destruct Hx as [Hx Hv]; specialize (Eq x Hx); rewrite Hv in Eq; cbn in Eq;
            unfold valid in Hv; lia).
  all: try (destruct (keep None xs); reflexivity).
  all: rewrite map_length; assert (K : forall x, In x (keep None xs) -> ivl x = 0) by
    (intros x Hx; apply keep_sub in Hx; destruct Hx as [Hx Hv]; specialize (Ef x Hx); rewrite Hv in Ef; cbn in Ef;
     destruct (fzero (ivl x)) eqn:Z0; [|discriminate]; apply fzero_spec in Z0; destruct Z0; [assumption|]; specialize (V x Hx); contradiction).
  all: clear -K; induction (keep None xs) as [|x l IH]; [reflexivity|]; cbn [map length repeat]; rewrite K by (left; reflexivity);
    f_equal; apply IH; intros; apply K; right; assumption.
Qed.

Definition ann_sorted := StronglySorted (fun a b => ann_lt b a = false).
Lemma ann_sorted_le a b : ann_lt b a = false -> afeat a <= afeat b.
Proof. unfold ann_lt. lia. Qed.

Lemma split_group l f : ann_sorted l -> (forall a, In a l -> f <= afeat a) ->
  exists rest, l = filter (fun a => afeat a =? f) l ++ rest /\ (forall a, In a rest -> f < afeat a) /\ ann_sorted rest.
Proof.
  induction l as [|a l IH]; intros S H.
  - exists []. repeat split; [intros a []|constructor].
  - apply StronglySorted_inv in S as S'. destruct S' as [S1 Sa]. rewrite Forall_forall in Sa. cbn [filter].
    destruct (afeat a =? f) eqn:E.
    + destruct (IH S1) as (rest & E1 & H1 & H2); [intros b Hb; apply H; right; exact Hb|].
      exists rest. split; [cbn; f_equal; exact E1|]. auto.
    + assert (L : forall b, In b (a :: l) -> f < afeat b).
      { assert (f <= afeat a) by (apply H; left; reflexivity). intros b [<-|Hb]; [lia|]. pose proof (ann_sorted_le _ _ (Sa b Hb)); lia. }
      exists (a :: l). split; [|split; [exact L|exact S]].
      assert (F0 : filter (fun a0 => afeat a0 =? f) l = []); [|rewrite F0; reflexivity].
      clear -L. induction l as [|b l IH]; [reflexivity|]. cbn [filter].
      assert ((afeat b =? f) = false) as -> by (specialize (L b (or_intror (or_introl eq_refl))); lia).
      apply IH. intros c [<-|Hc]; apply L; cbn; auto.
Qed.

Lemma group_sorted f l : ann_sorted l -> StronglySorted iv_le (group f l).
Proof.
  unfold group. induction l as [|a l IH]; intros S; [constructor|]. apply StronglySorted_inv in S. destruct S as [S Sa]. rewrite Forall_forall in Sa.
  cbn [filter]. destruct (afeat a =? f) eqn:E; [|apply IH; exact S]. cbn [map]. constructor; [apply IH; exact S|].
  rewrite Forall_forall. intros y Hy. apply in_map_iff in Hy. destruct Hy as (b & <- & Hb). apply filter_In in Hb. destruct Hb as [Hb Eb].
  specialize (Sa b Hb). unfold ann_lt in Sa. unfold iv_le. lia.
Qed.

Lemma build_index_ok n : forall l index, ann_sorted l -> (length l <= n)%nat ->
  exists index', build_index n l index = Ok index' /\
    forall f, find_posting index' f =
      match group f l with [] => find_posting index f | xs => Some (group_posting f xs) end.
Proof.
  induction n as [|n IH]; intros l index S L.
  - destruct l as [|a l]; [|cbn in L; lia]. exists index. split; [reflexivity|]. reflexivity.
  - destruct l as [|a l]; [exists index; split; reflexivity|].
    set (f := afeat a). set (la := a :: l) in *.
    assert (Hf : forall b, In b la -> f <= afeat b).
    { apply StronglySorted_inv in S. destruct S as [_ Sa]. rewrite Forall_forall in Sa. intros b [<-|Hb]; [unfold f; lia|].
      apply ann_sorted_le. apply Sa. exact Hb. }
    destruct (split_group la f S Hf) as (rest & E & Hr & Sr).
    set (pre := filter (fun a => afeat a =? f) la) in *.
    assert (Fp : Forall (fun a => afeat a = f) pre).
    { rewrite Forall_forall. intros b Hb. apply filter_In in Hb. destruct Hb as [_ Hb]. lia. }
    assert (Rr : match rest with [] => True | b :: _ => afeat b <> f end).
    { destruct rest as [|b r]; [trivial|]. specialize (Hr b (or_introl eq_refl)). lia. }
    assert (Pn : pre <> []).
    { unfold pre, la, f. cbn [filter]. rewrite Z.eqb_refl. discriminate. }
    assert (EP : posting_from_annotations la = Some (group_posting f (group f la), rest)).
    { unfold posting_from_annotations. unfold la at 1. fold f. rewrite E, (ann_loop_eq f pre rest Fp Rr [] true true).
      rewrite app_nil_r, rev_involutive. cbn [andb hd_error]. rewrite <- E. reflexivity. }
    cbn [build_index]. rewrite EP. cbn [feature group_posting].
    assert (Lr : (length rest <= n)%nat).
    { assert (length la = (length pre + length rest)%nat) by (rewrite E at 1; apply app_length).
      destruct pre; [contradiction|]. cbn [length] in *. lia. }
    destruct (IH rest ((f, group_posting f (group f la)) :: index) Sr Lr) as (index' & EI & H).
    exists index'. split; [exact EI|]. intros g. rewrite H. cbn [find_posting].
    assert (Gg : group g la = if f =? g then map aiv pre else group g rest).
    { destruct (f =? g) eqn:Efg.
      - assert (f = g) as <- by lia. reflexivity.
      - unfold group. rewrite E at 1. rewrite filter_app.
        assert (Z0 : filter (fun a0 => afeat a0 =? g) pre = []).
        { clear -Fp Efg. induction Fp as [|b p Hb _ IHp]; [reflexivity|]. cbn [filter].
          assert ((afeat b =? g) = false) as -> by lia. exact IHp. }
        rewrite Z0. reflexivity. }
    destruct (f =? g) eqn:Efg.
    + assert (f = g) as <- by lia.
      assert (Gr : group f rest = []).
      { unfold group. clear -Hr. induction rest as [|b r IHr]; [reflexivity|]. cbn [filter].
        assert ((afeat b =? f) = false) as -> by (specialize (Hr b (or_introl eq_refl)); lia).
        apply IHr. intros c Hc. apply Hr. right; exact Hc. }
      rewrite Gr. change (map aiv pre) with (group f la) in Gg. fold (group f la).
      destruct (group f la) eqn:Eg; [|reflexivity]. exfalso. apply Pn. unfold group in Eg. apply map_eq_nil in Eg. exact Eg.
    + rewrite Gg. reflexivity.
Qed.

Lemma in_group f l x : In x (group f l) <-> In (Ann f x) l.
Proof.
  unfold group. rewrite in_map_iff. split.
  - intros ([g y] & <- & H). apply filter_In in H. destruct H as [H E]. cbn in *. assert (g = f) as <- by lia. exact H.
  - intros H. exists (Ann f x). split; [reflexivity|]. apply filter_In. split; [exact H|]. cbn. lia.
Qed.

(** C14: the index of a batch. *)
Theorem index_ok : forall batch sorted, sort_result batch sorted ->
  Forall (fun a => value_ok (aiv a)) batch ->
  exists index, build_index (length sorted) sorted [] = Ok index /\
  forall f,
    match find_posting index f with
    | None => forall x, ~ In (Ann f x) batch
    | Some s => feature s = f /\ exists l, holds s l /\ rising l /\ (forall x, In x l <-> kept batch f x) /\
        (starts_distinct batch f -> (forall x, annotated batch f x -> finite x) ->
           gcdup l /\ forall x, In x l <-> innermost_ann batch f x)
    end.
Proof.
  intros batch l' [P S] V.
  assert (HP : forall a, In a l' <-> In a batch).
  { intros a. split; apply Permutation_in; [symmetry; exact P|exact P]. }
  destruct (build_index_ok (length l') l' [] S (Nat.le_refl _)) as (index & E & H).
  exists index. split; [exact E|]. intros f. rewrite H. cbn [find_posting]. destruct (group f l') as [|x0 xs0] eqn:Eg.
  - intros x Hx. apply HP, in_group in Hx. rewrite Eg in Hx. contradiction.
  - set (xs := x0 :: xs0) in *. split; [reflexivity|]. exists (keep None xs).
    assert (Vx : Forall value_ok xs).
    { rewrite Forall_forall in *. intros x Hx. rewrite <- Eg in Hx. apply in_group, HP in Hx. exact (V _ Hx). }
    assert (Sx : StronglySorted iv_le xs) by (rewrite <- Eg; apply group_sorted; exact S).
    assert (Hin : forall x, In x xs <-> In (Ann f x) batch) by (intros x; rewrite <- Eg, in_group; apply HP).
    assert (Hk : forall x, In x (keep None xs) <-> kept batch f x).
    { intros x. rewrite (keep_kept xs Sx x). unfold kept, annotated. rewrite Hin. split.
      - intros [A B]. split; [exact A|]. intros y [Hy Vy] N. apply B; [split; [apply Hin; exact Hy|exact Vy]|exact N].
      - intros [A B]. split; [exact A|]. intros y [Hy Vy] N. apply B; [split; [apply Hin; exact Hy|exact Vy]|exact N]. }
    pose proof (keep_sorted xs Sx None Logic.I) as KS.
    split; [apply group_holds; exact Vx|]. split; [apply sorted_rising; exact KS|]. split; [exact Hk|].
    intros D F. split.
    + apply sorted_gcdup; [exact KS| |].
      * intros x Hx. apply Hk in Hx. apply F, Hx.
      * intros x y Hx Hy. apply Hk in Hx, Hy. apply D; [apply Hx|apply Hy].
    + intros x. rewrite Hk. unfold kept, innermost_ann. split.
      * intros [A B]. split; [exact A|]. intros y Hy N. apply D; auto.
      * intros [A B]. split; [exact A|]. intros y Hy N. rewrite (B y Hy N). reflexivity.
Qed.

(** The order of std::sort exists: insertion sort. *)
Lemma sort_exists batch : exists l, sort_result batch l.
Proof.
  induction batch as [|a b (l & P & S)]; [exists []; split; [reflexivity|constructor]|].
  assert (K : exists l', Permutation (a :: l) l' /\ ann_sorted l').
  { clear P b. induction l as [|c l IH].
    - exists [a]. split; [reflexivity|]. constructor; [constructor|constructor].
    - apply StronglySorted_inv in S as S'. destruct S' as [S1 Sc]. rewrite Forall_forall in Sc.
      destruct (ann_lt c a) eqn:E.
      + destruct (IH S1) as (l' & P' & S'). exists (c :: l'). split; [rewrite perm_swap, P'; reflexivity|].
        constructor; [exact S'|]. rewrite Forall_forall. intros x Hx. apply (Permutation_in x (Permutation_sym P')) in Hx.
        destruct Hx as [<-|Hx]; [|exact (Sc x Hx)]. unfold ann_lt in *. lia.
      + exists (a :: c :: l). split; [reflexivity|]. constructor; [exact S|]. rewrite Forall_forall. intros x [<-|Hx]; [exact E|].
        specialize (Sc x Hx). unfold ann_lt in *. lia. }
  destruct K as (l' & P' & S'). exists l'. split; [rewrite P; exact P'|exact S'].
Qed.

(** Token records: the distinct positions, in order. *)
Lemma tok_loop_ok f ps rest : match rest with [] => True | (g, _) :: _ => g <> f end ->
  forall acc, StronglySorted Z.le ps -> (forall b, hd_error acc = Some b -> forall p, In p ps -> b <= p) ->
  exists out, tok_loop f (map (pair f) ps ++ rest) acc = Ok (rev out ++ acc, rest) /\
    StronglySorted Z.lt out /\
    (forall p, In p out <-> In p ps /\ forall b, hd_error acc = Some b -> b < p).
Proof.
  intros R. induction ps as [|p ps IH]; intros acc S H.
  - exists []. cbn [map app rev]. split; [destruct rest as [|[g x] r]; [reflexivity|]|].
    + cbn [tok_loop]. apply Z.eqb_neq in R. rewrite R. reflexivity.
    + split; [constructor|]. cbn. tauto.
  - apply StronglySorted_inv in S. destruct S as [S Sp]. rewrite Forall_forall in Sp.
    cbn [map app tok_loop]. rewrite Z.eqb_refl.
    assert (Push : exists out, tok_loop f (map (pair f) ps ++ rest) (p :: acc) = Ok (rev out ++ acc, rest) /\
       StronglySorted Z.lt out /\ (forall z, In z out <-> In z (p :: ps))).
    { destruct (IH (p :: acc) S) as (out & E & So & Ho).
      { intros b Eb z Hz. injection Eb as <-. auto. }
      exists (p :: out). cbn [rev]. rewrite <- app_assoc. split; [exact E|]. split.
      - constructor; [exact So|]. rewrite Forall_forall. intros z Hz. apply Ho in Hz. apply (proj2 Hz p). reflexivity.
      - intros z. cbn [In]. rewrite Ho. split.
        + intros [->|[K _]]; auto.
        + intros [->|K]; [auto|]. destruct (Z.eq_dec p z) as [->|N]; [auto|right]. split; [exact K|].
          intros b Eb. injection Eb as <-. specialize (Sp z K). lia. }
    destruct acc as [|b acc].
    + destruct Push as (out & E & So & Ho). exists out. split; [exact E|]. split; [exact So|].
      intros z. rewrite Ho. cbn. split; [intros K; split; [exact K|discriminate]|tauto].
    + pose proof (H b eq_refl) as Hb. assert (b <= p) by (apply Hb; left; reflexivity).
      destruct (p <? b) eqn:E1; [lia|]. destruct (b <? p) eqn:E2.
      * destruct Push as (out & E & So & Ho). exists out. split; [exact E|]. split; [exact So|].
        intros z. rewrite Ho. split; [|tauto]. intros K. split; [exact K|]. intros b' Eb. injection Eb as <-.
        destruct K as [<-|K]; [lia|]. specialize (Sp z K). lia.
      * assert (b = p) as -> by lia. destruct (IH (p :: acc) S) as (out & E & So & Ho).
        { intros b' Eb z Hz. injection Eb as <-. auto. }
        exists out. split; [exact E|]. split; [exact So|]. intros z. rewrite Ho. cbn [In hd_error]. split.
        -- intros [K1 K2]. auto.
        -- intros [[->|K1] K2]; [|auto]. specialize (K2 z eq_refl). lia.
Qed.
