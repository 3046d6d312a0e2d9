(** Each step that changes what is shared keeps the caches in order. *)
From Coq Require Import Permutation.
From Verif Require Import Base HopperModel ArrayDefs CodecModel PostingModel CacheModel CacheSpec CacheInv.

Section Steps.
Variable direct : key -> option posting.
Variable deps : key -> list key.
Variable combine : key -> list posting -> posting.
Variable rank : key -> nat.
Hypothesis ranked : forall k k', In k' (deps k) -> (rank k' < rank k)%nat.
Local Notation value := (value direct deps combine rank).
Local Notation sound := (sound direct deps combine rank).
Local Notation frame_ok := (frame_ok direct deps combine rank).

Lemma frames_same g g' F : lines g' = lines g -> loads g' = loads g -> Forall (frame_ok g) F -> Forall (frame_ok g') F.
Proof. intros El Eo. apply Forall_impl. intros f. apply frame_same; assumption. Qed.
Lemma line_same g g' r k : lines g' = lines g -> line_at g' r k <-> line_at g r k.
Proof. unfold line_at. intros ->. reflexivity. Qed.

Lemma sound_lock w g k s F : sound w g (Get k s Want :: F) -> ~ In (fst k) (held g) ->
  sound w (Glob (fst k :: held g) (cache g) (lines g) (loads g)) (Get k s Locked :: F).
Proof.
  clear ranked.
  intros [H1 H2 H3 H4 H5 H6 H7 H8 H9 H10 H11] Hn.
  constructor; cbn [held cache lines loads]; auto.
  - intros c. specialize (H5 c). cbn in *. destruct (Nat.eqb_spec (fst k) c), (Nat.eq_dec (fst k) c); congruence || lia.
  - constructor; assumption.
  - intros k' s' [E|Hi]; [discriminate|]. intros r. rewrite line_same by reflexivity. apply (H10 k' s'). right. assumption.
  - inversion_clear H11 as [|? ? Ha Hb]. constructor; [exact Ha|]. revert Hb. apply frames_same; reflexivity.
Qed.
Lemma count_remove (l : list nat) c d : NoDup l -> count_occ Nat.eq_dec (remove Nat.eq_dec c l) d =
  if Nat.eqb c d then O else count_occ Nat.eq_dec l d.
Proof.
  intros _. destruct (Nat.eqb_spec c d) as [->|Hn].
  - apply count_occ_not_In. apply remove_In.
  - induction l as [|x l IH]; cbn; [reflexivity|].
    destruct (Nat.eq_dec c x), (Nat.eq_dec x d); subst; cbn; try congruence.
    + destruct (Nat.eq_dec d d); [lia|congruence].
    + destruct (Nat.eq_dec x d); [congruence|assumption].
Qed.
Lemma NoDup_remove_all (l : list nat) c : NoDup l -> NoDup (remove Nat.eq_dec c l).
Proof.
  induction 1 as [|x l Hx Hl IH]; cbn; [constructor|]. destruct (Nat.eq_dec c x); [assumption|].
  constructor; [|assumption]. intros Hi. apply in_remove in Hi. tauto.
Qed.
Lemma sound_unlock w g k s r cr F : sound w g (Get k s (Leaving r cr) :: F) ->
  sound w (Glob (remove Nat.eq_dec (fst k) (held g)) (cache g) (lines g) (loads g)) (Get k s (Left r cr) :: F).
Proof.
  clear ranked.
  intros [H1 H2 H3 H4 H5 H6 H7 H8 H9 H10 H11].
  constructor; cbn [held cache lines loads]; auto.
  - intros c. rewrite count_remove by assumption. specialize (H5 c). cbn in *.
    pose proof (proj1 (NoDup_count_occ Nat.eq_dec _) H6 c). destruct (Nat.eqb (fst k) c); lia.
  - apply NoDup_remove_all, H6.
  - intros k' s' [E|Hi]; [discriminate|]. intros r'. rewrite line_same by reflexivity. apply (H10 k' s'). right. assumption.
  - inversion_clear H11 as [|? ? Ha Hb]. constructor; [exact Ha|]. revert Hb. apply frames_same; reflexivity.
Qed.

Lemma sound_create w g k s F : sound w g (Get k s Missed :: F) ->
  sound w (Glob (held g) ((k, length (lines g)) :: cache g)
                (lines g ++ [Line k false (posting_from_feature (snd k))]) (loads g))
        (Get k s (Leaving (length (lines g)) true) :: F).
Proof.
  clear ranked.
  set (g' := Glob _ _ _ _). intros S. pose proof S as [H1 H2 H3 H4 H5 H6 H7 H8 H9 H10 H11].
  assert (Hno : forall r, ~ line_at g r k) by (apply (H10 k s); left; reflexivity).
  assert (Hat : forall r k', line_at g' r k' <-> line_at g r k' \/ (r = length (lines g) /\ k' = k)).
  { intros r k'. unfold line_at, g'. cbn [lines]. split.
    - intros (l & Hl & <-). destruct (Nat.lt_ge_cases r (length (lines g))) as [Hlt|Hge].
      + rewrite nth_error_app1 in Hl by assumption. left. eauto.
      + rewrite nth_error_app2 in Hl by assumption.
        destruct (r - length (lines g))%nat as [|m] eqn:E; [|destruct m; discriminate].
        injection Hl as <-. right. split; [lia|reflexivity].
    - intros [(l & Hl & E)|(-> & ->)].
      + exists l. split; [|assumption]. rewrite nth_error_app1; [assumption|]. apply nth_error_Some. congruence.
      + eexists. split; [rewrite nth_error_app2, Nat.sub_diag by lia; reflexivity|reflexivity]. }
  assert (Hold : forall r l, nth_error (lines g) r = Some l -> nth_error (lines g') r = Some l).
  { intros r l Hl. cbn. rewrite nth_error_app1; [assumption|]. apply nth_error_Some. congruence. }
  assert (G : grows g g') by (intros r l Hl; exists l; auto).
  assert (Hdata : forall r k', line_at g r k' -> data g' r = data g r /\ is_open g' r = is_open g r).
  { intros r k' (l & Hl & _). unfold data, is_open. rewrite (Hold _ _ Hl), Hl. auto. }
  assert (Hnew : nth_error (lines g') (length (lines g)) = Some (Line k false (posting_from_feature (snd k)))).
  { cbn. rewrite nth_error_app2, Nat.sub_diag by lia. reflexivity. }
  constructor; cbn [held cache lines loads]; auto.
  - intros k' r. cbn. rewrite Hat, <- H1. split.
    + intros [[= <- <-]|?]; auto.
    + intros [?|[-> ->]]; auto.
  - cbn. rewrite map_app. cbn. apply NoDup_Add with (a := k) (l := map l_key (lines g)).
    + rewrite <- (app_nil_r (map l_key (lines g))) at 1. apply Add_app.
    + split; [assumption|]. intros Hi. apply in_map_iff in Hi as (l & El & Hl).
      apply In_nth_error in Hl as (r & Hr). apply (Hno r). exists l. auto.
  - intros r l Hl Ho. destruct (Nat.eq_dec r (length (lines g))) as [->|Hne].
    + rewrite Hnew in Hl. injection Hl as <-. discriminate.
    + assert (Hr : nth_error (lines g) r = Some l).
      { cbn in Hl. destruct (Nat.lt_ge_cases r (length (lines g))); [rewrite nth_error_app1 in Hl; assumption|].
        rewrite nth_error_app2 in Hl by assumption. destruct (r - length (lines g))%nat as [|m] eqn:E; [lia|].
        destruct m; discriminate. }
      eapply H3; eauto.
  - intros r. specialize (H4 r). unfold width in *. cbn [cnt fills] in *.
    destruct (Nat.eqb_spec (length (lines g)) r) as [<-|Hne].
    + rewrite Hnew. rewrite (proj2 (nth_error_None (lines g) (length (lines g))) (Nat.le_refl _)) in H4. cbn. lia.
    + destruct (nth_error (lines g) r) as [l|] eqn:E; [rewrite (Hold _ _ E); assumption|].
      replace (nth_error (lines g') r) with (@None line); [assumption|]. symmetry. apply nth_error_None.
      apply nth_error_None in E. cbn. rewrite app_length. cbn. lia.
  - intros r Hr Ho Hc. unfold is_open in Ho. destruct (nth_error (lines g') r) as [l|] eqn:E; [|discriminate].
    destruct (Nat.eq_dec r (length (lines g))) as [->|Hne]; [rewrite Hnew in E; injection E as <-; discriminate|].
    assert (Hl : nth_error (lines g) r = Some l).
    { cbn in E. destruct (Nat.lt_ge_cases r (length (lines g))); [rewrite nth_error_app1 in E; assumption|].
      rewrite nth_error_app2 in E by assumption. destruct (r - length (lines g))%nat as [|m] eqn:E'; [lia|].
      destruct m; discriminate. }
    specialize (H7 r Hr). unfold is_open in H7. rewrite Hl in H7. cbn in *. apply H7; assumption.
  - intros k' Hk. destruct (H9 k' Hk) as (r & Hr). exists r. apply Hat. auto.
  - intros k' s' [E|Hi]; [discriminate|]. intros r. rewrite Hat. intros [Hl|(-> & ->)].
    + apply (H10 k' s' (or_intror Hi) r Hl).
    + (* another thread cannot be inside the same cache *)
      specialize (H5 (fst k)). cbn in H5. rewrite Nat.eqb_refl in H5.
      pose proof (cnt_pos (holds (fst k)) F _ Hi) as Hp. cbn in Hp. rewrite Nat.eqb_refl in Hp. specialize (Hp eq_refl).
      pose proof (proj1 (NoDup_count_occ Nat.eq_dec _) H6 (fst k)). lia.
  - inversion_clear H11 as [|? ? Ha Hb]. constructor.
    + cbn. split; [exact (proj1 Ha)|]. split; [apply Hat; auto|]. intros _. split.
      * unfold data. rewrite Hnew. reflexivity.
      * cbn. intros Hi. destruct (H9 _ Hi) as (r & Hr). apply (Hno r Hr).
    + revert Hb. apply Forall_impl. intros f. apply frame_grows; [exact G|].
      intros k' r _ Hl. split; [apply (Hdata r k' Hl)|auto].
Qed.

(** Only one frame fills a list. *)
Lemma fills_other w g f F k r : sound w g (f :: F) -> filling f = Some (k, r) -> forall f', In f' F -> fills r f' = false.
Proof.
  clear ranked.
  intros S Hf f' Hi. assert (Hr : fills r f = true) by (apply fills_filling; eauto).
  destruct (closed_while_filling _ _ _ _ _ _ _ _ _ S (or_introl eq_refl) Hr) as (l & Hl & Ho).
  pose proof (so_fill _ _ _ _ _ _ _ S r) as Hc. unfold width in Hc. rewrite Hl, Ho in Hc. cbn in Hc. rewrite Hr in Hc.
  apply (cnt_zero _ _ _ (ltac:(lia) : cnt (fills r) F = O) Hi).
Qed.

Lemma sound_load w g k r got F : sound w g (Merge k r [] got :: F) ->
  sound w (Glob (held g) (cache g) (lines g) (loads g ++ [k])) (Write k r 0 (combine k got) :: F).
Proof.
  set (g' := Glob _ _ _ _). intros S. pose proof S as [H1 H2 H3 H4 H5 H6 H7 H8 H9 H10 H11].
  inversion_clear H11 as [|? ? Ha Hb]. cbn in Ha. destruct Ha as (Hd & Hl & (Hf & Hn) & before & rest & E & -> & Hc).
  inversion Hc; subst. rewrite app_nil_r in E.
  constructor; cbn [held cache lines loads]; auto.
  - cbn. apply NoDup_Add with (a := k) (l := loads g).
    + rewrite <- (app_nil_r (loads g)) at 1. apply Add_app.
    + split; assumption.
  - intros k' Hk. cbn in Hk. apply in_app_iff in Hk as [Hk|[<-|[]]]; [apply (H9 k' Hk)|exists r; exact Hl].
  - intros k' s' [E'|Hi]; [discriminate|]. apply (H10 k' s'). right. assumption.
  - constructor.
    + cbn. split; [assumption|]. split; [exact Hl|]. split; [|split; [lia|exact Hf]].
      rewrite (value_eq direct deps combine rank ranked k), Hd, E. reflexivity.
    + rewrite Forall_forall in *. intros f Hf'. apply (frame_grows direct deps combine rank g); [apply grows_same; reflexivity| |apply Hb, Hf'].
      intros k' r' Hfi Hl'. split; [reflexivity|]. intros Hi. cbn in Hi. apply in_app_iff in Hi as [Hi|[<-|[]]]; [assumption|].
      exfalso. pose proof (line_unique _ _ _ _ _ _ _ _ _ _ S Hl Hl') as ->.
      pose proof (fills_other _ _ _ _ _ _ S eq_refl f Hf') as Hx.
      assert (fills r' f = true) by (apply fills_filling; eauto). congruence.
Qed.

(** The list being filled changes; everything else stays. *)
Lemma sound_fill w g g' f f' F k r (m : line -> line) :
  sound w g (f :: F) -> filling f = Some (k, r) -> line_at g r k ->
  held g' = held g -> cache g' = cache g -> loads g' = loads g -> lines g' = update r m (lines g) ->
  (forall l, l_key (m l) = l_key l) ->
  (forall l, nth_error (lines g) r = Some l -> l_open (m l) = true -> l_data (m l) = value (l_key l)) ->
  (forall r', fills r' f' = if Nat.eqb r r' then negb (is_open g' r) else false) ->
  (forall c, holds c f' = holds c f) -> (forall r', asleep r' f' = false) ->
  (is_open g' r = true -> notifies r f' = true) ->
  (forall k' s, f' <> Get k' s Missed) ->
  frame_ok g' f' -> sound w g' (f' :: F).
Proof.
  clear ranked.
  intros S Hf Hat Eh Ec Eo El Hk Hv Hfi Hho Has Hno Hm Hok. pose proof S as [H1 H2 H3 H4 H5 H6 H7 H8 H9 H10 H11].
  assert (Hr : fills r f = true) by (apply fills_filling; eauto).
  destruct (closed_while_filling _ _ _ _ _ _ _ _ _ S (or_introl eq_refl) Hr) as (l & Hl & Ho).
  assert (Hnth : forall r', nth_error (lines g') r' = if Nat.eqb r r' then Some (m l) else nth_error (lines g) r').
  { intros r'. rewrite El, update_nth. destruct (Nat.eqb_spec r r') as [<-|]; [rewrite Hl; reflexivity|reflexivity]. }
  assert (Hla : forall r' k', line_at g' r' k' <-> line_at g r' k').
  { intros r' k'. unfold line_at. rewrite Hnth. destruct (Nat.eqb_spec r r') as [<-|]; [|reflexivity].
    rewrite Hl. split; intros (x & [= <-] & <-); eexists; (split; [reflexivity|]); rewrite Hk; reflexivity. }
  assert (G : grows g g').
  { intros r' x Hx. rewrite Hnth. destruct (Nat.eqb_spec r r') as [<-|].
    - rewrite Hl in Hx. injection Hx as <-. exists (m l). rewrite Hk, Ho. split; [reflexivity|]. split; [reflexivity|discriminate].
    - exists x. auto. }
  assert (Hop : forall r', r <> r' -> is_open g' r' = is_open g r' /\ data g' r' = data g r').
  { intros r' Hn. unfold is_open, data. rewrite Hnth. destruct (Nat.eqb_spec r r'); [congruence|auto]. }
  assert (Hf1 : forall r', fills r' f = Nat.eqb r r').
  { intros r'. destruct (fills r' f) eqn:E.
    - apply fills_filling in E as (k' & E). rewrite Hf in E. injection E as _ ->. symmetry. apply Nat.eqb_refl.
    - destruct (Nat.eqb_spec r r') as [<-|]; [congruence|reflexivity]. }
  constructor; rewrite ?Eh, ?Ec, ?Eo; auto.
  - intros k' r'. rewrite Hla. apply H1.
  - rewrite El, update_map by assumption. assumption.
  - intros r' x. rewrite Hnth. destruct (Nat.eqb_spec r r') as [<-|]; [|apply H3].
    intros [= <-] Hx. rewrite Hk. apply Hv; assumption.
  - intros r'. specialize (H4 r'). unfold width in *. cbn [cnt] in *. rewrite Hfi, Hnth. rewrite Hf1 in H4.
    destruct (Nat.eqb_spec r r') as [Er|]; [subst r'|assumption].
    rewrite Hl, Ho in H4. unfold is_open. rewrite Hnth, Nat.eqb_refl. destruct (l_open (m l)); cbn; lia.
  - intros c. specialize (H5 c). cbn in *. rewrite Hho. assumption.
  - intros r' Hw Hx Hc. specialize (H7 r' Hw). cbn in *. rewrite Has in Hc.
    destruct (Nat.eq_dec r r') as [<-|Hn].
    + rewrite (Hno Hx). lia.
    + destruct (Hop r' Hn) as (E1 & _). rewrite E1 in Hx. specialize (H7 Hx).
      assert (notifies r' f = false).
      { destruct f as [? ? [| | |? [|]|? [|]]| | | | | |]; try reflexivity; discriminate. }
      rewrite H in H7. destruct (notifies r' f'); destruct (asleep r' f); lia.
  - intros k' Hk'. destruct (H9 k' Hk') as (r' & ?). exists r'. apply Hla. assumption.
  - intros k' s [E|Hi]; [destruct (Hm k' s E)|]. intros r'. rewrite Hla. apply (H10 k' s). right. assumption.
  - constructor; [assumption|]. inversion_clear H11 as [|? ? Ha Hb]. rewrite Forall_forall in *.
    intros f0 Hi. apply (frame_grows direct deps combine rank g); [assumption| |apply Hb, Hi].
    intros k' r' Hfi' Hl'. rewrite Eo. split; [|auto]. apply Hop. intros <-.
    pose proof (fills_other _ _ _ _ _ _ S Hf f0 Hi) as Hx. assert (fills r f0 = true) by (apply fills_filling; eauto). congruence.
Qed.

Lemma sound_write w g k r n d F : sound w g (Write k r n d :: F) ->
  sound w (set_data r (write_part n d) g) ((if Nat.leb 2 n then Opening k r else Write k r (S n) d) :: F).
Proof.
  clear ranked.
  intros S. pose proof (Forall_inv (so_frames _ _ _ _ _ _ _ S)) as Hok. cbn in Hok.
  destruct Hok as (Hd & Hat & Hv & Hn & Hp).
  destruct (closed_while_filling _ _ _ _ _ _ _ _ _ S (or_introl eq_refl) (Nat.eqb_refl r)) as (l & Hl & Ho).
  assert (Hat' : line_at (set_data r (write_part n d) g) r k).
  { destruct Hat as (x & Hx & <-). rewrite Hl in Hx. injection Hx as <-. unfold line_at, set_data. cbn.
    rewrite update_nth, Nat.eqb_refl, Hl. eexists. split; reflexivity. }
  assert (Hda : data (set_data r (write_part n d) g) r = write_part n d (data g r)).
  { unfold data, set_data. cbn. rewrite update_nth, Nat.eqb_refl, Hl. reflexivity. }
  assert (Hno : is_open (set_data r (write_part n d) g) r = false).
  { unfold is_open, set_data. cbn. rewrite update_nth, Nat.eqb_refl, Hl. assumption. }
  eapply (sound_fill w g _ (Write k r n d) _ F k r); try reflexivity; try eassumption.
  - intros x Hx. cbn. intros Hx'. rewrite Hl in Hx. injection Hx as <-. congruence.
  - intros r'. rewrite Hno. destruct (Nat.leb 2 n); cbn; destruct (Nat.eqb r r'); reflexivity.
  - intros c. destruct (Nat.leb 2 n); reflexivity.
  - intros r'. destruct (Nat.leb 2 n); reflexivity.
  - rewrite Hno. discriminate.
  - intros k' s. destruct (Nat.leb 2 n); discriminate.
  - destruct n as [|[|[|n]]]; [| | |lia]; cbn [Nat.leb frame_ok]; rewrite Hda, Hp; cbn; (split; [assumption|]);
      (split; [assumption|]).
    + split; [assumption|]. split; [lia|reflexivity].
    + split; [assumption|]. split; [lia|reflexivity].
    + rewrite <- Hv. reflexivity.
Qed.
Lemma sound_open w g k r F : sound w g (Opening k r :: F) -> sound w (set_open r g) (Notifying k r :: F).
Proof.
  clear ranked.
  intros S. pose proof (Forall_inv (so_frames _ _ _ _ _ _ _ S)) as Hok. cbn in Hok.
  destruct Hok as (Hd & Hat & Hv).
  destruct (closed_while_filling _ _ _ _ _ _ _ _ _ S (or_introl eq_refl) (Nat.eqb_refl r)) as (l & Hl & Ho).
  assert (Hat' : line_at (set_open r g) r k).
  { destruct Hat as (x & Hx & <-). rewrite Hl in Hx. injection Hx as <-. unfold line_at, set_open. cbn.
    rewrite update_nth, Nat.eqb_refl, Hl. eexists. split; reflexivity. }
  assert (Hop : is_open (set_open r g) r = true).
  { unfold is_open, set_open. cbn. rewrite update_nth, Nat.eqb_refl, Hl. reflexivity. }
  assert (Hk : l_key l = k) by (destruct Hat as (x & Hx & <-); congruence).
  eapply (sound_fill w g _ (Opening k r) _ F k r); try reflexivity; try eassumption.
  - intros x Hx _. cbn. rewrite Hl in Hx. injection Hx as <-. unfold data in Hv. rewrite Hl in Hv. congruence.
  - intros r'. rewrite Hop. destruct (Nat.eqb r r'); reflexivity.
  - intros _. cbn. apply Nat.eqb_refl.
  - discriminate.
  - cbn. auto.
Qed.
End Steps.
