(** qap as a whole, and small collections for its theorems. *)
From Verif Require Import Base HopperModel ArrayDefs GclSpec HopperProofs GclProofs ArrayProofs UnaryProofs VectorModel UnaryModel AnswerProofs
  FeatModel RankModel RankSpec RankProofs RankTop RankWitness StatsModel IcoverModel IcoverSpec IcoverRound IcoverTop IcoverWitness QapModel QapSpec QapProofs.

Section Top.
Context {F : Type} (zero : F) (add : F -> F -> F) (lt : F -> F -> bool) (sort stable_sort : sorter).
Context (cube : F -> F) (rare : list Z -> Z -> F) (penal : F -> nat -> Z -> F).
Context (translate : Z -> Z -> list Z) (split : list Z -> list (list Z)) (tokenize : list Z -> list (Z * Z)).
Notation result := (result (F := F)).

Lemma passage_in words (C : iv -> Prop) window (r : result) : 0 <= window -> (forall c, C c -> 0 <= ip c /\ iq c + window <= maxf) ->
  passage zero add penal words C r -> passage_fits window r.
Proof.
  intros Hw HC (ch & rest & _ & _ & (Fx & _) & _ & c & (Cc & [N1 N2] & _) & E1 & E2).
  destruct (HC c Cc) as [H1 H2]. unfold passage_fits. cbn in *. rewrite E1, E2.
  unfold finite in Fx. cbn in Fx. clear - Hw H1 H2 N1 N2 Fx. unfold minf, maxf in *. lia.
Qed.

Lemma qap_ok weight hopper E query chop (C : iv -> Prop) depth len passages window :
  weak_order lt -> sorts sort -> sorts_stably stable_sort -> (0 < passages)%nat -> (0 < len)%nat -> 0 <= window ->
  (forall t, In t (split query) -> answers (projT1 (hopper t)) (projT2 (hopper t)) (E t)) ->
  (forall t a, In t (split query) -> E t a -> 0 <= ip a) -> answers (projT1 chop) (projT2 chop) C ->
  (forall c, C c -> 0 <= ip c /\ iq c + window <= maxf) ->
  (forall p q, in_order (tokenize (translate p q)) (translate p q) /\ Z.of_nat (length (translate p q)) < 18446744073709551616) ->
  exists covers out,
    qap zero add lt sort cube rare translate split tokenize stable_sort penal weight hopper query (Some chop) depth len passages window = Ok out /\
    ranking_of zero add lt penal (map (fun t => (weight t, E t)) (split query)) C passages covers /\
    answers_of zero add lt cube rare translate split tokenize depth len window query covers out.
Proof.
  intros W HS HT Hp Hl Hw Ho Nn Hc HC Ht.
  destruct (icover_ok zero add lt sort stable_sort penal (split query) weight hopper E chop C passages W HS HT Hp Ho Nn Hc)
    as (covers & Ec & R & _).
  assert (Fits : Forall (passage_fits window) covers).
  { destruct R as (_ & _ & _ & R). rewrite Forall_forall in *. intros r Hr. apply (passage_in _ C window r Hw HC (R r Hr)). }
  destruct (answers_ok zero add lt sort cube rare translate split tokenize W HS depth len window query covers Hl Fits ltac:(intros r _; apply Ht)) as (out & Eo & A).
  exists covers, out. split; [|auto].
  etransitivity; [|exact Eo]. unfold qap. etransitivity; [apply (f_equal (fun x => bind x _) Ec)|]. reflexivity.
Qed.

(** Past the first [window] positions the first occurrence of a word counts. *)
Lemma settle_first (r : result) window : window <= around_from window r -> 0 <= window -> 1 <= around_from window r -> forall ps d,
  (forall p, In p ps -> around_from window r <= p) -> d <= Z.max window 1 -> settle r ps d = d.
Proof.
  clear. intros H1 H2 H3. induction ps as [|p ps IH]; intros d Hp Hd; [reflexivity|]. cbn [settle fold_left].
  pose proof (Hp p (or_introl eq_refl)) as P. destruct (Z.ltb_spec p d); [exfalso; lia|]. apply IH; [|exact Hd].
  intros p' H'. apply Hp. right. exact H'.
Qed.
Lemma places_from t : forall tokens from p, In p (places t tokens from) -> from <= p.
Proof.
  clear. induction tokens as [|u tokens IH]; intros from p H; [destruct H|]. cbn [places] in H. apply in_app_iff in H. destruct H as [H|H].
  - destruct (list_eq_dec Z.eq_dec t u); [destruct H as [<-|[]]; lia|destruct H].
  - specialize (IH _ _ H). lia.
Qed.
Lemma first_counts window (r : result) t : passage_fits window r -> window <= around_from window r -> 1 <= around_from window r ->
  qap_where translate split window r t =
  match places t (split (around translate window r)) (around_from window r) with [] => None | p :: _ => Some (distance r p) end.
Proof.
  intros Hf H1 H2. rewrite where_ok by exact Hf. unfold word_distance.
  pose proof (places_from t (split (around translate window r)) (around_from window r)) as P.
  destruct (places t (split (around translate window r)) (around_from window r)) as [|p ps]; [reflexivity|].
  f_equal. assert (0 <= window) by (unfold passage_fits in Hf; clear - Hf; lia).
  apply (settle_first r window H1 H H2).
  - intros p' Hp. apply P. right. exact Hp.
  - pose proof (P p (or_introl eq_refl)) as Pp. unfold around_from in Pp. unfold distance. clear - Pp.
    destruct (Z.ltb_spec p (rp r)); [lia|]. destruct (p <=? rq r); lia.
Qed.

(** Answers of no words. *)
Lemma length_zero depth window query (r : result) covers : tokenize (qap_fragment translate window r) <> [] ->
  qap_answers zero add lt sort cube rare translate split tokenize depth 0 window query (r :: covers) = UB.
Proof.
  intros H. unfold qap_answers. cbn [map qap_all]. unfold qap_candidates.
  destruct (tokenize (qap_fragment translate window r)) as [|a l]; [congruence|]. reflexivity.
Qed.
End Top.

(** A collection of one-letter words. *)
Definition ztrans (text : list Z) (p q : Z) : list Z :=
  if p <=? q then firstn (Z.to_nat (q - p + 1)) (skipn (Z.to_nat p) text) else [].
Definition zsplit (l : list Z) : list (list Z) := map (fun x => [x]) l.
Definition ztokens (l : list Z) : list (Z * Z) := map (fun i => (Z.of_nat i, 1)) (seq 0 (length l)).
Fixpoint zplaces (t : list Z) (text : list Z) (p : Z) : list iv :=
  match text with
  | [] => []
  | x :: r => (if word_eq t [x] then [Iv p p 0] else []) ++ zplaces t r (p + 1)
  end.
Definition zrare (t : list Z) (d : Z) : Z := 20 - d.
Definition zcube (w : Z) : Z := w * w * w.
Definition zqap (text : list Z) (conts : list iv) (query : list Z) depth len passages window :=
  qap 0 Z.add Z.ltb isrt zcube zrare (ztrans text) zsplit ztokens isrt cpenal (fun _ => 50) (fun t => chop_of (zplaces t text 0))
      query (Some (chop_of conts)) depth len passages window.
Definition zcovers (text : list Z) (conts : list iv) (query : list Z) passages :=
  icover_ranking 0 Z.add Z.ltb isrt isrt cpenal (zsplit query) (fun _ => 50) (fun t => chop_of (zplaces t text 0)) (Some (chop_of conts)) passages.

Definition qtext : list Z := [10;11;1;2;12;13;14;15;16;17;20;12;22;1;23;2;24;12;26;27].
Definition qconts : list iv := [Iv 0 9 0; Iv 10 19 0].
Definition rtext : list Z := [10;11;1;2;12;13;14;15;16;17;10;11;1;2;12;13;14;15;16;17].
(** What [qap_ok] asks. *)
Definition qap_usable (text : list Z) (conts : list iv) (query : list Z) (window : Z) : Prop :=
  (forall t, In t (zsplit query) -> hop_of (chop_of (zplaces t text 0)) (set_of (zplaces t text 0))) /\
  (forall t a, In t (zsplit query) -> set_of (zplaces t text 0) a -> 0 <= ip a) /\ hop_of (chop_of conts) (set_of conts) /\
  (forall c, set_of conts c -> 0 <= ip c /\ iq c + window <= maxf) /\
  forall p q, in_order (ztokens (ztrans text p q)) (ztrans text p q) /\ Z.of_nat (length (ztrans text p q)) < 18446744073709551616.
Lemma ztokens_ok l : in_order (ztokens l) l.
Proof.
  unfold ztokens. split.
  - intros o n H. apply in_map_iff in H. destruct H as (i & [= <- <-] & H). apply in_seq in H. lia.
  - intros i j a b Hij Ha Hb. rewrite nth_error_map in Ha, Hb.
    destruct (nth_error (seq 0 (length l)) i) as [x|] eqn:Ex; [|discriminate].
    destruct (nth_error (seq 0 (length l)) j) as [y|] eqn:Ey; [|discriminate].
    pose proof (proj1 (nth_error_Some (seq 0 (length l)) i) ltac:(congruence)) as L1.
    pose proof (proj1 (nth_error_Some (seq 0 (length l)) j) ltac:(congruence)) as L2. rewrite seq_length in L1, L2.
    apply (nth_error_nth _ _ 0%nat) in Ex, Ey. rewrite seq_nth in Ex, Ey by assumption.
    cbn in Ha, Hb. injection Ha as <-. injection Hb as <-. cbn. lia.
Qed.
Lemma ztrans_length text p q : (length (ztrans text p q) <= length text)%nat.
Proof. unfold ztrans. destruct (p <=? q); [|cbn; lia]. rewrite firstn_length, skipn_length. lia. Qed.
Lemma qtext_ok : qap_usable qtext qconts [1;2] 3.
Proof.
  destruct (usable_plain [(0, zplaces [1] qtext 0); (0, zplaces [2] qtext 0)] qconts) as (U1 & U2 & U3).
  - intros t Ht. cases Ht; cbn [snd]; cbn; plainl.
  - plainl.
  - split; [|split; [|split; [exact U3|split]]].
    + intros t Ht. cbn in Ht. cases Ht; [apply (U1 (0, zplaces [1] qtext 0)); left; reflexivity|].
      apply (U1 (0, zplaces [2] qtext 0)); right; left; reflexivity.
    + intros t a Ht. cbn in Ht. cases Ht; [apply (U2 (0, zplaces [1] qtext 0)); left; reflexivity|].
      apply (U2 (0, zplaces [2] qtext 0)); right; left; reflexivity.
    + intros c Hc. unfold qconts, set_of in Hc. cases Hc; cbn; unfold maxf; lia.
    + intros p q. split; [apply ztokens_ok|]. pose proof (ztrans_length qtext p q) as L. change (length qtext) with 20%nat in L. lia.
Qed.
Lemma qtext_run : zqap qtext qconts [1;2] 3 2 5 3 = Ok [[12;13]; [12;22]].
Proof. vm_compute. reflexivity. Qed.

Notation zscored text window query covers := (scored 0 Z.add zcube zrare (ztrans text) zsplit window query covers).
(** The last two words around a passage score best, but are never looked at. *)
Lemma last_wrong : exists covers r s1 s2, zcovers rtext [Iv 0 9 0] [1;2] 5 = Ok covers /\ covers = [r] /\
  zqap rtext [Iv 0 9 0] [1;2] 1 2 5 2 = Ok [[10;11]] /\
  around (ztrans rtext) 2 r = [10;11;1;2] ++ [12;13] /\
  zscored rtext 2 [1;2] covers [10;11] s1 /\ zscored rtext 2 [1;2] covers [12;13] s2 /\ s1 < s2.
Proof.
  set (r := Res 2 3 0 9 80 : result (F := Z)). exists [r], r.
  assert (Fr : Forall (passage_fits 2) [r]) by (repeat constructor; cbn; unfold minf, maxf; lia).
  pose proof (fun c => score_ok 0 Z.add zcube zrare (ztrans rtext) zsplit 2 [1;2] [r] c Fr) as S1.
  eexists _, _. split; [vm_compute; reflexivity|]. split; [reflexivity|]. split; [vm_compute; reflexivity|].
  split; [vm_compute; reflexivity|]. split; [exact (S1 [10;11])|]. split; [exact (S1 [12;13])|]. vm_compute. reflexivity.
Qed.
(** The same text around two passages gives the same answer twice. *)
Lemma repeated_wrong : exists c, zqap rtext qconts [1;2] 2 2 5 3 = Ok [c; c].
Proof. exists [12;13]. vm_compute. reflexivity. Qed.
(** A word in the passage counts as far away if it also occurs before it; words
    after the passage count as next to it however far they are. *)
Definition ntext : list Z := repeat 0 100 ++ [7;30;30;30;1;7;2;31;32;33;34;35;36].
Definition nres : result (F := Z) := Res 104 106 0 112 80.
Lemma nearest_wrong : zcovers ntext [Iv 0 112 0] [1;2] 5 = Ok [nres] /\ nth_error ntext 105 = Some 7 /\ distance nres 105 = 0 /\
  qap_where (ztrans ntext) zsplit 6 nres [7] = Some 4.
Proof. split; [vm_compute; reflexivity|]. split; [reflexivity|]. split; [reflexivity|]. vm_compute. reflexivity. Qed.
Lemma after_wrong : nth_error ntext 107 = Some 31 /\ nth_error ntext 112 = Some 36 /\
  qap_where (ztrans ntext) zsplit 6 nres [31] = Some 1 /\ qap_where (ztrans ntext) zsplit 6 nres [36] = Some 1.
Proof. split; [reflexivity|]. split; [reflexivity|]. split; vm_compute; reflexivity. Qed.
Lemma nres_fits : passage_fits 6 nres /\ 6 <= around_from 6 nres /\ 1 <= around_from 6 nres.
Proof. unfold passage_fits, around_from. cbn. unfold minf, maxf. lia. Qed.
