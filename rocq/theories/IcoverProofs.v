(** Proofs about IcoverModel.v: merging, and one round of the search. *)
From Verif Require Import Base HopperModel GclSpec GclProofs UnaryProofs VectorModel
  RankModel RankSpec RankProofs RankFuse IcoverModel IcoverSpec.

Section Merge.
Context {F : Type} (zero : F) (add : F -> F -> F) (lt : F -> F -> bool).
Context (sort stable_sort : sorter).
Context (W : weak_order lt) (HS : sorts sort) (HT : sorts_stably stable_sort).
Context (penal : F -> nat -> Z -> F).
Notation result := (result (F := F)).
Notation word := (F * (iv -> Prop))%type.
Notation merge := (merge_results lt sort stable_sort).
Notation passage := (passage (F := F) zero add penal).
Notation ranking_of := (ranking_of (F := F) zero add lt penal).
Notation placed := (placed (F := F) lt).

Lemma merge_facts r0 r1 depth :
  let out := merge r0 r1 depth in
  (length out <= depth)%nat /\
  StronglySorted (fun a b => lt (rscore a) (rscore b) = false) out /\
  NoDup (map rcp out) /\ incl out (r0 ++ r1).
Proof.
  intros out. destruct (merge_results_ok zero add lt sort stable_sort W HS HT r0 r1 depth) as (all & (O1 & O2 & O3) & lo & P & L & S & D).
  fold out in P, L, S, D. split; [lia|]. split; [exact S|]. split.
  - apply (Permutation_NoDup (Permutation_map rcp P)) in O1. rewrite map_app in O1.
    clear - O1. induction (map rcp out) as [|a l IH]; [constructor|]. cbn in O1. inversion O1; subst.
    constructor; [|apply IH; assumption]. intros H. apply H1. apply in_or_app. auto.
  - intros r Hr. apply O3. apply (Permutation_in r (Permutation_sym P)). apply in_or_app. auto.
Qed.

Lemma merge_ranking words C depth top cur : ranking_of words C depth top -> Forall (passage words C) cur ->
  ranking_of words C depth (merge top cur depth).
Proof.
  intros (_ & _ & _ & Ft) Fc. destruct (merge_facts top cur depth) as (L & S & N & I).
  split; [exact L|]. split; [exact S|]. split; [exact N|].
  apply Forall_forall. intros r Hr. apply I, in_app_or in Hr. rewrite Forall_forall in Ft, Fc.
  destruct Hr; auto.
Qed.

Lemma merge_in depth top cur r : In r (top ++ cur) -> placed depth (merge top cur depth) (rcp r) (rscore r).
Proof.
  intros Hr. destruct (merge_results_ok zero add lt sort stable_sort W HS HT top cur depth) as (all & (O1 & O2 & O3) & lo & P & L & S & D).
  set (out := merge top cur depth) in *.
  assert (Hk : In (rcp r) (map rcp all)) by (apply O2, in_map, Hr).
  apply in_map_iff in Hk. destruct Hk as (r' & E & Hr'). destruct (O3 r' Hr') as [_ G]. specialize (G r Hr (eq_sym E)).
  apply (Permutation_in r' P) in Hr' as Hx. apply in_app_or in Hx. destruct Hx as [Hx|Hx].
  - left. exists r'. auto.
  - right. split.
    + apply Permutation_length in P. rewrite app_length in P. destruct lo; [destruct Hx|cbn in P; lia].
    + intros t Ht. exact (lt_neg lt W _ _ _ (D t r' Ht Hx) G).
Qed.
Lemma placed_less depth out c s s' : lt s' s = false -> placed depth out c s' -> placed depth out c s.
Proof.
  intros H [(r & H1 & H2 & H3)|[H1 H2]].
  - left. exists r. split; [exact H1|]. split; [exact H2|]. exact (lt_neg lt W _ _ _ H3 H).
  - right. split; [exact H1|]. intros r Hr. exact (lt_neg lt W _ _ _ (H2 r Hr) H).
Qed.
Lemma merge_full depth top cur s : NoDup (map rcp top) -> length top = depth ->
  (forall r, In r top -> lt (rscore r) s = false) ->
  length (merge top cur depth) = depth /\ forall r, In r (merge top cur depth) -> lt (rscore r) s = false.
Proof.
  intros N Lt A. destruct (merge_results_ok zero add lt sort stable_sort W HS HT top cur depth) as (all & (O1 & O2 & O3) & lo & P & L & S & D).
  set (out := merge top cur depth) in *.
  assert (La : (depth <= length all)%nat).
  { rewrite <- Lt, <- (map_length rcp top), <- (map_length rcp all). apply NoDup_incl_length; [exact N|].
    intros k Hk. apply O2. rewrite map_app. apply in_or_app. auto. }
  split; [lia|]. intros t Ht. destruct (lt (rscore t) s) eqn:E; [exfalso|reflexivity].
  apply in_split in Ht. destruct Ht as (a & b & Eo).
  assert (incl (map rcp top) (map rcp (a ++ b))) as I.
  { intros k Hk. apply in_map_iff in Hk. destruct Hk as (r & <- & Hr).
    assert (Hk : In (rcp r) (map rcp all)) by (apply O2; rewrite map_app; apply in_or_app; left; apply in_map, Hr).
    apply in_map_iff in Hk. destruct Hk as (r' & Er & Hr'). destruct (O3 r' Hr') as [_ G].
    specialize (G r (in_or_app _ _ _ (or_introl Hr)) (eq_sym Er)).
    pose proof (lt_neg lt W _ _ _ G (A r Hr)) as G2.
    rewrite <- Er. apply in_map. apply (Permutation_in r' P) in Hr'. apply in_app_or in Hr'. destruct Hr' as [Hx|Hx].
    - rewrite Eo in Hx. apply in_app_or in Hx. apply in_or_app. destruct Hx as [Hx|[<-|Hx]]; auto. congruence.
    - pose proof (D t r' ltac:(rewrite Eo; apply in_or_app; right; left; reflexivity) Hx) as G3.
      pose proof (lt_neg lt W _ _ _ G3 G2). congruence. }
  apply (NoDup_incl_length N) in I. rewrite !map_length in I.
  assert (length out = (1 + length (a ++ b))%nat) by (rewrite Eo, !app_length; cbn; lia). lia.
Qed.

(** What is kept while a pass runs. *)
Definition kept (depth : nat) (top cur : list result) (c : Z) (s : F) : Prop :=
  (exists r, In r (top ++ cur) /\ rcp r = c /\ lt (rscore r) s = false) \/
  (length top = depth /\ forall r, In r top -> lt (rscore r) s = false).
Lemma kept_merge depth top cur c s : NoDup (map rcp top) -> kept depth top cur c s ->
  placed depth (merge top cur depth) c s.
Proof.
  intros N [(r & H1 & <- & H3)|[H1 H2]].
  - exact (placed_less _ _ _ _ _ H3 (merge_in depth top cur r H1)).
  - right. exact (merge_full depth top cur s N H1 H2).
Qed.
Lemma placed_kept depth top cur c s : placed depth top c s -> kept depth top cur c s.
Proof.
  intros [(r & H1 & H2)|H]; [left|right; exact H]. exists r. split; [apply in_or_app; auto|exact H2].
Qed.
Lemma kept_placed depth top c s : kept depth top [] c s -> placed depth top c s.
Proof.
  intros [(r & H1 & H2)|H]; [left|right; exact H]. rewrite app_nil_r in H1. exists r. auto.
Qed.
Lemma kept_more depth top cur cur' c s : kept depth top cur c s -> kept depth top (cur ++ cur') c s.
Proof.
  intros [(r & H1 & H2)|H]; [left|right; exact H]. exists r. split; [|exact H2]. rewrite app_assoc. apply in_or_app. auto.
Qed.
Lemma merge_nonempty depth top cur : (0 < depth)%nat -> top ++ cur <> [] -> merge top cur depth <> [].
Proof.
  intros Hd H E. destruct (top ++ cur) as [|r l] eqn:El; [congruence|].
  pose proof (merge_in depth top cur r) as M. rewrite El in M. specialize (M (or_introl eq_refl)). rewrite E in M.
  destruct M as [(x & [] & _)|[M _]]. cbn in M. lia.
Qed.

(** The target. *)
Lemma target_ok top depth : (0 < depth)%nat -> StronglySorted (fun a b => lt (rscore a) (rscore b) = false) top ->
  (length top <= depth)%nat ->
  wp (icover_target zero top depth) (fun t =>
    (length top = depth /\ forall r, In r top -> lt (rscore r) t = false) \/ ((length top < depth)%nat /\ t = zero)).
Proof.
  intros Hd S L. unfold icover_target. destruct (Nat.leb_spec depth (length top)) as [H|H]; [|apply wp_ok; right; auto].
  destruct (rev top) as [|r l] eqn:E.
  { apply (f_equal (@length _)) in E. rewrite rev_length in E. cbn in E. lia. }
  apply wp_ok. left. split; [lia|]. intros x Hx.
  assert (Et : top = rev l ++ [r]) by (rewrite <- (rev_involutive top), E; reflexivity).
  rewrite Et in S, Hx. apply in_app_or in Hx. destruct Hx as [Hx|[<-|[]]]; [|apply W].
  clear - S Hx. induction (rev l) as [|a m IH]; [destruct Hx|]. cbn in S. inversion S as [|? ? S' Fa]; subst.
  destruct Hx as [<-|Hx]; [|auto]. rewrite Forall_forall in Fa. apply Fa, in_or_app. right. left. reflexivity.
Qed.
End Merge.
