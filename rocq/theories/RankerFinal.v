(** Pipelines with the feedback methods in them. *)
From Verif Require Import Base Bytes RankModel RankSpec RankerModel RankerSpec RankerProofs RankerText RankerFeed.
From Verif Require Import RecipeModel RecipeProofs.
From Coq Require Import Sorting.Sorted Permutation.

Section F.
Context {F : Type} (zero one : F) (add mul : F -> F -> F) (lt : F -> F -> bool) (sort : sorter) (SO : sorts sort) (WO : weak_order lt).
Notation weights := (list (bytes * F)).
Context (default : bytes -> F) (size_of : F -> nat) (addr_of : F -> Z) (translate : Z -> Z -> bytes) (split wsplit : bytes -> list bytes) (stem wstem : bytes -> bytes).
Context (stopwords : list bytes) (have unstemmed : bool) (rsj : bytes -> F) (expect : bytes -> nat -> F) (gain : F -> F -> F) (share : F -> F -> F -> F).
Context (bm25 lmd : weights -> weights -> list (@result F)).
Local Notation rsj_ := (rsj_prf zero one add lt default sort size_of translate wsplit wstem have unstemmed rsj mul).
Local Notation kld_ := (kld_prf zero one add lt default sort size_of addr_of translate wsplit expect gain share).
Lemma grow_keeps value (q terms : weights) : a_map q -> a_map (grow add value q terms) /\ (q <> [] -> grow add value q terms <> []).
Proof.
  intros M. rewrite grow_accumulate. split; [apply accumulate_map, M|]. intros N E. destruct q as [|[t u] q]; [congruence|].
  pose proof (accumulate_get add fst (fun tv => value (snd tv)) terms t ((t, u) :: q)) as G. rewrite E in G. cbn [get] in G. rewrite eqb_bytes_refl in G. discriminate.
Qed.
Lemma rsj_keeps r ps q q' : a_map q -> rsj_ r ps q = Ok q' -> a_map q' /\ (q <> [] -> q' <> []).
Proof.
  intros M. unfold rsj_prf. destruct r; [intros X; assert (q' = q) as -> by congruence; auto|]. destruct (negb have); [intros X; assert (q' = q) as -> by congruence; auto|].
  destruct (ranking_parameter default (lit "rsj") (lit "expansions") ps); try discriminate. cbn [bind]. destruct (ranking_parameter default (lit "rsj") (lit "depth") ps); try discriminate. cbn [bind].
  destruct (ranking_parameter default (lit "rsj") (lit "gamma") ps); try discriminate. cbn [bind]. destruct (rsj_texts _ _ _ _ _ _); intros X; [assert (q' = q) as -> by congruence; auto|].
  injection X as <-. apply grow_keeps, M.
Qed.
Lemma kld_keeps r ps q q' : a_map q -> kld_ r ps q = Ok q' -> a_map q' /\ (q <> [] -> q' <> []).
Proof.
  intros M. unfold kld_prf. destruct r; [intros X; assert (q' = q) as -> by congruence; auto|].
  destruct (ranking_parameter default (lit "kld") (lit "expansions") ps); try discriminate. cbn [bind]. destruct (ranking_parameter default (lit "kld") (lit "depth") ps); try discriminate. cbn [bind].
  destruct (ranking_parameter default (lit "kld") (lit "window") ps); try discriminate. cbn [bind].
  destruct (ranking_parameter default (lit "kld") (lit "gamma") ps); try discriminate. cbn [bind]. destruct (passages _ _ _ _ _); intros X; [assert (q' = q) as -> by congruence; auto|].
  injection X as <-. apply grow_keeps, M.
Qed.
Lemma rsj_total r ps q : r <> [] -> a_map ps -> exists q', rsj_ r ps q = Ok q'.
Proof.
  intros N MP. unfold rsj_prf. destruct r; [eauto|]. destruct (negb have); [eauto|].
  destruct (parameter_ok default (lit "rsj") (lit "expansions") ps _ MP eq_refl ltac:(vm_compute; tauto)) as (e & -> & _).
  destruct (parameter_ok default (lit "rsj") (lit "depth") ps _ MP eq_refl ltac:(vm_compute; tauto)) as (d & -> & _).
  destruct (parameter_ok default (lit "rsj") (lit "gamma") ps _ MP eq_refl ltac:(vm_compute; tauto)) as (g & -> & _). cbn [bind]. destruct (rsj_texts _ _ _ _ _ _); eauto.
Qed.
Lemma kld_total r ps q : r <> [] -> a_map ps -> exists q', kld_ r ps q = Ok q'.
Proof.
  intros N MP. unfold kld_prf. destruct r; [eauto|].
  destruct (parameter_ok default (lit "kld") (lit "expansions") ps _ MP eq_refl ltac:(vm_compute; tauto)) as (e & -> & _).
  destruct (parameter_ok default (lit "kld") (lit "depth") ps _ MP eq_refl ltac:(vm_compute; tauto)) as (d & -> & _).
  destruct (parameter_ok default (lit "kld") (lit "window") ps _ MP eq_refl ltac:(vm_compute; tauto)) as (w & -> & _).
  destruct (parameter_ok default (lit "kld") (lit "gamma") ps _ MP eq_refl ltac:(vm_compute; tauto)) as (g & -> & _). cbn [bind]. destruct (passages _ _ _ _ _); eauto.
Qed.
Theorem rank_full l query : add zero one = one -> split [] = [] -> wsplit query = split query ->
  exists ranking ps q q', rank zero one add split wsplit stem stopwords bm25 lmd rsj_ kld_ l query = Ok (ranking, ps) /\
    bag one add (split query) q /\ effects add stem stopwords bm25 lmd rsj_ kld_ l (View q [] []) (View q' ps ranking).
Proof.
  intros Z1 NS WS. destruct (transforms_total zero one add split wsplit stem stopwords bm25 lmd rsj_ kld_ l rsj_total kld_total (Context query [] [] []) ltac:(constructor)) as (c & E).
  exists (c_ranking c), (c_parameters c). assert (R : rank zero one add split wsplit stem stopwords bm25 lmd rsj_ kld_ l query = Ok (c_ranking c, c_parameters c)) by (unfold rank; rewrite E; reflexivity).
  destruct (rank_ok zero one add split wsplit stem stopwords bm25 lmd rsj_ kld_ Z1 NS query WS rsj_keeps kld_keeps l _ _ R) as (q & q' & B & X). exists q, q'. auto.
Qed.
End F.
(** Drawing the parameters of bm25 changes the depth of feedback. *)
Theorem depth_taken {F} (default draw : bytes -> F) (ranker : bytes) m ps : drawn_for default draw ranker m -> a_map ps ->
  (ranker = lit "bm25" \/ ranker = lit "lmd") -> ~ In (lit "rsj:depth") (map fst ps) ->
  forall ps', ps' = fold_left (fun m kv => put (fst kv) (snd kv) m) m ps -> ranking_parameter default (lit "rsj") (lit "depth") ps' = Ok (default (lit "depth")).
Proof.
  intros D M R N ps' ->. apply drawn_ok in D.
  assert (G1 : get (lit "rsj:depth") (fold_left (fun m kv => put (fst kv) (snd kv) m) m ps) = None).
  { apply get_none in N. destruct R as [-> | ->]; cbn in D; injection D as <-; cbn [fold_left fst snd]; rewrite !get_put; exact N. }
  assert (G2 : get (lit "depth") (fold_left (fun m kv => put (fst kv) (snd kv) m) m ps) = Some (default (lit "depth"))).
  { destruct R as [-> | ->]; cbn in D; injection D as <-; cbn [fold_left fst snd]; rewrite !get_put; reflexivity. }
  unfold ranking_parameter. change (lit "rsj" ++ lit ":" ++ lit "depth") with (lit "rsj:depth"). rewrite G1, G2. reflexivity.
Qed.
