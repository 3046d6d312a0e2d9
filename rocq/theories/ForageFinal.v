(** The description of a foraging, and what goes wrong. *)
From Verif Require Import Base Bytes RecipeModel HopperModel GclSpec HopperProofs ArrayProofs UnaryProofs AnswerProofs PostingModel
  VectorModel RankModel RankSpec RankSsr RankTop StatsModel StatsSpec StatsHopper StatsProofs StatsTop StatsSum
  StoreDir ForagerModel ForagerSpec ForageModel ForageSpec ForageProofs ForageTop ForageRun.
From Verif Require ForagerProofs RecipeDna.

Lemma dec_bytes z : of_bytes (dec z).
Proof.
  assert (D : forall z, 0 <= z -> Forall is_byte (dec_nat z)).
  { intros x Hx. pose proof (dec_digits x Hx) as F. unfold dec in F. replace (x <? 0) with false in F by lia.
    revert F. apply Forall_impl. unfold is_byte. intros c Hc. cbv beta in Hc. lia. }
  unfold of_bytes, dec. destruct (z <? 0) eqn:E; [|apply D; lia]. constructor; [unfold is_byte; lia|]. apply D. lia.
Qed.
Lemma put_bytes k v (m : params) : of_bytes k -> of_bytes v -> map_of_bytes m -> map_of_bytes (put k v m).
Proof.
  intros K V. unfold map_of_bytes. induction m as [|[a b] m IH]; intros M; cbn [put]; [constructor; auto|].
  apply Forall_cons_iff in M. destruct M as [M1 M2]. destruct (eqb_bytes k a); [constructor; auto|].
  destruct (RecipeModel.before k a); [constructor; auto; constructor; auto|constructor; auto].
Qed.
(** The parameters with which a query is foraged. *)
Definition described (ps : params) (gcl : bytes) (items : list iv) : params := forage_params (gcl_params ps gcl) items.
Lemma lit_bytes : of_bytes (lit "gcl") /\ of_bytes (lit "start") /\ of_bytes (lit "end").
Proof. unfold of_bytes, is_byte. repeat split; repeat (constructor; [cbn; lia|]); constructor. Qed.
Theorem described_ok ps gcl items : map_of_bytes ps -> is_map ps -> of_bytes gcl -> items <> [] ->
  map_of_bytes (described ps gcl items) /\ is_map (described ps gcl items) /\
  RecipeModel.get (lit "gcl") (described ps gcl items) = Some gcl /\
  RecipeModel.get (lit "start") (described ps gcl items) = Some (dec (front_p items)) /\
  RecipeModel.get (lit "end") (described ps gcl items) = Some (dec (back_q items)) /\
  forall k, ~ In k [lit "gcl"; lit "start"; lit "end"] -> RecipeModel.get k (described ps gcl items) = RecipeModel.get k ps.
Proof.
  intros B M Bg N. destruct items as [|x l]; [congruence|]. destruct lit_bytes as (L1 & L2 & L3). unfold described, forage_params, gcl_params.
  assert (E : iq (last (x :: l) x) = back_q (x :: l)).
  { destruct (@exists_last _ (x :: l) ltac:(discriminate)) as (r & y & E). rewrite E, last_last. unfold back_q. rewrite rev_app_distr. reflexivity. }
  rewrite E. split; [auto using put_bytes, dec_bytes|]. split; [auto using ForagerProofs.put_map|].
  rewrite !RecipeDna.get_put. split; [reflexivity|]. split; [reflexivity|]. split; [reflexivity|].
  intros k Hk. rewrite !RecipeDna.get_put. cbn [In] in Hk.
  rewrite !(proj2 (eqb_bytes_neq _ _)) by (intros ->; tauto). reflexivity.
Qed.
(** What a foraging of a query leaves is read. *)
Theorem read_described stem featurize word_at place items notes tag index translate (queries stemmers tokenizers : bytes -> bool) ps gcl t tail nuls :
  statistics_in_parts stem featurize word_at (forager_label (lit "tf-idf") tag) place items notes -> indexed index notes ->
  gclist items -> items <> [] -> Z.of_nat (length items) <= maxf -> total_length items <= maxf ->
  no_clash featurize (label_keys (forager_label (lit "tf-idf") tag) (t :: flat_map (words_of word_at stem) items)) ->
  finite place -> of_bytes tag -> map_of_bytes ps -> is_map ps -> of_bytes gcl -> white tail -> Forall (eq 0) nuls ->
  translate (ip place) (iq place) = forager2json (lit "tf-idf") tag (described ps gcl items) ++ tail ++ nuls ->
  queries gcl = true -> queries (or_else (lit ":") (RecipeModel.get (lit "container") ps)) = true ->
  stemmers (or_else (lit "porter") (RecipeModel.get (lit "stemmer") ps)) = true -> tokenizers (or_else (lit "ascii") (RecipeModel.get (lit "tokenizer") ps)) = true ->
  stats_make index translate featurize queries stemmers tokenizers tag =
    Ok (Some (Stats (or_else (lit ":0:") (RecipeModel.get (lit "id") ps)) gcl (or_else (lit ":") (RecipeModel.get (lit "container") ps))
         (Z.of_nat (length items)) (total_length items))).
Proof.
  intros H HI G NE B1 B2 NC FP BT MP IM BG W Nu TR Q1 Q2 Q3 Q4.
  destruct (described_ok ps gcl items MP IM BG NE) as (D1 & D2 & D3 & _ & _ & D6).
  assert (O : forall k, In k [lit "container"; lit "stemmer"; lit "tokenizer"; lit "id"] -> RecipeModel.get k (described ps gcl items) = RecipeModel.get k ps).
  { intros k Hk. apply D6. intros Hk'. cbn [In] in Hk, Hk'.
    repeat match goal with H : _ \/ _ |- _ => destruct H end; try contradiction; subst; discriminate. }
  rewrite (read_ok stem featurize word_at place items notes tag index translate queries stemmers tokenizers (described ps gcl items) gcl t); unfold container_of;
    rewrite ?(O (lit "container")), ?(O (lit "stemmer")), ?(O (lit "tokenizer")), ?(O (lit "id")) by (cbn [In]; tauto); auto.
  rewrite TR. apply ForagerProofs.reads_back; auto. unfold of_bytes, is_byte. repeat (constructor; [cbn; lia|]); constructor.
Qed.
(** A description without a query, or with another name, is refused. *)
Theorem read_refused index translate featurize queries stemmers tokenizers tag place name tag' ps :
  answers (projT1 (index (featurize (64 :: forager_label (lit "tf-idf") tag)))) (projT2 (index (featurize (64 :: forager_label (lit "tf-idf") tag))))
    (set_of [Iv (ip place) (iq place) 0]) -> finite place ->
  json2forager (translate (ip place) (iq place)) = Ok (Some (name, tag', ps)) ->
  name <> lit "tf-idf" \/ tag' <> tag \/ RecipeModel.get (lit "gcl") ps = None ->
  stats_make index translate featurize queries stemmers tokenizers tag = Ok None.
Proof.
  intros A F J H. unfold stats_make. cbv zeta. destruct (tau_one _ _ _ A F) as (h & E).
  match goal with |- bind ?x _ = _ => replace x with (Ok (h, Iv (ip place) (iq place) 0)) by (symmetry; exact E) end. cbn [bind ip iq].
  replace (ip place =? maxf) with false by (unfold finite in F; lia). rewrite J. cbn [bind].
  destruct (RecipeModel.get (lit "gcl") ps); [|reflexivity]. destruct H as [H|[H|H]]; [| |discriminate].
  - rewrite (proj2 (eqb_bytes_neq _ _) H). reflexivity.
  - rewrite (proj2 (eqb_bytes_neq _ _) H). rewrite andb_false_r. reflexivity.
Qed.
(** Parts are committed although the whole fails. *)
Theorem some_committed split stem featurize name tag word_at place intervals threads cs :
  gclist intervals -> words_align word_at split intervals -> total_length intervals <= maxf ->
  (1 <= threads <= length intervals)%nat -> length cs = threads ->
  In (Some (Calls true true true true true)) cs -> In (Some (Calls false true true true true)) cs ->
  exists es notes, forage split stem featurize (forager_label name tag) true place intervals threads cs = Ok (false, es) /\ In (Committed notes) es.
Proof.
  intros G A B T L I1 I2.
  pose proof (forage_ends split stem featurize (forager_label name tag) word_at place intervals G A B threads T cs L) as E. rewrite E.
  set (es := ends stem featurize (forager_label name tag) word_at place intervals threads cs) in *.
  assert (M : forall c, In c cs -> exists s, In (end_of stem featurize (forager_label name tag) word_at place intervals s c) es).
  { intros c Hc. apply In_nth_error in Hc. destruct Hc as [n Hn].
    assert (LS : length (shares threads (length intervals)) = length cs) by (unfold shares; rewrite shares_length; auto).
    destruct (nth_error (shares threads (length intervals)) n) as [s|] eqn:Es; [|apply nth_error_None in Es; assert (n < length cs)%nat by (apply nth_error_Some; congruence); lia].
    exists s. apply in_map_iff. exists (s, c). split; [reflexivity|].
    assert (X : forall (a : list (nat * nat)) (b : list (option calls)) n x y, nth_error a n = Some x -> nth_error b n = Some y -> In (x, y) (combine a b)).
    { clear. induction a as [|u a IH]; intros [|v b] [|n] x y; cbn; intros E1 E2; try discriminate; [injection E1 as ->; injection E2 as ->; left; reflexivity|right; eauto]. }
    eapply X; eauto. }
  destruct (M _ I1) as [s1 X1]. destruct (M _ I2) as [s2 X2]. cbn [end_of] in X1, X2.
  assert (F1 : forall b, fine b (Calls true true true true true) = true) by (intros []; reflexivity).
  rewrite F1 in X1. replace (fine (Nat.eqb (fst s2) 0) (Calls false true true true true)) with false in X2 by reflexivity.
  eexists _, _. split; [|exact X1]. f_equal. f_equal. apply Bool.not_true_is_false. intros Q. apply (answer_iff stem featurize (forager_label name tag) word_at place intervals threads cs) in Q. auto.
Qed.
(** An unknown stemmer or tokenizer. *)
Theorem not_made split stem featurize label place intervals threads cs c : intervals <> [] -> (1 <= threads)%nat -> hd_error cs = Some (Some c) -> c_clone c = true ->
  forage split stem featurize label false place intervals threads cs = UB.
Proof.
  intros N T H C. unfold forage. destruct intervals as [|x l]; [congruence|]. destruct cs as [|c0 cs]; [discriminate|]. cbn [hd_error] in H. injection H as ->.
  unfold shares. destruct threads as [|t]; [lia|]. cbn [shares_from]. destruct t as [|t]; cbn [workers]; unfold worker at 1; rewrite C; reflexivity.
Qed.
Theorem threads_ok hardware asked count : (1 <= count)%nat -> (count <= 64 * 1024 \/ (asked <= count /\ hardware + 1 <= count))%nat ->
  (1 <= thread_count hardware asked count <= count)%nat.
Proof.
  intros C H. unfold thread_count. destruct (Nat.leb_spec count (64 * 1024)); cbn [Nat.eqb]; [lia|].
  destruct (Nat.eqb_spec asked 0); lia.
Qed.
(** Rankings from what was foraged. *)
Theorem foraged_ranking C stem featurize word_at tofval index (F : Type) (zero : F) add lt sort gain c SC label place items notes depth ts :
  weak_order lt -> sorts sort -> tofval 0 = 0 -> answers C c SC -> listed SC items ->
  statistics_in_parts stem featurize word_at label place items notes -> indexed index notes ->
  (forall t, In t ts -> no_clash featurize (label_keys label (t :: flat_map (words_of word_at stem) items))) ->
  exists top, term_ranking zero add lt sort gain depth (map (stats_term C (labelled featurize label) tofval index c) ts) = Ok top /\
    best lt depth (doc_results zero add lt gain items (map (fun t => valued stem word_at tofval t items) ts)) top.
Proof. intros W HS Z0 HC HL H HI NC. eapply places_ranking; eauto. intros t Ht. apply (H t (NC t Ht)). Qed.
Theorem foraged_bm25 C stem featurize word_at tofval index (F : Type) (zero : F) add lt sort c SC label place items notes depth ts (weights : list (F * (Z -> Z -> F))) :
  weak_order lt -> sorts sort -> exact zero add lt -> tofval 0 = 0 -> answers C c SC -> listed SC items ->
  (forall d, In d items -> iq d - ip d <= maxf) ->
  statistics_in_parts stem featurize word_at label place items notes -> indexed index notes ->
  (forall t, In t ts -> no_clash featurize (label_keys label (t :: flat_map (words_of word_at stem) items))) ->
  let ws := map (fun '(t, (idf, g)) => Wand idf g (stats_term C (labelled featurize label) tofval index c t)) (combine ts weights) in
  Forall2 (fun t w => bounded zero lt (valued stem word_at tofval t items) (Wand (fst w) (snd w) (stats_term C (labelled featurize label) tofval index c t))) ts weights ->
  exists top, bm25_ranking zero add lt sort depth ws = Ok top /\
    best lt depth (doc_results zero add lt (wand_gain zero ws) items (map (fun t => valued stem word_at tofval t items) ts)) top.
Proof. intros W HS HX Z0 HC HL HB H HI NC ws HW. eapply places_bm25; eauto. intros t Ht. apply (H t (NC t Ht)). Qed.
