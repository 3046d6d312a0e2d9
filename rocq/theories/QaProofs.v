(** Feedback for question answering chooses the best terms near the passages. *)
From Verif Require Import Base Bytes RankModel RankSpec RankerModel RankerSpec RankerProofs RankerText RankerFeed QaModel QaSpec.
From Verif Require Import RecipeModel RecipeProofs.
From Coq Require Import Sorting.Sorted Permutation.

Definition minadd (w x : Z) : Z := Z.min x w.
Lemma gaps_fold gap tokens : forall i m, qa_gaps gap i tokens m = fold_left (accumulate minadd fst snd) (numbered gap i tokens) m.
Proof. induction tokens as [|t l IH]; intros i m; [reflexivity|]. cbn [qa_gaps numbered fold_left]. apply IH. Qed.
Lemma total_min gs : forall g, total minadd g gs = fold_left Z.min gs g.
Proof. induction gs as [|x gs IH]; intros g; [reflexivity|]. cbn [total fold_left]. rewrite IH. unfold minadd. rewrite Z.min_comm. reflexivity. Qed.

Section F.
Context {F : Type} (zero one : F) (add : F -> F -> F) (lt : F -> F -> bool).
Notation weights := (list (bytes * F)).
Context (default : bytes -> F) (sort : sorter) (SO : sorts sort) (WO : weak_order lt).
Context (size_of : F -> nat) (addr_of : F -> Z) (translate : Z -> Z -> bytes) (wsplit : bytes -> list bytes).
Context (expect : bytes -> Z -> F) (gain : F -> F -> F).

Lemma range_fold window (r : @result F) :
  qa_range translate wsplit window r = fold_left (accumulate minadd fst snd) (tokens_around translate wsplit window r) [].
Proof.
  unfold qa_range, tokens_around, tokens_of. cbv zeta.
  replace (if rp r - window <? rcp r then rcp r else rp r - window) with (Z.max (rp r - window) (rcp r)) by (destruct (Z.ltb_spec (rp r - window) (rcp r)); lia).
  replace (if rp r - 1 <? rcp r then rcp r else rp r - 1) with (Z.max (rp r - 1) (rcp r)) by (destruct (Z.ltb_spec (rp r - 1) (rcp r)); lia).
  replace (if rcq r <? rq r + 1 then rcq r else rq r + 1) with (Z.min (rq r + 1) (rcq r)) by (destruct (Z.ltb_spec (rcq r) (rq r + 1)); lia).
  replace (if rcq r <? rq r + window then rcq r else rq r + window) with (Z.min (rq r + window) (rcq r)) by (destruct (Z.ltb_spec (rcq r) (rq r + window)); lia).
  rewrite !fold_left_app.
  destruct (Z.max (rp r - window) (rcp r) <=? Z.max (rp r - 1) (rcp r)); destruct (rp r <=? rq r);
    destruct (Z.min (rq r + 1) (rcq r) <=? Z.min (rq r + window) (rcq r)); rewrite ?gaps_fold; cbn [numbered fold_left];
    reflexivity.
Qed.
Lemma range_map window (r : @result F) : a_map (qa_range translate wsplit window r).
Proof. rewrite range_fold. apply accumulate_map. constructor. Qed.
Lemma range_get window (r : @result F) t : get t (qa_range translate wsplit window r) = nearest t (tokens_around translate wsplit window r).
Proof.
  rewrite range_fold, accumulate_get. cbn [get]. unfold nearest. destruct (map snd _) as [|g gs]; [reflexivity|]. rewrite total_min. reflexivity.
Qed.
Lemma filter_get {A} (m : list (bytes * A)) t : a_map m ->
  filter (fun x => eqb_bytes (fst x) t) m = match get t m with Some g => [(t, g)] | None => [] end.
Proof.
  induction m as [|[k v] m IH]; intros M; [reflexivity|]. apply a_map_cons in M. destruct M as [M B]. cbn [filter fst get].
  destruct (eqb_bytes k t) eqn:E.
  - apply eqb_bytes_eq in E. subst k. rewrite eqb_bytes_refl. f_equal. rewrite (IH M). destruct (get t m) as [g|] eqn:G; [|reflexivity].
    apply (get_in t g m M) in G. apply B in G. rewrite before_irrefl in G. discriminate.
  - assert (eqb_bytes t k = false) as -> by (apply eqb_bytes_neq; intros ->; rewrite eqb_bytes_refl in E; discriminate). apply IH, M.
Qed.
Notation ranges_of window rs := (map (qa_range translate wsplit window) rs).
Lemma near_gaps window (rs : list (@result F)) t (val : bytes * Z -> F) :
  map val (filter (fun x => eqb_bytes (fst x) t) (concat (ranges_of window rs))) = map (fun g => val (t, g)) (gaps_of translate wsplit window rs t).
Proof.
  unfold gaps_of. induction rs as [|r rs IH]; [reflexivity|]. cbn [map concat flat_map]. rewrite filter_app, !map_app, IH.
  rewrite (filter_get _ t (range_map window r)), range_get. destruct (nearest t _); reflexivity.
Qed.
Lemma fold_concat {B M} (f : M -> B -> M) ls : forall m, fold_left (fun m l => fold_left f l m) ls m = fold_left f (concat ls) m.
Proof. induction ls as [|l ls IH]; intros m; cbn [fold_left concat]; [reflexivity|]. rewrite fold_left_app. apply IH. Qed.
Lemma frequencies_ok window (rs : list (@result F)) : a_map (qa_frequencies one add (ranges_of window rs)) /\
  forall t, get t (qa_frequencies one add (ranges_of window rs)) =
    match gaps_of translate wsplit window rs t with [] => None | _ :: gs => Some (times one add (S (length gs))) end.
Proof.
  assert (E : qa_frequencies one add (ranges_of window rs) = fold_left (accumulate add fst (fun _ : bytes * Z => one)) (concat (ranges_of window rs)) []).
  { unfold qa_frequencies. rewrite fold_concat. reflexivity. }
  rewrite E. split; [apply accumulate_map; constructor|]. intros t. rewrite accumulate_get, near_gaps. cbn [get].
  destruct (gaps_of translate wsplit window rs t) as [|g gs]; [reflexivity|]. cbn [map]. rewrite <- (total_times one add (length gs)). do 2 f_equal.
  clear. induction gs as [|x gs IH]; [reflexivity|]. cbn. rewrite IH. reflexivity.
Qed.
Lemma expectations_get window (rs : list (@result F)) t : get t (qa_expectations add expect (ranges_of window rs)) =
  match gaps_of translate wsplit window rs t with [] => None | g :: gs => Some (total add (expect t g) (map (expect t) gs)) end.
Proof.
  assert (E : qa_expectations add expect (ranges_of window rs) = fold_left (accumulate add fst (fun tg => expect (fst tg) (snd tg))) (concat (ranges_of window rs)) []).
  { unfold qa_expectations. rewrite fold_concat. reflexivity. }
  rewrite E, accumulate_get, near_gaps. cbn [get]. destruct (gaps_of translate wsplit window rs t) as [|g gs]; reflexivity.
Qed.
Lemma qa_cands window (rs : list (@result F)) : NoDup (map fst (qa_values zero one add lt expect gain (ranges_of window rs))) /\
  forall t v, In (t, v) (qa_values zero one add lt expect gain (ranges_of window rs)) <-> qa_candidate one add lt translate wsplit expect gain window rs t v.
Proof.
  destruct (frequencies_ok window rs) as [M T]. unfold qa_values. split.
  - apply (flat_keys one add add lt); [exact M| |]; intros [t f]; cbn [fst snd]; destruct (lt one f); [intros y [<-|[]]; reflexivity|intros y []|cbn; lia|cbn; lia].
  - intros t v. rewrite in_flat_map. unfold qa_candidate. pose proof (expectations_get window rs t) as X. specialize (T t). split.
    + intros ([t' f] & I & J). cbn [fst snd] in J. destruct (lt one f) eqn:L; [|destruct J]. destruct J as [J|[]]. injection J as -> <-.
      apply (get_in t f _ M) in I. rewrite X. destruct (gaps_of translate wsplit window rs t) as [|g gs]; [congruence|].
      assert (f = times one add (S (length gs))) as -> by congruence. exists g, gs. auto.
    + intros (g & gs & G & L & ->). rewrite G in T, X. exists (t, times one add (S (length gs))).
      split; [apply (get_in t _ _ M), T|]. cbn [fst snd]. rewrite L, X. left. reflexivity.
Qed.
Lemma results_ok depth (ranking : list (@result F)) : forall seen n, (0 < n < depth)%nat \/ n = O ->
  qa_results depth seen n ranking = firstn (Nat.max 1 depth - n) (firsts seen ranking).
Proof.
  induction ranking as [|r l IH]; intros seen n H; cbn [qa_results firsts]; [rewrite firstn_nil; reflexivity|].
  assert (EX : existsb (Z.eqb (rcp r)) seen = if in_dec Z.eq_dec (rcp r) seen then true else false).
  { destruct (in_dec Z.eq_dec (rcp r) seen) as [I|I]; [apply existsb_exists; exists (rcp r); split; [exact I|apply Z.eqb_refl]|].
    apply not_true_iff_false. intros X. apply existsb_exists in X. destruct X as (y & Y1 & Y2). apply Z.eqb_eq in Y2. subst y. contradiction. }
  rewrite EX. destruct (in_dec Z.eq_dec (rcp r) seen) as [I|I]; [apply IH, H|].
  destruct (Nat.max 1 depth - n)%nat as [|k] eqn:K; [lia|]. cbn [firstn]. f_equal. destruct (Nat.leb depth (S n)) eqn:L.
  - apply Nat.leb_le in L. assert (k = O) as -> by lia. reflexivity.
  - apply Nat.leb_gt in L. rewrite IH by lia. replace (Nat.max 1 depth - S n)%nat with k by lia. reflexivity.
Qed.
Lemma puts_ok (l : weights) : NoDup (map fst l) -> forall m, a_map m ->
  let m' := fold_left (fun m tv => put (fst tv) (snd tv) m) l m in
  a_map m' /\ forall t w, In (t, w) m' <-> In (t, w) l \/ (~ In t (map fst l) /\ In (t, w) m).
Proof.
  induction l as [|[k v] l IH]; intros D m M; cbn [fold_left fst snd map In]; [tauto|].
  apply NoDup_cons_iff in D. destruct D as [N D]. destruct (put_sets k v m M) as [M1 P]. destruct (IH D _ M1) as [I1 I2]. split; [exact I1|].
  intros t w. rewrite I2, P. split.
  - intros [H|[H [[-> ->]|[H1 H2]]]]; [auto|auto|]. right. split; [|exact H2]. intros [E|E]; [congruence|contradiction].
  - intros [[E|H]|[H1 H2]]; [|auto|].
    + injection E as <- <-. right. split; [exact N|auto].
    + right. split; [tauto|]. right. split; [|exact H2]. intros ->. tauto.
Qed.
Lemma firstn_sorted {A} (R : A -> A -> Prop) (l : list A) : StronglySorted R l -> forall n, StronglySorted R (firstn n l).
Proof.
  induction 1 as [|a l S IH Fa]; intros n; [rewrite firstn_nil; constructor|]. destruct n as [|n]; [constructor|]. cbn [firstn]. constructor; [apply IH|].
  rewrite Forall_forall in *. intros x Hx. apply Fa. rewrite <- (firstn_skipn n l). apply in_or_app. auto.
Qed.
Theorem qa_ok ranking ps q : ranking <> [] -> a_map ps ->
  exists terms q' e d w, qa_prf zero one add lt default sort size_of addr_of translate wsplit expect gain ranking ps q = Ok (map fst terms, q') /\
    parameter_value default (lit "kld") (lit "expansions") ps e /\ parameter_value default (lit "kld") (lit "depth") ps d /\
    parameter_value default (lit "kld") (lit "window") ps w /\
    best_of lt (size_of e) (qa_candidate one add lt translate wsplit expect gain (addr_of w) (firstn (Nat.max 1 (size_of d)) (firsts [] ranking))) terms /\
    StronglySorted (fun a b => lt (snd a) (snd b) = false) terms /\
    a_map q' /\ forall t v, In (t, v) q' <-> In (t, v) terms.
Proof.
  intros N MP. destruct (parameter_ok default (lit "kld") (lit "expansions") ps _ MP eq_refl ltac:(vm_compute; tauto)) as (e & E1 & E2).
  destruct (parameter_ok default (lit "kld") (lit "depth") ps _ MP eq_refl ltac:(vm_compute; tauto)) as (d & D1 & D2).
  destruct (parameter_ok default (lit "kld") (lit "window") ps _ MP eq_refl ltac:(vm_compute; tauto)) as (w & W1 & W2).
  set (rs := firstn (Nat.max 1 (size_of d)) (firsts [] ranking)).
  destruct (qa_cands (addr_of w) rs) as [CD CI]. pose proof (chosen_ok lt sort SO WO (size_of e) _ _ CD CI) as B.
  set (values := qa_values zero one add lt expect gain (ranges_of (addr_of w) rs)) in *. set (terms := chosen lt sort (size_of e) values) in *.
  assert (ND : NoDup (map fst terms)). { destruct B as (rest & _ & B & _). rewrite map_app in B. clear - B. revert B. generalize (map fst rest). intros l'. induction (map fst terms) as [|x l IH]; intros H; [constructor|]. cbn in H. apply NoDup_cons_iff in H. destruct H as [H1 H2]. constructor; [intros I; apply H1, in_or_app; auto|auto]. }
  destruct (puts_ok terms ND [] ltac:(constructor)) as [P1 P2].
  exists terms, (fold_left (fun m tv => put (fst tv) (snd tv) m) terms []), e, d, w.
  split; [|split; [exact E2|split; [exact D2|split; [exact W2|split; [exact B|split; [|split; [exact P1|]]]]]]].
  - assert (RE : qa_results (size_of d) [] 0 ranking = rs) by (rewrite results_ok by (right; reflexivity); rewrite Nat.sub_0_r; reflexivity).
    unfold terms, values. clearbody rs. clear - N E1 D1 W1 RE. unfold qa_prf. destruct ranking as [|r0 rest]; [congruence|].
    rewrite E1, D1, W1. cbn [bind]. rewrite RE. reflexivity.
  - unfold terms, chosen. apply firstn_sorted. apply SO. destruct WO as (X1 & X2 & X3). unfold by_value. split; [|split].
    + intros a. apply X1.
    + intros a b c X Y. eapply X2; eassumption.
    + intros a b c X. destruct (X3 _ (snd b) _ X); auto.
  - intros t v. rewrite P2. cbn [In]. tauto.
Qed.
End F.
