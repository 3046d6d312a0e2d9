(** Means of measures, identifiers, and files of judgments. *)
From Coq Require Import Reals Lra Permutation Sorted.
From Verif Require Import Base Bytes RecipeModel RankerSpec JsonlSpec EvalModel EvalSpec EvalProofs EvalGain EvalFinal EvalMore EvalMed.
From Verif Require RankerProofs RankerText RankerModel.
Local Open Scope R_scope.

(** * Means *)
Lemma mean_loop_ok f m acc : (forall k, In k (map fst acc) -> k <> lit "n" -> known k m) ->
  exists acc', mean_loop f m acc = Ok acc' /\ map fst acc' = map fst acc /\
  forall k, get k acc' = option_map (fun v => if eqb_bytes k (lit "n") then v else lift f v (match get k m with Some x => x | None => None end)) (get k acc).
Proof.
  induction acc as [|[k v] acc IH]; intros H; [exists []; auto|]. cbn [mean_loop].
  destruct IH as (acc' & E & K & V); [intros; apply H; [now right|auto]|]. destruct (eqb_bytes k (lit "n")) eqn:N.
  - rewrite E. cbn [bind]. exists ((k, v) :: acc'). split; [reflexivity|]. cbn [map fst]. split; [now rewrite K|]. intros k'. cbn [get].
    destruct (eqb_bytes k' k) eqn:Q; [|apply V]. apply eqb_bytes_eq in Q. subst k'. cbn [option_map]. now rewrite N.
  - destruct (H k) as [y Y]; [now left|now apply eqb_bytes_neq|]. rewrite Y, E. cbn [bind]. exists ((k, lift f v (Some y)) :: acc'). split; [reflexivity|].
    cbn [map fst]. split; [now rewrite K|]. intros k'. cbn [get]. destruct (eqb_bytes k' k) eqn:Q; [|apply V]. apply eqb_bytes_eq in Q. subst k'. cbn [option_map]. now rewrite N, Y.
Qed.
Lemma put_keys {A} k (v : A) m : forall x, In x (map fst (put k v m)) <-> x = k \/ In x (map fst m).
Proof.
  intros x. destruct (get x (put k v m)) eqn:E.
  - assert (I : In x (map fst (put k v m))). { destruct (in_dec (list_eq_dec Z.eq_dec) x (map fst (put k v m))); [auto|]. exfalso. apply RankerText.get_none in n. congruence. }
    rewrite RankerProofs.get_put in E. destruct (eqb_bytes x k) eqn:Q.
    + apply eqb_bytes_eq in Q. tauto.
    + split; [intros _; right|tauto]. destruct (in_dec (list_eq_dec Z.eq_dec) x (map fst m)); [auto|]. exfalso. apply RankerText.get_none in n. congruence.
  - pose proof E as E2. rewrite RankerProofs.get_put in E2. apply RankerText.get_none in E. destruct (eqb_bytes x k) eqn:Q; [discriminate|]. apply RankerText.get_none in E2.
    apply eqb_bytes_neq in Q. tauto.
Qed.
Definition averaged (m0 : list (bytes * option R)) (done : list (list (bytes * option R))) (acc : list (bytes * option R)) : Prop :=
  get (lit "n") acc = Some (Some (INR (length done))) /\
  (forall k, In k (map fst acc) <-> k = lit "n" \/ In k (map fst m0)) /\
  (forall k, k <> lit "n" -> In k (map fst m0) -> exists x, get k acc = Some (Some x) /\ mean_of k done x).
Lemma Forall2_snoc {A B} (P : A -> B -> Prop) l l' x y : Forall2 P l l' -> P x y -> Forall2 P (l ++ [x]) (l' ++ [y]).
Proof. induction 1; cbn; intros; constructor; auto. Qed.
Lemma mean_step m0 done m acc : done <> [] -> averaged m0 done acc -> (forall k, In k (map fst m0) -> k <> lit "n" -> known k m) ->
  exists acc', mean m acc = Ok acc' /\ averaged m0 (done ++ [m]) acc'.
Proof.
  intros NE (A1 & A2 & A3) H. assert (NP : 0 < INR (length done)) by (apply lt_0_INR; destruct done; [contradiction|cbn; lia]).
  unfold mean. destruct acc as [|e acc]; [discriminate|]. set (a := e :: acc) in *. rewrite A1.
  replace (ltR 0 (INR (length done))) with true by (symmetry; now apply ltR_iff).
  destruct (mean_loop_ok (fun old x => (old * INR (length done) + x) / (INR (length done) + 1)) m a) as (a' & E & K & V).
  { intros k I N. apply H; [|exact N]. apply A2 in I. tauto. }
  rewrite E. cbn [bind]. eexists. split; [reflexivity|]. split; [|split].
  - rewrite get_set, eqb_bytes_refl. do 2 f_equal. rewrite app_length, plus_INR. cbn. lra.
  - intros k. unfold set. rewrite put_keys, K, A2. tauto.
  - intros k N I. rewrite get_set. replace (eqb_bytes k (lit "n")) with false by (symmetry; now apply eqb_bytes_neq). rewrite V.
    destruct (A3 k N I) as (x & X1 & v & F & X2). destruct (H k I N) as [y Y]. rewrite X1, Y. cbn [option_map].
    replace (eqb_bytes k (lit "n")) with false by (symmetry; now apply eqb_bytes_neq). cbn [lift]. eexists. split; [reflexivity|].
    exists (v ++ [y]). split; [now apply Forall2_snoc|]. rewrite Rsum_app, app_length, plus_INR. cbn [length INR]. change (Rsum [y]) with (y + 0). rewrite X2. field. lra.
Qed.
Lemma means_ok m0 ms : (forall m k, In m (m0 :: ms) -> In k (map fst m0) -> k <> lit "n" -> known k m) ->
  exists r, means (m0 :: ms) [] = Ok r /\ averaged m0 (m0 :: ms) r.
Proof.
  intros H. cbn [means mean bind].
  assert (B : averaged m0 [m0] (set "n" (Some 1) m0)).
  { split; [|split].
    - rewrite get_set, eqb_bytes_refl. reflexivity.
    - intros k. unfold set. apply put_keys.
    - intros k N I. rewrite get_set. replace (eqb_bytes k (lit "n")) with false by (symmetry; now apply eqb_bytes_neq).
      destruct (H m0 k (or_introl eq_refl) I N) as [y Y]. exists y. split; [exact Y|]. exists [y]. split; [repeat constructor; exact Y|]. cbn. lra. }
  assert (K : forall ms done acc, done <> [] -> averaged m0 done acc -> (forall m k, In m ms -> In k (map fst m0) -> k <> lit "n" -> known k m) ->
    exists r, means ms acc = Ok r /\ averaged m0 (done ++ ms) r).
  { clear. induction ms as [|m ms IH]; intros done acc NE A H.
    - exists acc. rewrite app_nil_r. auto.
    - cbn [means]. destruct (mean_step m0 done m acc NE A) as (acc' & E & A'); [intros; apply H; [now left|auto|auto]|]. rewrite E. cbn [bind].
      destruct (IH (done ++ [m]) acc') as (r & R1 & R2); [destruct done; discriminate|exact A'|intros; apply H; [now right|auto|auto]|].
      exists r. rewrite <- app_assoc in R2. auto. }
  destruct (K ms [m0] _ ltac:(discriminate) B) as (r & R1 & R2); [intros; apply H; [now right|auto|auto]|]. exists r. auto.
Qed.
Lemma mean_missing m acc n k v : get (lit "n") acc = Some (Some n) -> 0 < n -> In (k, v) acc -> k <> lit "n" -> get k m = None -> mean m acc = UB.
Proof.
  intros N P I D G. unfold mean. destruct acc as [|e acc]; [destruct I|]. set (a := e :: acc) in *. rewrite N. replace (ltR 0 n) with true by (symmetry; now apply ltR_iff).
  assert (E : forall f, mean_loop f m a = UB \/ exists r, mean_loop f m a = Ok r /\ False).
  { intros f. clearbody a. clear N. induction a as [|[k' v'] a IH]; [destruct I|]. cbn [mean_loop].
    destruct I as [E|I].
    - injection E as -> ->. replace (eqb_bytes k (lit "n")) with false by (symmetry; now apply eqb_bytes_neq). rewrite G. now left.
    - destruct (IH I) as [IH'|(r & _ & [])]. destruct (eqb_bytes k' (lit "n")); [rewrite IH'; now left|]. destruct (get k' m); [rewrite IH'; now left|now left]. }
  match goal with |- context [mean_loop ?f m a] => destruct (E f) as [->|(r & _ & [])] end. reflexivity.
Qed.

(** * Identifiers *)
Lemma at_tag_iff tag text : at_tag tag text = true <-> exists r, text = tag ++ r.
Proof.
  unfold at_tag. rewrite eqb_bytes_eq. split.
  - intros E. exists (skipn (length tag) text). rewrite <- E at 1. symmetry. apply firstn_skipn.
  - intros [r ->]. rewrite firstn_app, Nat.sub_diag, firstn_all. cbn. apply app_nil_r.
Qed.
Lemma docno_skip u : forall st rest acc, docno_loop (length u) st (u ++ rest) acc = docno_loop 0 st rest acc.
Proof. induction u as [|c u IH]; intros st rest acc; [reflexivity|]. cbn [length app docno_loop]. apply IH. Qed.
Lemma docno_tag st r acc tag : tag = start_tag \/ tag = end_tag -> docno_loop 0 st (tag ++ r) acc = docno_loop 0 st r acc.
Proof.
  intros [-> | ->].
  - assert (A : at_tag start_tag (start_tag ++ r) = true) by (apply at_tag_iff; eauto).
    rewrite <- (docno_skip (tl start_tag) st r acc). change (docno_loop 0 st (start_tag ++ r) acc) with
      (if at_tag start_tag (start_tag ++ r) then docno_loop (length start_tag - 1) st (tl start_tag ++ r) acc
       else if at_tag end_tag (start_tag ++ r) then docno_loop (length end_tag - 1) st (tl start_tag ++ r) acc
       else if is_space 60 then if st then acc else docno_loop 0 st (tl start_tag ++ r) acc
       else docno_loop 0 true (tl start_tag ++ r) (if Z.eqb 60 34 then acc else acc ++ [60%Z])). rewrite A. reflexivity.
  - assert (A : at_tag end_tag (end_tag ++ r) = true) by (apply at_tag_iff; eauto).
    assert (B : at_tag start_tag (end_tag ++ r) = false) by reflexivity.
    rewrite <- (docno_skip (tl end_tag) st r acc). change (docno_loop 0 st (end_tag ++ r) acc) with
      (if at_tag start_tag (end_tag ++ r) then docno_loop (length start_tag - 1) st (tl end_tag ++ r) acc
       else if at_tag end_tag (end_tag ++ r) then docno_loop (length end_tag - 1) st (tl end_tag ++ r) acc
       else if is_space 60 then if st then acc else docno_loop 0 st (tl end_tag ++ r) acc
       else docno_loop 0 true (tl end_tag ++ r) (if Z.eqb 60 34 then acc else acc ++ [60%Z])). rewrite A, B. reflexivity.
Qed.
Lemma docno_byte c st s acc : at_tag start_tag (c :: s) = false -> at_tag end_tag (c :: s) = false ->
  docno_loop 0 st (c :: s) acc = if is_space c then if st then acc else docno_loop 0 st s acc else docno_loop 0 true s (if Z.eqb c 34 then acc else acc ++ [c]).
Proof. intros A B. cbn [docno_loop]. rewrite A, B. reflexivity. Qed.
Lemma not_tag tag c s : at_tag tag (c :: s) = false -> forall r, c :: s <> tag ++ r.
Proof. intros A r E. assert (at_tag tag (c :: s) = true) by (apply at_tag_iff; eauto). congruence. Qed.
Lemma untagged_total n : forall text, (length text <= n)%nat -> exists t, untagged text t.
Proof.
  induction n as [|n IH]; intros text L; [destruct text; [|cbn in L; lia]; exists []; constructor|].
  destruct text as [|c s]; [exists []; constructor|]. destruct (at_tag start_tag (c :: s)) eqn:A; [|destruct (at_tag end_tag (c :: s)) eqn:B].
  - apply at_tag_iff in A. destruct A as [r A]. rewrite A in *. destruct (IH r) as [t T]; [rewrite app_length in L; cbn in L; lia|]. exists t. now apply U_open.
  - apply at_tag_iff in B. destruct B as [r B]. rewrite B in *. destruct (IH r) as [t T]; [rewrite app_length in L; cbn in L; lia|]. exists t. now apply U_close.
  - destruct (IH s) as [t T]; [cbn in L; lia|]. exists (c :: t). constructor; auto; now apply not_tag.
Qed.
Lemma docno_started n : forall text acc, (length text <= n)%nat -> exists t w b, untagged text t /\ t = w ++ b /\ Forall (fun c => is_space c = false) w /\
  (b = [] \/ exists c r, b = c :: r /\ is_space c = true) /\ docno_loop 0 true text acc = acc ++ unquoted w.
Proof.
  induction n as [|n IH]; intros text acc L.
  - destruct text; [|cbn in L; lia]. exists [], [], []. repeat split; auto; [constructor|cbn; now rewrite app_nil_r].
  - destruct text as [|c s]; [exists [], [], []; repeat split; auto; [constructor|cbn; now rewrite app_nil_r]|].
    destruct (at_tag start_tag (c :: s)) eqn:A; [|destruct (at_tag end_tag (c :: s)) eqn:B].
    + apply at_tag_iff in A. destruct A as [r A]. rewrite A in *. rewrite docno_tag by now left.
      destruct (IH r acc) as (t & w & b & T & H); [rewrite app_length in L; cbn in L; lia|]. exists t, w, b. split; [now apply U_open|exact H].
    + apply at_tag_iff in B. destruct B as [r B]. rewrite B in *. rewrite docno_tag by now right.
      destruct (IH r acc) as (t & w & b & T & H); [rewrite app_length in L; cbn in L; lia|]. exists t, w, b. split; [now apply U_close|exact H].
    + rewrite docno_byte by assumption. destruct (is_space c) eqn:P.
      * destruct (untagged_total (length s) s (Nat.le_refl _)) as [t T]. exists (c :: t), [], (c :: t). split; [constructor; auto; now apply not_tag|]. repeat split; eauto.
        cbn. now rewrite app_nil_r.
      * destruct (IH s (if Z.eqb c 34 then acc else acc ++ [c])) as (t & w & b & T & E & F & Q & H); [cbn in L; lia|].
        exists (c :: t), (c :: w), b. split; [constructor; auto; now apply not_tag|]. split; [now rewrite E|]. split; [now constructor|]. split; [exact Q|].
        rewrite H. unfold unquoted. cbn [filter]. destruct (Z.eqb c 34); [reflexivity|]. cbn [negb]. now rewrite <- app_assoc.
Qed.
Lemma docno_ok text : exists t w, untagged text t /\ first_word t w /\ trec_docno text = unquoted w.
Proof.
  unfold trec_docno. cut (forall n text, (length text <= n)%nat -> exists t w, untagged text t /\ first_word t w /\ docno_loop 0 false text [] = unquoted w).
  { intros K. apply (K (length text)). lia. }
  clear text. induction n as [|n IH]; intros text L.
  - destruct text; [|cbn in L; lia]. exists [], []. split; [constructor|]. split; [|reflexivity]. exists [], []. repeat split; auto.
  - destruct text as [|c s]; [exists [], []; split; [constructor|]; split; [|reflexivity]; exists [], []; repeat split; auto|].
    destruct (at_tag start_tag (c :: s)) eqn:A; [|destruct (at_tag end_tag (c :: s)) eqn:B].
    + apply at_tag_iff in A. destruct A as [r A]. rewrite A in *. rewrite docno_tag by now left.
      destruct (IH r) as (t & w & T & H); [rewrite app_length in L; cbn in L; lia|]. exists t, w. split; [now apply U_open|exact H].
    + apply at_tag_iff in B. destruct B as [r B]. rewrite B in *. rewrite docno_tag by now right.
      destruct (IH r) as (t & w & T & H); [rewrite app_length in L; cbn in L; lia|]. exists t, w. split; [now apply U_close|exact H].
    + rewrite docno_byte by assumption. destruct (is_space c) eqn:P.
      * destruct (IH s) as (t & w & T & (a & b & E & F1 & F2 & F3 & F4) & H); [cbn in L; lia|]. exists (c :: t), w. split; [constructor; auto; now apply not_tag|].
        split; [|exact H]. exists (c :: a), b. repeat split; auto. now rewrite E.
      * destruct (docno_started (length s) s (if Z.eqb c 34 then [] else [] ++ [c]) (Nat.le_refl _)) as (t & w & b & T & E & F & Q & H).
        exists (c :: t), (c :: w). split; [constructor; auto; now apply not_tag|]. split.
        -- exists [], b. repeat split; auto; [cbn; now rewrite E|discriminate].
        -- rewrite H. unfold unquoted. cbn [filter]. destruct (Z.eqb c 34); reflexivity.
Qed.
(** The usual shape of an identifier comes back. *)
Lemma plain_tag c s : c <> 60%Z -> at_tag start_tag (c :: s) = false /\ at_tag end_tag (c :: s) = false.
Proof.
  intros N. split; (match goal with |- at_tag ?t ?u = false => destruct (at_tag t u) eqn:E; [|reflexivity] end); apply at_tag_iff in E; destruct E as [r E]; injection E as E _; contradiction.
Qed.
Lemma space_not_tag c : is_space c = true -> c <> 60%Z.
Proof. intros H ->. discriminate. Qed.
Lemma docno_white w s : Forall (fun c => is_space c = true) w -> docno_loop 0 false (w ++ s) [] = docno_loop 0 false s [].
Proof.
  induction 1 as [|c w H _ IH]; [reflexivity|]. cbn [app]. destruct (plain_tag c (w ++ s) (space_not_tag c H)). rewrite docno_byte by assumption. now rewrite H.
Qed.
Lemma docno_word id s : Forall (fun c => is_space c = false /\ c <> 60%Z /\ c <> 34%Z) id -> forall acc, docno_loop 0 true (id ++ s) acc = docno_loop 0 true s (acc ++ id).
Proof.
  induction 1 as [|c id (H1 & H2 & H3) _ IH]; intros acc; [cbn; now rewrite app_nil_r|]. cbn [app]. destruct (plain_tag c (id ++ s) H2). rewrite docno_byte by assumption.
  rewrite H1. destruct (Z.eqb_spec c 34); [contradiction|]. rewrite IH, <- app_assoc. reflexivity.
Qed.
Lemma docno_first id s : plain_id id -> docno_loop 0 false (id ++ s) [] = docno_loop 0 true s id.
Proof.
  intros [N F]. destruct id as [|c id]; [contradiction|]. inversion F as [|? ? (H1 & H2 & H3) F']; subst. cbn [app]. destruct (plain_tag c (id ++ s) H2).
  rewrite docno_byte by assumption. rewrite H1. destruct (Z.eqb_spec c 34); [contradiction|]. rewrite docno_word by assumption. reflexivity.
Qed.
Lemma docno_end s acc : ends s -> docno_loop 0 true s acc = acc.
Proof. intros [->|(c & r & -> & H)]; [reflexivity|]. destruct (plain_tag c r (space_not_tag c H)). rewrite docno_byte by assumption. now rewrite H. Qed.
Lemma docno_tagged w1 w2 w3 id s : Forall (fun c => is_space c = true) (w1 ++ w2 ++ w3) -> plain_id id -> ends s ->
  trec_docno (w1 ++ open_tag ++ w2 ++ id ++ w3 ++ close_tag ++ s) = id.
Proof.
  intros W I E. apply Forall_app in W. destruct W as [W1 W]. apply Forall_app in W. destruct W as [W2 W3]. unfold trec_docno.
  rewrite docno_white by assumption. change open_tag with start_tag. rewrite docno_tag by now left. rewrite docno_white by assumption. rewrite docno_first by assumption.
  destruct w3 as [|c w3].
  - cbn [app]. change close_tag with end_tag. rewrite docno_tag by now right. now apply docno_end.
  - inversion W3; subst. apply docno_end. right. cbn. eauto.
Qed.
Lemma docno_quoted w id s : Forall (fun c => is_space c = true) w -> plain_id id -> ends s -> trec_docno (w ++ 34%Z :: id ++ 34%Z :: s) = id.
Proof.
  intros W I E. unfold trec_docno. rewrite docno_white by assumption. destruct (plain_tag 34%Z (id ++ 34%Z :: s) ltac:(lia)). rewrite docno_byte by assumption. cbn [is_space].
  change (is_space 34) with false. cbv iota. change (Z.eqb 34 34) with true. cbv iota. destruct I as [_ I]. rewrite docno_word by assumption. cbn [app].
  destruct (plain_tag 34%Z s ltac:(lia)). rewrite docno_byte by assumption. change (is_space 34) with false. cbv iota. change (Z.eqb 34 34) with true. cbv iota. now apply docno_end.
Qed.
