(** Posting lists: get, push, append, merges. *)
From Verif Require Import Base HopperModel ArrayDefs GclSpec HopperProofs ArrayProofs UnaryModel UnaryProofs AnswerProofs
  Bytes CodecModel CodecSpec PostingModel PostingSpec.
From Coq Require Import Permutation Sorted.

Definition ends (s : posting) := match qostings s with [] => postings s | l => l end.
Definition vals (s : posting) := match fostings s with [] => repeat 0 (length (postings s)) | l => l end.
Record rep (s : posting) (l : list iv) : Prop := {
  rep_q : qostings s = [] \/ length (qostings s) = length (postings s);
  rep_f : fostings s = [] \/ length (fostings s) = length (postings s);
  rep_ip : postings s = map ip l;
  rep_iq : ends s = map iq l;
  rep_v : vals s = map ivl l }.

Lemma idx_nat {A} (l : list A) i : idx l (Z.of_nat i) = match nth_error l i with Some x => Ok x | None => UB end.
Proof. unfold idx. destruct (Z.of_nat i <? 0) eqn:E; [lia|]. rewrite Nat2Z.id. reflexivity. Qed.

Lemma len_ends s : (qostings s = [] \/ length (qostings s) = length (postings s)) -> length (ends s) = length (postings s).
Proof. unfold ends. intros H. destruct (qostings s) eqn:E; [reflexivity|]. destruct H; [discriminate|]. assumption. Qed.
Lemma len_vals s : (fostings s = [] \/ length (fostings s) = length (postings s)) -> length (vals s) = length (postings s).
Proof. unfold vals. intros H. destruct (fostings s) eqn:E; [apply repeat_length|]. destruct H; [discriminate|]. assumption. Qed.

Lemma get_eq s i :
  (qostings s = [] \/ length (qostings s) = length (postings s)) ->
  (fostings s = [] \/ length (fostings s) = length (postings s)) ->
  get s i = Ok (match nth_error (postings s) i, nth_error (ends s) i, nth_error (vals s) i with
                | Some p, Some q, Some v => Some (Iv p q v)
                | _, _, _ => None
                end).
Proof.
  intros Hq Hf. unfold get. destruct (Nat.ltb i (length (postings s))) eqn:E.
  - apply Nat.ltb_lt in E. rewrite idx_nat.
    destruct (nth_error (postings s) i) as [p|] eqn:Ep; [|apply nth_error_None in Ep; lia]. cbn [bind].
    assert (Eq : match qostings s with [] => Ok p | z :: l => idx (z :: l) (Z.of_nat i) end =
                 match nth_error (ends s) i with Some q => Ok q | None => UB end).
    { unfold ends. destruct (qostings s); [rewrite Ep; reflexivity|apply idx_nat]. }
    rewrite Eq. destruct (nth_error (ends s) i) as [q|] eqn:En.
    2:{ apply nth_error_None in En. rewrite len_ends in En by assumption. lia. }
    cbn [bind].
    assert (Ev : match fostings s with [] => Ok 0 | z :: l => idx (z :: l) (Z.of_nat i) end =
                 match nth_error (vals s) i with Some q => Ok q | None => UB end).
    { unfold vals. destruct (fostings s); [|apply idx_nat].
      rewrite (nth_error_nth' (repeat 0 (length (postings s))) 0) by (rewrite repeat_length; exact E).
      rewrite nth_repeat. reflexivity. }
    rewrite Ev. destruct (nth_error (vals s) i) as [v|] eqn:Ef.
    2:{ apply nth_error_None in Ef. rewrite len_vals in Ef by assumption. lia. }
    reflexivity.
  - apply Nat.ltb_ge in E. rewrite (proj2 (nth_error_None (postings s) i) E). reflexivity.
Qed.

Lemma nth_error_ext {A} (l1 l2 : list A) : (forall i, nth_error l1 i = nth_error l2 i) -> l1 = l2.
Proof.
  revert l2. induction l1 as [|a l1 IH]; intros [|b l2] H; auto.
  - specialize (H O). discriminate.
  - specialize (H O). discriminate.
  - pose proof (H O) as H0. injection H0 as ->. f_equal. apply IH. intros i. exact (H (S i)).
Qed.
Lemma nth_map {A B} (f : A -> B) l i : nth_error (map f l) i = option_map f (nth_error l i).
Proof. revert i. induction l; intros [|i]; cbn; auto. Qed.

Lemma rep_holds s l : rep s l <-> holds s l.
Proof.
  split.
  - intros [Hq Hf H1 H2 H3]. split; [exact Hq|]. split; [exact Hf|]. intros i.
    rewrite get_eq, H1, H2, H3, !nth_map by assumption. destruct (nth_error l i) as [[p q v]|]; reflexivity.
  - intros (Hq & Hf & H). 
    assert (K : forall i, match nth_error (postings s) i, nth_error (ends s) i, nth_error (vals s) i with
                | Some p, Some q, Some v => Some (Iv p q v)
                | _, _, _ => None
                end = nth_error l i).
    { intros i. specialize (H i). rewrite get_eq in H by assumption. injection H as ->. reflexivity. }
    pose proof (len_ends s Hq) as Le. pose proof (len_vals s Hf) as Lv.
    assert (T : forall i, (exists p q v, nth_error (postings s) i = Some p /\ nth_error (ends s) i = Some q /\ nth_error (vals s) i = Some v) \/
                          (nth_error (postings s) i = None /\ nth_error (ends s) i = None /\ nth_error (vals s) i = None)).
    { intros i. destruct (Nat.ltb i (length (postings s))) eqn:E.
      - apply Nat.ltb_lt in E. left. exists (nth i (postings s) 0), (nth i (ends s) 0), (nth i (vals s) 0).
        rewrite !(nth_error_nth' _ 0) by lia. auto.
      - apply Nat.ltb_ge in E. right. rewrite !(proj2 (nth_error_None _ _)) by lia. auto. }
    constructor; auto; apply nth_error_ext; intros i; rewrite nth_map, <- K;
      destruct (T i) as [(p & q & v & E1 & E2 & E3)|(E1 & E2 & E3)]; rewrite ?E1, ?E2, ?E3; reflexivity.
Qed.

Lemma holds_length s l : holds s l -> length (postings s) = length l.
Proof. intros H. apply rep_holds in H. rewrite (rep_ip _ _ H). apply map_length. Qed.
Lemma holds_psize s l : holds s l -> psize s = Z.of_nat (length l).
Proof. intros H. unfold psize, len. rewrite (holds_length _ _ H). reflexivity. Qed.

Lemma get_all_ok s l : holds s l -> forall n i, (i + n = length l)%nat -> get_all n i s = Ok (skipn i l).
Proof.
  intros (_ & _ & H) n. induction n as [|n IH]; intros i Hi.
  - cbn. rewrite skipn_all2 by lia. reflexivity.
  - cbn [get_all]. rewrite H. destruct (nth_error l i) as [x|] eqn:E; [|apply nth_error_None in E; lia].
    cbn [bind]. rewrite IH by lia. cbn [bind].
    assert (K : skipn i l = x :: skipn (S i) l).
    { clear IH H Hi. revert i E. induction l as [|a l IH]; intros [|i] E; try discriminate; [injection E as ->; reflexivity|].
      cbn in *. apply IH. exact E. }
    rewrite K. reflexivity.
Qed.
Lemma contents_ok s l : holds s l -> contents s = Ok l.
Proof. intros H. unfold contents. rewrite (holds_length _ _ H). apply (get_all_ok s l H (length l) 0); lia. Qed.

Lemma all_contents_ok ps ls : Forall2 holds ps ls -> all_contents ps = Ok ls.
Proof.
  induction 1 as [|p l ps ls H _ IH]; [reflexivity|]. cbn. rewrite (contents_ok _ _ H), IH. reflexivity.
Qed.

Lemma repeat_app1 {A} (a : A) n : repeat a n ++ [a] = repeat a (S n).
Proof. induction n; cbn; [reflexivity|]. f_equal. exact IHn. Qed.

Lemma fzero_spec v : fzero v = true <-> v = 0 \/ v = minf.
Proof. unfold fzero. lia. Qed.

Lemma push_holds s l x : holds s l -> ip x <= iq x -> value_ok x -> holds (push s x) (l ++ [x]).
Proof.
  intros H Hx Hv. apply rep_holds in H. apply rep_holds. destruct H as [Hq Hf H1 H2 H3].
  assert (Lp : length (postings s) = length l) by (rewrite H1; apply map_length).
  assert (Eq : ends (push s x) = ends s ++ [iq x]).
  { unfold ends, push; cbn [qostings postings].
    destruct (ip x <? iq x) eqn:E.
    - destruct (qostings s) as [|q qs]; [|reflexivity]. destruct (postings s); reflexivity.
    - assert (Ei : iq x = ip x) by lia. rewrite Ei. destruct (qostings s); reflexivity. }
  assert (Ev : vals (push s x) = vals s ++ [ivl x]).
  { unfold vals, push; cbn [fostings postings].
    destruct (fzero (ivl x)) eqn:E; cbn [negb].
    - apply fzero_spec in E. destruct E as [E|E]; [|contradiction]. rewrite E.
      destruct (fostings s); [|reflexivity]. rewrite app_length. cbn. rewrite Nat.add_1_r. symmetry. apply repeat_app1.
    - destruct (fostings s) as [|f fs]; [|reflexivity]. destruct (repeat 0 (length (postings s))); reflexivity. }
  constructor.
  - cbn [push qostings postings]. rewrite !app_length. cbn [length].
    destruct (ip x <? iq x); [right|].
    + destruct (qostings s) as [|q qs] eqn:E; rewrite app_length; cbn [length]; [lia|]. destruct Hq; [discriminate|]. cbn [length] in *; lia.
    + destruct (qostings s) as [|q qs] eqn:E; [left; reflexivity|right]. rewrite app_length; cbn [length]. destruct Hq; [discriminate|]. cbn [length] in *; lia.
  - cbn [push fostings postings]. rewrite !app_length. cbn [length].
    destruct (negb (fzero (ivl x))); [right|].
    + destruct (fostings s) as [|q qs] eqn:E; rewrite app_length; cbn [length]; [rewrite repeat_length; lia|]. destruct Hf; [discriminate|]. cbn [length] in *; lia.
    + destruct (fostings s) as [|q qs] eqn:E; [left; reflexivity|right]. rewrite app_length; cbn [length]. destruct Hf; [discriminate|]. cbn [length] in *; lia.
  - cbn [push postings]. rewrite H1, map_app. reflexivity.
  - rewrite Eq, H2, map_app. reflexivity.
  - rewrite Ev, H3, map_app. reflexivity.
Qed.
Lemma push_feature s x : feature (push s x) = feature s. Proof. reflexivity. Qed.

Lemma fold_push_holds xs : Forall (fun x => ip x <= iq x /\ value_ok x) xs ->
  forall s l, holds s l -> holds (fold_left push xs s) (l ++ xs) /\ feature (fold_left push xs s) = feature s.
Proof.
  induction 1 as [|x xs [Hx Hv] _ IH]; intros s l H; cbn [fold_left].
  - rewrite app_nil_r. auto.
  - destruct (IH (push s x) (l ++ [x]) (push_holds _ _ _ H Hx Hv)) as [A B]. rewrite <- app_assoc in A. auto.
Qed.

Lemma feature_holds f : holds (posting_from_feature f) [].
Proof. apply rep_holds. constructor; auto. Qed.

Lemma append_holds s t l m : holds s l -> holds t m -> feature s = feature t ->
  exists r, append s t = Ok r /\ holds r (l ++ m) /\ feature r = feature s.
Proof.
  intros H K E. unfold append. rewrite E, Z.eqb_refl. cbn [negb]. eexists. split; [reflexivity|]. split; [|reflexivity].
  apply rep_holds in H, K. destruct H as [Hq Hf H1 H2 H3], K as [Kq Kf K1 K2 K3]. apply rep_holds. constructor; cbn [feature postings qostings fostings].
  - rewrite app_length.
    destruct (qostings s) as [|a q] eqn:Es, (qostings t) as [|b r] eqn:Et; [left; reflexivity|right|right|right]; rewrite app_length;
      (destruct Hq as [Hq|Hq]; [try discriminate|]); (destruct Kq as [Kq|Kq]; [try discriminate|]); cbn [length] in *; lia.
  - rewrite app_length.
    destruct (fostings s) as [|a q] eqn:Es, (fostings t) as [|b r] eqn:Et; [left; reflexivity|right|right|right];
    (destruct Hf as [Hf|Hf]; [try discriminate|]); (destruct Kf as [Kf|Kf]; [try discriminate|]);
    try (rewrite firstn_length, app_length, repeat_length; cbn [length] in *; lia);
    rewrite app_length; try rewrite repeat_length; cbn [length] in *; lia.
  - rewrite H1, K1, map_app. reflexivity.
  - rewrite map_app, <- H2, <- K2. unfold ends; cbn [qostings postings].
    destruct (qostings s) as [|a q], (qostings t) as [|b r]; try reflexivity.
    destruct (postings s); reflexivity.
  - rewrite map_app, <- H3, <- K3. unfold vals; cbn [fostings postings].
    destruct (fostings s) as [|a q] eqn:Es, (fostings t) as [|b r] eqn:Et.
    + rewrite app_length. apply repeat_app.
    + destruct (repeat 0 (length (postings s))); reflexivity.
    + destruct Hf as [Hf|Hf]; [discriminate|].
      replace (length (postings s) + length (postings t) - length (a :: q))%nat with (length (postings t)) by lia.
      rewrite firstn_all2 by (rewrite app_length, repeat_length; lia). reflexivity.
    + reflexivity.
Qed.

Lemma arr_of_posting_eq s l : holds s l -> arr_of_posting s = arr_of l (match fostings s with [] => false | _ => true end).
Proof.
  intros H. apply rep_holds in H. destruct H as [Hq Hf H1 H2 H3]. unfold arr_of_posting, arr_of. fold (ends s). rewrite H2, H1.
  unfold vals in H3. destruct (fostings s); [reflexivity|]. rewrite H3. reflexivity.
Qed.
Lemma zero_values s l : holds s l -> fostings s = [] -> Forall (fun x => ivl x = 0) l.
Proof.
  intros H E. apply rep_holds in H. destruct H as [Hq Hf H1 H2 H3]. unfold vals in H3. rewrite E in H3.
  rewrite Forall_forall. intros x Hx.
  assert (K : In (ivl x) (repeat 0 (length (postings s)))) by (rewrite H3; apply in_map; exact Hx).
  exact (repeat_spec _ _ _ K).
Qed.

(** * The queue *)
Definition key_le (a b : nat * iv) : Prop :=
  iq (snd a) < iq (snd b) \/
  (iq (snd a) = iq (snd b) /\
   (ip (snd b) < ip (snd a) \/ (ip (snd a) = ip (snd b) /\ (fst b <= fst a)%nat))).
Definition key (e : element) : nat * iv := (el_index e, el_cur e).
Lemma key_le_refl a : key_le a a. Proof. unfold key_le. lia. Qed.
Lemma key_le_trans a b c : key_le a b -> key_le b c -> key_le a c.
Proof. unfold key_le. lia. Qed.
Lemma key_le_total a b : key_le a b \/ key_le b a.
Proof. unfold key_le. lia. Qed.
Lemma before_spec a b : before a b = false <-> key_le (key b) (key a).
Proof.
  unfold before, key_le, key; cbn [fst snd].
  destruct (iq (el_cur a) <? iq (el_cur b)) eqn:E1, (iq (el_cur a) =? iq (el_cur b)) eqn:E2,
    (ip (el_cur b) <? ip (el_cur a)) eqn:E3, (ip (el_cur a) =? ip (el_cur b)) eqn:E4,
    (Nat.ltb (el_index b) (el_index a)) eqn:E5; cbn; lia.
Qed.

(** All intervals an element still has to deliver. *)
Definition el_all (e : element) : list (nat * iv) := map (pair (el_index e)) (el_cur e :: el_rest e).
Definition queue_all (q : list element) : list (nat * iv) := flat_map el_all q.

Lemma first_of_in e q : In (first_of e q) (e :: q).
Proof.
  revert e. induction q as [|x q IH]; intros e; [left; reflexivity|]. cbn [first_of].
  destruct (before x e); destruct (IH x) as [H|H], (IH e) as [K|K]; cbn; auto.
Qed.
Lemma first_of_le e q a : In a (e :: q) -> key_le (key (first_of e q)) (key a).
Proof.
  revert e a. induction q as [|x q IH]; intros e a H; cbn [first_of].
  - destruct H as [->|[]]. apply key_le_refl.
  - destruct (before x e) eqn:B.
    + assert (X : key_le (key x) (key e)).
      { destruct (key_le_total (key x) (key e)) as [X|X]; [exact X|]. apply before_spec in X. congruence. }
      destruct H as [->|[->|H]]; [|apply IH; left; reflexivity|apply IH; right; exact H].
      eapply key_le_trans; [apply IH; left; reflexivity|exact X].
    + apply before_spec in B.
      destruct H as [->|[->|H]]; [apply IH; left; reflexivity| |apply IH; right; exact H].
      eapply key_le_trans; [apply IH; left; reflexivity|exact B].
Qed.

Lemma drop_perm e q : NoDup (map el_index q) -> In e q -> Permutation q (e :: drop e q).
Proof.
  induction q as [|x q IH]; intros N H; [contradiction|]. inversion N as [|? ? N1 N2]; subst.
  unfold drop; cbn [filter]. fold (drop e q). destruct H as [->|H].
  - rewrite Nat.eqb_refl. cbn [negb]. constructor.
    assert (E : drop e q = q); [|rewrite E; reflexivity].
    clear -N1. induction q as [|y q IH]; [reflexivity|]. unfold drop; cbn [filter]. fold (drop e q).
    destruct (Nat.eqb (el_index y) (el_index e)) eqn:E.
    + apply Nat.eqb_eq in E. exfalso. apply N1. left. exact E.
    + cbn. f_equal. apply IH. intros K. apply N1. right; exact K.
  - destruct (Nat.eqb (el_index x) (el_index e)) eqn:E.
    + apply Nat.eqb_eq in E. exfalso. apply N1. rewrite E. apply in_map. exact H.
    + cbn [negb]. rewrite (IH N2 H) at 1. apply perm_swap.
Qed.

(** The order in which the loop visits the intervals. *)
Fixpoint order (n : nat) (q : list element) : list (nat * iv) :=
  match q with
  | [] => []
  | e0 :: r =>
      match n with
      | O => []
      | S m => let e := first_of e0 r in
               key e :: order m (match el_next e with Some e' => e' :: drop e q | None => drop e q end)
      end
  end.

Definition sorted_el (e : element) : Prop :=
  forall x y l1 l2 l3, el_cur e :: el_rest e = l1 ++ x :: l2 ++ y :: l3 ->
  key_le (el_index e, x) (el_index e, y).
Definition el_ok (e : element) : Prop := gcdup (el_cur e :: el_rest e).
Lemma el_ok_le e a : el_ok e -> In a (el_all e) -> key_le (key e) a.
Proof.
  intros G H. unfold el_all in H. apply in_map_iff in H. destruct H as (x & <- & Hx).
  destruct Hx as [<-|Hx]; [apply key_le_refl|].
  unfold key_le, key; cbn [fst snd]. destruct (gcdup_head _ _ _ G Hx) as [K|K]; [lia|rewrite K; lia].
Qed.

Lemma queue_next e q : NoDup (map el_index q) -> In e q -> Forall el_ok q ->
  let q' := match el_next e with Some e' => e' :: drop e q | None => drop e q end in
  NoDup (map el_index q') /\ Forall el_ok q' /\ Permutation (queue_all q) (key e :: queue_all q').
Proof.
  intros N H F q'. pose proof (drop_perm e q N H) as P.
  assert (N' : NoDup (map el_index (e :: drop e q))) by (eapply Permutation_NoDup; [apply Permutation_map, P|exact N]).
  assert (F' : Forall el_ok (e :: drop e q)) by (eapply Permutation_Forall; [exact P|exact F]).
  assert (Q : Permutation (queue_all q) (queue_all (e :: drop e q))) by (apply Permutation_flat_map; exact P).
  inversion F' as [|? ? Fe Fd]; subst. inversion N' as [|? ? N1 N2]; subst.
  subst q'. unfold el_next. destruct (el_rest e) as [|y r] eqn:Er.
  - split; [exact N2|]. split; [exact Fd|]. rewrite Q. unfold queue_all; cbn [flat_map]. unfold el_all. rewrite Er. reflexivity.
  - split; [cbn [map el_index]; exact N'|]. split.
    + constructor; [|exact Fd]. unfold el_ok in *. cbn [el_cur el_rest]. rewrite Er in Fe. exact (gcdup_tail _ _ Fe).
    + rewrite Q. unfold queue_all; cbn [flat_map]. unfold el_all. rewrite Er. reflexivity.
Qed.

Lemma order_ok n q : NoDup (map el_index q) -> Forall el_ok q -> (length (queue_all q) <= n)%nat ->
  Permutation (queue_all q) (order n q) /\ StronglySorted key_le (order n q).
Proof.
  revert q. induction n as [|n IH]; intros q N F L.
  - destruct q as [|e q]; [split; [reflexivity|constructor]|]. unfold queue_all in L; cbn in L. lia.
  - destruct q as [|e0 r]; [split; [reflexivity|constructor]|]. cbn [order]. set (e := first_of e0 r). set (q := e0 :: r).
    assert (H : In e q) by apply first_of_in.
    destruct (queue_next e q N H F) as (N' & F' & P).
    set (q' := match el_next e with Some e' => e' :: drop e q | None => drop e q end) in *.
    assert (L' : (length (queue_all q') <= n)%nat).
    { apply Permutation_length in P. cbn [length] in P. fold q in L. lia. }
    destruct (IH q' N' F' L') as [A B]. split.
    + rewrite P. constructor. exact A.
    + constructor; [exact B|]. rewrite Forall_forall. intros a Ha.
      assert (Ha' : In a (queue_all q)).
      { eapply Permutation_in; [symmetry; exact P|]. right. eapply Permutation_in; [symmetry; exact A|exact Ha]. }
      apply in_flat_map in Ha'. destruct Ha' as (x & Hx & Hax).
      eapply key_le_trans; [apply first_of_le; exact Hx|]. apply el_ok_le; [|exact Hax].
      rewrite Forall_forall in F. exact (F x Hx).
Qed.

Fixpoint fold_res {T} (f : T -> iv -> res T) (l : list iv) (t : T) : res T :=
  match l with [] => Ok t | x :: r => let* t' := f t x in fold_res f r t' end.
Lemma drain_order {T} (f : T -> iv -> res T) n q : NoDup (map el_index q) -> Forall el_ok q ->
  (length (queue_all q) <= n)%nat ->
  forall t, drain n f q t = fold_res f (map snd (order n q)) t.
Proof.
  revert q. induction n as [|n IH]; intros q N F L t.
  - destruct q as [|e q]; [reflexivity|]. unfold queue_all in L; cbn in L. lia.
  - destruct q as [|e0 r]; [reflexivity|]. cbn [order drain map fold_res]. set (e := first_of e0 r). set (q := e0 :: r).
    assert (H : In e q) by apply first_of_in.
    destruct (queue_next e q N H F) as (N' & F' & P).
    cbn [key snd]. destruct (f t (el_cur e)) as [t'| |]; [|reflexivity|reflexivity]. cbn [bind].
    apply IH; [exact N'|exact F'|]. apply Permutation_length in P. cbn [length] in P. fold q in L. lia.
Qed.

(** The initial queue. *)
Lemma enqueue_all i ls : queue_all (enqueue i ls) = concat (map (fun p => map (pair (fst p)) (snd p)) (combine (seq i (length ls)) ls)).
Proof.
  revert i. induction ls as [|l ls IH]; intros i; [reflexivity|]. cbn [length seq combine map concat fst snd].
  destruct l as [|x l]; cbn [enqueue]; [apply IH|]. unfold queue_all; cbn [flat_map]. fold (queue_all (enqueue (S i) ls)).
  rewrite IH. reflexivity.
Qed.
Lemma enqueue_index i ls e : In e (enqueue i ls) -> (i <= el_index e)%nat.
Proof.
  revert i. induction ls as [|[|x l] ls IH]; intros i H; cbn [enqueue] in H; [contradiction| |].
  - apply IH in H. lia.
  - destruct H as [<-|H]; [cbn; lia|]. apply IH in H. lia.
Qed.
Lemma enqueue_NoDup i ls : NoDup (map el_index (enqueue i ls)).
Proof.
  revert i. induction ls as [|[|x l] ls IH]; intros i; cbn [enqueue map]; [constructor|apply IH|].
  constructor; [|apply IH]. intros H. apply in_map_iff in H. destruct H as (e & E & H). apply enqueue_index in H. cbn in E. lia.
Qed.
Lemma enqueue_ok i ls : Forall gcdup ls -> Forall el_ok (enqueue i ls).
Proof.
  intros H. revert i. induction H as [|l ls Hl _ IH]; intros i; [constructor|].
  destruct l as [|x l]; cbn [enqueue]; [apply IH|]. constructor; [exact Hl|apply IH].
Qed.
Lemma in_enqueue ls : forall i j x, In (j, x) (queue_all (enqueue i ls)) <->
  (i <= j)%nat /\ exists l, nth_error ls (j - i) = Some l /\ In x l.
Proof.
  induction ls as [|l ls IH]; intros i j x.
  - split; [intros []|]. intros (_ & l & H & _). destruct (j - i)%nat; discriminate.
  - assert (K : In (j, x) (queue_all (enqueue i (l :: ls))) <-> (j = i /\ In x l) \/ In (j, x) (queue_all (enqueue (S i) ls))).
    { destruct l as [|y l]; cbn [enqueue]; [cbn [In]; tauto|]. unfold queue_all; cbn [flat_map]. rewrite in_app_iff.
      unfold el_all; cbn [el_index el_cur el_rest]. rewrite in_map_iff. split.
      - intros [(z & E & H)|H]; [injection E as -> ->; auto|auto].
      - intros [[-> H]|H]; [left; exists x; auto|auto]. }
    rewrite K, IH. split.
    + intros [[-> H]|(Hij & l' & E & H)]; split; try lia.
      * rewrite Nat.sub_diag. exists l. auto.
      * exists l'. replace (j - i)%nat with (S (j - S i))%nat by lia. auto.
    + intros (Hij & l' & E & H). destruct (Nat.eq_dec j i) as [->|Hne].
      * rewrite Nat.sub_diag in E. injection E as ->. auto.
      * right. split; [lia|]. exists l'. replace (j - i)%nat with (S (j - S i))%nat in E by lia. auto.
Qed.
Lemma enqueue_length i ls : length (queue_all (enqueue i ls)) = total ls.
Proof.
  unfold total. revert i. induction ls as [|[|x l] ls IH]; intros i; cbn [enqueue concat]; [reflexivity|apply IH|].
  unfold queue_all; cbn [flat_map]. fold (queue_all (enqueue (S i) ls)). rewrite !app_length, IH.
  unfold el_all. rewrite map_length. reflexivity.
Qed.

(** * The merged list *)
(** What the loop keeps, given the order of visit. *)
Fixpoint survivors (k : Z) (l : list iv) : list iv :=
  match l with
  | [] => []
  | x :: r => if k <? ip x then x :: survivors (ip x) r else survivors k r
  end.
Definition visit (ls : list (list iv)) := order (total ls) (enqueue 0 ls).

Lemma visit_ok ls : Forall gcdup ls ->
  (forall j x, In (j, x) (visit ls) <-> exists l, nth_error ls j = Some l /\ In x l) /\
  StronglySorted key_le (visit ls) /\
  forall T (f : T -> iv -> res T) t, drain (total ls) f (enqueue 0 ls) t = fold_res f (map snd (visit ls)) t.
Proof.
  intros G.
  assert (L : (length (queue_all (enqueue 0 ls)) <= total ls)%nat) by (rewrite enqueue_length; lia).
  destruct (order_ok (total ls) (enqueue 0 ls) (enqueue_NoDup 0 ls) (enqueue_ok 0 ls G) L) as [A B].
  split; [|split].
  - intros j x. pose proof (in_enqueue ls 0 j x) as H. rewrite Nat.sub_0_r in H. unfold visit. split.
    + intros K. apply H. eapply Permutation_in; [symmetry; exact A|exact K].
    + intros K. eapply Permutation_in; [exact A|]. apply H. split; [lia|exact K].
  - exact B.
  - intros T f t. apply drain_order; [apply enqueue_NoDup|apply enqueue_ok; exact G|exact L].
Qed.

Lemma survivors_in l : forall k x, In x (survivors k l) <->
  exists l1 l2, l = l1 ++ x :: l2 /\ k < ip x /\ forall y, In y l1 -> ip y < ip x.
Proof.
  induction l as [|a l IH]; intros k x.
  - split; [intros []|]. intros ([|? ?] & ? & E & _); discriminate.
  - cbn [survivors]. destruct (k <? ip a) eqn:E.
    + cbn [In]. rewrite IH. split.
      * intros [->|(l1 & l2 & -> & H1 & H2)].
        -- exists [], l. split; [reflexivity|]. split; [lia|]. intros y [].
        -- exists (a :: l1), l2. split; [reflexivity|]. split; [lia|]. intros y [<-|Hy]; [lia|auto].
      * intros (l1 & l2 & E1 & H1 & H2). destruct l1 as [|b l1]; injection E1 as -> ->; [auto|]. right.
        exists l1, l2. split; [reflexivity|]. split; [apply H2; left; reflexivity|]. intros y Hy. apply H2. right; exact Hy.
    + rewrite IH. split.
      * intros (l1 & l2 & -> & H1 & H2). exists (a :: l1), l2. split; [reflexivity|]. split; [lia|]. intros y [<-|Hy]; [lia|auto].
      * intros (l1 & l2 & E1 & H1 & H2). destruct l1 as [|b l1]; injection E1 as -> ->; [lia|].
        exists l1, l2. split; [reflexivity|]. split; [exact H1|]. intros y Hy. apply H2. right; exact Hy.
Qed.
Lemma survivors_sub l k x : In x (survivors k l) -> In x l /\ k < ip x.
Proof.
  intros H. apply survivors_in in H. destruct H as (l1 & l2 & -> & H & _). split; [|exact H].
  apply in_app_iff. right; left; reflexivity.
Qed.
Lemma survivors_gc V : StronglySorted key_le V -> Forall (fun a => finite (snd a)) V ->
  forall k, gclist (survivors k (map snd V)).
Proof.
  induction V as [|a V IH]; intros S F k; [exact Logic.I|]. cbn [map survivors].
  apply StronglySorted_inv in S. destruct S as [S Sa]. inversion F as [|? ? Fa F']; subst.
  destruct (k <? ip (snd a)); [|apply IH; assumption].
  apply gclist_cons; [apply IH; assumption|exact Fa|]. intros y Hy. apply survivors_sub in Hy. destruct Hy as [Hy Hp].
  split; [exact Hp|]. apply in_map_iff in Hy. destruct Hy as (b & <- & Hb). rewrite Forall_forall in Sa.
  specialize (Sa b Hb). unfold key_le in Sa. lia.
Qed.

Lemma iv_dec (x y : iv) : {x = y} + {x <> y}.
Proof. decide equality; apply Z.eq_dec. Qed.
Lemma first_split {A} (dec : forall x y : A, {x = y} + {x <> y}) (a : A) l :
  In a l -> exists l1 l2, l = l1 ++ a :: l2 /\ ~ In a l1.
Proof.
  induction l as [|b l IH]; intros H; [contradiction|]. destruct (dec b a) as [->|N].
  - exists [], l. auto.
  - destruct H as [H|H]; [contradiction|]. destruct (IH H) as (l1 & l2 & -> & K). exists (b :: l1), l2.
    split; [reflexivity|]. intros [E|E]; auto.
Qed.
Lemma SS_app {A} (R : A -> A -> Prop) l1 l2 : StronglySorted R (l1 ++ l2) ->
  forall a b, In a l1 -> In b l2 -> R a b.
Proof.
  induction l1 as [|x l1 IH]; intros S a b Ha Hb; [contradiction|]. apply StronglySorted_inv in S. destruct S as [S F].
  destruct Ha as [->|Ha]; [|apply IH; assumption]. rewrite Forall_forall in F. apply F. apply in_app_iff. auto.
Qed.
Lemma SS_tail {A} (R : A -> A -> Prop) l1 l2 : StronglySorted R (l1 ++ l2) -> StronglySorted R l2.
Proof. induction l1; intros S; [exact S|]. apply StronglySorted_inv in S. apply IHl1, S. Qed.

Lemma survivors_inner ls V : Forall gcdup ls -> StronglySorted key_le V ->
  (forall j x, In (j, x) V <-> exists l, nth_error ls j = Some l /\ In x l) ->
  forall x, In x (survivors minf (map snd V)) <-> sem_inner (map set_of ls) x.
Proof.
  intros G S HV x.
  assert (G' : forall l, In l ls -> gcdup l) by (apply Forall_forall; exact G).
  rewrite survivors_in. split.
  - intros (l1 & l2 & E & Hk & H1).
    apply map_eq_app in E. destruct E as (V1 & V2' & EV & E1 & E2). destruct V2' as [|[j x'] V2]; [discriminate|].
    cbn in E2. injection E2 as Ex E2. subst x'.
    assert (Hall : forall i y, In (i, y) V -> In (i, y) V1 \/ (i, y) = (j, x) \/ In (i, y) V2).
    { intros i y H. rewrite EV in H. apply in_app_iff in H. cbn in H. intuition. }
    assert (HV1 : forall i y, In (i, y) V1 -> ip y < ip x).
    { intros i y H. apply H1. rewrite <- E1. apply (in_map snd) in H. exact H. }
    assert (HV2 : forall a, In a V2 -> key_le (j, x) a).
    { intros a Ha. rewrite EV in S. apply SS_tail in S. apply StronglySorted_inv in S. destruct S as [_ F].
      rewrite Forall_forall in F. auto. }
    split.
    + assert (Hj : In (j, x) V) by (rewrite EV; apply in_app_iff; right; left; reflexivity).
      apply HV in Hj. destruct Hj as (l & El & Hx). exists j, (set_of l). split; [rewrite nth_map, El; reflexivity|].
      split; [exact Hx|]. intros j' T y Hjj HT Hy [Hp Hq]. rewrite nth_map in HT.
      destruct (nth_error ls j') as [l'|] eqn:El'; [|discriminate]. injection HT as <-.
      assert (Hin : In (j', y) V) by (apply HV; exists l'; auto).
      destruct (Hall _ _ Hin) as [K|[K|K]].
      * apply HV1 in K. lia.
      * injection K as -> _. lia.
      * apply HV2 in K. unfold key_le in K; cbn in K. lia.
    + intros T y HT Hy [N1 N2]. apply in_map_iff in HT. destruct HT as (l' & <- & Hl').
      apply In_nth_error in Hl'. destruct Hl' as (j' & El').
      assert (Hin : In (j', y) V) by (apply HV; exists l'; auto).
      destruct (Hall _ _ Hin) as [K|[K|K]].
      * apply HV1 in K. lia.
      * injection K as _ ->. unfold nests; lia.
      * apply HV2 in K. unfold key_le in K; cbn in K. unfold nests; lia.
  - intros [(j & T & ET & Hx & Hlast) Hin]. rewrite nth_map in ET.
    destruct (nth_error ls j) as [l|] eqn:El; [|discriminate]. injection ET as <-.
    assert (Hj : In (j, x) V) by (apply HV; exists l; auto).
    assert (dec : forall a b : nat * iv, {a = b} + {a <> b}) by (decide equality; [apply iv_dec|apply Nat.eq_dec]).
    destruct (first_split dec _ _ Hj) as (V1 & V2 & EV & NV1).
    exists (map snd V1), (map snd V2). split; [rewrite EV, map_app; reflexivity|].
    assert (Fx : finite x) by (apply (gcdup_finite l); [apply G'; apply (nth_error_In _ _ El)|exact Hx]).
    split; [apply Fx|]. intros y Hy. apply in_map_iff in Hy. destruct Hy as ((i & y') & Ey & Hy). cbn in Ey; subst y'.
    assert (Hiy : In (i, y) V) by (rewrite EV; apply in_app_iff; left; exact Hy).
    assert (K : key_le (i, y) (j, x)).
    { rewrite EV in S. apply (SS_app _ _ _ S); [exact Hy|left; reflexivity]. }
    apply HV in Hiy. destruct Hiy as (l' & El' & Hyl).
    destruct (Z_lt_ge_dec (ip y) (ip x)) as [Hlt|Hge]; [exact Hlt|exfalso].
    assert (N : nests y x).
    { apply (Hin (set_of l') y); [apply in_map, (nth_error_In _ _ El')|exact Hyl|].
      unfold key_le in K; cbn in K. unfold nests; lia. }
    assert (Eq : ip y = ip x /\ iq y = iq x) by (unfold key_le, nests in *; cbn in *; lia).
    destruct (Nat.lt_trichotomy i j) as [Hij|[Hij|Hij]].
    + unfold key_le in K; cbn in K. lia.
    + subst i. rewrite El in El'. injection El' as <-. apply NV1.
      assert (y = x) as <-; [|exact Hy].
      apply (proj2 (gcdup_GC l (G' l (nth_error_In _ _ El)))); auto.
    + apply (Hlast i (set_of l') y Hij); [rewrite nth_map, El'; reflexivity|exact Hyl|exact Eq].
Qed.

Lemma visit_inner ls : Forall gcdup ls ->
  let out := survivors minf (map snd (visit ls)) in listed (sem_inner (map set_of ls)) out.
Proof.
  intros G out. destruct (visit_ok ls G) as (A & B & _). split; [|apply survivors_inner; assumption].
  apply survivors_gc; [exact B|]. rewrite Forall_forall. intros [j x] H. apply A in H. destruct H as (l & El & Hx).
  cbn. rewrite Forall_forall in G. apply (gcdup_finite l); [apply G, (nth_error_In _ _ El)|exact Hx].
Qed.

Definition okv (x : iv) := ip x <= iq x /\ value_ok x.
Lemma fold_merge xs : Forall okv xs -> forall k s l, holds s l ->
  exists k' s', fold_res merge_body xs (k, s) = Ok (k', s') /\ holds s' (l ++ survivors k xs) /\ feature s' = feature s.
Proof.
  induction 1 as [|x xs [Hx Hv] _ IH]; intros k s l H; cbn [fold_res merge_body survivors].
  - exists k, s. rewrite app_nil_r. auto.
  - destruct (k <? ip x); cbn [bind].
    + destruct (IH (ip x) (push s x) (l ++ [x]) (push_holds _ _ _ H Hx Hv)) as (k' & s' & E & A & B).
      exists k', s'. rewrite <- app_assoc in A. auto.
    + apply IH. exact H.
Qed.

Lemma gcdup_app l m : gcdup l -> gcdup m ->
  (forall x y, In x l -> In y m -> ip x < ip y /\ iq x < iq y) -> gcdup (l ++ m).
Proof.
  induction l as [|a l IH]; intros G1 G2 H; [exact G2|]. destruct G1 as (Fa & Hd & G1).
  cbn [app gcdup]. split; [exact Fa|]. split; [|apply IH; auto; intros; apply H; [right|]; assumption].
  destruct l as [|b l]; cbn [app].
  - destruct m as [|c m]; [trivial|]. left. apply H; left; reflexivity.
  - exact Hd.
Qed.
Lemma gcdup_last l x : gcdup (l ++ [x]) -> forall y, In y l -> (ip y < ip x /\ iq y < iq x) \/ y = x.
Proof.
  induction l as [|a l IH]; intros G y Hy; [contradiction|]. destruct Hy as [->|Hy].
  - apply (gcdup_head y (l ++ [x])); [exact G|]. apply in_app_iff. right; left; reflexivity.
  - apply IH; [exact (gcdup_tail _ _ G)|exact Hy].
Qed.

Lemma can_append_ok ls : Forall gcdup ls -> Forall (fun l => l <> []) ls -> can_append ls = true -> gcdup (concat ls).
Proof.
  induction ls as [|a ls IH]; intros G N H; [exact Logic.I|]. cbn [concat].
  inversion G as [|? ? Ga G']; subst. inversion N as [|? ? Na N']; subst.
  destruct ls as [|b ls]; [cbn; rewrite app_nil_r; exact Ga|].
  cbn [can_append] in H. destruct (rev a) as [|x ra] eqn:Ea.
  { apply (f_equal (@rev iv)) in Ea. rewrite rev_involutive in Ea. contradiction. }
  assert (Ea' : a = rev ra ++ [x]) by (rewrite <- (rev_involutive a), Ea; reflexivity).
  inversion N' as [|? ? Nb _]; subst. destruct b as [|y b]; [contradiction|].
  apply andb_prop in H. destruct H as [H Hc]. apply andb_prop in H. destruct H as [H1 H2].
  specialize (IH G' N' Hc). apply gcdup_app; [exact Ga|exact IH|]. intros u w Hu Hw.
  assert (Hux : ip u <= ip x /\ iq u <= iq x).
  { apply in_app_iff in Hu. destruct Hu as [Hu|[<-|[]]]; [|lia]. destruct (gcdup_last _ _ Ga u Hu) as [K|K]; [lia|subst; lia]. }
  assert (Hyw : ip y <= ip w /\ iq y <= iq w).
  { cbn [concat] in Hw, IH. rewrite <- app_comm_cons in Hw, IH. destruct Hw as [<-|Hw]; [lia|].
    destruct (gcdup_head _ _ _ IH Hw) as [K|K]; [lia|subst; lia]. }
  lia.
Qed.

Lemma last_list (x : iv) (ls : list (list iv)) : (exists l, In l ls /\ In x l) ->
  exists i l, nth_error ls i = Some l /\ In x l /\ forall j m, (i < j)%nat -> nth_error ls j = Some m -> ~ In x m.
Proof.
  induction ls as [|a ls IH]; intros (l & Hl & Hx); [contradiction|].
  destruct (Exists_dec (fun m => In x m) ls (in_dec iv_dec x)) as [D|D].
  - apply Exists_exists in D. destruct (IH D) as (i & m & E & K & H). exists (S i), m. split; [exact E|]. split; [exact K|].
    intros [|j] m' Hj Em; [lia|]. apply (H j); [lia|exact Em].
  - exists O, a. split; [reflexivity|]. split.
    + destruct Hl as [->|Hl]; [exact Hx|]. exfalso. apply D. apply Exists_exists. exists l; auto.
    + intros [|j] m Hj Em; [lia|]. intros K. apply D. apply Exists_exists. exists m. split; [exact (nth_error_In ls j Em)|exact K].
Qed.
Lemma GC_inner ls : GC (set_of (concat ls)) -> forall x, sem_inner (map set_of ls) x <-> In x (concat ls).
Proof.
  intros [_ N] x. split.
  - intros [(i & S & E & Hx & _) _]. rewrite nth_map in E. destruct (nth_error ls i) as [l|] eqn:El; [|discriminate].
    injection E as <-. apply in_concat. exists l. split; [exact (nth_error_In _ _ El)|exact Hx].
  - intros H. assert (Hc : In x (concat ls)) by exact H. apply in_concat in H. destruct H as (l & Hl & Hx). split.
    + destruct (last_list x ls (ex_intro _ l (conj Hl Hx))) as (i & m & E & K & H). exists i, (set_of m).
      split; [rewrite nth_map, E; reflexivity|]. split; [exact K|]. intros j T y Hj HT Hy [E1 E2]. rewrite nth_map in HT.
      destruct (nth_error ls j) as [m'|] eqn:Em; [|discriminate]. injection HT as <-. apply (H j m' Hj Em).
      assert (y = x) as <-; [|exact Hy]. apply N; [apply in_concat; exists m'; split; [exact (nth_error_In _ _ Em)|exact Hy]|exact Hc|].
      unfold nests; lia.
    + intros T y HT Hy Hn. apply in_map_iff in HT. destruct HT as (m & <- & Hm).
      assert (x = y) as <-; [|exact Hn]. apply N; [exact Hc|apply in_concat; exists m; auto|exact Hn].
Qed.

Lemma okv_all ls : Forall gcdup ls -> Forall (Forall value_ok) ls -> forall l, In l ls -> Forall okv l.
Proof.
  intros G V l Hl. rewrite Forall_forall in G, V. specialize (V l Hl). rewrite Forall_forall in *. intros x Hx.
  split; [|auto]. pose proof (gcdup_finite l x (G l Hl) Hx). unfold finite in *. lia.
Qed.
Lemma okv_concat ls : Forall gcdup ls -> Forall (Forall value_ok) ls -> Forall okv (concat ls).
Proof.
  intros G V. rewrite Forall_forall. intros x Hx. apply in_concat in Hx. destruct Hx as (l & Hl & Hx).
  pose proof (okv_all ls G V l Hl) as H. rewrite Forall_forall in H. auto.
Qed.
Lemma okv_visit ls : Forall gcdup ls -> Forall (Forall value_ok) ls -> Forall okv (map snd (visit ls)).
Proof.
  intros G V. rewrite Forall_forall. intros x Hx. apply in_map_iff in Hx. destruct Hx as ((j & y) & <- & H).
  apply (proj1 (visit_ok ls G)) in H. destruct H as (l & El & Hl).
  pose proof (okv_all ls G V l (nth_error_In _ _ El)) as K. rewrite Forall_forall in K. auto.
Qed.

(** C15 *)
Theorem merge_ok : forall f ps ls, ps <> [] -> Forall2 holds ps ls -> Forall (fun p => feature p = f) ps ->
  Forall gcdup ls -> Forall (fun l => l <> []) ls -> Forall (Forall value_ok) ls ->
  exists m l, posting_from_merge ps = Ok (Some m) /\ feature m = f /\ holds m l /\ gcdup l /\
              (forall x, In x l <-> sem_inner (map set_of ls) x) /\ (length l <= length (concat ls))%nat.
Proof.
  intros f ps ls Hne H2 Hf G N V. destruct ps as [|p0 [|p1 ps]]; [contradiction| |].
  - inversion H2 as [|? l0 ? ? H0 H2']; subst. inversion H2'; subst. cbn [posting_from_merge].
    inversion G as [|? ? G0 _]; subst. exists p0, l0. split; [reflexivity|]. split; [inversion Hf; assumption|].
    split; [exact H0|]. split; [exact G0|]. cbn [concat]. rewrite app_nil_r. split; [|lia]. intros x.
    rewrite GC_inner; cbn [concat]; rewrite app_nil_r; [tauto|]. apply gcdup_GC; exact G0.
  - assert (F0 : feature p0 = f) by (inversion Hf; assumption).
    assert (Ff : forallb (fun p => feature p =? feature p0) (p0 :: p1 :: ps) = true).
    { apply forallb_forall. intros p Hp. rewrite Forall_forall in Hf. rewrite (Hf p Hp), F0. apply Z.eqb_refl. }
    unfold posting_from_merge. rewrite Ff. cbn [negb]. rewrite (all_contents_ok _ _ H2). cbn [bind].
    destruct (can_append ls) eqn:Ec.
    + pose proof (can_append_ok ls G N Ec) as Gc.
      destruct (fold_push_holds (concat ls) (okv_concat ls G V) _ _ (feature_holds (feature p0))) as [A B].
      exists (fold_left push (concat ls) (posting_from_feature (feature p0))), (concat ls).
      split; [reflexivity|]. split; [rewrite B; exact F0|]. split; [exact A|]. split; [exact Gc|].
      split; [|lia]. intros x. rewrite GC_inner; [tauto|]. apply gcdup_GC; exact Gc.
    + destruct (visit_ok ls G) as (_ & _ & D). rewrite D.
      destruct (fold_merge (map snd (visit ls)) (okv_visit ls G V) minf _ _ (feature_holds (feature p0))) as (k' & s' & E & A & B).
      rewrite E. cbn [bind]. destruct (visit_inner ls G) as [L1 L2]. exists s'. eexists. split; [reflexivity|].
      split; [rewrite B; exact F0|]. split; [exact A|]. split; [apply gclist_gcdup; exact L1|]. split; [exact L2|].
      apply NoDup_incl_length; [apply gclist_NoDup; exact L1|]. intros x Hx. apply L2 in Hx.
      destruct Hx as [(i & T & Hi & Tx & _) _]. rewrite nth_map in Hi. destruct (nth_error ls i) as [l|] eqn:El; [|discriminate].
      injection Hi as <-. apply in_concat. exists l. split; [exact (nth_error_In _ _ El)|exact Tx].
Qed.

(** C16: what is kept when ranges are excluded: [x] is dropped iff an excluded range contains it. *)
Definition covered (ex : list iv) (x : iv) : bool := existsb (fun b => (ip b <=? ip x) && (iq x <=? iq b)) ex.
Lemma covered_spec ex x : covered ex x = true <-> exists b, set_of ex b /\ nests b x.
Proof.
  unfold covered. rewrite existsb_exists. unfold set_of, nests. split; intros (b & H & K); exists b; (split; [exact H|lia]).
Qed.

Section Exclude.
Variables (C : hcls) (ex : list iv) (I : St C -> Prop).
Hypothesis HC : hop_ok C (set_of ex) I.
(** [px], [qx]: nothing yet, or the first excluded range ending at or after [k]. *)
Definition ex_inv (kq px qx : Z) : Prop :=
  (px = minf /\ qx = minf) \/ exists k v, minf < k <= kq /\ rho_spec (set_of ex) k (Iv px qx v).

Lemma ex_test kq px qx x : ex_inv kq px qx -> iq x <= qx -> kq <= iq x -> finite x ->
  (ip x <? px) = negb (covered ex x).
Proof.
  intros H Hq Hk F. unfold finite in F.
  destruct H as [[-> ->]|(k & v & Hk' & [[E _]|[_ [(A & B & D)|[E A]]]])]; try lia.
  - destruct (ip x <? px) eqn:E; destruct (covered ex x) eqn:Cv; try reflexivity; exfalso.
    + apply covered_spec in Cv. destruct Cv as (b & Hb & N1 & N2).
      assert (Hqb : qx <= iq b) by (apply (D b Hb); lia). cbn in *.
      pose proof (proj2 (hop_GC HC) b (Iv px qx v) Hb A) as U. unfold nests in U; cbn in U.
      rewrite U in N1 by lia. cbn in N1. lia.
    + assert (covered ex x = true); [|congruence]. apply covered_spec. exists (Iv px qx v). split; [exact A|].
      unfold nests; cbn. lia.
  - injection E as -> -> _. assert ((ip x <? maxf) = true) as -> by lia.
    destruct (covered ex x) eqn:Cv; [|reflexivity]. apply covered_spec in Cv. destruct Cv as (b & Hb & N1 & N2).
    specialize (A b Hb). lia.
Qed.

Lemma fold_exclude V : StronglySorted key_le V -> Forall (fun a => okv (snd a) /\ finite (snd a)) V ->
  forall k px qx h s l kq, I h -> holds s l -> ex_inv kq px qx -> (forall a, In a V -> kq <= iq (snd a)) ->
  exists k' px' qx' h' s', fold_res (exclude_body C) (map snd V) (k, px, qx, h, s) = Ok (k', px', qx', h', s') /\
    holds s' (l ++ filter (fun x => negb (covered ex x)) (survivors k (map snd V))) /\ feature s' = feature s.
Proof.
  induction V as [|[j x] V IH]; intros S F k px qx h s l kq Hh Hs He Hk; cbn [map snd fold_res survivors].
  - exists k, px, qx, h, s. cbn [filter]. rewrite app_nil_r. auto.
  - apply StronglySorted_inv in S. destruct S as [S Sx]. inversion F as [|? ? [[Fx1 Fx2] Fx] F']; subst. cbn [snd] in *.
    rewrite Forall_forall in Sx.
    assert (Hx : kq <= iq x) by apply (Hk (j, x) (or_introl eq_refl)).
    assert (Hk' : forall a, In a V -> iq x <= iq (snd a)) by (intros a Ha; specialize (Sx a Ha); unfold key_le in Sx; cbn in Sx; lia).
    cbn [exclude_body]. destruct (k <? ip x) eqn:E.
    2:{ cbn [bind]. apply (IH S F' k px qx h s l kq); auto. intros a Ha. specialize (Hk' a Ha). lia. }
    assert (Q : exists px' qx' h', (if qx <? iq x then let* (h0, r) := h_rho C h (iq x) in Ok (ip r, iq r, h0) else Ok (px, qx, h)) = Ok (px', qx', h')
                 /\ I h' /\ ex_inv (iq x) px' qx' /\ iq x <= qx').
    { destruct (qx <? iq x) eqn:Eq.
      - pose proof (hop_rho HC h (iq x) Hh) as R. unfold finite in Fx. specialize (R ltac:(lia)).
        apply wp_exists in R. destruct R as ((h' & r) & ER & Ih & Hr). rewrite ER. cbn [bind].
        exists (ip r), (iq r), h'. split; [reflexivity|]. split; [exact Ih|]. split.
        + right. exists (iq x), (ivl r). split; [lia|]. destruct r; exact Hr.
        + destruct Hr as [[E1 _]|[_ [(_ & H1 & _)|[-> _]]]]; cbn; try lia.
      - exists px, qx, h. split; [reflexivity|]. split; [exact Hh|]. split; [|lia].
        destruct He as [He|(k0 & v & Hk0 & He)]; [left; exact He|]. right. exists k0, v. split; [lia|exact He]. }
    destruct Q as (px' & qx' & h' & EQ & Ih & He' & Hq'). rewrite EQ. cbn [bind].
    rewrite (ex_test _ _ _ _ He' Hq' (Z.le_refl _) Fx). cbn [filter].
    destruct (negb (covered ex x)).
    + destruct (IH S F' (ip x) px' qx' h' (push s x) (l ++ [x]) (iq x) Ih (push_holds _ _ _ Hs Fx1 Fx2) He' Hk')
        as (a & b & c & d & s' & E' & A & B).
      exists a, b, c, d, s'. rewrite <- app_assoc in A. auto.
    + exact (IH S F' (ip x) px' qx' h' s l (iq x) Ih Hs He' Hk').
Qed.
End Exclude.

Theorem merge_exclude_ok : forall f ps ls e ex, ps <> [] -> Forall2 holds ps ls -> Forall (fun p => feature p = f) ps ->
  Forall gcdup ls -> Forall (Forall value_ok) ls ->
  holds e ex -> gcdup ex -> ex <> [] -> Z.of_nat (length ex) <= max_len ->
  exists o, posting_from_merge_exclude ps (Some e) = Ok o /\
    exists l, listed (sem_nin (sem_inner (map set_of ls)) (set_of ex)) l /\
      match o with
      | None => l = []
      | Some m => feature m = f /\ holds m l /\ l <> []
      end.
Proof.
  intros f ps ls e ex Hne H2 Hf G V He Ge Ne Le.
  assert (F0 : exists p0 ps', ps = p0 :: ps' /\ feature p0 = f).
  { destruct ps as [|p0 ps']; [contradiction|]. exists p0, ps'. inversion Hf; auto. }
  destruct F0 as (p0 & ps' & -> & F0). unfold posting_from_merge_exclude.
  rewrite (holds_psize _ _ He). assert ((Z.of_nat (length ex) =? 0) = false) as ->.
  { destruct ex; [contradiction|]. cbn [length]. lia. }
  rewrite (all_contents_ok _ _ H2). cbn [bind].
  assert (A : answers (array_hopper (arr_of_posting e)) (array_init (arr_of_posting e)) (set_of ex)).
  { rewrite (arr_of_posting_eq _ _ He). apply array_answers; [exact Ge| |].
    - destruct ex; [contradiction|]. unfold max_len in Le. cbn [length] in *. lia.
    - destruct (fostings e) eqn:Ef; [|discriminate]. intros _. exact (zero_values _ _ He Ef). }
  apply answers_iff in A. destruct A as (I & HC & HI).
  destruct (visit_ok ls G) as (VA & VS & D). rewrite D.
  assert (FV : Forall (fun a => okv (snd a) /\ finite (snd a)) (visit ls)).
  { rewrite Forall_forall. intros [j x] H. pose proof (okv_visit ls G V) as K. rewrite Forall_forall in K.
    split; [apply K; apply (in_map snd) in H; exact H|]. apply VA in H. destruct H as (l & El & Hx).
    rewrite Forall_forall in G. apply (gcdup_finite l); [apply G, (nth_error_In _ _ El)|exact Hx]. }
  destruct (fold_exclude _ ex I HC (visit ls) VS FV minf minf minf _ _ _ minf HI (feature_holds (feature p0)) (or_introl (conj eq_refl eq_refl)))
    as (k' & px & qx & h' & s' & E & B & Bf).
  { intros a Ha. rewrite Forall_forall in FV. destruct (FV a Ha) as [_ Fa]. unfold finite in Fa. lia. }
  rewrite E. cbn [bind snd]. rewrite app_nil_l in B.
  set (out := filter (fun x => negb (covered ex x)) (survivors minf (map snd (visit ls)))) in *.
  destruct (visit_inner ls G) as [L1 L2].
  assert (Lo : listed (sem_nin (sem_inner (map set_of ls)) (set_of ex)) out).
  { split.
    - unfold out. clear -L1. revert L1. generalize (survivors minf (map snd (visit ls))). intros l.
      induction l as [|x l IH]; intros L; [exact Logic.I|]. cbn [filter]. destruct (negb (covered ex x)).
      + apply gclist_cons; [apply IH; exact (gclist_tail _ _ L)|apply L|]. intros y Hy. apply filter_In in Hy.
        apply (gclist_head x l); [exact L|apply Hy].
      + apply IH. exact (gclist_tail _ _ L).
    - intros x. unfold out. rewrite filter_In, L2. unfold sem_nin.
      destruct (covered ex x) eqn:Cv; cbn [negb].
      + apply covered_spec in Cv. intuition discriminate.
      + assert (~ exists b, set_of ex b /\ nests b x) by (intros K; apply covered_spec in K; congruence). tauto. }
  eexists. split; [reflexivity|]. exists out. split; [exact Lo|].
  rewrite (holds_psize _ _ B). destruct out as [|y out'] eqn:Eo; cbn [length].
  - reflexivity.
  - destruct (Z.of_nat (S (length out')) =? 0) eqn:Z0; [lia|]. split; [rewrite Bf; exact F0|]. split; [exact B|discriminate].
Qed.
