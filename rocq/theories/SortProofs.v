(** Proofs about the sorting of files of records. *)
From Coq Require Import Lia Permutation Sorted.
From Verif Require Import Base Bytes CodecModel CodecProofs WorkModel WorkSpec WorkProofs SortModel SortSpec.

Lemma records_ok k (rs : list bytes) file : (0 < k)%nat -> holds_records k rs file -> records k file = rs.
Proof.
  intros K (F & tail & -> & T). unfold records.
  assert (G : forall n rs, Forall (fun r : bytes => length r = k) rs -> (length (concat rs ++ tail) <= n)%nat -> records_go n k (concat rs ++ tail) = rs).
  { clear F. induction n as [|n IH]; intros r F N.
    - destruct r as [|x r]; [reflexivity|]. inversion F; subst. cbn [concat] in N. rewrite !app_length in N. lia.
    - cbn [records_go]. destruct r as [|x r]; cbn [concat app].
      + replace (Nat.ltb (length tail) k) with true by (symmetry; apply Nat.ltb_lt; exact T). reflexivity.
      + inversion F as [|? ? F1 F2]; subst. rewrite <- app_assoc.
        replace (Nat.ltb (length (x ++ concat r ++ tail)) (length x)) with false by (symmetry; apply Nat.ltb_ge; rewrite app_length; lia).
        rewrite firstn_app, Nat.sub_diag, firstn_all, firstn_O, app_nil_r, skipn_app, Nat.sub_diag, skipn_all. cbn [skipn app]. f_equal.
        apply IH; [exact F2|]. cbn [concat] in N. rewrite <- app_assoc, app_length in N. lia. }
  apply G; [exact F|lia].
Qed.
Lemma records_concat k (rs : list bytes) : (0 < k)%nat -> Forall (fun r : bytes => length r = k) rs -> records k (concat rs) = rs.
Proof. intros K F. apply records_ok; [exact K|]. split; [exact F|]. exists []. rewrite app_nil_r. cbn. auto. Qed.

Section S.
Variables (k : nat) (cmp : bytes -> bytes -> bool) (sort : list bytes -> list bytes) (lots : nat) (how : bytes -> outcome) (working : bytes).
Hypothesis (K : (0 < k)%nat) (LO : (0 < lots)%nat) (W : weak_order cmp) (SO : sorts cmp sort) (NS : forall name n, how name <> Short n).

Lemma merge_perm a : forall b, Permutation (merge_loop cmp a b) (a ++ b).
Proof.
  induction a as [|x a IH]; intros b; [destruct b; reflexivity|].
  induction b as [|y b IHb]; [cbn; rewrite app_nil_r; reflexivity|].
  cbn [merge_loop]. destruct (cmp x y).
  - cbn [app]. constructor. apply IH.
  - change (Permutation (y :: merge_loop cmp (x :: a) b) ((x :: a) ++ y :: b)). rewrite IHb. apply Permutation_middle.
Qed.
Lemma merge_sorted a : forall b, in_order cmp a -> in_order cmp b -> in_order cmp (merge_loop cmp a b).
Proof.
  destruct W as [WA WT]. unfold in_order. induction a as [|x a IH]; intros b A B; [destruct b; exact B|].
  induction b as [|y b IHb]; [exact A|]. cbn [merge_loop].
  inversion A as [|? ? A1 A2]; subst. inversion B as [|? ? B1 B2]; subst. destruct (cmp x y) eqn:E.
  - constructor; [apply IH; assumption|]. eapply Permutation_Forall; [symmetry; apply merge_perm|]. apply Forall_app. split; [exact A2|].
    constructor; [apply WA; exact E|]. eapply Forall_impl; [|exact B2]. intros z Hz. exact (WT _ _ _ (WA _ _ E) Hz).
  - constructor; [apply IHb; assumption|]. change (Forall (fun b0 => cmp b0 y = false) (merge_loop cmp (x :: a) b)).
    eapply Permutation_Forall; [symmetry; apply merge_perm|]. apply Forall_app. split; [|exact B2].
    constructor; [exact E|]. eapply Forall_impl; [|exact A2]. intros z Hz. exact (WT _ _ _ E Hz).
Qed.

Definition temp (d : Z) : bytes := fst (make_temp working [] d).
Lemma temp_eq a b : 0 <= a -> 0 <= b -> temp a = temp b -> a = b.
Proof. apply temp_inj. Qed.
Lemma temp_next c : 0 <= c -> c + 1 < 2 ^ 32 -> make_temp working [] c = (temp c, c + 1).
Proof. intros A B. unfold temp, make_temp. cbn [fst]. rewrite Z.mod_small by (change 4294967296 with (2 ^ 32); lia). reflexivity. Qed.
Lemma store_same n b fs : store n b fs n = Some b.
Proof. unfold store. rewrite eqb_bytes_refl. reflexivity. Qed.
Lemma store_other n b fs x : x <> n -> store n b fs x = fs x.
Proof. intros H. unfold store. apply eqb_bytes_neq in H. rewrite H. reflexivity. Qed.
Lemma removed_same n fs : removed n fs n = None.
Proof. unfold removed. rewrite eqb_bytes_refl. reflexivity. Qed.
Lemma removed_other n fs x : x <> n -> removed n fs x = fs x.
Proof. intros H. unfold removed. apply eqb_bytes_neq in H. rewrite H. reflexivity. Qed.

Variables (c0 : Z) (fs0 : files).
Hypothesis (C0 : 0 <= c0).
Definition others (fs : files) : Prop := forall name, ~ temporary working c0 name -> fs name = fs0 name.
Record inv (c : Z) (fs : files) (Q : list (Z * list bytes)) (rs : list bytes) : Prop := Inv {
  i_c : c0 <= c;
  i_nodup : NoDup (map fst Q);
  i_files : forall d l, In (d, l) Q -> c0 <= d < c /\ fs (temp d) = Some (concat l) /\ in_order cmp l /\ Forall (fun r : bytes => length r = k) l;
  i_perm : Permutation (concat (map snd Q)) rs;
  i_others : others fs;
  i_gone : forall d, c0 <= d < c -> ~ In d (map fst Q) -> fs (temp d) = None }.
Lemma is_temp d : c0 <= d < 2 ^ 32 -> temporary working c0 (temp d).
Proof. intros H. exists d. split; [exact H|reflexivity]. Qed.
Lemma create_ok c fs Q rs l ok fs' : inv c fs Q rs -> c < 2 ^ 32 -> in_order cmp l -> Forall (fun r : bytes => length r = k) l ->
  create how (temp c) (concat l) fs = (ok, fs') -> others fs' /\ (ok = true -> inv (c + 1) fs' (Q ++ [(c, l)]) (rs ++ l)) /\ (how (temp c) = Whole -> ok = true).
Proof.
  intros [IC IN IF IP IO IG] C S F E.
  assert (TS : forall x b, x <> temp c -> store (temp c) b fs x = fs x) by (intros x b H; apply store_other; exact H).
  assert (OT : forall b, others (store (temp c) b fs)).
  { intros b name N. rewrite TS; [apply IO; exact N|]. intros ->. apply N, is_temp. lia. }
  unfold create in E. pose proof (NS (temp c)) as NSc. destruct (how (temp c)) as [|n|n|]; injection E as <- <-; [| |destruct (NSc n); reflexivity|].
  - split; [exact IO|]. split; [discriminate|discriminate].
  - split; [apply OT|]. split; [discriminate|discriminate].
  - split; [apply OT|]. split; [intros _|reflexivity]. constructor.
    + lia.
    + rewrite map_app. cbn [map fst]. eapply Permutation_NoDup; [apply Permutation_cons_append|]. constructor; [|exact IN]. intros I. apply in_map_iff in I. destruct I as ((d & l') & Ed & I). cbn [fst] in Ed. subst d. specialize (IF c l' I). lia.
    + intros d l' I. apply in_app_or in I. destruct I as [I|[I|[]]].
      * destruct (IF d l' I) as (A & B & D & G). split; [lia|]. split; [|auto]. rewrite TS; [exact B|]. intros H. apply temp_eq in H; lia.
      * injection I as <- <-. split; [lia|]. split; [apply store_same|]. auto.
    + rewrite map_app, concat_app. cbn [map snd concat]. rewrite app_nil_r. apply Permutation_app_tail. exact IP.
    + apply OT.
    + intros d D N. rewrite map_app, in_app_iff in N. cbn [map fst In] in N. rewrite TS; [apply IG; [|tauto]|].
      * assert (d <> c) by (intros ->; tauto). lia.
      * intros H. apply temp_eq in H; [|lia|lia]. subst d. tauto.
Qed.

Lemma spill_ok (ts : list bytes) c fs Q rs : inv c fs Q rs -> c + 1 < 2 ^ 32 -> Forall (fun r : bytes => length r = k) ts ->
  exists ok fs', spill sort how working ts (map (fun x => temp (fst x)) Q) c fs = (ok, map (fun x => temp (fst x)) (Q ++ [(c, sort ts)]), c + 1, fs') /\
  others fs' /\ (ok = true -> inv (c + 1) fs' (Q ++ [(c, sort ts)]) (rs ++ ts)) /\ ((forall n, how n = Whole) -> ok = true).
Proof.
  intros I C F. unfold spill. pose proof (i_c _ _ _ _ I). rewrite temp_next by lia. destruct (SO ts) as [P S].
  destruct (create how (temp c) (concat (sort ts)) fs) as [ok fs'] eqn:E.
  destruct (create_ok c fs Q rs (sort ts) ok fs' I ltac:(lia) S) as (O & T & H'); [eapply Permutation_Forall; [exact P|exact F]|exact E|].
  exists ok, fs'. rewrite map_app. cbn [map fst]. split; [reflexivity|]. split; [exact O|]. split; [|intros A; apply H', A].
  intros Hok. destruct (T Hok) as [a b d e f g]. constructor; auto. rewrite e. apply Permutation_app_head. symmetry. exact P.
Qed.
Lemma split_ok (rs : list bytes) : forall (ts : list bytes) c fs Q done n, inv c fs Q done -> c = c0 + len Q -> (length ts < lots)%nat -> Forall (fun r : bytes => length r = k) (ts ++ rs) ->
  Z.of_nat lots * len Q + len ts + len rs = n -> c0 + n / Z.of_nat lots + 2 < 2 ^ 32 ->
  exists ok tq c' fs', split_loop sort lots how working rs ts (map (fun x => temp (fst x)) Q) c fs = (ok, tq, c', fs') /\ others fs' /\ ((forall x, how x = Whole) -> ok = true) /\
  (ok = true -> exists Q', tq = map (fun x => temp (fst x)) Q' /\ inv c' fs' Q' (done ++ ts ++ rs) /\ c' = c0 + len Q' /\ len Q' <= n / Z.of_nat lots + 1 /\ (done ++ ts ++ rs <> [] -> Q <> [] \/ ts ++ rs <> [] -> Q' <> [])).
Proof.
  induction rs as [|t rs IH]; intros ts c fs Q done n I C L F N B.
  - assert (LQ : len Q <= n / Z.of_nat lots).
    { apply Z.div_le_lower_bound; [lia|]. pose proof (len_nonneg ts). change (len []) with 0 in N. lia. }
    cbn [split_loop]. rewrite app_nil_r in F. destruct ts as [|x ts].
    + do 4 eexists. split; [reflexivity|]. split; [apply (i_others _ _ _ _ I)|]. split; [reflexivity|]. intros _. exists Q. rewrite !app_nil_r. split; [reflexivity|]. split; [exact I|]. split; [exact C|]. split; [lia|]. intros _ [H|H]; [exact H|contradiction].
    + destruct (spill_ok (x :: ts) c fs Q done I ltac:(lia) F) as (ok & fs' & E & O & T & H'). rewrite E. do 4 eexists. split; [reflexivity|]. split; [exact O|]. split; [exact H'|].
      intros Hok. exists (Q ++ [(c, sort (x :: ts))]). rewrite app_nil_r. split; [reflexivity|]. split; [apply T, Hok|]. rewrite len_app. change (len [(c, sort (x :: ts))]) with 1. split; [lia|]. split; [lia|]. intros _ _ H. apply app_eq_nil in H. destruct H; discriminate.
  - cbn [split_loop]. rewrite len_cons in N.
    assert (F' : Forall (fun r : bytes => length r = k) ((ts ++ [t]) ++ rs)) by (rewrite <- app_assoc; exact F).
    destruct (Nat.leb lots (length (ts ++ [t]))) eqn:E.
    + apply Nat.leb_le in E. rewrite app_length in E. cbn [length] in E.
      assert (Lt : len ts + 1 = Z.of_nat lots) by (unfold len; lia).
      assert (LQ : len Q <= n / Z.of_nat lots).
      { apply Z.div_le_lower_bound; [lia|]. pose proof (len_nonneg ts). pose proof (len_nonneg rs). lia. }
      apply Forall_app in F'. destruct F' as [F1 F2].
      destruct (spill_ok (ts ++ [t]) c fs Q done I ltac:(lia) F1) as (ok & fs' & Es & O & T & H'). match type of Es with ?x = _ => match goal with |- context [spill sort how working ?a ?b ?c1 ?d] => change (spill sort how working a b c1 d) with x end end. rewrite Es. destruct ok.
      * destruct (IH [] (c + 1) fs' (Q ++ [(c, sort (ts ++ [t]))]) (done ++ ts ++ [t]) n) as (ok & tq & c' & fs2 & E2 & O2 & A2 & R2).
        { apply T. reflexivity. } { rewrite len_app. change (len [(c, sort (ts ++ [t]))]) with 1. lia. } { cbn. lia. } { exact F2. }
        { rewrite len_app. change (len [(c, sort (ts ++ [t]))]) with 1. change (len []) with 0. lia. } { exact B. }
        do 4 eexists. split; [exact E2|]. split; [exact O2|]. split; [exact A2|]. intros Hok. destruct (R2 Hok) as (Q' & R3 & R4 & R5 & R6 & R7).
        exists Q'. replace (done ++ ts ++ t :: rs) with ((done ++ ts ++ [t]) ++ [] ++ rs) by (cbn [app]; rewrite <- !app_assoc; reflexivity).
        split; [exact R3|]. split; [exact R4|]. split; [exact R5|]. split; [exact R6|]. intros _ _. apply R7; [destruct done; [destruct ts|]; discriminate|]. left. destruct Q; discriminate.
      * do 4 eexists. split; [reflexivity|]. split; [exact O|]. split; [exact H'|]. discriminate.
    + apply Nat.leb_gt in E. destruct (IH (ts ++ [t]) c fs Q done n I C E F') as (ok & tq & c' & fs2 & E2 & O2 & A2 & R2).
      { rewrite len_app. change (len [t]) with 1. lia. } { exact B. }
      do 4 eexists. split; [exact E2|]. split; [exact O2|]. split; [exact A2|]. intros Hok. destruct (R2 Hok) as (Q' & R3 & R4 & R5 & R6 & R7).
      exists Q'. replace (done ++ ts ++ t :: rs) with (done ++ (ts ++ [t]) ++ rs) by (rewrite <- !app_assoc; reflexivity).
      replace (ts ++ t :: rs) with ((ts ++ [t]) ++ rs) by (rewrite <- !app_assoc; reflexivity). split; [exact R3|]. split; [exact R4|]. split; [exact R5|]. split; [exact R6|exact R7].
Qed.
Lemma queue_ok n : forall f0 Q c fs rs, inv c fs Q rs -> Q <> [] -> c + len Q < 2 ^ 32 -> (length Q + 1 < n)%nat ->
  exists ok name c' fs', queue_loop k cmp how working n f0 (map (fun x => temp (fst x)) Q) c fs = Ok (ok, name, c', fs') /\ others fs' /\ ((forall x, how x = Whole) -> ok = true) /\
  (ok = true -> c <= c' < 2 ^ 32 /\ exists d l, name = temp d /\ c0 <= d < c' /\ inv c' fs' [(d, l)] rs).
Proof.
  induction n as [|n IH]; intros f0 Q c fs rs I NQ B N; [lia|]. destruct Q as [|(d0, l0) [|(d1, l1) Q]]; [contradiction| |].
  - cbn [map fst queue_loop]. cbn [length] in N. destruct n as [|n]; [lia|]. cbn [queue_loop]. do 4 eexists. split; [reflexivity|]. split; [apply (i_others _ _ _ _ I)|]. split; [reflexivity|].
    intros _. change (len [(d0, l0)]) with 1 in B. destruct (i_files _ _ _ _ I d0 l0 (or_introl eq_refl)) as (D & _). pose proof (i_c _ _ _ _ I). split; [lia|]. exists d0, l0. auto.
  - cbn [map fst queue_loop]. rewrite !len_cons in B. pose proof (len_nonneg Q) as LQ. pose proof (i_c _ _ _ _ I) as IC. rewrite temp_next by lia.
    destruct (i_files _ _ _ _ I d0 l0 (or_introl eq_refl)) as (D0 & F0 & S0 & R0).
    destruct (i_files _ _ _ _ I d1 l1 (or_intror (or_introl eq_refl))) as (D1 & F1 & S1 & R1).
    unfold merge_records. rewrite F0, F1, !records_concat by assumption.
    destruct (create how (temp c) (concat (merge_loop cmp l0 l1)) fs) as [ok fs1] eqn:E.
    destruct (create_ok c fs ((d0, l0) :: (d1, l1) :: Q) rs (merge_loop cmp l0 l1) ok fs1 I ltac:(lia)) as (O & T & H'); [apply merge_sorted; assumption| |exact E|].
    { eapply Permutation_Forall; [symmetry; apply merge_perm|]. apply Forall_app. auto. }
    destruct ok.
    + specialize (T eq_refl). destruct T as [a b d e f g].
      set (fs2 := removed (temp d1) (removed (temp d0) fs1)).
      assert (I2 : inv (c + 1) fs2 (Q ++ [(c, merge_loop cmp l0 l1)]) rs).
      { pose proof (i_nodup _ _ _ _ I) as ND. cbn [map fst] in ND. inversion ND as [|? ? ND1 ND2]; subst. inversion ND2 as [|? ? ND3 ND4]; subst. cbn [app map fst] in b. inversion b as [|? ? b1 b2]; subst. inversion b2 as [|? ? b3 b4]; subst.
        constructor.
        - lia.
        - exact b4.
        - intros x l HI. destruct (d x l) as (d3 & d4 & d5 & d6); [right; right; exact HI|]. split; [lia|]. split; [|auto].
          assert (x <> d0 /\ x <> d1) as [X0 X1].
          { assert (HI' : In x (map fst (Q ++ [(c, merge_loop cmp l0 l1)]))) by (apply in_map_iff; exists (x, l); auto). split; intros ->; [apply b1; right; exact HI'|apply b3; exact HI']. }
          unfold fs2. rewrite !removed_other; [exact d4| |]; intros H; apply temp_eq in H; lia.
        - rewrite <- (i_perm _ _ _ _ I). rewrite map_app, concat_app. cbn [map snd concat]. rewrite app_nil_r, merge_perm. rewrite Permutation_app_comm, <- app_assoc. reflexivity.
        - intros name NN. unfold fs2. rewrite !removed_other; [apply f; exact NN| |]; intros ->; apply NN, is_temp; lia.
        - intros x X XN. unfold fs2. destruct (Z.eq_dec x d1) as [->|X1]; [apply removed_same|]. rewrite removed_other by (intros H; apply temp_eq in H; lia).
          destruct (Z.eq_dec x d0) as [->|X0]; [apply removed_same|]. rewrite removed_other by (intros H; apply temp_eq in H; lia).
          apply g; [exact X|]. cbn [app map fst In]. intros [H|[H|H]]; [congruence|congruence|]. exact (XN H). }
      destruct (IH (temp d0) (Q ++ [(c, merge_loop cmp l0 l1)]) (c + 1) fs2 rs I2) as (ok & name & c' & fs' & E2 & O2 & A2 & R2).
      { destruct Q; discriminate. } { rewrite len_app. change (len [(c, merge_loop cmp l0 l1)]) with 1. lia. } { rewrite app_length. cbn [length] in *. lia. }
      rewrite map_app in E2. cbn [map fst] in E2. do 4 eexists. split; [exact E2|]. split; [exact O2|]. split; [exact A2|]. intros Hok. destruct (R2 Hok) as (R3 & R4). split; [lia|exact R4].
    + do 4 eexists. split; [reflexivity|]. split; [exact O|]. split; [intros A; apply H', A|discriminate].
Qed.
End S.

Lemma sort_ok k cmp sort lots how working input c fs rs file :
  (0 < k)%nat -> (0 < lots)%nat -> weak_order cmp -> sorts cmp sort -> (forall name n, how name <> Short n) ->
  fs input = Some file -> holds_records k rs file -> rs <> [] -> ~ temporary working c input ->
  0 <= c -> c + 2 * (len rs / Z.of_nat lots) + 3 < 2 ^ 32 ->
  exists answer c' fs', sort_records k cmp sort lots how working input c fs = Ok (answer, c', fs') /\
  ((forall name, how name = Whole) -> answer <> None) /\
  (forall name, ~ temporary working c name -> name <> input -> fs' name = fs name) /\
  match answer with
  | None => fs' input = fs input
  | Some out => temporary working c out /\ fs' input = None /\
      (exists l, fs' out = Some (concat l) /\ Permutation l rs /\ in_order cmp l) /\
      (forall d, c <= d < c' -> fst (make_temp working [] d) <> out -> fs' (fst (make_temp working [] d)) = None)
  end.
Proof.
  intros K LO W SO NS FI HR NR NT C B. unfold sort_records. rewrite FI, (records_ok k rs file K HR).
  assert (I0 : inv k cmp working c fs c fs [] []) by (constructor; [lia|constructor|intros ? ? []|constructor|intros ? ?; reflexivity|intros d D; lia]).
  assert (D0 : 0 <= len rs / Z.of_nat lots) by (apply Z.div_pos; [apply len_nonneg|lia]).
  destruct (split_ok k cmp sort lots how working K LO SO NS c fs C rs [] c fs [] [] (len rs) I0) as (ok & tq & c1 & fs1 & E1 & O1 & A1 & R1);
    [change (len []) with 0; lia|cbn; lia|apply HR|change (len []) with 0; change (len (@nil (Z * list bytes))) with 0; lia|lia|].
  cbn [map] in E1. rewrite E1. destruct ok.
  - destruct (R1 eq_refl) as (Q & -> & I1 & C1 & L1 & N1). cbn [app] in I1, N1. specialize (N1 NR (or_intror NR)).
    destruct (queue_ok k cmp lots how working K LO W NS c fs C (S (S (length (map (fun x => temp working (fst x)) Q)))) [] Q c1 fs1 rs I1 N1) as (ok & name & c2 & fs2 & E2 & O2 & A2 & R2); [lia|rewrite map_length; lia|].
    rewrite E2. cbn [bind]. destruct ok.
    + destruct (R2 eq_refl) as (R3 & d & l & -> & D & I2). do 3 eexists. split; [reflexivity|]. split; [discriminate|].
      assert (ND : forall x, c <= x < 2 ^ 32 -> temp working x <> input) by (intros x X E; apply NT; exists x; split; [exact X|symmetry; exact E]).
      split; [intros name N1' N2; rewrite removed_other by exact N2; apply O2; exact N1'|]. split; [exists d; split; [lia|reflexivity]|].
      split; [apply removed_same|]. split.
      * exists l. destruct (i_files _ _ _ _ _ _ _ _ _ I2 d l (or_introl eq_refl)) as (_ & F & S & _). rewrite removed_other by (apply ND; lia).
        split; [exact F|]. split; [|exact S]. rewrite <- (i_perm _ _ _ _ _ _ _ _ _ I2). cbn [map snd concat]. rewrite app_nil_r. reflexivity.
      * intros x X N. rewrite removed_other by (apply ND; lia). apply (i_gone _ _ _ _ _ _ _ _ _ I2 x); [lia|]. cbn [map fst In]. intros [->|[]]. apply N. reflexivity.
    + do 3 eexists. split; [reflexivity|]. split; [intros A; specialize (A2 A); discriminate|]. split; [intros nm N1' N2; apply O2; exact N1'|]. rewrite (O2 _ NT). exact FI.
  - do 3 eexists. split; [reflexivity|]. split; [intros A; specialize (A1 A); discriminate|]. split; [intros name N1 N2; apply O1; exact N1|]. rewrite (O1 _ NT). exact FI.
Qed.

Lemma empty_ok k cmp sort lots how working input c fs file : (0 < k)%nat -> fs input = Some file -> holds_records k [] file ->
  exists fs', sort_records k cmp sort lots how working input c fs = Ok (Some [], c, fs') /\ fs' input = None /\ (forall name, name <> input -> fs' name = fs name).
Proof.
  intros K FI HR. unfold sort_records. rewrite FI, (records_ok k [] file K HR). cbn [split_loop length queue_loop bind]. eexists. split; [reflexivity|].
  split; [apply removed_same|]. intros name N. apply removed_other. exact N.
Qed.
Lemma missing_ok k cmp sort lots how working input c fs : fs input = None -> sort_records k cmp sort lots how working input c fs = Ok (None, c, fs).
Proof. intros H. unfold sort_records. rewrite H. reflexivity. Qed.

(** The two orders. *)
Lemma field_order : weak_order (fun a b => (field 0 a <? field 0 b) || (field 0 a =? field 0 b) && (field 1 a <? field 1 b)).
Proof. split; intros; lia. Qed.
Lemma annotation_order : weak_order annotation_cmp. Proof. exact field_order. Qed.
Lemma tok_order : weak_order tok_cmp. Proof. exact field_order. Qed.

(** Checking. *)
Lemma check_loop_ok rs : forall p, proper p -> check_loop p rs = true <-> Forall proper (p :: rs) /\ StronglySorted earlier (p :: rs).
Proof.
  assert (ET : forall a b c, earlier a b -> earlier b c -> earlier a c) by (unfold earlier; intros; lia).
  induction rs as [|r rs IH]; intros p P; cbn [check_loop].
  - split; [intros _|reflexivity]. split; [repeat constructor; exact P|repeat constructor].
  - match goal with |- context [if ?b then _ else _] => destruct b eqn:E end.
    + assert (PR : proper r) by (unfold proper; lia). assert (EA : earlier p r) by (unfold earlier; lia). rewrite (IH r PR). split.
      * intros [A B]. split; [constructor; assumption|]. constructor; [exact B|]. constructor; [exact EA|]. inversion B as [|? ? B1 B2]; subst.
        eapply Forall_impl; [|exact B2]. intros z Hz. exact (ET _ _ _ EA Hz).
      * intros [A B]. inversion A; inversion B; subst. auto.
    + split; [discriminate|]. intros [A B]. exfalso. inversion A as [|? ? _ A2]; subst. inversion A2 as [|? ? A3 _]; subst. inversion B as [|? ? _ B2]; subst. inversion B2 as [|? ? B3 _]; subst.
      unfold proper, earlier in *. lia.
Qed.
Lemma check_ok rs file : holds_records 32 rs file -> check_annotations (Some file) = true <-> Forall proper rs /\ StronglySorted earlier rs.
Proof.
  intros H. unfold check_annotations. rewrite (records_ok 32 rs file ltac:(lia) H). destruct rs as [|p rs]; [split; auto; split; constructor|].
  destruct (field 1 p <=? field 2 p) eqn:E; [apply check_loop_ok; unfold proper; lia|]. split; [discriminate|]. intros [A _]. inversion A; subst. unfold proper in *. lia.
Qed.
(** Sorted by start, annotations pass exactly if none of a feature lies within another. *)
Lemma sorted_check l : in_order annotation_cmp l -> (StronglySorted earlier l <-> ForallOrdPairs apart l).
Proof.
  unfold in_order. induction l as [|a l IH]; intros S; [split; constructor|]. inversion S as [|? ? S1 S2]; subst. specialize (IH S1). split; intros H.
  - inversion H as [|? ? H1 H2]; subst. constructor; [|apply IH; exact H1]. eapply Forall_impl; [|exact H2]. unfold earlier, apart. intros; lia.
  - inversion H as [|? ? H1 H2]; subst. constructor; [apply IH; exact H2|]. rewrite Forall_forall in *. intros x Hx. specialize (S2 x Hx). specialize (H1 x Hx).
    unfold annotation_cmp in S2. unfold apart, earlier in *. lia.
Qed.
Lemma apart_perm l l' : Permutation l l' -> ForallOrdPairs apart l -> ForallOrdPairs apart l'.
Proof.
  assert (SY : forall a b, apart a b -> apart b a) by (unfold apart; intros; lia).
  induction 1 as [|x l l' P IH|x y l|l l' l'' P IH Q IH']; intros H.
  - exact H.
  - inversion H as [|? ? H1 H2]; subst. constructor; [eapply Permutation_Forall; [exact P|exact H1]|apply IH; exact H2].
  - inversion H as [|? ? H1 H2]; subst. inversion H1 as [|? ? H3 H4]; subst. inversion H2 as [|? ? H5 H6]; subst. constructor; [constructor; [apply SY; exact H3|exact H5]|constructor; assumption].
  - auto.
Qed.
Lemma sorted_file_check sort lots how working input c fs rs file out c' fs' :
  (0 < lots)%nat -> sorts annotation_cmp sort -> (forall name n, how name <> Short n) ->
  fs input = Some file -> holds_records 32 rs file -> rs <> [] -> ~ temporary working c input ->
  0 <= c -> c + 2 * (len rs / Z.of_nat lots) + 3 < 2 ^ 32 ->
  sort_annotations sort lots how working input c fs = Ok (Some out, c', fs') ->
  check_annotations (fs' out) = true <-> Forall proper rs /\ ForallOrdPairs apart rs.
Proof.
  intros LO SO NS FI HR NR NT C B E.
  destruct (sort_ok 32 annotation_cmp sort lots how working input c fs rs file ltac:(lia) LO annotation_order SO NS FI HR NR NT C B) as (a & c2 & fs2 & E2 & _ & _ & R).
  unfold sort_annotations in E. rewrite E in E2. injection E2 as <- <- <-. destruct R as (_ & _ & (l & F & P & S) & _). rewrite F.
  assert (HL : holds_records 32 l (concat l)).
  { split; [eapply Permutation_Forall; [symmetry; exact P|apply HR]|]. exists []. rewrite app_nil_r. cbn. split; [reflexivity|lia]. }
  rewrite (check_ok l _ HL), (sorted_check l S). split; intros [A D]; split.
  - eapply Permutation_Forall; [exact P|exact A].
  - eapply apart_perm; [exact P|exact D].
  - eapply Permutation_Forall; [symmetry; exact P|exact A].
  - eapply apart_perm; [symmetry; exact P|exact D].
Qed.

(** Witnesses: insertion sort. *)
Fixpoint insert (cmp : bytes -> bytes -> bool) (x : bytes) (l : list bytes) : list bytes :=
  match l with [] => [x] | y :: r => if cmp y x then y :: insert cmp x r else x :: l end.
Definition w_sort (l : list bytes) : list bytes := fold_right (insert annotation_cmp) [] l.
Lemma w_sorts : sorts annotation_cmp w_sort.
Proof.
  destruct annotation_order as [WA WT].
  assert (IP : forall x l, Permutation (x :: l) (insert annotation_cmp x l)).
  { induction l as [|y l IH]; cbn [insert]; [reflexivity|]. destruct (annotation_cmp y x); [|reflexivity]. rewrite perm_swap. constructor. exact IH. }
  intros l. induction l as [|x l [IH1 IH2]]; [split; [constructor|constructor]|]. cbn [w_sort fold_right]. fold (w_sort l). split; [rewrite <- IP; constructor; exact IH1|].
  unfold in_order in *. clear IH1. induction IH2 as [|y r S IH F]; cbn [insert]; [repeat constructor|]. destruct (annotation_cmp y x) eqn:E.
  - constructor; [exact IH|]. eapply Permutation_Forall; [apply IP|]. constructor; [apply WA; exact E|exact F].
  - constructor; [constructor; assumption|]. constructor; [exact E|]. eapply Forall_impl; [|exact F]. intros z Hz. exact (WT _ _ _ E Hz).
Qed.
Definition w_record (f p q : Z) : bytes := word_bytes [f; p; q; 0].
Definition w_rs : list bytes := [w_record 7 36 64; w_record 7 64 72; w_record 3 9 9; w_record 7 12 32; w_record 3 5 8].
Definition w_files : files := store (lit "in") (concat w_rs ++ [1; 2; 3]) (fun _ => None).
Lemma w_holds : holds_records 32 w_rs (concat w_rs ++ [1; 2; 3]).
Proof. split; [repeat constructor|]. exists [1; 2; 3]. split; [reflexivity|cbn; lia]. Qed.
Lemma w_not_temporary : ~ temporary (lit "w") 0 (lit "in").
Proof. intros (d & _ & E). discriminate E. Qed.
Lemma w_sorted : match sort_annotations w_sort 2 (fun _ => Whole) (lit "w") (lit "in") 0 w_files with
  | Ok (Some out, c, fs) => out = lit "w/temp.00000004" /\ c = 5 /\ check_annotations (fs out) = true /\
      fs out = Some (concat [w_record 3 5 8; w_record 3 9 9; w_record 7 12 32; w_record 7 36 64; w_record 7 64 72])
  | _ => False end.
Proof. vm_compute. auto. Qed.
(** Bytes lost at the close of a file are not noticed. *)
Lemma short_refuted : exists how, (forall name, how name <> Cannot /\ forall n, how name <> Broken n) /\
  match sort_annotations w_sort 2 how (lit "w") (lit "in") 0 w_files with
  | Ok (Some out, _, fs) => fs (lit "in") = None /\ fs out = Some (w_record 3 5 8) | _ => False end.
Proof. exists (fun n => Short 32). split; [intros; split; [discriminate|discriminate]|]. vm_compute. auto. Qed.
