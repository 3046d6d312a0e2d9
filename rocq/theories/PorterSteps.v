(** The steps of the stemmer follow the rules. *)
From Verif Require Import Base Bytes PorterModel PorterSpec PorterProofs.
Local Arguments chr s%string_scope.

(** ** Rules in the order of the code *)
Definition eqp (x y : bytes * bytes) : bool := eqb_bytes (fst x) (fst y) && eqb_bytes (snd x) (snd y).
Lemma eqp_eq x y : eqp x y = true -> x = y.
Proof. unfold eqp. intros H. apply andb_prop in H. destruct x, y. cbn [fst snd] in H. rewrite !eqb_bytes_eq in H. destruct H; congruence. Qed.
Definition inclb (l m : list (bytes * bytes)) : bool := forallb (fun x => existsb (eqp x) m) l.
Lemma inclb_ok l m : inclb l m = true -> incl l m.
Proof.
  unfold inclb. rewrite forallb_forall. intros H x I. specialize (H x I). apply existsb_exists in H. destruct H as (y & I2 & E).
  apply eqp_eq in E. subst. exact I2.
Qed.
Definition suffixb (t w : bytes) : bool := eqb_bytes (skipn (length w - length t) w) t.
Fixpoint orderedb (l : list (bytes * bytes)) : bool :=
  match l with
  | [] => true
  | x :: r => forallb (fun y => (length (fst y) <=? length (fst x))%nat || negb (suffixb (fst x) (fst y))) r && orderedb r
  end.
Lemma suffix_of (u t u' t' : bytes) : u ++ t = u' ++ t' -> (length t <= length t')%nat -> exists v, t' = v ++ t.
Proof.
  revert u'. induction u as [|a u IH]; intros u' E L.
  - exists []. cbn in E. destruct u' as [|b u']; [cbn in E; cbn; congruence|]. apply (f_equal (@length _)) in E. cbn in E. rewrite app_length in E. lia.
  - destruct u' as [|b u']; [cbn in E; exists (a :: u); rewrite <- E; reflexivity|]. injection E as _ E. exact (IH u' E L).
Qed.
Lemma suffixb_app v t : suffixb t (v ++ t) = true.
Proof.
  unfold suffixb. rewrite app_length. replace (length v + length t - length t)%nat with (length v) by lia. rewrite skipn_app, skipn_all, Nat.sub_diag.
  apply eqb_bytes_refl.
Qed.
Lemma ordered_app l1 t r l2 : orderedb (l1 ++ (t, r) :: l2) = true -> forall t' r', In (t', r') l2 ->
  (length t' <= length t)%nat \/ suffixb t t' = false.
Proof.
  induction l1 as [|x l1 IH]; cbn [app orderedb]; intros H t' r' I; apply andb_prop in H; destruct H as [H1 H2]; [|exact (IH H2 t' r' I)].
  rewrite forallb_forall in H1. specialize (H1 _ I). cbn [fst] in H1. apply orb_prop in H1. destruct H1 as [H1|H1]; [left; apply Nat.leb_le, H1|].
  right. apply negb_true_iff, H1.
Qed.
Lemma first_rule s w : holding s w -> forall l, Forall (fun x => fst x <> []) l ->
  (rules l s = Ok s /\ forall t r u, In (t, r) l -> w <> u ++ t) \/
  (exists l1 t r l2 u, l = l1 ++ (t, r) :: l2 /\ (forall t' r' u', In (t', r') l1 -> w <> u' ++ t') /\ w = u ++ t /\
     rules l s = p_r r (set_j s (Z.of_nat (length u) - 1))).
Proof.
  intros H. induction l as [|[t r] l IH]; intros F; [left; split; [reflexivity|intros ? ? ? []]|].
  inversion F as [|? ? F1 F2]; subst. cbn [fst] in F1. cbn [rules].
  destruct (ends_ok t s w H F1) as [(u & E & ->)|(N & ->)]; cbn [bind].
  - right. exists [], t, r, l, u. split; [reflexivity|]. split; [intros ? ? ? []|]. split; [exact E|reflexivity].
  - destruct (IH F2) as [[R A]|(l1 & t1 & r1 & l2 & u & E1 & A & E2 & R)].
    + left. split; [exact R|]. intros t' r' u [I|I]; [injection I as <- <-; apply N|exact (A t' r' u I)].
    + right. exists ((t, r) :: l1), t1, r1, l2, u. split; [rewrite E1; reflexivity|]. split; [|split; [exact E2|exact R]].
      intros t' r' u' [I|I]; [injection I as <- <-; apply N|exact (A t' r' u' I)].
Qed.
Section Table.
Context (table : list (bytes * bytes)) (cases : Z -> list (bytes * bytes)) (key : bytes -> Z).
Context (H1 : forallb (fun x => existsb (eqp x) (cases (key (fst x)))) table = true) (H2 : forall c, incl (cases c) table)
  (H3 : forall c, orderedb (cases c) = true) (H4 : forall u t r, In (t, r) table -> key (u ++ t) = key t)
  (H5 : Forall (fun x => fst x <> []) table).
Lemma in_cases w u t r : In (t, r) table -> w = u ++ t -> In (t, r) (cases (key w)).
Proof.
  intros I ->. rewrite (H4 u t r I). rewrite forallb_forall in H1. specialize (H1 _ I). apply existsb_exists in H1. destruct H1 as (y & I2 & E).
  apply eqp_eq in E. subst. exact I2.
Qed.
Lemma picked w l1 t r l2 u : cases (key w) = l1 ++ (t, r) :: l2 -> (forall t' r' u', In (t', r') l1 -> w <> u' ++ t') -> w = u ++ t ->
  fitting table w u t r.
Proof.
  intros E A W. split; [apply (H2 (key w)); rewrite E, in_app_iff; right; left; reflexivity|]. split; [exact W|].
  intros u' s' r' I W'. pose proof (in_cases w u' s' r' I W') as J. rewrite E, in_app_iff in J. destruct J as [J|[J|J]].
  - exfalso. exact (A _ _ _ J W').
  - injection J as <- <-. lia.
  - specialize (H3 (key w)). rewrite E in H3. destruct (ordered_app _ _ _ _ H3 _ _ J) as [L|L]; [exact L|].
    destruct (Nat.le_gt_cases (length s') (length t)) as [G|G]; [exact G|]. exfalso.
    destruct (suffix_of u t u' s') as (v & ->); [congruence|lia|]. rewrite suffixb_app in L. discriminate.
Qed.
Lemma none_fits w : (forall t r u, In (t, r) (cases (key w)) -> w <> u ++ t) -> forall u t r, In (t, r) table -> w <> u ++ t.
Proof. intros A u t r I W. exact (A t r u (in_cases w u t r I W) W). Qed.
Lemma cases_ne c : Forall (fun x => fst x <> []) (cases c).
Proof. rewrite Forall_forall in *. intros x I. apply H5, (H2 c), I. Qed.

Context (H6 : forall t r, In (t, r) table -> (length r <= length t)%nat).
Lemma table_run s w : holding s w -> exists s' w', rules (cases (key w)) s = Ok s' /\ holding s' w' /\
  by_rules table (fun _ u => 1 <= measure u) w w' /\ (length w' <= length w)%nat.
Proof.
  intros H. pose proof H as (Lb & Nw & K & Lw & q & E).
  destruct (first_rule s w H _ (cases_ne (key w))) as [[R A]|(l1 & t & r & l2 & u & El & A & W & R)].
  - exists s, w. split; [exact R|]. split; [exact H|]. split; [|lia]. apply by_default. apply none_fits, A.
  - pose proof (picked _ _ _ _ _ _ El A W) as F. rewrite R. unfold p_r. rewrite (m_ok _ u (t ++ q)).
    2:{ cbn [set_j pb]. rewrite E, W, app_assoc. reflexivity. } 2:{ unfold stem_at. reflexivity. }
    cbn [bind]. destruct (Z.ltb_spec 0 (measure u)) as [M|M].
    + pose proof (H6 _ _ (proj1 F)) as L6. rewrite W, app_length in Lw.
      assert (u <> []) as Nu by (intros ->; cbn in M; lia).
      destruct (setto_ok (set_j s (Z.of_nat (length u) - 1)) u r (t ++ q)) as (s' & E' & Hs & _).
      * exact Lb.
      * cbn [set_j pb]. rewrite E, W, app_assoc. reflexivity.
      * reflexivity.
      * lia.
      * destruct u; [congruence|discriminate].
      * exists s', (u ++ r). split; [exact E'|]. split; [exact Hs|]. split; [|rewrite W, !app_length; lia]. eapply by_rule; [exact F|cbv beta; lia].
    + exists (set_j s (Z.of_nat (length u) - 1)), w. split; [reflexivity|]. split; [apply holding_j, H|]. split; [|lia].
      eapply by_refusal; [exact F|cbv beta; lia].
Qed.
End Table.

Definition before_last (w : bytes) : Z := nth (length w - 2) w 0.
Lemma before_last_app u t : (2 <= length t)%nat -> before_last (u ++ t) = before_last t.
Proof. intros L. unfold before_last. rewrite app_length, app_nth2 by lia. f_equal. lia. Qed.
Lemma last_app (u t : bytes) : t <> [] -> last (u ++ t) 0 = last t 0.
Proof. intros N. destruct (exists_last N) as (v & c & ->). rewrite app_assoc, !last_last. reflexivity. Qed.
Lemma table_check (P : bytes -> bytes -> bool) (table : list (bytes * bytes)) : forallb (fun x => P (fst x) (snd x)) table = true -> forall t r, In (t, r) table -> P t r = true.
Proof. rewrite forallb_forall. intros H t r I. exact (H _ I). Qed.
Lemma table_ne (table : list (bytes * bytes)) : forallb (fun x => negb (eqb_bytes (fst x) [])) table = true -> Forall (fun x => fst x <> []) table.
Proof. rewrite forallb_forall, Forall_forall. intros H [t r] I E. specialize (H _ I). cbn [fst] in *. subst t. discriminate. Qed.

Ltac chain c := repeat (destruct (c =? _); [vm_compute; reflexivity|]); vm_compute; reflexivity.
Lemma incl2 c : incl (cases2 c) rules_2. Proof. apply inclb_ok. unfold cases2. chain c. Qed.
Lemma incl3 c : incl (cases3 c) rules_3. Proof. apply inclb_ok. unfold cases3. chain c. Qed.
Definition pairs4 (c : Z) : list (bytes * bytes) := map (fun t => (t, [])) (cases4 c).
Lemma incl4 c : incl (pairs4 c) rules_4. Proof. apply inclb_ok. unfold pairs4, cases4. chain c. Qed.
Lemma ord2 c : orderedb (cases2 c) = true. Proof. unfold cases2. chain c. Qed.
Lemma ord3 c : orderedb (cases3 c) = true. Proof. unfold cases3. chain c. Qed.
Lemma ord4 c : orderedb (pairs4 c) = true. Proof. unfold pairs4, cases4. chain c. Qed.
Lemma step2_ok s w : holding s w -> (2 <= length w)%nat -> exists s' w', step2 s = Ok s' /\ holding s' w' /\
  by_rules rules_2 (fun _ u => 1 <= measure u) w w' /\ (length w' <= length w)%nat.
Proof.
  intros H L. pose proof H as (Lb & Nw & K & Lw & q & E). unfold step2. rewrite (rd_ok s w q) by (try exact E; lia). cbn [bind].
  replace (Z.to_nat (pk s - 1)) with (length w - 2)%nat by lia.
  refine (table_run rules_2 cases2 before_last _ incl2 ord2 _ _ _ s w H).
  - vm_compute. reflexivity.
  - intros u t r I. apply before_last_app. apply Nat.leb_le. exact (table_check (fun t _ => (2 <=? length t)%nat) rules_2 eq_refl t r I).
  - apply table_ne. reflexivity.
  - intros t r I. apply Nat.leb_le. exact (table_check (fun t r => (length r <=? length t)%nat) rules_2 eq_refl t r I).
Qed.
Lemma step3_ok s w : holding s w -> exists s' w', step3 s = Ok s' /\ holding s' w' /\
  by_rules rules_3 (fun _ u => 1 <= measure u) w w' /\ (length w' <= length w)%nat.
Proof.
  intros H. pose proof H as (Lb & Nw & K & Lw & q & E). unfold step3.
  assert (rd s (pk s) = Ok (last w 0)) as ->.
  { destruct (exists_last Nw) as (v & c & Ev). rewrite Ev in *. rewrite (rd_last s v c H), last_last. reflexivity. }
  cbn [bind]. refine (table_run rules_3 cases3 (fun w => last w 0) _ incl3 ord3 _ _ _ s w H).
  - vm_compute. reflexivity.
  - intros u t r I. apply last_app. pose proof (table_ne rules_3 eq_refl) as F. rewrite Forall_forall in F. exact (F _ I).
  - apply table_ne. reflexivity.
  - intros t r I. apply Nat.leb_le. exact (table_check (fun t r => (length r <=? length t)%nat) rules_3 eq_refl t r I).
Qed.

(** ** Step 1 *)
Lemma not_both (w u u' a b : bytes) : w = u ++ a -> w = u' ++ b -> last a 0 <> last b 0 -> a <> [] -> b <> [] -> False.
Proof.
  intros E1 E2 N A B. apply N. rewrite <- (last_app u a A), <- (last_app u' b B), <- E1, <- E2. reflexivity.
Qed.
Ltac in_rules I := cbn [In] in I; repeat (destruct I as [I|I]; [injection I as <- <-|]); try contradiction.
Lemma step1a_ok s w : holding s w -> (2 <= length w)%nat -> exists s' w', step1a s = Ok s' /\ holding s' w' /\
  by_rules rules_1a (fun _ _ => True) w w' /\ (length w' <= length w)%nat.
Proof.
  intros H L. pose proof H as (Lb & Nw & K & Lw & q & E). unfold step1a.
  destruct (exists_last Nw) as (w1 & c & Ew). assert (rd s (pk s) = Ok c) as -> by (rewrite Ew in H; exact (rd_last s w1 c H)). cbn [bind].
  destruct (Z.eqb_spec c (chr "s")) as [->|Nc]; cbn [negb].
  2:{ exists s, w. split; [reflexivity|]. split; [exact H|]. split; [|lia]. apply by_default. intros u t r I W. unfold rules_1a in I.
      assert (last t 0 = chr "s" /\ t <> []) as [T1 T2] by (in_rules I; split; (reflexivity || discriminate)).
      apply Nc. rewrite <- T1, <- (last_app u t T2), <- W, Ew, last_last. reflexivity. }
  destruct (ends_ok (lit "sses") s w H ltac:(discriminate)) as [(u & W & ->)|(N1 & ->)]; cbn [bind].
  { eexists. exists (u ++ lit "ss"). split; [reflexivity|]. rewrite W, app_length in K. cbn [length lit] in K. split.
    - apply (holding_cut _ (u ++ lit "ss") (lit "es")); [rewrite <- app_assoc; cbn [app lit]; apply holding_j; rewrite W in H; exact H|destruct u; discriminate|].
      cbn [set_j pk]. rewrite app_length. cbn [length lit]. lia.
    - split; [|rewrite W, !app_length; cbn; lia]. apply by_rule with (s := lit "sses"); [|exact I]. split; [cbn; auto|]. split; [exact W|].
      intros u' s9 r9 J _. unfold rules_1a in J. in_rules J; cbn; lia. }
  destruct (ends_ok (lit "ies") s w H ltac:(discriminate)) as [(u & W & ->)|(N2 & ->)]; cbn [bind].
  { destruct (setto_ok (set_j s (Z.of_nat (length u) - 1)) u (lit "i") (lit "ies" ++ q)) as (s' & E' & Hs & _).
    - exact Lb.
    - cbn [set_j pb]. rewrite E, W, app_assoc. reflexivity.
    - reflexivity.
    - rewrite W, app_length in Lw. cbn in *. lia.
    - destruct u; discriminate.
    - exists s', (u ++ lit "i"). split; [exact E'|]. split; [exact Hs|]. split; [|rewrite W, !app_length; cbn; lia].
      apply by_rule with (s := lit "ies"); [|exact I]. split; [cbn; auto|]. split; [exact W|].
      intros u' s9 r9 J W'. unfold rules_1a in J. in_rules J; cbn; try lia. exfalso. exact (N1 u' W'). }
  assert (w1 <> []) as N3 by (intros ->; rewrite Ew in L; cbn in L; lia). destruct (exists_last N3) as (w2 & d & E2).
  rewrite (rd_ok s w q) by (try exact E; lia). cbn [bind].
  replace (Z.to_nat (pk s - 1)) with (length w2) by (rewrite K, Ew, E2, !app_length; cbn [length]; lia).
  assert (nth (length w2) w 0 = d) as ->.
  { rewrite Ew, E2, <- app_assoc. rewrite app_nth2 by lia. rewrite Nat.sub_diag. reflexivity. }
  assert (forall u', w = u' ++ lit "ss" -> d = chr "s") as SS.
  { intros u' W. change (lit "ss") with ([chr "s"] ++ [chr "s"]) in W. rewrite app_assoc, Ew in W. apply app_last in W. destruct W as [W _]. rewrite E2 in W. apply app_last in W. tauto. }
  destruct (Z.eqb_spec d (chr "s")) as [->|Nd].
  - exists s, w. split; [reflexivity|]. split; [exact H|]. split; [|lia].
    assert (w = w2 ++ lit "ss") as W by (rewrite Ew, E2, <- app_assoc; reflexivity). rewrite W at 2. apply by_rule with (s := lit "ss"); [|exact I].
    split; [cbn; auto|]. split; [exact W|]. intros u' s9 r9 J W'. unfold rules_1a in J. in_rules J; cbn; try lia; exfalso; [exact (N1 u' W')|exact (N2 u' W')].
  - exists (set_k s (pk s - 1)), w1. split; [reflexivity|]. rewrite Ew in H. split.
    + apply (holding_cut s w1 [chr "s"]); [exact H|exact N3|]. rewrite K, Ew, app_length. cbn [length]. lia.
    + split; [|rewrite Ew, app_length; lia]. rewrite <- (app_nil_r w1). apply by_rule with (s := lit "s"); [|exact I]. split; [cbn; auto|]. split; [exact Ew|].
      intros u' s9 r9 J W'. unfold rules_1a in J. in_rules J; cbn; try lia; exfalso; first [exact (N1 u' W')|exact (N2 u' W')|exact (Nd (SS u' W'))|idtac].
Qed.

Lemma in_lsz ch : (ch =? chr "l") || (ch =? chr "s") || (ch =? chr "z") = true <-> In ch (lit "lsz").
Proof.
  cbn [lit In]. rewrite !orb_true_iff, !Z.eqb_eq. cbn [chr lit]. split.
  - intros [[ -> | -> ]| -> ]; auto.
  - intros [<-|[<-|[<-|[]]]]; auto.
Qed.
Lemma tidy_ok s w : holding s w -> stem_at s w -> (length w <= 30)%nat -> exists s' w', tidy s = Ok s' /\ holding s' w' /\
  tidied w w' /\ (length w' <= length w + 1)%nat.
Proof.
  intros H J L. pose proof H as (Lb & Nw & K & Lw & q & E). unfold tidy.
  assert (forall u t r, In (t, r) rules_1b2 -> w = u ++ t -> exists s' w', setto r (set_j s (Z.of_nat (length u) - 1)) = Ok s' /\ holding s' w' /\
    tidied w w' /\ (length w' <= length w + 1)%nat) as R.
  { intros u t r I W. assert (length r = 3 /\ length t = 2)%nat as [Lr Lt] by (unfold rules_1b2 in I; in_rules I; split; reflexivity).
    destruct (setto_ok (set_j s (Z.of_nat (length u) - 1)) u r (t ++ q)) as (s' & E' & Hs & _).
    - exact Lb.
    - cbn [set_j pb]. rewrite E, W, app_assoc. reflexivity.
    - reflexivity.
    - rewrite W, app_length in L. lia.
    - destruct u; [|discriminate]. destruct r; discriminate.
    - exists s', (u ++ r). split; [exact E'|]. split; [exact Hs|]. split; [|rewrite W, !app_length; lia].
      apply td_rule with (s := t). split; [exact I|]. split; [exact W|]. intros u' s2 r2 I2 _. unfold rules_1b2 in I2. in_rules I2; cbn; lia. }
  destruct (ends_ok (lit "at") s w H ltac:(discriminate)) as [(u & W & ->)|(N1 & ->)]; cbn [bind]; [apply (R u (lit "at")); [cbn; auto|exact W]|].
  destruct (ends_ok (lit "bl") s w H ltac:(discriminate)) as [(u & W & ->)|(N2 & ->)]; cbn [bind]; [apply (R u (lit "bl")); [cbn; auto|exact W]|].
  destruct (ends_ok (lit "iz") s w H ltac:(discriminate)) as [(u & W & ->)|(N3 & ->)]; cbn [bind]; [apply (R u (lit "iz")); [cbn; auto|exact W]|].
  clear R. assert (forall u s r, ~ fitting rules_1b2 w u s r) as NF.
  { intros u t r (I & W & _). unfold rules_1b2 in I. in_rules I; [exact (N1 u W)|exact (N2 u W)|exact (N3 u W)]. }
  destruct (double_ok s w q E) as (d & D1 & D2). rewrite K, D1. cbn [bind]. destruct d.
  - destruct (proj1 D2 eq_refl) as (u & c & fs & W & _). cbn [set_k pk].
    assert (holding (set_k s (Z.of_nat (length w) - 1 - 1)) (u ++ [c])) as H'.
    { apply (holding_cut s (u ++ [c]) [c]); [rewrite <- app_assoc; cbn [app]; rewrite <- W; exact H|destruct u; discriminate|].
      rewrite W, !app_length. cbn [length]. lia. }
    pose proof (rd_last _ _ _ H') as Rl. cbn [set_k pk] in Rl. rewrite Rl. cbn [bind].
    assert (w = (u ++ [c]) ++ [c]) as W' by (rewrite W, <- app_assoc; reflexivity).
    destruct (_ || _) eqn:B.
    + apply in_lsz in B. eexists. exists w. split; [reflexivity|]. split; [|split; [|lia]].
      * split; [exact Lb|]. split; [exact Nw|]. cbn [set_k pk pb]. split; [lia|]. split; [exact Lw|]. exists q. exact E.
      * eapply td_lsz; [exact NF|apply D2; reflexivity|exact W'|exact B].
    + exists (set_k s (Z.of_nat (length w) - 1 - 1)), (u ++ [c]). split; [reflexivity|]. split; [exact H'|]. split; [|rewrite W', !app_length; lia].
      eapply td_double; [exact NF|apply D2; reflexivity|exact W'|]. intros I. apply in_lsz in I. congruence.
  - assert (~ double w) as ND by (intros D; apply D2 in D; discriminate).
    rewrite (m_ok s w q E J). cbn [bind]. destruct (Z.eqb_spec (measure w) 1) as [M|M].
    + destruct (short_ok s w q E) as (b & B1 & B2). rewrite B1. cbn [bind]. destruct b.
      * destruct (setto_ok s w (lit "e") q Lb E J) as (s' & E' & Hs & _); [cbn; lia|destruct w; discriminate|].
        exists s', (w ++ lit "e"). split; [exact E'|]. split; [exact Hs|]. split; [|rewrite app_length; cbn; lia].
        apply td_e; [exact NF|exact ND|exact M|apply B2; reflexivity].
      * exists s, w. split; [reflexivity|]. split; [exact H|]. split; [|lia]. apply td_same; [exact NF|exact ND|]. intros [_ S]. apply B2 in S. discriminate.
    + exists s, w. split; [reflexivity|]. split; [exact H|]. split; [|lia]. apply td_same; [exact NF|exact ND|]. intros [M' _]. exact (M M').
Qed.
Lemma vowel_ne u : has_vowel u -> u <> []. Proof. intros H ->. exact H. Qed.
Lemma step1b_ok s w : holding s w -> exists s' w', step1b s = Ok s' /\ holding s' w' /\ step_1b w w' /\ (length w' <= length w)%nat.
Proof.
  intros H. pose proof H as (Lb & Nw & K & Lw & q & E). unfold step1b.
  destruct (ends_ok (lit "eed") s w H ltac:(discriminate)) as [(u & W & ->)|(N1 & ->)]; cbn [bind].
  { rewrite (m_ok _ u (lit "eed" ++ q)); [|cbn [set_j pb]; rewrite E, W, app_assoc; reflexivity|reflexivity]. cbn [bind].
    destruct (Z.ltb_spec 0 (measure u)) as [M|M].
    - eexists. exists (u ++ lit "ee"). split; [reflexivity|]. split; [|split; [apply b_eed; [exact W|lia]|rewrite W, !app_length; cbn; lia]].
      apply (holding_cut _ (u ++ lit "ee") (lit "d")); [rewrite <- app_assoc; cbn [app lit]; apply holding_j; rewrite W in H; exact H|destruct u; discriminate|].
      cbn [set_j pk]. rewrite K, W, !app_length. cbn [length lit]. lia.
    - eexists. exists w. split; [reflexivity|]. split; [apply holding_j, H|]. split; [eapply b_eed_keep; [exact W|lia]|lia]. }
  assert (forall u t, In (t, []) rules_1b -> w = u ++ t -> t <> lit "eed" -> (forall u' t' r', In (t', r') rules_1b -> w = u' ++ t' -> (length t' <= length t)%nat) -> (2 <= length t)%nat ->
    exists s' w', (let* v := vowelinstem (set_j s (Z.of_nat (length u) - 1)) in
      if v then tidy (set_k (set_j s (Z.of_nat (length u) - 1)) (pj (set_j s (Z.of_nat (length u) - 1)))) else Ok (set_j s (Z.of_nat (length u) - 1))) = Ok s' /\
      holding s' w' /\ step_1b w w' /\ (length w' <= length w)%nat) as R.
  { intros u t I W Nt Lg Lt. assert (fitting rules_1b w u t []) as F by (split; [exact I|split; [exact W|exact Lg]]).
    destruct (vowel_ok (set_j s (Z.of_nat (length u) - 1)) u (t ++ q)) as (v & V1 & V2); [cbn [set_j pb]; rewrite E, W, app_assoc; reflexivity|reflexivity|].
    rewrite V1. cbn [bind]. destruct v.
    - pose proof (proj1 V2 eq_refl) as HV. cbn [set_j pj].
      destruct (tidy_ok (set_k (set_j s (Z.of_nat (length u) - 1)) (Z.of_nat (length u) - 1)) u) as (s' & w' & T1 & T2 & T3 & T4).
      + apply (holding_cut _ u t); [apply holding_j; rewrite <- W; exact H|apply vowel_ne, HV|reflexivity].
      + reflexivity.
      + rewrite W, app_length in Lw. lia.
      + exists s', w'. split; [exact T1|]. split; [exact T2|]. split; [eapply b_cut; eassumption|rewrite W, app_length; lia].
    - eexists. exists w. split; [reflexivity|]. split; [apply holding_j, H|]. split; [|lia]. eapply b_keep; [exact F|exact Nt|]. intros X. apply V2 in X. discriminate. }
  destruct (ends_ok (lit "ed") s w H ltac:(discriminate)) as [(u & W & ->)|(N2 & ->)]; cbn [bind].
  { apply (R u (lit "ed")); [cbn; auto|exact W|discriminate| |cbn; lia]. intros u' t' r' I W'. unfold rules_1b in I. in_rules I; cbn; try lia; exfalso.
    - exact (N1 u' W').
    - apply (not_both w u u' (lit "ed") (lit "ing") W W'); cbn; discriminate. }
  destruct (ends_ok (lit "ing") s w H ltac:(discriminate)) as [(u & W & ->)|(N3 & ->)]; cbn [bind].
  { apply (R u (lit "ing")); [cbn; auto|exact W|discriminate| |cbn; lia]. intros u' t' r' I W'. unfold rules_1b in I. in_rules I; cbn; lia. }
  exists s, w. split; [reflexivity|]. split; [exact H|]. split; [|lia]. apply b_none. intros u t r I W. unfold rules_1b in I.
  in_rules I; [exact (N1 u W)|exact (N2 u W)|exact (N3 u W)].
Qed.
Lemma step1c_ok s w : holding s w -> exists s' w', step1c s = Ok s' /\ holding s' w' /\
  by_rules rules_1c (fun _ u => has_vowel u) w w' /\ (length w' <= length w)%nat.
Proof.
  intros H. pose proof H as (Lb & Nw & K & Lw & q & E). unfold step1c.
  destruct (ends_ok (lit "y") s w H ltac:(discriminate)) as [(u & W & ->)|(N1 & ->)]; cbn [bind].
  - assert (fitting rules_1c w u (lit "y") (lit "i")) as F.
    { split; [cbn; auto|]. split; [exact W|]. intros u' s9 r9 I _. unfold rules_1c in I. in_rules I; cbn; lia. }
    destruct (vowel_ok (set_j s (Z.of_nat (length u) - 1)) u (lit "y" ++ q)) as (v & V1 & V2); [cbn [set_j pb]; rewrite E, W, app_assoc; reflexivity|reflexivity|].
    rewrite V1. cbn [bind]. destruct v.
    + cbn [set_j pk]. replace (pk s) with (Z.of_nat (length u)) by (rewrite K, W, app_length; cbn; lia).
      rewrite (put_ok _ u (lit "y") (lit "i") q); [|cbn [set_j pb]; rewrite E, W, <- app_assoc; reflexivity|reflexivity].
      eexists. exists (u ++ lit "i"). split; [reflexivity|]. split; [|split; [eapply by_rule; [exact F|apply V2; reflexivity]|rewrite W, !app_length; cbn; lia]].
      cbn [set_j pk pj]. rewrite W, app_length in K, Lw. cbn in K, Lw. rewrite E, W, !app_length in Lb. cbn in Lb.
      split; [cbn [pb]; rewrite !app_length; cbn; lia|]. split; [destruct u; discriminate|]. cbn [pk pb]. rewrite app_length. cbn [length lit]. split; [lia|]. split; [lia|].
      exists q. rewrite <- app_assoc. reflexivity.
    + eexists. exists w. split; [reflexivity|]. split; [apply holding_j, H|]. split; [|lia]. eapply by_refusal; [exact F|]. intros X. apply V2 in X. discriminate.
  - exists s, w. split; [reflexivity|]. split; [exact H|]. split; [|lia]. apply by_default. intros u t r I W. unfold rules_1c in I. in_rules I. exact (N1 u W).
Qed.

(** ** Step 4 *)
Lemma suffix4_first s w : holding s w -> forall l, Forall (fun t => t <> []) l ->
  (suffix4 l s = Ok (false, s) /\ forall t u, In t l -> w <> u ++ t) \/
  (exists l1 t l2 u, l = l1 ++ t :: l2 /\ (forall t' u', In t' l1 -> w <> u' ++ t') /\ w = u ++ t /\
     let s1 := set_j s (Z.of_nat (length u) - 1) in
     suffix4 l s = let* e := (if eqb_bytes t (lit "ion") then let* c := rd s1 (pj s1) in Ok ((c =? chr "s") || (c =? chr "t")) else Ok true) in
       if e then Ok (true, s1) else suffix4 l2 s1).
Proof.
  intros H. induction l as [|t l IH]; intros F; [left; split; [reflexivity|intros ? ? []]|].
  inversion F as [|? ? F1 F2]; subst. cbn [suffix4].
  destruct (ends_ok t s w H F1) as [(u & E & ->)|(N & ->)]; cbn [bind].
  - right. exists [], t, l, u. split; [reflexivity|]. split; [intros ? ? []|]. split; [exact E|reflexivity].
  - cbn [andb]. cbn [bind]. destruct (IH F2) as [[R A]|(l1 & t1 & l2 & u & E1 & A & E2 & R)].
    + left. split; [exact R|]. intros t' u [I|I]; [subst; apply N|exact (A t' u I)].
    + right. exists (t :: l1), t1, l2, u. split; [rewrite E1; reflexivity|]. split; [|split; [exact E2|exact R]].
      intros t' u' [I|I]; [subst; apply N|exact (A t' u' I)].
Qed.
Lemma in_st c : (c =? chr "s") || (c =? chr "t") = true <-> In c (lit "st").
Proof. cbn [lit In]. rewrite !orb_true_iff, !Z.eqb_eq. cbn [chr lit]. split; [intros [ -> | -> ]; auto|intros [<-|[<-|[]]]; auto]. Qed.
Lemma rd_before s : rd s (-1) = UB. Proof. reflexivity. Qed.
Lemma ion_case c l1 l2 : cases4 c = l1 ++ lit "ion" :: l2 -> l2 = [lit "ou"].
Proof.
  assert (forall l : list bytes, forallb (fun t => negb (eqb_bytes t (lit "ion"))) l = true -> l = l1 ++ lit "ion" :: l2 -> l2 = [lit "ou"]) as N.
  { intros l F ->. rewrite forallb_app in F. apply andb_prop in F. destruct F as [_ F]. discriminate. }
  unfold cases4. repeat match goal with |- (if ?c =? ?x then _ else _) = _ -> _ => destruct (c =? x); [try (apply N; reflexivity)|] end; [|apply N; reflexivity].
  intros E. destruct l1 as [|a l1]; [inversion E; reflexivity|]. injection E as _ E. destruct l1 as [|b l1]; [inversion E|].
  injection E as _ E. destruct l1; discriminate.
Qed.
Lemma step4_ok s w : holding s w -> (2 <= length w)%nat ->
  (w = lit "ion" /\ step4 s = UB) \/
  exists s' w', step4 s = Ok s' /\ holding s' w' /\ by_rules rules_4 cond_4 w w' /\ (length w' <= length w)%nat.
Proof.
  intros H L. pose proof H as (Lb & Nw & K & Lw & q & E). unfold step4. rewrite (rd_ok s w q) by (try exact E; lia). cbn [bind].
  replace (Z.to_nat (pk s - 1)) with (length w - 2)%nat by lia. fold (before_last w).
  assert (forall u t r, In (t, r) rules_4 -> before_last (u ++ t) = before_last t) as H4.
  { intros u t r I. apply before_last_app. apply Nat.leb_le. exact (table_check (fun t _ => (2 <=? length t)%nat) rules_4 eq_refl t r I). }
  assert (forallb (fun x => existsb (eqp x) (pairs4 (before_last (fst x)))) rules_4 = true) as H1 by (vm_compute; reflexivity).
  assert (Forall (fun t => t <> []) (cases4 (before_last w))) as Ne.
  { apply Forall_forall. intros t I. pose proof (table_ne rules_4 eq_refl) as F. rewrite Forall_forall in F.
    apply (F (t, [])). apply (incl4 (before_last w)). unfold pairs4. apply in_map_iff. exists t. auto. }
  destruct (suffix4_first s w H _ Ne) as [[R A]|(l1 & t & l2 & u & El & A & W & R)].
  { right. rewrite R. cbn [bind]. exists s, w. split; [reflexivity|]. split; [exact H|]. split; [|lia]. apply by_default.
    apply (none_fits rules_4 pairs4 before_last H1 H4). intros t r u I. unfold pairs4 in I. apply in_map_iff in I. destruct I as (t' & X & I). injection X as <- <-. exact (A _ u I). }
  assert (fitting rules_4 w u t []) as F.
  { apply (picked rules_4 pairs4 before_last H1 incl4 ord4 H4 w (map (fun t => (t, [])) l1) t [] (map (fun t => (t, [])) l2) u).
    - unfold pairs4. rewrite El, map_app. reflexivity.
    - intros t' r' u' I. apply in_map_iff in I. destruct I as (t0 & X & I). injection X as <- <-. exact (A _ u' I).
    - exact W. }
  rewrite R. clear R. cbn zeta. set (s1 := set_j s (Z.of_nat (length u) - 1)).
  assert (holding s1 w) as Hs1 by (apply holding_j, H).
  assert (p_m s1 = Ok (measure u)) as M by (apply (m_ok _ u (t ++ q)); [cbn [s1 set_j pb]; rewrite E, W, app_assoc; reflexivity|reflexivity]).
  assert ((t = lit "ion" -> exists v c, u = v ++ [c] /\ In c (lit "st")) -> exists s' w',
    (let* (e, s0) := Ok (true, s1) in if e then let* n := p_m s0 in if 1 <? n then Ok (set_k s0 (pj s0)) else Ok s0 else Ok s0) = Ok s' /\
    holding s' w' /\ by_rules rules_4 cond_4 w w' /\ (length w' <= length w)%nat) as Fin.
  { intros C. cbn [bind]. rewrite M. cbn [bind]. destruct (Z.ltb_spec 1 (measure u)) as [G|G].
    - eexists. exists (u ++ []). split; [reflexivity|]. rewrite app_nil_r at 1. split.
      + apply (holding_cut s1 u t); [rewrite <- W; exact Hs1|intros ->; cbn in G; lia|reflexivity].
      + split; [|rewrite W, !app_length; cbn; lia]. eapply by_rule; [exact F|]. split; [lia|exact C].
    - exists s1, w. split; [reflexivity|]. split; [exact Hs1|]. split; [|lia]. eapply by_refusal; [exact F|]. intros [X _]. lia. }
  destruct (eqb_bytes t (lit "ion")) eqn:B.
  2:{ right. cbn [bind]. apply Fin. intros ->. discriminate. }
  apply eqb_bytes_eq in B. subst t. cbn [s1 set_j pj] in *. fold s1.
  destruct u as [|a u].
  { left. split; [exact W|]. cbn [length]. change (Z.of_nat 0 - 1) with (-1). rewrite rd_before. reflexivity. }
  right. destruct (exists_last (l := a :: u)) as (v & c & Ev); [discriminate|]. rewrite Ev in *.
  assert (rd s1 (Z.of_nat (length (v ++ [c])) - 1) = Ok c) as ->.
  { rewrite (rd_ok s1 (v ++ [c]) (lit "ion" ++ q)); [|cbn [s1 set_j pb]; rewrite E, W, app_assoc; reflexivity|rewrite app_length; cbn [length]; lia].
    rewrite app_length. cbn [length]. rewrite app_nth2 by lia. replace (_ - _)%nat with O by lia. reflexivity. }
  cbn [bind]. destruct (_ || _) eqn:Bs.
  - apply Fin. intros _. exists v, c. split; [reflexivity|]. apply in_st, Bs.
  - assert (suffix4 l2 s1 = Ok (false, s1)) as ->.
    { rewrite (ion_case _ _ _ El). cbn [suffix4]. destruct (ends_ok (lit "ou") s1 w Hs1 ltac:(discriminate)) as [(u' & W' & _)|(_ & ->)]; [|reflexivity].
      exfalso. apply (not_both w (v ++ [c]) u' (lit "ion") (lit "ou") W W'); cbn; discriminate. }
    cbn [bind]. exists s1, w. split; [reflexivity|]. split; [exact Hs1|]. split; [|lia]. eapply by_refusal; [exact F|].
    intros [_ C]. destruct (C eq_refl) as (v' & c' & Ec & Ic). apply app_last in Ec. destruct Ec as [_ <-]. apply in_st in Ic. congruence.
Qed.

(** ** Step 5 *)
Lemma turns_vowel F : turns (F ++ [false]) = turns F.
Proof.
  induction F as [|a F IH]; [reflexivity|]. destruct F as [|b F]; [cbn; destruct a; reflexivity|].
  change ((a :: b :: F) ++ [false]) with (a :: b :: F ++ [false]). change (turns (a :: b :: F ++ [false])) with ((if negb a && b then 1 else 0) + turns ((b :: F) ++ [false])).
  rewrite IH. reflexivity.
Qed.
Lemma kind_last u c d : (forall p, kind c p = d) -> consonants false (u ++ [c]) = consonants false u ++ [d].
Proof.
  intros H. destruct (cons_snoc u c) as (f & E). rewrite E. f_equal. f_equal. destruct u as [|a u].
  - cbn [app consonants] in E. fold (kind c false) in E. rewrite H in E. injection E as <-. reflexivity.
  - pose proof (cons_next ((a :: u) ++ [c]) false (length u)) as N. rewrite E in N. rewrite app_length in N. cbn [length] in N. specialize (N ltac:(lia)).
    rewrite app_nth2 in N by (rewrite cons_length; cbn [length]; lia). rewrite cons_length in N. cbn [length] in N. rewrite Nat.sub_diag in N. cbn [nth] in N.
    rewrite N. change (nth (S (length u)) ((a :: u) ++ [c]) 0) with (nth (length u) (u ++ [c]) 0). rewrite (app_nth2 u) by lia. rewrite Nat.sub_diag. apply H.
Qed.
Lemma measure_e u : measure (u ++ lit "e") = measure u.
Proof. unfold measure. cbn [lit]. rewrite (kind_last u _ false); [apply turns_vowel|]. intros p. reflexivity. Qed.
Lemma double_ll u : double (u ++ lit "ll").
Proof.
  exists u, (chr "l"), (consonants false (u ++ [chr "l"])). split; [reflexivity|].
  change (lit "ll") with ([chr "l"] ++ [chr "l"]). rewrite app_assoc. apply kind_last. intros p. reflexivity.
Qed.
Lemma step5_ok s w : holding s w -> exists s' w5 w', step5 s = Ok s' /\ holding s' w' /\ step_5a w w5 /\ step_5b w5 w' /\ (length w' <= length w)%nat.
Proof.
  intros H. pose proof H as (Lb & Nw & K & Lw & q & E). unfold step5. set (s0 := set_j s (pk s)).
  assert (holding s0 w) as H0 by (apply holding_j, H). assert (stem_at s0 w) as J0 by exact K.
  destruct (exists_last Nw) as (w1 & c & Ew). assert (rd s0 (pk s0) = Ok c) as -> by (rewrite Ew in H0; exact (rd_last _ w1 c H0)). cbn [bind].
  (* the second part *)
  assert (forall s2 w5 r, holding s2 w5 -> pb s2 = w5 ++ r -> p_m s2 = Ok (measure w5) -> (length w5 <= length w)%nat ->
    exists s' w', (let* c := rd s2 (pk s2) in if c =? chr "l" then
      let* d := doublec s2 (pk s2) in if d then let* n := p_m s2 in if 1 <? n then Ok (set_k s2 (pk s2 - 1)) else Ok s2 else Ok s2 else Ok s2) = Ok s' /\
      holding s' w' /\ step_5b w5 w' /\ (length w' <= length w)%nat) as P2.
  { clear - Lw. intros s2 w5 r H E M Le. pose proof H as (Lb & Nw & K & _ & _).
    destruct (exists_last Nw) as (v & c & Ev). assert (rd s2 (pk s2) = Ok c) as -> by (rewrite Ev in H; exact (rd_last _ v c H)). cbn [bind].
    destruct (Z.eqb_spec c (chr "l")) as [->|Nc].
    - destruct (double_ok s2 w5 r E) as (d & D1 & D2). rewrite K, D1. cbn [bind]. destruct d.
      + destruct (proj1 D2 eq_refl) as (u & c & fs & W & _). change [c; c] with ([c] ++ [c]) in W. rewrite app_assoc in W. pose proof W as W0. rewrite Ev in W0. apply app_last in W0. destruct W0 as [-> <-].
        assert (w5 = u ++ lit "ll") as Wl by (rewrite Ev, <- app_assoc; reflexivity).
        rewrite M. cbn [bind]. destruct (Z.ltb_spec 1 (measure w5)) as [G|G].
        * eexists. exists (u ++ lit "l"). split; [reflexivity|]. split; [|split; [apply l_cut; [exact Wl|lia]|rewrite Ev, !app_length in Le; rewrite app_length; cbn in *; lia]].
          apply (holding_cut s2 (u ++ lit "l") (lit "l")); [rewrite <- app_assoc; cbn [app lit]; cbn [lit] in Wl; rewrite <- Wl; exact H|destruct u; discriminate|].
          rewrite Wl, !app_length. cbn [length lit]. lia.
        * exists s2, w5. split; [reflexivity|]. split; [exact H|]. split; [eapply l_keep; [exact Wl|lia]|exact Le].
      + exists s2, w5. split; [reflexivity|]. split; [exact H|]. split; [|exact Le]. apply l_none. intros u Wl.
        assert (double w5) as D by (rewrite Wl; apply double_ll). apply D2 in D. discriminate.
    - exists s2, w5. split; [reflexivity|]. split; [exact H|]. split; [|exact Le]. apply l_none. intros u Wl.
      change (lit "ll") with ([chr "l"] ++ [chr "l"]) in Wl. rewrite app_assoc, Ev in Wl. apply app_last in Wl. destruct Wl as [_ X]. exact (Nc X). }
  assert (p_m s0 = Ok (measure w)) as M0 by (apply (m_ok s0 w q); [exact E|exact J0]).
  destruct (Z.eqb_spec c (chr "e")) as [->|Nc].
  2:{ cbn [bind]. destruct (P2 s0 w q H0 E M0 ltac:(lia)) as (s' & w' & R & Hs & S5 & Le). exists s', w, w'. split; [exact R|]. split; [exact Hs|]. split; [|auto].
      apply e_none. intros u W. change (lit "e") with [chr "e"] in W. rewrite Ew in W. apply app_last in W. destruct W as [_ X]. exact (Nc X). }
  assert (w = w1 ++ lit "e") as We by exact Ew.
  assert (measure w = measure w1) as Me by (rewrite We; apply measure_e).
  rewrite M0. cbn [bind].
  assert (w1 <> [] -> exists s' w', (let* c := rd (set_k s0 (pk s0 - 1)) (pk (set_k s0 (pk s0 - 1))) in if c =? chr "l" then
      let* d := doublec (set_k s0 (pk s0 - 1)) (pk (set_k s0 (pk s0 - 1))) in if d then let* n := p_m (set_k s0 (pk s0 - 1)) in
        if 1 <? n then Ok (set_k (set_k s0 (pk s0 - 1)) (pk (set_k s0 (pk s0 - 1)) - 1)) else Ok (set_k s0 (pk s0 - 1)) else Ok (set_k s0 (pk s0 - 1)) else Ok (set_k s0 (pk s0 - 1))) = Ok s' /\
      holding s' w' /\ step_5b w1 w' /\ (length w' <= length w)%nat) as Cut.
  { intros N1. apply (P2 (set_k s0 (pk s0 - 1)) w1 (lit "e" ++ q)).
    - apply (holding_cut s0 w1 (lit "e")); [rewrite <- We; exact H0|exact N1|]. cbn [s0 set_j pk]. rewrite K, We, app_length. cbn [length lit]. lia.
    - cbn [set_k s0 set_j pb]. rewrite E, We, app_assoc. reflexivity.
    - rewrite <- Me. apply (m_ok _ w q); [exact E|exact J0].
    - rewrite We, app_length. lia. }
  assert (forall n, 1 <= n -> measure w = n -> w1 <> []) as Nn by (intros n G X -> ; rewrite Me in X; cbn in X; lia).
  destruct (Z.ltb_spec 1 (measure w)) as [G|G].
  { cbn [bind]. destruct (Cut (Nn (measure w) ltac:(lia) eq_refl)) as (s' & w' & R & Hs & S5 & Le). exists s', w1, w'. split; [exact R|]. split; [exact Hs|]. split; [|auto].
    apply e_cut; [exact We|]. left. lia. }
  destruct (Z.eqb_spec (measure w) 1) as [G1|G1].
  - destruct (short_ok s0 w1 (lit "e" ++ q)) as (b & B1 & B2); [cbn [s0 set_j pb]; rewrite E, We, app_assoc; reflexivity|].
    replace (pk s0 - 1) with (Z.of_nat (length w1) - 1) in * by (cbn [s0 set_j pk]; rewrite K, We, app_length; cbn [length lit]; lia).
    rewrite B1. cbn [bind]. destruct b; cbn [bind].
    + destruct (P2 s0 w q H0 E M0 ltac:(lia)) as (s' & w' & R & Hs & S5 & Le). exists s', w, w'. split; [exact R|]. split; [exact Hs|]. split; [|auto].
      eapply e_keep; [exact We|]. pose proof (proj1 B2 eq_refl). intros [X|[_ X]]; [lia|contradiction].
    + destruct (Cut (Nn (measure w) ltac:(lia) eq_refl)) as (s' & w' & R & Hs & S5 & Le). exists s', w1, w'. split; [exact R|]. split; [exact Hs|]. split; [|auto].
      apply e_cut; [exact We|]. right. split; [lia|]. intros X. apply B2 in X. discriminate.
  - cbn [bind]. destruct (P2 s0 w q H0 E M0 ltac:(lia)) as (s' & w' & R & Hs & S5 & Le). exists s', w, w'. split; [exact R|]. split; [exact Hs|]. split; [|auto].
    eapply e_keep; [exact We|]. intros [X|[X _]]; lia.
Qed.
