(** Phrases in queries, and whole queries from text to answers. *)
From Verif Require Import Base Bytes HopperModel GclSpec VectorModel UnaryModel QueryModel QuerySpec QueryProofs QuerySem OptProofs ParseProofs.

Definition raw (u : bytes) : sexpr := SX TERM u 0 [].
Definition phrase_tree (us : list bytes) : sexpr :=
  SX CONTAINING [] 0 [SX FIXED [] (Z.of_nat (length us)) []; SX FOLLOWED_BY [] 0 (map raw us)].
Lemma raw_text us : flat_map (fun t => 32 :: t) us = args_text (map raw us).
Proof. induction us as [|u us IH]; [reflexivity|]. unfold args_text in *. cbn. rewrite IH. reflexivity. Qed.
Lemma phrase_text_tree us : phrase_text us = to_string (phrase_tree us).
Proof.
  unfold phrase_text, phrase_tree. rewrite raw_text. cbn [to_string flat_map]. unfold args_text.
  change (lit "(>> (# ") with (lit "(" ++ operator_reverse CONTAINING ++ 32 :: lit "(# ").
  change (lit ") (...") with (lit ")" ++ 32 :: lit "(" ++ operator_reverse FOLLOWED_BY).
  change (lit "))") with (lit ")" ++ lit ")"). rewrite app_nil_r.
  rewrite <- !app_assoc. cbn [app]. rewrite <- ?app_assoc. cbn [app]. rewrite <- ?app_assoc. reflexivity.
Qed.

Section Phrase.
Variable E : bytes -> iv -> Prop.
Variable split : bytes -> list bytes.
Hypothesis HT : tokens_indexed E split.
Variable idx : bytes -> hobj.
Hypothesis HI : index_for idx E.

Lemma phrase_tree_printable p : (1 <= length (split p))%nat -> printable (phrase_tree (split p)).
Proof.
  intros Hl. destruct (HT p) as [H1 H2].
  apply pr_node; try discriminate; [cbn; lia|].
  constructor; [apply pr_fixed; unfold maxf; lia|]. constructor; [|constructor].
  apply pr_node; try discriminate; [cbn; rewrite map_length; lia|].
  apply Forall_map, Forall_forall. intros t Ht. apply pr_term. left. destruct (H2 t Ht) as (A & B & C & _). auto.
Qed.
Lemma phrase_tree_meaning p : (1 <= length (split p))%nat ->
  same (meaning E (phrase_tree (split p))) (phrase_at E (split p)).
Proof.
  intros Hl x. destruct (HT p) as [_ H2]. unfold phrase_tree, phrase_at. cbn [meaning map fold_left sem_op].
  rewrite map_map. destruct (split p) as [|u us] eqn:Es; [cbn in Hl; lia|]. cbn [map].
  change (meaning E (raw u)) with (E u).
  assert (EM : map (fun y => meaning E (raw y)) us = map E us) by (apply map_ext; reflexivity).
  rewrite EM.
  pose proof (phrase_meaning (map E (u :: us)) ltac:(discriminate)) as PM.
  rewrite map_length in PM.
  rewrite (PM ltac:(apply Forall_map, Forall_forall; intros t _; eexists _, _; apply HI)
             ltac:(apply Forall_map, Forall_forall; intros t Ht y Hy; destruct (H2 t Ht) as (_ & _ & _ & Hp); apply Hp; exact Hy)
             (E u) (map E us) eq_refl x).
  split; intros (F & Q & V & H); (split; [exact F|]; split; [exact Q|]; split; [exact V|]).
  - intros i t Hi. apply H. erewrite map_nth_error; eauto.
  - intros i T Hi. destruct (nth_error (u :: us) i) as [t|] eqn:En.
    + erewrite map_nth_error in Hi by exact En. inversion Hi; subst. apply H. exact En.
    + apply nth_error_None in En. assert (Hx : nth_error (map E (u :: us)) i <> None) by congruence.
      apply nth_error_Some in Hx. rewrite map_length in Hx. lia.
Qed.
Lemma phrase_tree_valid p : (1 <= length (split p))%nat -> valid E (phrase_tree (split p)).
Proof.
  intros Hl. destruct (HT p) as [H1 _]. apply valid_cont; [auto|cbn; lia|].
  constructor; [constructor; unfold maxf; lia|]. constructor; [|constructor].
  apply valid_comb; [auto|destruct (split p); [cbn in Hl; lia|discriminate]|].
  apply Forall_map, Forall_forall. intros; constructor.
Qed.

(** The test of parse.cc:206-207 is: quotes around a non-empty text. *)
Lemma quoted_text t : ((2 <? Z.of_nat (length t)) && (peek t =? 34) && (last t 0 =? 34) = true) <->
  exists p, p <> [] /\ t = 34 :: p ++ [34].
Proof.
  split.
  - intros H. apply andb_prop in H. destruct H as [H H3]. apply andb_prop in H. destruct H as [H1 H2].
    destruct t as [|c t]; [discriminate|]. cbn in H2. apply Z.eqb_eq in H2. subst.
    destruct t as [|d t]; [cbn in H1; lia|]. assert (N : d :: t <> []) by discriminate.
    exists (removelast (d :: t)). split.
    + destruct t; [cbn in H1; lia|discriminate].
    + f_equal. rewrite (app_removelast_last 0 N) at 1. f_equal. f_equal.
      change (last (34 :: d :: t) 0) with (last (d :: t) 0) in H3. lia.
  - intros (p & Hp & ->). assert (Hl : (0 < length p)%nat) by (destruct p; [contradiction|cbn; lia]).
    cbn [length peek]. rewrite app_length. cbn [length].
    change (34 :: p ++ [34]) with ((34 :: p) ++ [34]). rewrite last_last. lia.
Qed.
Lemma phrased_plain t : (forall p, p <> [] -> t <> 34 :: p ++ [34]) -> same (phrased E split t) (E t).
Proof.
  intros H x. unfold phrased. split; [|auto]. intros [(p & Hp & Ht & _)|[_ Hx]]; [exfalso; eapply H; eauto|exact Hx].
Qed.
Lemma phrased_quoted p : p <> [] -> same (phrased E split (34 :: p ++ [34]))
  (match split p with [] => E (34 :: p ++ [34]) | [u] => E u | us => phrase_at E us end).
Proof.
  intros H x. unfold phrased. split.
  - intros [(p' & Hp & Ht & Hx)|[Hn _]]; [|exfalso; eapply Hn; eauto].
    inversion Ht as [Ht']. apply app_inj_tail in Ht'. destruct Ht' as [<- _].
    destruct (split p) as [|? [|? ?]]; exact Hx.
  - intros Hx. left. exists p. split; [exact H|]. split; [reflexivity|]. destruct (split p) as [|? [|? ?]]; exact Hx.
Qed.

Lemma expand_ok : forall e, valid (phrased E split) e ->
  exists e', expand_phrases split e = Ok e' /\ valid E e' /\ same (meaning (phrased E split) e) (meaning E e').
Proof.
  intros e. induction e as [k t w xs IH] using sexpr_ind'. intros V.
  assert (HF : Forall (valid (phrased E split)) xs) by (inversion V; subst; auto).
  set (go := fix go (l : list sexpr) : res (list sexpr) := match l with
                            | [] => Ok []
                            | x :: r => let* y := expand_phrases split x in let* ys := go r in Ok (y :: ys)
                            end).
  assert (Hgo : exists ys, go xs = Ok ys /\
    Forall2 (fun x y => valid E y /\ same (meaning (phrased E split) x) (meaning E y)) xs ys).
  { clear V. induction xs as [|x xs IHx]; [exists []; split; [reflexivity|constructor]|].
    inversion IH as [|? ? I1 I2]; subst. inversion HF as [|? ? V1 V2]; subst.
    destruct (I1 V1) as (y & Hy & Hv & Hs). destruct (IHx I2 V2) as (ys & Hys & Hf).
    exists (y :: ys). cbn. rewrite Hy. cbn [bind]. fold go. rewrite Hys. split; [reflexivity|constructor; auto]. }
  destruct Hgo as (ys & Hys & Hf).
  assert (Hr : bind (go xs) (fun ys => Ok (SX k t w ys)) = Ok (SX k t w ys)) by (rewrite Hys; reflexivity).
  pose proof (valid_sub2 _ _ k t w xs ys Hf V) as Vy.
  assert (ER : expand_phrases split (SX k t w xs) =
     (if op_beq k TERM && (2 <? Z.of_nat (length t)) && (peek t =? 34) && (last t 0 =? 34) then
       match split (removelast (tl t)) with
       | [u] => Ok (SX k u 0 [])
       | u1 :: u2 :: us =>
        let* x := from_string (phrase_text (u1 :: u2 :: us)) in
        match x with Some x => Ok x | None => bind (go xs) (fun ys => Ok (SX k t w ys)) end
       | [] => bind (go xs) (fun ys => Ok (SX k t w ys))
       end else bind (go xs) (fun ys => Ok (SX k t w ys)))) by reflexivity.
  rewrite ER, Hr. clear ER.
  destruct (op_eq_dec k TERM) as [->|Hk].
  2:{ assert (Eb : op_beq k TERM = false) by (destruct k; try reflexivity; contradiction). rewrite Eb. cbn [andb].
      exists (SX k t w ys). split; [reflexivity|]. split; [exact Vy|]. apply meaning_same2; [exact Hk|].
      clear -Hf. induction Hf as [|? ? ? ? []]; constructor; auto. }
  assert (K : w = 0 /\ xs = []) by (inversion V; subst; auto; exfalso; intuition discriminate). destruct K as [-> ->].
  inversion Hf; subst. cbn [meaning]. cbn [op_beq andb].
  destruct ((2 <? Z.of_nat (length t)) && (peek t =? 34) && (last t 0 =? 34)) eqn:Eq.
  - apply quoted_text in Eq. destruct Eq as (p & Hp & ->).
    replace (removelast (tl (34 :: p ++ [34]))) with p by (cbn [tl]; rewrite removelast_last; reflexivity).
    pose proof (phrased_quoted p Hp) as PQ.
    destruct (split p) as [|u [|u2 us]] eqn:Es.
    + eexists. split; [reflexivity|]. split; [exact Vy|exact PQ].
    + eexists. split; [reflexivity|]. split; [constructor|exact PQ].
    + rewrite <- Es in *. assert (Hl : (1 <= length (split p))%nat) by (rewrite Es; cbn; lia).
      rewrite phrase_text_tree, (print_parse _ (phrase_tree_printable p Hl)). cbn [bind].
      eexists. split; [reflexivity|]. split; [apply phrase_tree_valid; exact Hl|].
      eapply same_trans; [exact PQ|]. apply same_sym. eapply same_trans; [apply phrase_tree_meaning; exact Hl|]. rewrite Es. exact (same_refl _).
  - eexists. split; [reflexivity|]. split; [exact Vy|]. cbn [meaning]. apply phrased_plain.
    intros p Hp ->. assert (X : exists q, q <> [] /\ 34 :: p ++ [34] = 34 :: q ++ [34]) by eauto.
    apply quoted_text in X. congruence.
Qed.

Lemma phrase_ok p : p <> [] -> (2 <= length (split p))%nat ->
  exists e o, expand_phrases split (SX TERM (34 :: p ++ [34]) 0 []) = Ok e /\ to_hopper idx e = Some o /\
    answers (projT1 o) (projT2 o) (phrase_at E (split p)).
Proof.
  intros Hp Hl. destruct (expand_ok (SX TERM (34 :: p ++ [34]) 0 []) (valid_term _ _)) as (e & He & Ve & Hs).
  destruct (to_hopper_good idx E HI e Ve) as (o & Ho & A). exists e, o. split; [exact He|]. split; [exact Ho|].
  eapply answers_ext; [|exact A]. apply same_sym. eapply same_trans; [|exact Hs]. apply same_sym. cbn [meaning].
  eapply same_trans; [exact (phrased_quoted p Hp)|]. destruct (split p) as [|? [|? ?]]; try (cbn in Hl; lia). exact (same_refl _).
Qed.

(** From the query text to the answers. *)
Lemma query_ok count en s e : from_string s = Ok (Some e) -> valid (phrased E split) e ->
  (forall e', en = true -> expand_phrases split e = Ok e' -> mats_fit E (optimize_ count e')) ->
  exists o, gcl_hopper idx count en split s = Ok (Some o) /\ answers (projT1 o) (projT2 o) (meaning (phrased E split) e).
Proof.
  intros Hs V Hm. destruct (expand_ok e V) as (e' & He & Ve & Hsame).
  destruct (optimize_answers idx E HI count en e' Ve) as (o & Ho & A); [auto|].
  exists o. unfold gcl_hopper. rewrite Hs. cbn [bind]. rewrite He. cbn [bind]. rewrite Ho. split; [reflexivity|].
  eapply answers_ext; [|exact A]. apply same_sym. exact Hsame.
Qed.
End Phrase.
