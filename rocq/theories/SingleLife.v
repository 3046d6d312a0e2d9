(** The life of a single-file index. *)
From Verif Require Import Base HopperModel ArrayDefs GclSpec ArrayProofs UnaryProofs Bytes CodecModel CodecSpec CodecProofs PostingModel PostingSpec PostingProofs PostingIO AnnProofs
  ShardModel ShardSpec ShardProofs HazelSpec HazelProofs SingleModel SingleSpec SingleLookup SingleMerge SingleBatch SingleCommit.
From Coq Require Import Permutation Sorted.

Section Life.
Variables cp cf : compressor.
Variables (sort : list annotation -> list annotation) (limit : nat).

(** What prepare does, whatever the annotations. *)
Lemma flush_shape force a ops a' : flush cp cf sort limit force a = Ok (ops, a') ->
  Forall inert ops /\ adding a' = adding a /\ isready a' = isready a.
Proof.
  unfold flush. destruct (_ || _); [|intros E; injection E as <- <-; repeat split; constructor].
  destruct (write_batch _ _ _ _) as [b| |]; cbn [bind]; intros E; try discriminate. injection E as <- <-. split; [constructor; [repeat split|constructor]|]. split; reflexivity.
Qed.
Lemma annotate_all_shape l : forall a ops a', annotate_all cp cf sort limit l a = Ok (ops, a') -> Forall inert ops /\ adding a' = adding a /\ isready a' = isready a.
Proof.
  induction l as [|x l IH]; intros a ops a' E; cbn in E; [injection E as <- <-; repeat split; constructor|].
  destruct (annotate cp cf sort limit x a) as [[[r o] a1]| |] eqn:Ea; cbn [bind] in E; try discriminate.
  assert (K : Forall inert o /\ adding a1 = adding a /\ isready a1 = isready a).
  { unfold annotate in Ea. destruct (afeat x <=? null_feature); [injection Ea as <- <- <-; repeat split; constructor|].
    destruct (adding a) eqn:Ad; cbn [negb] in Ea; [|injection Ea as <- <- <-; rewrite Ad; repeat split; constructor].
    destruct (_ && _); [|injection Ea as <- <- <-; rewrite Ad; repeat split; constructor].
    destruct (flush _ _ _ _ _ _) as [[o' a'']| |] eqn:Ef; cbn [bind] in Ea; try discriminate. injection Ea as <- <- <-. apply flush_shape in Ef. exact Ef. }
  destruct (annotate_all cp cf sort limit l a1) as [[o2 a2]| |] eqn:El; cbn [bind] in E; try discriminate. injection E as <- <-. destruct (IH _ _ _ El) as (I1 & I2 & I3). destruct K as (K1 & K2 & K3).
  cbn [snd]. split; [apply Forall_app; split; assumption|]. split; congruence.
Qed.
Lemma ready_shape d a r ops a' : ready cp cf sort limit d a = Ok (r, ops, a') -> isready a = false -> Forall inert ops /\ (r = true -> adding a' = false /\ isready a' = true /\ added a' = [] /\ files a' = []).
Proof.
  intros E R. unfold ready in E. rewrite R in E. destruct (adding a); cbn [negb] in E; [|injection E as <- <- <-; split; [constructor|discriminate]].
  destruct (flush _ _ _ _ _ _) as [[o1 a1]| |] eqn:Ef; cbn [bind] in E; try discriminate. apply flush_shape in Ef. destruct Ef as (F1 & _).
  destruct (match read_files _ _ with Some bs => merge_updates cp cf bs | None => Ok None end) as [[[i p]|]| |]; cbn [bind] in E; try discriminate; injection E as <- <- <-.
  - split; [|repeat split]. apply Forall_app. split; [exact F1|]. constructor; [repeat split|]. constructor; [repeat split|]. apply Forall_app. split; [apply cleanup_inert|]. constructor; [repeat split|]. constructor; [repeat split|constructor].
  - split; [|discriminate]. apply Forall_app. split; [exact F1|]. apply Forall_app. split; [apply cleanup_inert|]. constructor; [repeat split|]. constructor; [repeat split|constructor].
Qed.
Lemma transaction_shape d a ok ops a' : transaction d a = (ok, ops, a') -> Forall inert ops /\ isready a' = isready a.
Proof.
  unfold transaction. destruct (adding a); [intros E; injection E as <- <- <-; split; [constructor|reflexivity]|].
  destruct (_ || _); intros E; injection E as <- <- <-; (split; [|reflexivity]); [constructor|]. constructor; [repeat split|constructor].
Qed.
Lemma prepare_shape d a anns r ops a' : prepare cp cf sort limit d a anns = Ok (r, ops, a') -> isready a = false ->
  Forall inert ops /\ (r = true -> adding a' = false /\ isready a' = true /\ added a' = [] /\ files a' = []).
Proof.
  unfold prepare. destruct (transaction d a) as [[ok o1] a1] eqn:Et. apply transaction_shape in Et. destruct Et as [T1 T2]. intros E R.
  destruct ok; cbn [negb] in E; [|injection E as <- <- <-; split; [exact T1|discriminate]].
  destruct (annotate_all _ _ _ _ _ _) as [[o2 a2]| |] eqn:Ea; cbn [bind] in E; try discriminate. apply annotate_all_shape in Ea. destruct Ea as (A1 & A2 & A3).
  destruct (ready _ _ _ _ _ _) as [[[r' o3] a3]| |] eqn:Er; cbn [bind fst snd] in E; try discriminate. injection E as <- <- <-. destruct (ready_shape _ _ _ _ _ Er) as [R1 R2]; [congruence|].
  split; [|exact R2]. apply Forall_app. split; [exact T1|]. apply Forall_app. split; assumption.
Qed.

Hypothesis stores : stores_lists cp cf.
Hypothesis sorts : forall l, start_sorted l (sort l).

Definition untouched (d d' : dir) : Prop := d' Idx = d Idx /\ d' Pst = d Pst /\ d' Idx_NEW = d Idx_NEW /\ d' Pst_NEW = d Pst_NEW.
Lemma untouched_trans a b c : untouched a b -> untouched b c -> untouched a c.
Proof. intros (A1 & A2 & A3 & A4) (B1 & B2 & B3 & B4). repeat split; congruence. Qed.
Lemma inert_untouched l d : Forall inert l -> untouched d (exec d l).
Proof. intros H. apply exec_inert. exact H. Qed.
Lemma crashed_untouched d l d' : Forall inert l -> crashed d l d' -> untouched d d'.
Proof. intros H C. destruct (crashed_inert _ _ _ H C) as (l' & H' & ->). apply inert_untouched. exact H'. Qed.
Lemma kept_untouched ix d d' : untouched d d' -> kept_in cp cf ix d -> kept_in cp cf ix d'.
Proof. intros (A & B & _) (m & out & F & L & E1 & E2). exists m, out. split; [exact F|]. split; [exact L|]. split; congruence. Qed.
(** Rolling back. *)
Lemma back_inert : Forall inert (recover false).
Proof. repeat constructor. Qed.
Lemma back_tidy d : d Idx_NEW = None -> d Pst_NEW = None -> tidy (exec d (recover false)).
Proof. intros A B. repeat split; assumption. Qed.
Lemma recovers_back d d' : recovers false d d' -> untouched d d' /\ (d Idx_NEW = None -> d Pst_NEW = None -> tidy d').
Proof.
  induction 1 as [d|d d1 d2 C _ [IH1 IH2]].
  - split; [apply inert_untouched, back_inert|apply back_tidy].
  - pose proof (crashed_untouched _ _ _ back_inert C) as U. split; [exact (untouched_trans _ _ _ U IH1)|]. destruct U as (_ & _ & U3 & U4). intros A B. apply IH2; congruence.
Qed.
(** Rolling forward. *)
Definition midway (i p : bytes) (d : dir) : Prop :=
  d Idx_NEW = None /\ d Pst_NEW = None /\
  ((d Idx_new = Some i /\ d Pst_new = Some p) \/ (d Idx = Some i /\ d Idx_new = None /\ d Pst_new = Some p) \/
   (d Idx = Some i /\ d Pst = Some p /\ d Idx_new = None /\ d Pst_new = None)).
Definition forward : list op := [Move Idx_new Idx; Move Pst_new Pst; Delete Lock].
Lemma step1 i p d : midway i p d -> midway i p (exec1 d (Move Idx_new Idx)) /\ exec1 d (Move Idx_new Idx) Idx_new = None.
Proof.
  intros (N1 & N2 & [(A & B)|[(A & B & C)|(A & B & C & D)]]); cbn [exec1].
  - rewrite A. split; [|reflexivity]. split; [exact N1|]. split; [exact N2|]. right. left. split; [reflexivity|]. split; [reflexivity|exact B].
  - rewrite B. split; [|exact B]. split; [exact N1|]. split; [exact N2|]. right. left. auto.
  - rewrite C. split; [|exact C]. split; [exact N1|]. split; [exact N2|]. right. right. auto.
Qed.
Lemma step2 i p d : midway i p d -> d Idx_new = None -> midway i p (exec1 d (Move Pst_new Pst)) /\
  let d' := exec1 d (Move Pst_new Pst) in d' Idx = Some i /\ d' Pst = Some p /\ d' Idx_new = None /\ d' Pst_new = None.
Proof.
  intros (N1 & N2 & [(A & B)|[(A & B & C)|(A & B & C & D)]]) Nn; cbn [exec1]; [congruence| |].
  - rewrite C. assert (Q : let d' := set (set d Pst (Some p)) Pst_new None in d' Idx = Some i /\ d' Pst = Some p /\ d' Idx_new = None /\ d' Pst_new = None) by (repeat split; assumption).
    split; [|exact Q]. split; [exact N1|]. split; [exact N2|]. right. right. exact Q.
  - rewrite D. split; [|auto]. split; [exact N1|]. split; [exact N2|]. right. right. auto.
Qed.
Lemma step3 i p d : midway i p d -> midway i p (exec1 d (Delete Lock)).
Proof. intros H. exact H. Qed.
Lemma forward_done i p d : midway i p d -> let d' := exec d forward in d' Idx = Some i /\ d' Pst = Some p /\ tidy d'.
Proof.
  intros H. destruct (step1 i p d H) as [H1 E1]. destruct (step2 i p _ H1 E1) as [H2 (A & B & C & D)]. cbn [exec forward fold_left]. destruct H2 as (N1 & N2 & _).
  split; [exact A|]. split; [exact B|]. split; [exact C|]. split; [exact D|]. split; [reflexivity|]. split; assumption.
Qed.
Lemma forward_crash i p d d' : midway i p d -> crashed d forward d' -> midway i p d'.
Proof.
  intros H C. destruct (step1 i p d H) as [H1 E1]. destruct (step2 i p _ H1 E1) as [H2 _]. pose proof (step3 i p _ H2) as H3.
  remember forward as l eqn:El. destruct C as [done rest|done a b c rest].
  - destruct done as [|o [|o1 [|o2 [|o3 done]]]]; cbn in El; [exact H|injection El as -> _; exact H1|injection El as -> -> _; exact H2|injection El as -> -> -> _; exact H3|discriminate].
  - exfalso. destruct done as [|o [|o1 [|o2 [|o3 done]]]]; cbn in El; discriminate.
Qed.
Lemma recovers_forward i p d d' : recovers true d d' -> midway i p d -> d' Idx = Some i /\ d' Pst = Some p /\ tidy d'.
Proof.
  induction 1 as [d|d d1 d2 C _ IH]; intros H; [exact (forward_done i p d H)|]. apply IH. exact (forward_crash i p d d1 H C).
Qed.
(** Opening. *)
Lemma opens_tidy d d' : opens d d' -> tidy d -> d' = d.
Proof.
  intros O (_ & _ & _ & N1 & N2). assert (E : open_ops d = []) by (unfold open_ops, here; rewrite N1, N2; reflexivity).
  revert E. induction O as [d|d d1 d2 C _ IH]; intros E; [rewrite E; reflexivity|]. rewrite E in C.
  assert (d1 = d); [|subst d1; exact (IH N1 N2 E)]. remember [] as l eqn:El. destruct C as [done rest|done a b c rest]; [|destruct done; discriminate]. apply app_eq_nil in El. destruct El as [-> _]. reflexivity.
Qed.

(** * Innermost over a history *)
Lemma eqs_grounded Ss Ts : Forall2 eqs Ss Ts -> grounded Ss -> grounded Ts.
Proof.
  intros E G y (T & HT & Hy). destruct (G y) as (z & Hz & N); [|exists z; split; [apply (sem_inner_ext _ _ E), Hz|exact N]].
  clear G. induction E as [|S T' Ss Ts E _ IH]; [destruct HT|]. destruct HT as [->|HT]; [exists S; split; [left; reflexivity|apply E; exact Hy]|]. destruct (IH HT) as (S' & HS & HyS). exists S'. split; [right; exact HS|exact HyS].
Qed.
Lemma taken_list anns f : Forall in_range anns -> apart anns -> Z.of_nat (length anns) <= 288230376151711743 -> exists l, gcdup l /\ eqs (set_of l) (taken anns f).
Proof.
  intros R A L. set (l := filter takes anns). pose proof (filter_len takes anns) as Lf. destruct (sorts l) as [P S]. pose proof (Permutation_length P) as Lp.
  assert (F : Forall fine (sort l)).
  { rewrite Forall_forall in *. intros x Hx. apply (Permutation_in _ (Permutation_sym P)) in Hx. apply filter_In in Hx. destruct Hx as [Hx T]. unfold takes, null_feature in T. split; [lia|]. split; [lia|apply R, Hx]. }
  assert (A' : apart (sort l)).
  { apply (apart_incl _ anns); [|exact A]. intros x Hx. apply (Permutation_in _ (Permutation_sym P)) in Hx. apply filter_In in Hx. apply Hx. }
  destruct (write_batch_ok cp cf stores (length (sort l)) (sort l)) as (ix & b & _ & _ & _ & _ & K); [apply start_ann; assumption|lia|exact F|exact A'|unfold l in *; lia|].
  destruct (K f) as (k & Lk & Ek & _). exists k. split; [destruct Lk; [exact Logic.I|assumption]|]. intros x. rewrite (Ek x). etransitivity; [|apply (takes_taken sort sorts)]. fold l. split; apply taken_perm; [symmetry|]; exact P.
Qed.
Lemma history_grounded ix L f : index_ok ix -> Forall decent L -> Z.of_nat (length (concat L)) <= 288230376151711743 ->
  grounded (stored_in ix f :: map (fun anns => taken anns f) L).
Proof.
  intros O D Ln. destruct (rows_lst [ix] f) as (l0' & Hl0); [constructor; [exact O|constructor]|]. inversion Hl0 as [|? l0 ? ? L0 N0]; subst. inversion N0; subst.
  assert (K : exists ls, Forall gcdup ls /\ Forall2 eqs (map set_of ls) (map (fun anns => taken anns f) L)).
  { clear -D Ln stores sorts. induction D as [|anns L [R A] _ IH]; [exists []; split; constructor|]. cbn [concat] in Ln. rewrite app_length in Ln. destruct IH as (ls & G & E); [lia|].
    destruct (taken_list anns f R A) as (l & Gl & El); [lia|]. exists (l :: ls). split; constructor; assumption. }
  destruct K as (ls & G & E). apply (eqs_grounded (map set_of (l0 :: ls))).
  - cbn. constructor; [intros x; symmetry; apply (lst_stored f ix l0 L0 x)|exact E].
  - apply grounded_lists. constructor; [destruct L0; [exact Logic.I|assumption]|exact G].
Qed.

(** * The life *)
Record standing (d : dir) (ix : index) (a : annotator) : Prop := {
  st_kept : kept_in cp cf ix d; st_ok : index_ok ix; st_tidy : tidy d; st_quiet : quiet a }.
Lemma init_quiet : quiet annotator_init.
Proof. repeat split. Qed.
Lemma count_nonneg ix f : 0 <= fiver_count ix f.
Proof. unfold fiver_count. destruct (find_posting ix f); unfold psize, len; lia. Qed.
Lemma standing_back d d' ix a a' : standing d ix a -> untouched d d' -> tidy d' -> quiet a' -> standing d' ix a'.
Proof. intros [K O T Q] U T' Q'. constructor; try assumption. exact (kept_untouched ix d d' U K). Qed.
Lemma poised_midway d ix anns ops a : tidy d -> poised cp cf d ix anns ops a -> fits ops -> exists ix' m out, filed cp cf 0 ix' m out /\ updated ix anns ix' /\ len out <= maxf /\ midway (map_bytes m) out (exec d ops).
Proof.
  intros (_ & _ & _ & T4 & T5) [In _ (ix' & m & out & F & U & E1 & E2 & L)] Ft. exists ix', m, out. split; [exact F|]. split; [exact U|]. split; [exact (L Ft)|].
  destruct (exec_inert ops d In) as (_ & _ & N1 & N2). split; [congruence|]. split; [congruence|]. left. split; assumption.
Qed.
Definition history (ix0 : index) (L : list (list annotation)) (ix : index) : Prop :=
  (forall f, fiver_count ix f <= fiver_count ix0 f + Z.of_nat (length (concat L))) /\
  forall f, eqs (stored_in ix f) (sem_inner (stored_in ix0 f :: map (fun anns => taken anns f) L)).
Lemma history_more ix0 L ix anns ix' : index_ok ix0 -> Forall decent L -> Z.of_nat (length (concat L)) <= 288230376151711743 ->
  history ix0 L ix -> updated ix anns ix' -> history ix0 (L ++ [anns]) ix'.
Proof.
  intros O D Ln [H1 H2] (_ & U1 & U2). split.
  - intros f. rewrite concat_app, app_length. cbn. rewrite app_nil_r. specialize (H1 f). specialize (U1 f). lia.
  - intros f x. rewrite (U2 f x), map_app. cbn [map]. exact (inner_flat [] (stored_in ix0 f :: map (fun anns => taken anns f) L) [taken anns f] (stored_in ix f) (history_grounded ix0 L f O D Ln) (H2 f) x).
Qed.
Theorem life_ok d0 ix0 L d a : life cp cf sort limit d0 L d a -> kept_in cp cf ix0 d0 -> index_ok ix0 -> tidy d0 ->
  Forall decent L -> (forall f, fiver_count ix0 f + Z.of_nat (length (concat L)) <= 288230376151711743) ->
  exists ix, standing d ix a /\ history ix0 L ix.
Proof.
  intros Lf K0 O0 T0. induction Lf as [|L d a anns ops a' c a'' Lf IH P Ft C|L d a anns o1 a1 o2 a2 Lf IH T An|L d a anns ops a' Lf IH P|L d a anns ops a' d' d'' Lf IH P Cr Rc|L d a anns ops a' c a'' d' d'' Lf IH P Ft C Cr Rc|L d a d' Lf IH Op]; intros D Sm.
  - exists ix0. split; [constructor; try assumption; exact init_quiet|]. split; [intros f; cbn; lia|]. intros f x. cbn [map].
    destruct (rows_lst [ix0] f) as (l0' & Hl0); [constructor; [exact O0|constructor]|]. inversion Hl0 as [|? l0 ? ? L0 N0]; subst.
    assert (G : gcdup l0) by (destruct L0; [exact Logic.I|assumption]). rewrite (lst_stored f ix0 l0 L0 x). rewrite <- (inner_one l0 G x). apply sem_inner_ext. constructor; [|constructor]. intros y. symmetry. apply (lst_stored f ix0 l0 L0 y).
  - apply Forall_app in D. destruct D as [D1 D2]. inversion D2 as [|? ? [R A] _]; subst. assert (Sm' : forall f, fiver_count ix0 f + Z.of_nat (length (concat L)) + Z.of_nat (length anns) <= 288230376151711743).
    { intros f. specialize (Sm f). rewrite concat_app, app_length in Sm. cbn in Sm. rewrite app_nil_r in Sm. lia. }
    destruct IH as (ix & [K O T Q] & H); [exact D1|intros f; specialize (Sm' f); lia|].
    destruct (prepare_ok cp cf stores sort limit sorts d a ix anns K O T Q R A) as (ops' & a1 & P' & Po); [intros f; destruct H as [H _]; specialize (H f); specialize (Sm' f); lia|]. rewrite P in P'. injection P' as <- <-.
    destruct (poised_midway _ _ _ _ _ T Po Ft) as (ix' & m & out & F & U & Lo & M). destruct Po as [_ (Q1 & Q2 & Q3 & Q4) _].
    unfold commit in C. rewrite Q1, Q2 in C. cbn in C. injection C as <- <-. rewrite exec_app. destruct (forward_done _ _ _ M) as (E1 & E2 & Td). unfold forward in *.
    exists ix'. split.
    + constructor; [exists m, out; auto|apply U|exact Td|]. repeat split; assumption.
    + apply (history_more ix0 L ix anns ix' O0 D1); [specialize (Sm' 0); pose proof (count_nonneg ix0 0); lia|exact H|exact U].
  - destruct (IH D Sm) as (ix & S & H). exists ix. split; [|exact H]. pose proof S as [K O Td (Q1 & Q2 & Q3 & Q4)].
    apply transaction_shape in T. destruct T as [T1 T2]. apply annotate_all_shape in An. destruct An as (A1 & A2 & A3). cbn [abort fst snd].
    apply (standing_back d _ ix a _ S).
    + apply inert_untouched. apply Forall_app. split; [exact T1|]. apply Forall_app. split; [exact A1|]. apply Forall_app. split; [apply cleanup_inert|]. repeat constructor.
    + assert (U : untouched d (exec d (o1 ++ o2 ++ cleanup a2))) by (apply inert_untouched; apply Forall_app; split; [exact T1|]; apply Forall_app; split; [exact A1|apply cleanup_inert]).
      rewrite !app_assoc, exec_app, <- !app_assoc. destruct U as (_ & _ & U3 & U4). destruct Td as (_ & _ & _ & N1 & N2). repeat split; cbn; congruence.
    + repeat split.
  - destruct (IH D Sm) as (ix & S & H). exists ix. split; [|exact H]. pose proof S as [K O Td (Q1 & Q2 & Q3 & Q4)]. destruct (prepare_shape _ _ _ _ _ _ P Q2) as [P1 _]. cbn [abort fst snd].
    apply (standing_back d _ ix a _ S).
    + apply inert_untouched. apply Forall_app. split; [exact P1|]. apply Forall_app. split; [apply cleanup_inert|]. repeat constructor.
    + assert (U : untouched d (exec d (ops ++ cleanup a'))) by (apply inert_untouched; apply Forall_app; split; [exact P1|apply cleanup_inert]).
      rewrite app_assoc, exec_app. destruct U as (_ & _ & U3 & U4). destruct Td as (_ & _ & _ & N1 & N2). repeat split; cbn; congruence.
    + repeat split.
  - destruct (IH D Sm) as (ix & S & H). exists ix. split; [|exact H]. pose proof S as [K O Td (Q1 & Q2 & Q3 & Q4)]. destruct (prepare_shape _ _ _ _ _ _ P Q2) as [P1 _].
    pose proof (crashed_untouched _ _ _ P1 Cr) as U. destruct (recovers_back _ _ Rc) as [U' T']. apply (standing_back d _ ix a _ S (untouched_trans _ _ _ U U')); [|exact init_quiet].
    destruct U as (_ & _ & U3 & U4). destruct Td as (_ & _ & _ & N1 & N2). apply T'; congruence.
  - apply Forall_app in D. destruct D as [D1 D2]. inversion D2 as [|? ? [R A] _]; subst. assert (Sm' : forall f, fiver_count ix0 f + Z.of_nat (length (concat L)) + Z.of_nat (length anns) <= 288230376151711743).
    { intros f. specialize (Sm f). rewrite concat_app, app_length in Sm. cbn in Sm. rewrite app_nil_r in Sm. lia. }
    destruct IH as (ix & [K O T Q] & H); [exact D1|intros f; specialize (Sm' f); lia|].
    destruct (prepare_ok cp cf stores sort limit sorts d a ix anns K O T Q R A) as (ops' & a1 & P' & Po); [intros f; destruct H as [H _]; specialize (H f); specialize (Sm' f); lia|]. rewrite P in P'. injection P' as <- <-.
    destruct (poised_midway _ _ _ _ _ T Po Ft) as (ix' & m & out & F & U & Lo & M). destruct Po as [_ (Q1 & Q2 & Q3 & Q4) _].
    unfold commit in C. rewrite Q1, Q2 in C. cbn in C. injection C as <- <-. fold forward in Cr. apply (forward_crash _ _ _ _ M) in Cr. destruct (recovers_forward _ _ _ _ Rc Cr) as (E1 & E2 & Td).
    exists ix'. split.
    + constructor; [exists m, out; auto|apply U|exact Td|exact init_quiet].
    + apply (history_more ix0 L ix anns ix' O0 D1); [specialize (Sm' 0); pose proof (count_nonneg ix0 0); lia|exact H|exact U].
  - destruct (IH D Sm) as (ix & [K O T Q] & H). rewrite (opens_tidy d d' Op T). exists ix. split; [|exact H]. constructor; try assumption. exact init_quiet.
Qed.
(** What is found. *)
Theorem standing_serves d ix a : standing d ix a -> small ix -> serves cp cf d ix.
Proof.
  intros [K O (_ & _ & _ & N1 & N2) _] Sm. destruct (open_kept cp cf d ix K) as (m & out & F & E); [|assumption|assumption|].
  { destruct O as [_ R]. eapply Forall_impl; [|exact R]. intros r (B & _). unfold is_addr, minf, maxf in *. lia. }
  exists (Sidx m out). split; [exact E|]. pose proof (index_writable cp cf stores ix O Sm) as W. destruct (lookups cp cf ix m out F W) as [V A]. split; [exact V|].
  intros f. destruct (A f) as (_ & C & Hh). split; [exact C|]. rewrite Hh. destruct (rows_lst [ix] f) as (l0' & Hl0); [constructor; [exact O|constructor]|]. inversion Hl0 as [|? l0 ? ? L0 N0]; subst.
  destruct (fiver_hopper_lst f ix l0 L0) as (o & Eo & Ao); [specialize (Sm f); rewrite (lst_count f ix l0 L0) in Sm; unfold max_len; lia|].
  exists o. split; [exact Eo|]. apply (answers_eqs _ _ (set_of l0)); [intros x; symmetry; apply (lst_stored f ix l0 L0 x)|exact Ao].
Qed.
Theorem life_serves d0 ix0 L d a : kept_in cp cf ix0 d0 -> index_ok ix0 -> tidy d0 ->
  Forall decent L -> (forall f, fiver_count ix0 f + Z.of_nat (length (concat L)) <= 288230376151711743) ->
  life cp cf sort limit d0 L d a ->
  exists ix, serves cp cf d ix /\ forall f, eqs (stored_in ix f) (sem_inner (stored_in ix0 f :: map (fun anns => taken anns f) L)).
Proof.
  intros K O T D Sm Lf. destruct (life_ok d0 ix0 L d a Lf K O T D Sm) as (ix & S & H1 & H2). exists ix. split; [|exact H2].
  apply (standing_serves d ix a S). intros f. specialize (H1 f). specialize (Sm f). lia.
Qed.
Theorem crash_safe d a ix anns : kept_in cp cf ix d -> index_ok ix -> tidy d -> quiet a -> decent anns ->
  (forall f, fiver_count ix f + Z.of_nat (length anns) <= 288230376151711743) ->
  exists ops a' c a'', prepare cp cf sort limit d a anns = Ok (true, ops, a') /\ commit a' = Ok (c, a'') /\
    (forall d' d'', crashed d ops d' -> recovers false d' d'' -> kept_in cp cf ix d'' /\ tidy d'' /\ serves cp cf d'' ix) /\
    (fits ops -> exists ix', updated ix anns ix' /\
       (let d' := exec d (ops ++ c) in kept_in cp cf ix' d' /\ tidy d' /\ quiet a'' /\ serves cp cf d' ix') /\
       forall d' d'', crashed (exec d ops) c d' -> recovers true d' d'' -> kept_in cp cf ix' d'' /\ tidy d'' /\ serves cp cf d'' ix').
Proof.
  intros K O T Q [R A] Sm. destruct (prepare_ok cp cf stores sort limit sorts d a ix anns K O T Q R A Sm) as (ops & a' & P & Po).
  pose proof (po_state _ _ _ _ _ _ _ Po) as (Q1 & Q2 & Q3 & Q4). pose proof (po_inert _ _ _ _ _ _ _ Po) as In.
  assert (C : commit a' = Ok (forward, Annotator false false (added a') (files a') (temps a'))) by (unfold commit; rewrite Q1, Q2; reflexivity).
  assert (Done : forall d' ix' m out, filed cp cf 0 ix' m out -> updated ix anns ix' -> len out <= maxf -> d' Idx = Some (map_bytes m) -> d' Pst = Some out -> tidy d' -> kept_in cp cf ix' d' /\ tidy d' /\ serves cp cf d' ix').
  { intros d' ix' m out F U L E1 E2 Td. assert (K' : kept_in cp cf ix' d') by (exists m, out; auto). split; [exact K'|]. split; [exact Td|].
    apply (standing_serves d' ix' annotator_init); [constructor; try assumption; [apply U|exact init_quiet]|]. intros f. destruct U as (_ & U & _). specialize (U f). specialize (Sm f). lia. }
  eexists. eexists. eexists. eexists. split; [exact P|]. split; [exact C|]. split.
  - intros d' d'' Cr Rc. pose proof (crashed_untouched _ _ _ In Cr) as U. destruct (recovers_back _ _ Rc) as [U' T']. assert (S : standing d'' ix annotator_init).
    { apply (standing_back d _ ix a _); [constructor; assumption|exact (untouched_trans _ _ _ U U')| |exact init_quiet]. destruct U as (_ & _ & U3 & U4). destruct T as (_ & _ & _ & N1 & N2). apply T'; congruence. }
    split; [apply S|]. split; [apply S|]. apply (standing_serves _ _ _ S). intros f. specialize (Sm f). lia.
  - intros Ft. destruct (poised_midway _ _ _ _ _ T Po Ft) as (ix' & m & out & F & U & L & M). exists ix'. split; [exact U|]. split.
    + rewrite exec_app. destruct (forward_done _ _ _ M) as (E1 & E2 & Td). destruct (Done _ ix' m out F U L E1 E2 Td) as (D1 & D2 & D3). cbn zeta. split; [exact D1|]. split; [exact D2|]. split; [repeat split; assumption|exact D3].
    + intros d' d'' Cr Rc. destruct (recovers_forward _ _ _ _ Rc (forward_crash _ _ _ _ M Cr)) as (E1 & E2 & Td). exact (Done _ ix' m out F U L E1 E2 Td).
Qed.
End Life.
