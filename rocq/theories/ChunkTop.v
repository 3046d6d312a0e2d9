(** The text store: the theorems about whole histories. *)
From Verif Require Import Base Bytes CodecModel CodecSpec CodecProofs ChunkModel ChunkSpec ChunkFiles ChunkProofs ChunkOps ChunkLife ChunkStep.
Local Arguments settle : simpl never.

Section Top.
Variable c : compressor.
Variable cs : Z.
Variable held : Z -> bool.
Hypothesis Hcs : 0 < cs.
Hypothesis Hloss : forall b, Forall is_byte b -> lossless c b.
Hypothesis Hfit : forall n, 0 <= n <= cs -> n + extra c n <= buffer_size c cs.
Notation pre := (pre c cs).
Notation body := (body c cs).
Notation good_chunk := (good_chunk cs).
Notation good_last := (good_last cs).
Notation sys := (sys c cs).
Notation start := (Flat [] None false).

Lemma flat_file : serves c cs held blank [].
Proof. apply (resting_serves c cs held Hcs Hloss Hfit); [apply blank_resting|reflexivity]. Qed.

Lemma restore_resting d t : resting c cs d t -> exists l, recover c cs false d = Ok l.
Proof. intros [_ L]. unfold recover, restore. rewrite L. cbn. eauto. Qed.
Lemma restore_holding d t : holding c cs d t -> exists l, recover c cs false d = Ok l.
Proof.
  intros [R|(F0 & l0 & -> & HF & Hl & K)]; [exact (restore_resting d t R)|].
  destruct (restore_kept c cs held Hcs Hloss Hfit F0 l0 d K HF Hl) as (os & r & E & _). unfold recover. rewrite E. cbn. eauto.
Qed.
Lemma crash_ready l w0 a w b w' os d1 d2 : all_allowed c cs l start -> unflushed (snd (flat_run l start)) = false ->
  opened c cs held blank = Ok w0 -> run c cs held l w0 = Ok (a, w) -> run1 c cs held Commit w = Ok (b, w') ->
  done (s_ w') = done (s_ w) ++ os -> crashed (dk (s_ w)) os d1 -> recovers c cs true d1 d2 ->
  serves c cs held d2 (text (snd (flat_run l start))).
Proof.
  intros A U O R R1 D C Rc. destruct (from_blank c cs held Hcs Hloss Hfit l A w0 a w O R) as [_ Sy].
  destruct (step c cs held Hcs Hloss Hfit Commit w _ Sy Logic.I) as (w1 & os1 & E1 & _ & D1 & _ & [_ [_ Cr]]). rewrite E1 in R1. injection R1 as _ <-.
  rewrite D in D1. apply app_inv_head in D1. subst os1. pose proof (Cr eq_refl U d1 C) as Sh.
  destruct (recovers_shape c cs _ _ _ Sh Rc) as [Rs Lk]. exact (resting_serves c cs held Hcs Hloss Hfit d2 _ Rs Lk).
Qed.

(** ** Readers *)
Record reading (F0 : list bytes) (l0 : bytes) (r : io) : Prop := Reading {
  rd_body : forall d, (exists x, contents d = pre F0 ++ x) -> body (St r d []) F0 l0;
  rd_lim : limited r = Some l0;
  rd_ro : read_only r = true;
  rd_size : size r = len (concat F0 ++ l0)
}.
Lemma body_reader r d d' o F l k : body (St r d o) F l -> limited r = Some k -> (exists x, contents d' = pre F ++ x) -> body (St r d' []) F l.
Proof.
  intros [b1 b2 b3 b4 b5 b6 b7 b8 b9 b10 b11] L C. constructor; cbn in *; auto; congruence.
Qed.
Lemma make_reader d F0 l0 : kept c cs F0 l0 d -> Forall good_chunk F0 -> good_last l0 -> exists r, make c cs held d = Ok r /\ reading F0 l0 r.
Proof.
  intros [C (e & m & M) L] HF Hl. unfold make. rewrite L, M.
  assert (E : firstn (Z.to_nat (Z.of_nat (S (length F0)))) (ends 0 (map (squash c cs) F0) ++ e :: m) = ends 0 (map (squash c cs) F0) ++ [e]).
  { rewrite Nat2Z.id. change (e :: m) with ([e] ++ m). rewrite app_assoc.
    replace (S (length F0)) with (length (ends 0 (map (squash c cs) F0) ++ [e])) by (rewrite app_length, len_ends, map_length; cbn; lia).
    rewrite firstn_app, firstn_all, Nat.sub_diag. cbn [firstn]. apply app_nil_r. }
  rewrite E.
  destruct (open_body c cs held Hcs Hloss Hfit (ends 0 (map (squash c cs) F0) ++ [e]) true (Some l0) d F0 l0) as (s & Ef & Em & B & Fl & Li).
  { constructor; cbn; auto; try discriminate. exists e. split; [reflexivity|discriminate]. }
  destruct (ends 0 (map (squash c cs) F0) ++ [e]) as [|e0 m0] eqn:Ee; [destruct (ends 0 (map (squash c cs) F0)); discriminate|].
  rewrite Ef. cbn [bind]. rewrite Em. cbn [bind]. eexists. split; [reflexivity|]. constructor.
  - intros d' C'. apply (body_reader _ d d' [] F0 l0 l0 B); [exact Li|exact C'].
  - exact Li.
  - destruct (b_lim _ _ _ _ _ B) as [[X _]|[_ [X _]]]; [cbn in X; congruence|exact X].
  - reflexivity.
Qed.
Lemma reads_ok F0 l0 d os : Forall good_chunk F0 -> good_last l0 ->
  (forall k, exists x, contents (exec d (firstn k os)) = pre F0 ++ x) ->
  forall rs r, reading F0 l0 r -> (forall k p n, In (k, (p, n)) rs -> minf <= Z.max 0 p + n <= maxf) ->
  exists r', reads_during c cs held rs d os r =
    Ok (map (fun x => firstn (Z.to_nat (snd (snd x))) (skipn (Z.to_nat (fst (snd x))) (concat F0 ++ l0))) rs, r') /\ reading F0 l0 r'.
Proof.
  intros HF Hl C. induction rs as [|[k [p n]] rs IH]; intros r Rd A; cbn [reads_during map]; [eauto|].
  destruct (read_ok c cs held Hcs Hloss Hfit F0 l0 HF Hl (St r (exec d (firstn k os)) []) p n (rd_body _ _ _ Rd _ (C k)) (rd_size _ _ _ Rd) (A k p n (or_introl eq_refl)))
    as (s' & E & B & X & Fl & Sz). rewrite E. cbn [bind].
  assert (Rd' : reading F0 l0 (h s')).
  { destruct X as (o & _ & Dk & _ & No & Ro & Li). cbn in *. constructor.
    - intros d' C'. destruct s' as [h' dd oo]. cbn in *. apply (body_reader h' dd d' oo F0 l0 l0 B); [rewrite Li; apply Rd|exact C'].
    - rewrite Li. apply Rd.
    - rewrite Ro. apply Rd.
    - rewrite Sz. apply Rd. }
  destruct (IH (h s') Rd' (fun k p n H => A k p n (or_intror H))) as (r' & E' & Rd''). rewrite E'. cbn [bind]. eauto.
Qed.
Lemma interleaved_ok F0 l0 : Forall good_chunk F0 -> good_last l0 -> forall ts w f r, sys w f -> reading F0 l0 r ->
  (exists x, text f = (concat F0 ++ l0) ++ x) -> (forall t, mark f = Some t -> exists x, t = (concat F0 ++ l0) ++ x) ->
  all_allowed c cs (writes ts) f -> reads_allowed ts ->
  interleaved c cs held ts w r = Ok (expected ts (concat F0 ++ l0)).
Proof.
  intros HF Hl. induction ts as [|[e rs] ts IH]; intros w f r Sy Rd T M A Ra; [reflexivity|]. cbn [writes all_allowed] in A. destruct A as [A1 A2].
  cbn [interleaved]. destruct (step c cs held Hcs Hloss Hfit e w f Sy A1) as (w' & os & E & Sy' & D & Dk & [St _]). rewrite E. cbn [bind].
  rewrite D, skipn_app, Nat.sub_diag, skipn_all. cbn [app skipn].
  assert (C : forall k, exists x, contents (exec (dk (s_ w)) (firstn k os)) = pre F0 ++ x).
  { assert (P : exists x, committed f = (concat F0 ++ l0) ++ x) by (unfold committed; destruct (mark f) as [t|] eqn:Mk; [exact (M t eq_refl)|exact T]).
    intros k. destruct P as (x & P). destruct Hl as [Ll Bl]. destruct St as [N|(F & l & HF' & Hl' & Ec & Ct & Li)].
    - exfalso. rewrite N in P. apply (f_equal len) in P. rewrite !len_app in P. change (len []) with 0 in P.
      pose proof (len_nonneg (concat F0)). pose proof (len_nonneg x). lia.
    - rewrite Ec in P. destruct (chunks_prefix cs Hcs F0 l0 x F l HF (proj1 Ll) HF' Hl' P) as (G & ->).
      destruct (light_exec (pre (F0 ++ G)) (firstn k os) (dk (s_ w)) Ct) as (y & Ey).
      { rewrite <- (firstn_skipn k os) in Li. apply Forall_app in Li. apply Li. }
      rewrite Ey, pre_app, <- app_assoc. eauto. }
  destruct (reads_ok F0 l0 (dk (s_ w)) os HF Hl C rs r Rd) as (r' & E' & Rd').
  { intros k p n H. apply (Ra e rs k p n); [left; reflexivity|exact H]. }
  rewrite E'. cbn [bind]. rewrite (IH w' (snd (flat1 e f)) r' Sy' Rd'); [reflexivity| | |exact A2|].
  - destruct T as (x & Tx). destruct e; cbn [flat1 snd text]; try (exists x; exact Tx).
    + exists (x ++ b). rewrite Tx, <- app_assoc. reflexivity.
    + destruct (mark f); cbn; eauto.
    + destruct (mark f); cbn; eauto.
    + destruct (mark f) as [t|] eqn:Mk; cbn; [exact (M t eq_refl)|eauto].
  - destruct e; cbn [flat1 snd mark]; auto.
    + destruct (mark f) eqn:Mk; cbn; [rewrite Mk; auto|]. intros t H. injection H as <-. exact T.
    + destruct (mark f) eqn:Mk; cbn; [discriminate|rewrite Mk; auto].
    + destruct (mark f) eqn:Mk; cbn; [discriminate|rewrite Mk; auto].
  - intros e' rs' k p n H1 H2. apply (Ra e' rs' k p n (or_intror H1) H2).
Qed.
Lemma reader_ok l w0 a w t0 : all_allowed c cs l start -> opened c cs held blank = Ok w0 -> run c cs held l w0 = Ok (a, w) ->
  mark (snd (flat_run l start)) = Some t0 ->
  exists r, make c cs held (dk (s_ w)) = Ok r /\
    forall ts, all_allowed c cs (writes ts) (snd (flat_run l start)) -> reads_allowed ts -> interleaved c cs held ts w r = Ok (expected ts t0).
Proof.
  intros A O R M. destruct (from_blank c cs held Hcs Hloss Hfit l A w0 a w O R) as [_ Sy].
  pose proof Sy as [(E & _)|(F & l1 & B & Li & Sz & T & Fl & X)]; [rewrite E in M; discriminate|].
  unfold ChunkLife.tx in X. rewrite M in X. destruct X as (_ & F0 & l0 & -> & HF & Hl & K & G & _).
  destruct (make_reader _ _ _ K HF Hl) as (r & Er & Rd). exists r. split; [exact Er|]. intros ts At Ra.
  apply (interleaved_ok F0 l0 HF Hl ts w _ r Sy Rd); auto.
  - rewrite T. destruct G as [[-> (x & ->)]|(x & more & ->)].
    + exists x. rewrite <- !app_assoc. reflexivity.
    + exists (x ++ concat more ++ l1). rewrite concat_app. cbn [concat]. rewrite <- !app_assoc. reflexivity.
  - intros t H. rewrite M in H. injection H as <-. exists []. rewrite app_nil_r. reflexivity.
Qed.

Lemma kept_shows F0 l0 d : kept c cs F0 l0 d -> Forall good_chunk F0 -> good_last l0 -> shows c cs held d (concat F0 ++ l0).
Proof.
  intros K HF Hl. destruct (make_reader d F0 l0 K HF Hl) as (r & E & Rd). exists r. split; [exact E|]. split; [apply Rd|].
  intros p n A. destruct (read_ok c cs held Hcs Hloss Hfit F0 l0 HF Hl (St r d []) p n (rd_body _ _ _ Rd _ (k_contents _ _ _ _ _ K)) (rd_size _ _ _ Rd) A) as (s' & Er & _). eauto.
Qed.
Lemma resting_shows d t : resting c cs d t -> shows c cs held d t.
Proof.
  intros R. assert (R' : resting c cs (Disk (contents d) (cmap d) (temp d) (limits d) false) t) by exact R.
  destruct R as [[[-> M]|(F & l & r & HF & Hl & -> & M & C)] L]; unfold shows, make; rewrite L, M.
  - eexists. split; [reflexivity|]. split; [reflexivity|]. intros p n A. exists (St (Io [] false true true 0 None false None None 0) d []).
    unfold read, flush. cbn [flushed h read_only orb bind size]. replace (if p <? 0 then 0 else p) with (Z.max 0 p) by (destruct (Z.ltb_spec p 0); lia).
    unfold chk. destruct (Z.leb_spec minf (Z.max 0 p + n)); [|lia]. destruct (Z.leb_spec (Z.max 0 p + n) maxf); [|lia]. cbn [andb bind].
    rewrite skipn_nil, firstn_nil. destruct (Z.leb_spec (if 0 <? Z.max 0 p + n then 0 - Z.max 0 p else n) 0) as [_|N]; [reflexivity|].
    destruct (Z.ltb_spec 0 (Z.max 0 p + n)); lia.
  - pose proof (ends_nonnil c cs F l) as NE. destruct (ends 0 (map (squash c cs) (F ++ [l]))) as [|e m] eqn:Em; [congruence|].
    destruct (open_body c cs held Hcs Hloss Hfit (e :: m) false None d F l) as (s & E & Ms & B & Fl & Li).
    { apply (shape_body c cs d F l r); auto. rewrite M, Em. reflexivity. }
    rewrite E. cbn [bind]. rewrite Ms. cbn [bind]. eexists. split; [reflexivity|]. split; [reflexivity|]. intros p n A.
    destruct (read_ok c cs held Hcs Hloss Hfit F l HF Hl _ p n B eq_refl A) as (s' & Er & _). eauto.
Qed.
Lemma crash_safe l e w0 a w b w' os d1 : all_allowed c cs l start -> allowed c cs e (snd (flat_run l start)) -> guarded e (snd (flat_run l start)) ->
  opened c cs held blank = Ok w0 -> run c cs held l w0 = Ok (a, w) -> run1 c cs held e w = Ok (b, w') ->
  done (s_ w') = done (s_ w) ++ os -> crashed (dk (s_ w)) os d1 ->
  exists t, (t = committed (snd (flat_run l start)) \/ (e = Commit /\ t = text (snd (flat_run l start)))) /\
    shows c cs held d1 t /\ (exists ops, recover c cs false d1 = Ok ops) /\
    forall d2, recovers c cs false d1 d2 -> serves c cs held d2 t.
Proof.
  intros A Ae G O R R1 D C. destruct (from_blank c cs held Hcs Hloss Hfit l A w0 a w O R) as [_ Sy].
  destruct (step c cs held Hcs Hloss Hfit e w _ Sy Ae) as (w1 & os1 & E1 & _ & D1 & _ & [_ [Cr _]]). rewrite E1 in R1. injection R1 as _ <-.
  rewrite D in D1. apply app_inv_head in D1. subst os1. destruct (Cr G d1 C) as [H|[-> H]].
  - exists (committed (snd (flat_run l start))). split; [auto|]. split; [|split].
    + destruct H as [H|(F0 & l0 & -> & HF & Hl & K)]; [exact (resting_shows _ _ H)|exact (kept_shows _ _ _ K HF Hl)].
    + exact (restore_holding _ _ H).
    + intros d2 Rc. destruct (recovers_holding c cs held Hcs Hloss Hfit _ _ _ H Rc) as [Rs Lk]. exact (resting_serves c cs held Hcs Hloss Hfit d2 _ Rs Lk).
  - exists (text (snd (flat_run l start))). split; [auto|]. split; [exact (resting_shows _ _ H)|]. split; [exact (restore_resting _ _ H)|].
    intros d2 Rc. destruct (recovers_resting c cs false _ _ _ H Rc) as [Rs Lk]. exact (resting_serves c cs held Hcs Hloss Hfit d2 _ Rs Lk).
Qed.
End Top.
