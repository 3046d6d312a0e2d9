(** The text store: every call keeps step with the flat file, and what a crash during it
    leaves. *)
From Verif Require Import Base Bytes CodecModel CodecSpec CodecProofs ChunkModel ChunkSpec ChunkFiles ChunkProofs ChunkOps ChunkLife.
Local Arguments settle : simpl never.

Section Steps.
Variable c : compressor.
Variable cs : Z.
Variable held : Z -> bool.
Hypothesis Hcs : 0 < cs.
Hypothesis Hloss : forall b, Forall is_byte b -> lossless c b.
Hypothesis Hfit : forall n, 0 <= n <= cs -> n + extra c n <= buffer_size c cs.
Notation bs := (buffer_size c cs).
Notation squash := (squash c cs).
Notation pre := (pre c cs).
Notation body := (body c cs).
Notation good_chunk := (good_chunk cs).
Notation good_last := (good_last cs).
Notation shape := (shape c cs).
Notation resting := (resting c cs).
Notation kept := (kept c cs).
Notation keeps := (keeps c cs).
Notation tx := (tx c cs).
Notation sys := (sys c cs).

Definition holding (d : disk) (t : bytes) : Prop :=
  resting d t \/ exists F0 l0, t = concat F0 ++ l0 /\ Forall good_chunk F0 /\ good_last l0 /\ kept F0 l0 d.
Lemma recovers_holding d t d' : holding d t -> recovers c cs false d d' -> resting d' t /\ lock d' = false.
Proof.
  intros [R|(F0 & l0 & -> & HF & Hl & K)] H.
  - exact (recovers_resting c cs false d t d' R H).
  - exact (recovers_kept c cs held Hcs Hloss Hfit F0 l0 d d' K HF Hl H).
Qed.
(** Operations that leave the beginning of the contents alone. *)
Definition light (n : Z) (o : op) : Prop :=
  match o with WriteAt p _ => n <= p | CutContents m => n <= m | _ => True end.
Lemma safe_light n m o : m <= n -> safe n o -> light m o.
Proof. clear. destruct o; cbn; auto; lia. Qed.
Lemma keeps_light F0 o : keeps F0 o -> light (len (pre F0)) o.
Proof. clear. destruct o; cbn; auto. Qed.
Lemma light_exec1 a d o : (exists r, contents d = a ++ r) -> light (len a) o -> exists r, contents (exec1 d o) = a ++ r.
Proof.
  intros (r & C) H. destruct o; cbn in *; eauto.
  - rewrite C. apply write_at_more. exact H.
  - rewrite C. destruct (resize_more n a r H) as (x & -> & _). eauto.
Qed.
Lemma light_exec a os : forall d, (exists r, contents d = a ++ r) -> Forall (light (len a)) os -> exists r, contents (exec d os) = a ++ r.
Proof.
  induction os as [|o os IH]; intros d C H; [exact C|]. inversion H; subst. apply (IH (exec1 d o)); [apply light_exec1; assumption|assumption].
Qed.
Definition steady (f : flat) (d : disk) (os : list op) : Prop :=
  committed f = [] \/ exists F l, Forall good_chunk F /\ good_last l /\ committed f = concat F ++ l /\
    (exists r, contents d = pre F ++ r) /\ Forall (light (len (pre F))) os.
Definition crash_ok (e : event) (f : flat) (d : disk) (os : list op) : Prop :=
  steady f d os /\
  (guarded e f -> forall d', crashed d os d' -> holding d' (committed f) \/ (e = Commit /\ resting d' (text f))) /\
  (e = Commit -> unflushed f = false -> forall d', crashed d os d' -> shape d' (text f)).

Lemma crashed_nil d d' : crashed d [] d' -> d' = d.
Proof. intros H. inversion H; reflexivity. Qed.
Lemma sys_shape w f : sys w f -> unflushed f = false -> shape (dk (s_ w)) (text f).
Proof.
  intros [(-> & E & _)|(F & l & B & Li & Sz & T & Fl & X)] U; [left; split; [reflexivity|apply E]|].
  rewrite T. apply (body_shape c cs); auto.
Qed.
Lemma sys_holding w f : sys w f -> mark f <> None \/ unflushed f = false -> holding (dk (s_ w)) (committed f).
Proof.
  intros S H. unfold committed. destruct (mark f) as [t0|] eqn:M.
  - destruct S as [(-> & _)|(F & l & B & Li & Sz & T & Fl & X)]; [discriminate|].
    unfold ChunkLife.tx in X. rewrite M in X. destruct X as (_ & F0 & l0 & -> & HF & Hl & K & _). right. exists F0, l0. auto.
  - destruct H as [H|U]; [congruence|]. left. split; [apply sys_shape; assumption|].
    destruct S as [(-> & _ & _ & L & _)|(F & l & B & Li & Sz & T & Fl & X)]; [exact L|]. unfold ChunkLife.tx in X. rewrite M in X. apply X.
Qed.
Lemma tx_steady w f F l os : body (s_ w) F l -> text f = concat F ++ l -> tx w f F l -> Forall (safe (len (pre F))) os -> steady f (dk (s_ w)) os.
Proof.
  intros B T X S. right. unfold committed, ChunkLife.tx in *. destruct (mark f) as [t0|].
  - destruct X as (_ & F0 & l0 & -> & HF & Hl & K & G & _). exists F0, l0. splits; auto; [apply (k_contents _ _ _ _ _ K)|].
    eapply Forall_impl; [|exact S]. intros o. apply safe_light. destruct (grown_pre c cs _ _ _ _ G) as (r & ->). rewrite len_app.
    pose proof (len_nonneg r). lia.
  - exists F, l. splits; auto; [apply (b_fulls _ _ _ _ _ B)|apply (b_last _ _ _ _ _ B)|apply (b_disk _ _ _ _ _ B)|].
    eapply Forall_impl; [|exact S]. intros o. apply safe_light. lia.
Qed.
Lemma crash_nil e w f : sys w f -> crash_ok e f (dk (s_ w)) [].
Proof.
  intros S. split; [|split].
  - destruct S as [(-> & _)|(F & l & B & Li & Sz & T & Fl & X)]; [left; reflexivity|]. apply (tx_steady w f F l); auto.
  - intros G d' C. apply crashed_nil in C. subst d'. left. apply sys_holding; [exact S|]. destruct G as [G|[G _]]; auto.
  - intros _ U d' C. apply crashed_nil in C. subst d'. apply sys_shape; assumption.
Qed.
Lemma safe_limits n os : forall d, Forall (safe n) os -> limits (exec d os) = limits d /\ lock (exec d os) = lock d.
Proof.
  induction os as [|o os IH]; intros d H; [auto|]. inversion H; subst. change (exec d (o :: os)) with (exec (exec1 d o) os). destruct (IH (exec1 d o)) as [-> ->]; [assumption|].
  destruct o; cbn in *; auto; contradiction.
Qed.
Lemma tx_keeps w f F l os : tx w f F l -> Forall (safe (len (pre F))) os -> mark f <> None ->
  exists F0 l0, committed f = concat F0 ++ l0 /\ Forall good_chunk F0 /\ good_last l0 /\ kept F0 l0 (dk (s_ w)) /\ Forall (keeps F0) os.
Proof.
  intros X S N. unfold ChunkLife.tx, committed in *. destruct (mark f) as [t0|]; [|congruence].
  destruct X as (_ & F0 & l0 & -> & HF & Hl & K & G & _). exists F0, l0. splits; auto.
  eapply Forall_impl; [|exact S]. intros o. apply safe_keeps. destruct (grown_pre c cs _ _ _ _ G) as (r & ->). rewrite len_app.
  pose proof (len_nonneg r). lia.
Qed.
Lemma crash_call e w f F l os : sys w f -> body (s_ w) F l -> text f = concat F ++ l -> tx w f F l -> Forall (safe (len (pre F))) os -> e <> Commit ->
  ((forall b, e <> Append b) -> unflushed f = false -> os = []) -> crash_ok e f (dk (s_ w)) os.
Proof.
  intros Sy B T X S NC Q. split; [apply (tx_steady w f F l); auto|]. split; [|congruence]. intros G d' C. left.
  assert (D : mark f <> None \/ mark f = None) by (destruct (mark f); [left|right]; congruence).
  destruct D as [N|N].
  - destruct (tx_keeps _ _ _ _ _ X S N) as (F0 & l0 & E & HF & Hl & K & Ks). right. exists F0, l0. splits; auto.
    exact (kept_crashed c cs _ _ _ _ _ K Ks C).
  - destruct G as [G|[U G]]; [congruence|]. rewrite (Q G U) in C. apply crashed_nil in C. subst d'. apply sys_holding; auto.
Qed.
Lemma grown_length F l F' l' : grown F l F' l' -> (length F <= length F')%nat.
Proof. intros [[-> _]|(x & more & ->)]; [lia|]. rewrite app_length. lia. Qed.
Lemma tx_ext w f F l s' F' l' t' u' : tx w f F l -> ext (len (pre F)) (s_ w) s' -> grown F l F' l' ->
  (pend (h s') <> None -> pend (h (s_ w)) <> None \/ (length F < length F')%nat) ->
  tx (Program s' (started w)) (Flat t' (mark f) u') F' l'.
Proof.
  intros X (os & D & E & S & _) G P. unfold ChunkLife.tx in *. cbn. destruct (mark f) as [t0|].
  - destruct X as (St & F0 & l0 & -> & HF & Hl & K & G0 & P0). split; [exact St|]. exists F0, l0. splits; auto.
    + rewrite E. apply kept_exec; [exact K|]. eapply Forall_impl; [|exact S]. intros o. apply safe_keeps.
      destruct (grown_pre c cs _ _ _ _ G0) as (r & ->). rewrite len_app. pose proof (len_nonneg r). lia.
    + exact (grown_trans _ _ _ _ _ _ G0 G).
    + intros N. destruct (P N) as [N0|L]; [|exact (Nat.le_lt_trans _ _ _ (grown_length _ _ _ _ G0) L)].
      exact (Nat.lt_le_trans _ _ _ (P0 N0) (grown_length _ _ _ _ G)).
  - destruct X as (A & B & C'). split; [exact A|]. destruct (safe_limits _ _ (dk (s_ w)) S) as [L1 L2]. rewrite E. split; congruence.
Qed.
Lemma still_nil s s' os : still s s' -> done s' = done s ++ os -> os = [].
Proof. intros (_ & _ & D) E. rewrite D in E. apply (app_inv_head (done s)). rewrite app_nil_r. auto. Qed.

(** A call that keeps the chunks. *)
Lemma call_same e w f F l s' u' : sys w f -> body (s_ w) F l -> limited (h (s_ w)) = None -> size (h (s_ w)) = len (text f) ->
  text f = concat F ++ l -> (unflushed f = false -> flushed (h (s_ w)) = true) -> tx w f F l ->
  body s' F l -> ext (len (pre F)) (s_ w) s' -> size (h s') = size (h (s_ w)) -> (u' = false -> flushed (h s') = true) ->
  (pend (h s') = pend (h (s_ w)) \/ pend (h s') = None) ->
  e <> Commit -> (flushed (h (s_ w)) = true -> still (s_ w) s') ->
  exists os, sys (Program s' (started w)) (Flat (text f) (mark f) u') /\
    done s' = done (s_ w) ++ os /\ dk s' = exec (dk (s_ w)) os /\ crash_ok e f (dk (s_ w)) os.
Proof.
  intros Sy B Li Sz T Fl X B' Ex Sz' Fl' P NC Q. pose proof Ex as (os & D & E & S & _ & _ & Li'). exists os. split; [|split; [exact D|split; [exact E|]]].
  - right. exists F, l. cbn. splits; auto; try congruence. apply (tx_ext w f F l s' F l); auto using grown_refl. destruct P as [-> | ->]; [auto|congruence].
  - apply (crash_call e w f F l os); auto. intros _ U. exact (still_nil _ _ _ (Q (Fl U)) D).
Qed.
Lemma step_read w f p n : sys w f -> allowed c cs (Read p n) f ->
  exists w' os, run1 c cs held (Read p n) w = Ok (fst (flat1 (Read p n) f), w') /\ sys w' (snd (flat1 (Read p n) f)) /\
    done (s_ w') = done (s_ w) ++ os /\ dk (s_ w') = exec (dk (s_ w)) os /\ crash_ok (Read p n) f (dk (s_ w)) os.
Proof.
  intros Sy A. pose proof Sy as [(-> & E & St & L & K)|(F & l & B & Li & Sz & T & Fl & X)]; cbn [run1 flat1 fst snd].
  - assert (R : read c cs held p n (s_ w) = Ok ([], s_ w)).
    { unfold read. unfold flush. rewrite (e_flushed _ E), orb_true_r. cbn [bind].
      replace (if p <? 0 then 0 else p) with (Z.max 0 p) by (destruct (Z.ltb_spec p 0); lia). cbn in A. unfold chk.
      destruct (Z.leb_spec minf (Z.max 0 p + n)); [|lia]. destruct (Z.leb_spec (Z.max 0 p + n) maxf); [|lia]. cbn [andb bind].
      rewrite (e_size _ E). destruct (Z.leb_spec (if 0 <? Z.max 0 p + n then 0 - Z.max 0 p else n) 0) as [_|N]; [reflexivity|].
      destruct (Z.ltb_spec 0 (Z.max 0 p + n)); lia. }
    rewrite R. cbn [bind]. exists w, []. cbn [text mark]. rewrite skipn_nil, firstn_nil. destruct w as [s b]. splits; auto.
    + rewrite app_nil_r. reflexivity.
    + apply (crash_nil _ (Program s b)). exact Sy.
  - rewrite T in Sz. destruct (read_ok c cs held Hcs Hloss Hfit F l (b_fulls _ _ _ _ _ B) (b_last _ _ _ _ _ B) (s_ w) p n B Sz A) as (s' & R & B' & Ex & Fl' & Sz'). rewrite R. cbn [bind].
    rewrite <- T in *. destruct (call_same (Read p n) w f F l s' false) as (os & S' & D & E & C); auto; try discriminate.
    + right. apply (b_flushed _ _ _ _ _ B' Fl').
    + intros F1. apply (read_quiet c cs held p n _ _ _ (body_quiet c cs _ _ _ B F1) F1 R).
    + exists (Program s' (started w)), os. auto.
Qed.
Lemma step_dump w f : sys w f ->
  exists w' os, run1 c cs held Dump w = Ok (fst (flat1 Dump f), w') /\ sys w' (snd (flat1 Dump f)) /\
    done (s_ w') = done (s_ w) ++ os /\ dk (s_ w') = exec (dk (s_ w)) os /\ crash_ok Dump f (dk (s_ w)) os.
Proof.
  intros Sy. pose proof Sy as [(-> & E & St & L & K)|(F & l & B & Li & Sz & T & Fl & X)]; cbn [run1 flat1 fst snd].
  - unfold dump. rewrite (e_map _ E). cbn. exists w, []. destruct w as [s b]. splits; auto.
    + rewrite app_nil_r. reflexivity.
    + apply (crash_nil _ (Program s b)). exact Sy.
  - destruct (dump_ok c cs held Hcs Hloss Hfit F l (s_ w) B) as (s' & R & B' & Ex & Fl' & Sz' & P). rewrite R. cbn [bind].
    destruct (call_same Dump w f F l s' (unflushed f)) as (os & S' & D & E & C); auto; try discriminate.
    + rewrite Fl'. exact Fl.
    + intros F1. apply (dump_quiet c cs held _ _ _ (body_quiet c cs _ _ _ B F1) R).
    + exists (Program s' (started w)), os. rewrite <- T. destruct f. auto.
Qed.
Lemma step_flush w f : sys w f ->
  exists w' os, run1 c cs held Flush w = Ok (fst (flat1 Flush f), w') /\ sys w' (snd (flat1 Flush f)) /\
    done (s_ w') = done (s_ w) ++ os /\ dk (s_ w') = exec (dk (s_ w)) os /\ crash_ok Flush f (dk (s_ w)) os.
Proof.
  intros Sy. pose proof Sy as [(-> & E & St & L & K)|(F & l & B & Li & Sz & T & Fl & X)]; cbn [run1 flat1 fst snd].
  - unfold flush. rewrite (e_flushed _ E), orb_true_r. cbn [bind]. exists w, []. destruct w as [s b]. splits; auto.
    + rewrite app_nil_r. reflexivity.
    + apply (crash_nil _ (Program s b)). exact Sy.
  - destruct (flush_ok c cs held Hcs Hloss Hfit (s_ w) F l B) as (s' & R & B' & Ex & Fl' & Sz'). rewrite R. cbn [bind].
    destruct (call_same Flush w f F l s' false) as (os & S' & D & E & C); auto; try discriminate.
    + right. apply (b_flushed _ _ _ _ _ B' Fl').
    + intros F1. apply flush_quiet in R; [|exact F1]. subst s'. apply still_refl. exact (body_quiet c cs _ _ _ B F1).
    + exists (Program s' (started w)), os. auto.
Qed.
Lemma step_append w f b : sys w f -> Forall is_byte b ->
  exists w' os, run1 c cs held (Append b) w = Ok (fst (flat1 (Append b) f), w') /\ sys w' (snd (flat1 (Append b) f)) /\
    done (s_ w') = done (s_ w) ++ os /\ dk (s_ w') = exec (dk (s_ w)) os /\ crash_ok (Append b) f (dk (s_ w)) os.
Proof.
  intros Sy Bb. cbn [run1 flat1 fst snd]. destruct b as [|x b'] eqn:Eb.
  - assert (R : append c cs held [] (s_ w) = Ok (s_ w)) by (unfold append; destruct (read_only _); reflexivity).
    rewrite R. cbn [bind]. exists w, []. rewrite app_nil_r. destruct w as [s b0], f. splits; auto.
    + rewrite app_nil_r. reflexivity.
    + apply (crash_nil _ (Program s b0)). exact Sy.
  - assert (Ne : x :: b' <> []) by discriminate. rewrite <- Eb in *. clear x b' Eb.
    pose proof Sy as [(-> & E & St & L & K)|(F & l & B & Li & Sz & T & Fl & X)].
    + destruct (append_empty c cs held Hcs Hloss Hfit (s_ w) b E Bb Ne) as (s' & F & l & R & B & (os & D & Eo & S & _) & T & Li & Sz).
      rewrite R. cbn [bind]. destruct (safe_limits _ _ (dk (s_ w)) S) as [L1 L2].
      exists (Program s' (started w)), os. splits; auto.
      * right. exists F, l. cbn. splits; auto.
        -- destruct b; [congruence|discriminate].
        -- rewrite Eo. congruence.
        -- rewrite Eo. congruence.
      * split; [left; reflexivity|]. split; [|discriminate]. intros [G|[_ G]]; [cbn in G; congruence|]. elim (G b eq_refl).
    + destruct (append_ok c cs held Hcs Hloss Hfit (s_ w) F l b B Li Bb Ne) as (s' & F' & l' & R & B' & Ex & T' & G & Li' & Sz' & P).
      rewrite R. cbn [bind]. pose proof Ex as (os & D & Eo & S & _).
      exists (Program s' (started w)), os. splits; auto.
      * right. exists F', l'. cbn. splits; auto.
        -- rewrite Sz', T, <- app_assoc. reflexivity.
        -- rewrite T', T, <- app_assoc. reflexivity.
        -- destruct b; [congruence|discriminate].
        -- apply (tx_ext w f F l); auto. intros N. destruct (pend (h s')) as [x|] eqn:Ep; [|congruence].
           destruct (P x eq_refl) as [[P1 _]|P1]; [left; congruence|auto].
      * apply (crash_call _ w f F l os); auto; [discriminate|]. intros H. elim (H b eq_refl).
Qed.
Lemma body_done h0 d o o' F l : body (St h0 d o) F l -> body (St h0 d o') F l.
Proof.
  intros [b1 b2 b3 b4 b5 b6 b7 b8 b9 b10 b11]. constructor; cbn in *; auto. intros H1 H2. destruct (b6 H1 H2) as (r & E). exists r.
  unfold settle in *. cbn in *. destruct (pend h0) as [[p b]|]; exact E.
Qed.
Lemma step_reopen w f : sys w f -> mark f = None ->
  exists w' os, run1 c cs held Reopen w = Ok (fst (flat1 Reopen f), w') /\ sys w' (snd (flat1 Reopen f)) /\
    done (s_ w') = done (s_ w) ++ os /\ dk (s_ w') = exec (dk (s_ w)) os /\ crash_ok Reopen f (dk (s_ w)) os.
Proof.
  intros Sy M. destruct (step_flush w f Sy) as (w' & os & R & Sy' & D & E & C). cbn [run1 flat1 fst snd] in *.
  destruct (flush c cs held (s_ w)) as [s'| |]; try discriminate. cbn [bind] in *. injection R as <-. cbn [s_] in *.
  assert (Rt : resting (dk s') (text f) /\ lock (dk s') = false).
  { split; [split|].
    - apply (sys_shape _ _ Sy' eq_refl).
    - destruct Sy' as [(Ef & _ & _ & L & _)|(F & l & B & Li & Sz & T & Fl & X)]; [exact L|]. unfold ChunkLife.tx in X. cbn in X. rewrite M in X. apply X.
    - destruct Sy' as [(Ef & _ & _ & _ & L)|(F & l & B & Li & Sz & T & Fl & X)]; [exact L|]. unfold ChunkLife.tx in X. cbn in X. rewrite M in X. apply X. }
  destruct Rt as [Rt Lk]. destruct (opened_ok c cs held Hcs Hloss Hfit (dk s') (text f) Rt Lk) as (w2 & O & Sy2 & D2).
  unfold opened in O. destruct (make c cs held (dk s')) as [h0| |]; try discriminate. cbn [bind] in *. injection O as <-.
  exists (Program (St h0 (dk s') (done s')) false), os. rewrite M. splits; auto.
  - destruct Sy2 as [(Ef & E2 & Q)|(F & l & B & Q)].
    + left. splits; auto; try apply Q. destruct E2; constructor; auto.
    + right. exists F, l. destruct Q as (Q1 & Q2 & Q3 & Q4 & Q5). split; [exact (body_done _ _ _ _ _ _ B)|]. auto.
  - destruct C as [C0 [C _]]. split; [exact C0|]. split; [|discriminate]. intros G d' Cr.
    assert (G' : guarded Flush f) by (destruct G as [G|[G _]]; [left; exact G|right; split; [exact G|discriminate]]).
    destruct (C G' d' Cr) as [H|[H _]]; [left; exact H|discriminate].
Qed.

(** ** Transactions *)
Lemma body_other o s F l : body s F l -> pend (h s) = None -> contents (exec1 (dk s) o) = contents (dk s) -> cmap (exec1 (dk s) o) = cmap (dk s) ->
  body (emit o s) F l.
Proof.
  intros [b1 b2 b3 b4 b5 b6 b7 b8 b9 b10 b11] P C M. constructor; cbn; auto.
  - rewrite M. exact b4.
  - rewrite C. exact b5.
  - intros H1 H2. rewrite settle_none by exact P. destruct (b6 H1 H2) as (r & E). rewrite settle_none in E by exact P. cbn. rewrite C. eauto.
Qed.
Lemma step_begin w f : sys w f -> allowed c cs Begin f ->
  exists w' os, run1 c cs held Begin w = Ok (fst (flat1 Begin f), w') /\ sys w' (snd (flat1 Begin f)) /\
    done (s_ w') = done (s_ w) ++ os /\ dk (s_ w') = exec (dk (s_ w)) os /\ crash_ok Begin f (dk (s_ w)) os.
Proof.
  intros Sy A. cbn [run1 flat1 allowed] in *.
  pose proof Sy as [(-> & E & Stt & L & K)|(F & l & B & Li & Sz & T & Fl & X)]; [destruct (A eq_refl) as [A1 _]; cbn in A1; congruence|].
  unfold ChunkLife.tx in X. destruct (mark f) as [t0|] eqn:M.
  - destruct X as (Stt & _). rewrite Stt. cbn [fst snd]. exists w, []. rewrite app_nil_r. splits; auto. apply crash_nil. exact Sy.
  - destruct (A eq_refl) as [_ U]. specialize (Fl U). destruct X as (Stt & L & K). rewrite Stt. cbn [fst snd].
    destruct (body_quiet c cs _ _ _ B Fl) as [_ P].
    assert (Ro : read_only (h (s_ w)) = false) by (destruct (b_lim _ _ _ _ _ B) as [[_ Ro]|[Li' _]]; [exact Ro|congruence]).
    unfold transaction_. rewrite Ro, K. pose proof (body_other TakeLock _ _ _ B P eq_refl eq_refl) as B1.
    destruct (fetch_last_ok c cs held Hcs Hloss Hfit _ F l B1) as (s2 & E2 & B2 & Ex & V & I & C2 & Fl2 & Sz2 & P2).
    assert (S2 : still (emit TakeLock (s_ w)) s2) by (refine (fetch_last_quiet c cs held _ _ _ E2); exact (body_quiet c cs _ _ _ B Fl)).
    destruct S2 as (Q2 & D2 & O2).
    assert (NE : map_ (h (emit TakeLock (s_ w))) <> []).
    { cbn. destruct (b_map _ _ _ _ _ B) as (e & -> & _). destruct (ends _ _); discriminate. }
    match goal with |- context [match map_ ?x with [] => ?a | _ :: _ => ?b end] => replace (match map_ x with [] => a | _ :: _ => b end) with b by (destruct (map_ x); [congruence|reflexivity]) end.
    rewrite E2. cbn [bind]. rewrite C2. cbn [bind].
    exists (Program (emit RenameTemp (emit (PutTemp (Z.of_nat (length (map_ (h s2)))) l) s2)) true),
      [TakeLock; PutTemp (Z.of_nat (length (map_ (h s2)))) l; RenameTemp].
    assert (LM : length (map_ (h s2)) = S (length F)).
    { destruct (b_map _ _ _ _ _ B2) as (e & -> & _). rewrite app_length, len_ends, map_length. cbn. lia. }
    destruct Ex as (_ & _ & _ & _ & _ & _ & Li2).
    assert (KK : kept F l (exec (dk (s_ w)) [TakeLock; PutTemp (Z.of_nat (length (map_ (h s2)))) l; RenameTemp])).
    { constructor; cbn.
      - exact (b_disk _ _ _ _ _ B).
      - rewrite (b_cmap _ _ _ _ _ B Li). destruct (b_map _ _ _ _ _ B) as (e & -> & _). eauto.
      - rewrite LM. reflexivity. }
    splits; auto.
    + right. exists F, l. split; [|split; [|split; [|split; [|split]]]].
      * apply body_other; [apply body_other; [exact B2|apply Q2|reflexivity|reflexivity]|apply Q2|reflexivity|reflexivity].
      * cbn in *. congruence.
      * cbn in *. congruence.
      * exact T.
      * intros _. cbn in *. congruence.
      * unfold ChunkLife.tx. cbn [mark]. split; [reflexivity|]. exists F, l. splits; auto.
        -- apply (b_fulls _ _ _ _ _ B).
        -- apply (b_last _ _ _ _ _ B).
        -- cbn [s_ emit dk]. rewrite D2. exact KK.
        -- apply grown_refl.
        -- cbn. intros N. destruct Q2; congruence.
    + cbn. rewrite O2. cbn. rewrite <- !app_assoc. reflexivity.
    + cbn. rewrite D2. reflexivity.
    + split; [|split; [|discriminate]].
      { right. exists F, l. unfold committed. rewrite M.
        splits; auto; [apply (b_fulls _ _ _ _ _ B)|apply (b_last _ _ _ _ _ B)|apply (b_disk _ _ _ _ _ B)|]. repeat constructor. }
      intros _ d' Cr. left. unfold committed. rewrite M. pose proof (sys_shape _ _ Sy U) as Sh.
      inversion Cr; subst; [left; split; assumption|].
      match goal with X : crashed _ _ d' |- _ => inversion X; subst end; [left; split; assumption|].
      match goal with X : crashed _ [RenameTemp] d' |- _ => inversion X; subst end; [left; split; assumption|].
      match goal with X : crashed _ [] d' |- _ => apply crashed_nil in X; subst d' end.
      right. exists F, l. splits; auto; [apply (b_fulls _ _ _ _ _ B)|apply (b_last _ _ _ _ _ B)].
Qed.
Lemma unlock_is s : unlock s = St (h s) (exec (dk s) unlock_ops) (done s ++ unlock_ops).
Proof. apply emits. Qed.
(** Crashes while a transaction is finished. *)
Lemma finish_crash F0 l0 d os t d' : kept F0 l0 d -> Forall (keeps F0) os -> shape (exec d os) t ->
  Forall good_chunk F0 -> good_last l0 ->
  crashed d (os ++ unlock_ops) d' -> kept F0 l0 d' \/ resting d' t.
Proof.
  intros K Ks Sh HF Hl C. destruct (crashed_app _ _ _ _ C) as [C1|C2]; [left; exact (kept_crashed c cs _ _ _ _ _ K Ks C1)|].
  pose proof (kept_exec c cs _ _ _ _ K Ks) as K1. unfold unlock_ops in C2. inversion C2; subst; [left; exact K1|].
  match goal with X : crashed (exec1 _ RmTemp) _ _ |- _ => inversion X; subst end; [left; apply (kept_exec1 c cs _ _ _ RmTemp K1); exact Logic.I|].
  right. apply (resting_unlock c cs (exec1 (exec1 (exec d os) RmTemp) RmLimits) _ [RmLock]); [split; [exact Sh|reflexivity]| |assumption].
  intros o [<-|[]]. right; right; left; reflexivity.
Qed.
Lemma step_commit w f : sys w f ->
  exists w' os, run1 c cs held Commit w = Ok (fst (flat1 Commit f), w') /\ sys w' (snd (flat1 Commit f)) /\
    done (s_ w') = done (s_ w) ++ os /\ dk (s_ w') = exec (dk (s_ w)) os /\ crash_ok Commit f (dk (s_ w)) os.
Proof.
  intros Sy. cbn [run1 flat1] in *.
  pose proof Sy as [(-> & E & Stt & L & K)|(F & l & B & Li & Sz & T & Fl & X)].
  { cbn [mark fst snd]. rewrite Stt. exists w, []. rewrite app_nil_r. splits; auto. apply crash_nil. exact Sy. }
  pose proof X as X0. unfold ChunkLife.tx in X. destruct (mark f) as [t0|] eqn:M.
  - destruct X as (Stt & F0 & l0 & Et & HF & Hl & K & G & P). rewrite Stt. cbn [fst snd]. unfold ready_.
    destruct (flush_ok c cs held Hcs Hloss Hfit (s_ w) F l B) as (s' & R & B' & Ex & Fl' & Sz'). rewrite R. cbn [bind].
    destruct Ex as (os & D & E & S & _ & _ & Li'). unfold commit_. rewrite unlock_is. exists (Program (St (h s') (exec (dk s') unlock_ops) (done s' ++ unlock_ops)) false), (os ++ unlock_ops).
    destruct (tx_keeps w f F l os X0 S ltac:(congruence)) as (F1 & l1 & Ec & HF1 & Hl1 & K1 & Ks).
    assert (Sh : shape (exec (dk (s_ w)) os) (text f)).
    { rewrite T, <- E. apply (body_shape c cs); auto. congruence. }
    splits; auto.
    + right. exists F, l. cbn [s_ h dk done text unflushed]. split; [|split; [congruence|split; [congruence|split; [exact T|split; [auto|]]]]].
      * destruct (b_flushed _ _ _ _ _ B' Fl') as [_ P'].
        pose proof (body_other RmLock _ _ _ (body_other RmLimits _ _ _ (body_other RmTemp _ _ _ B' P' eq_refl eq_refl) P' eq_refl eq_refl) P' eq_refl eq_refl) as B2.
        exact (body_done _ _ _ _ _ _ B2).
      * unfold ChunkLife.tx. cbn. auto.
    + cbn. rewrite D, <- app_assoc. reflexivity.
    + cbn [s_ dk]. rewrite exec_app, E. reflexivity.
    + split; [|split].
      * right. exists F1, l1. splits; auto; [apply (k_contents _ _ _ _ _ K1)|]. apply Forall_app. split; [|repeat constructor].
        eapply Forall_impl; [|exact Ks]. apply keeps_light.
      * intros _ d' C. rewrite Ec. destruct (finish_crash _ _ _ _ _ _ K1 Ks Sh HF1 Hl1 C) as [C1|C1]; [left; right; exists F1, l1; auto|right; auto].
      * intros _ U d' C. assert (os = []) as ->.
        { apply flush_quiet in R; [|exact (Fl U)]. subst s'. apply (app_inv_head (done (s_ w))). rewrite app_nil_r. auto. }
        apply (shape_unlocking c cs _ _ _ _ Sh (unlock_in) C).
  - destruct X as (Stt & _). rewrite Stt. cbn [fst snd]. exists w, []. rewrite app_nil_r. splits; auto. apply crash_nil. exact Sy.
Qed.
(** A store whose put area is flushed after the files were restored keeps them. *)
Lemma pend_after w F l F0 l0 : body (s_ w) F l -> grown F0 l0 F l -> Forall good_chunk F0 -> good_last l0 -> grows c cs ->
  (length F0 < length F)%nat -> forall p b, pend (h (s_ w)) = Some (p, b) -> len (pre F0) + len (squash l0) <= p.
Proof.
  intros B G HF Hl Gr Lt p b P. pose proof (b_pend _ _ _ _ _ B p b P) as Lp. destruct G as [[-> _]|(x & more & ->)]; [lia|].
  pose proof (b_fulls _ _ _ _ _ B) as HF'. apply Forall_app in HF'. destruct HF' as [_ HF']. pose proof (Forall_inv HF') as [Lx Bx].
  rewrite pre_app in Lp. change ((l0 ++ x) :: more) with ([l0 ++ x] ++ more) in Lp. rewrite pre_app, pre_one, !len_app in Lp.
  assert (len (squash l0) <= len (squash (l0 ++ x))).
  { destruct Hl as [Ll Bl]. destruct (squash_ok c cs Hcs Hloss Hfit l0 Bl ltac:(lia)) as (C1 & _).
    destruct (squash_ok c cs Hcs Hloss Hfit (l0 ++ x) Bx ltac:(lia)) as (C2 & _).
    apply (Gr l0 x _ _ Bx ltac:(lia)); auto. destruct l0; [cbn in Ll; lia|discriminate]. }
  pose proof (len_nonneg (pre more)). lia.
Qed.
Lemma step_abort w f : sys w f -> allowed c cs Abort f ->
  exists w' os, run1 c cs held Abort w = Ok (fst (flat1 Abort f), w') /\ sys w' (snd (flat1 Abort f)) /\
    done (s_ w') = done (s_ w) ++ os /\ dk (s_ w') = exec (dk (s_ w)) os /\ crash_ok Abort f (dk (s_ w)) os.
Proof.
  intros Sy A. cbn [run1 flat1 allowed] in *.
  pose proof Sy as [(-> & E & Stt & L & K)|(F & l & B & Li & Sz & T & Fl & X)].
  { cbn [mark fst snd]. rewrite Stt. exists w, []. rewrite app_nil_r. splits; auto. apply crash_nil. exact Sy. }
  unfold ChunkLife.tx in X. destruct (mark f) as [t0|] eqn:M.
  - destruct X as (Stt & F0 & l0 & Et & HF & Hl & K & G & P). rewrite Stt. cbn [fst snd].
    destruct (restore_kept c cs held Hcs Hloss Hfit F0 l0 _ K HF Hl) as (os & r & Er & Ks & Mp & Ct & Lm & Lk).
    unfold abort_. rewrite Er. cbn [bind]. rewrite emits. set (d1 := exec (dk (s_ w)) os) in *.
    set (s1 := on_h _ (St (h (s_ w)) d1 (done (s_ w) ++ os))).
    assert (SS : exists os2 r2, dk (settle s1) = exec d1 os2 /\ done (settle s1) = (done (s_ w) ++ os) ++ os2 /\ Forall (keeps F0) os2 /\
              contents (exec d1 os2) = pre F0 ++ squash l0 ++ r2 /\ cmap (exec d1 os2) = cmap d1 /\
              h (settle s1) = set_pend None (h s1)).
    { unfold settle. change (pend (h s1)) with (pend (h (s_ w))). destruct (pend (h (s_ w))) as [[p b]|] eqn:Pe.
      - assert (Lp : len (pre F0) + len (squash l0) <= p).
        { destruct A as [U|Gr].
          - destruct (b_flushed _ _ _ _ _ B (Fl U)). congruence.
          - apply (pend_after w F l F0 l0 B G HF Hl Gr) with (b := b); [apply P; congruence|exact Pe]. }
        destruct (write_at_more p b (pre F0 ++ squash l0) r) as (x & Ex); [rewrite len_app; exact Lp|].
        exists [WriteAt p b], x. splits; auto.
        + repeat constructor. cbn. pose proof (len_nonneg (squash l0)). lia.
        + cbn. rewrite Ct, app_assoc, Ex, <- app_assoc. reflexivity.
      - exists [], r. rewrite app_nil_r. splits; auto. cbn. unfold set_pend. rewrite <- Pe. destruct (h (s_ w)); reflexivity. }
    destruct SS as (os2 & r2 & Sd & So & Ks2 & Ct2 & Mp2 & Sh1).
    set (s2 := on_h _ (settle s1)). 
    assert (B2 : body s2 F0 l0).
    { unfold s2, on_h. apply (shape_body c cs (dk (settle s1)) F0 l0 r2); auto.
      - rewrite Sd, Mp2. exact Mp.
      - rewrite Sd. exact Ct2.
      - cbn. rewrite Sh1. reflexivity.
      - cbn. rewrite Sh1. reflexivity.
      - cbn. rewrite Sh1. cbn. destruct (b_lim _ _ _ _ _ B) as [[_ Ro]|[Li' _]]; [exact Ro|congruence].
      - cbn. rewrite Sh1. reflexivity. }
    assert (Fl2 : flushed (h s2) = true) by (unfold s2; cbn; rewrite Sh1; reflexivity).
    destruct (fetch_last_ok c cs held Hcs Hloss Hfit s2 F0 l0 B2) as (s3 & E3 & B3 & Ex & V & I & C3 & Fl3 & Sz3 & P3).
    pose proof (fetch_last_quiet c cs held _ _ (body_quiet c cs _ _ _ B2 Fl2) E3) as (Q3 & D3 & O3).
    assert (NE : map_ (h s2) <> []).
    { destruct (b_map _ _ _ _ _ B2) as (e & E0 & _). intros N0. rewrite N0 in E0. exact (app_cons_not_nil _ _ _ E0). }
    match goal with |- context [match map_ ?x with [] => ?a | _ :: _ => ?b end] => replace (match map_ x with [] => a | _ :: _ => b end) with b by (destruct (map_ x); [congruence|reflexivity]) end.
    rewrite E3. cbn [bind]. rewrite (measure_ok c cs held Hloss Hfit _ _ _ B3 C3). cbn [bind]. rewrite unlock_is.
    eexists _, ((os ++ os2) ++ unlock_ops). split; [reflexivity|]. cbn [s_ dk h on_h done].
    assert (D4 : dk s3 = exec (dk (s_ w)) (os ++ os2)).
    { rewrite D3. unfold s2. cbn [on_h dk]. rewrite Sd, exec_app. reflexivity. }
    assert (Sh : shape (exec (dk (s_ w)) (os ++ os2)) t0).
    { rewrite Et, <- D4. apply (body_shape c cs); auto. destruct Ex as (_ & _ & _ & _ & _ & _ & Li3). rewrite Li3. reflexivity. congruence. }
    split; [|split; [|split]].
    + right. exists F0, l0. cbn [s_ h text unflushed]. split; [|split; [|split; [|split; [|split]]]].
      * pose proof (body_other RmLock _ _ _ (body_other RmLimits _ _ _ (body_other RmTemp _ _ _ B3 (proj2 Q3) eq_refl eq_refl) (proj2 Q3) eq_refl eq_refl) (proj2 Q3) eq_refl eq_refl) as B4.
        destruct s3 as [h3 d3 o3]. destruct B4 as [b1 b2 b3 b4 b5 b6 b7 b8 b9 b10 b11]. constructor; cbn in *; auto.
        intros H1 H2. destruct (b6 H1 H2) as (x & Hx). exists x. rewrite settle_none in Hx by apply Q3. rewrite settle_none by apply Q3. exact Hx.
      * destruct Ex as (_ & _ & _ & _ & _ & _ & Li3). cbn. rewrite Li3. reflexivity.
      * cbn. rewrite Et. reflexivity.
      * exact Et.
      * intros _. cbn. congruence.
      * unfold ChunkLife.tx. cbn. auto.
    + rewrite O3. unfold s2. cbn [on_h done]. rewrite So, <- !app_assoc. reflexivity.
    + rewrite D4, <- exec_app. reflexivity.
    + split; [|split; [|discriminate]].
      { right. exists F0, l0. unfold committed. rewrite M. splits; auto; [apply (k_contents _ _ _ _ _ K)|]. apply Forall_app. split; [|repeat constructor].
        apply Forall_app. split; (eapply Forall_impl; [|eassumption]; apply keeps_light). }
      intros _ d' C. left. unfold committed. rewrite M.
      assert (KK : Forall (keeps F0) (os ++ os2)) by (apply Forall_app; auto).
      destruct (finish_crash _ _ _ _ _ _ K KK Sh HF Hl C) as [C1|C1]; [right; exists F0, l0; auto|left; exact C1].
  - destruct X as (Stt & _). rewrite Stt. cbn [fst snd]. exists w, []. rewrite app_nil_r. splits; auto. apply crash_nil. exact Sy.
Qed.
Lemma step_size w f : sys w f ->
  exists w' os, run1 c cs held Size w = Ok (fst (flat1 Size f), w') /\ sys w' (snd (flat1 Size f)) /\
    done (s_ w') = done (s_ w) ++ os /\ dk (s_ w') = exec (dk (s_ w)) os /\ crash_ok Size f (dk (s_ w)) os.
Proof.
  intros Sy. cbn [run1 flat1 fst snd]. exists w, []. rewrite app_nil_r. splits; auto; [|apply crash_nil, Sy].
  f_equal. f_equal. f_equal. destruct Sy as [(-> & E & _)|(F & l & B & Li & Sz & _)]; [exact (e_size _ E)|exact Sz].
Qed.
Lemma step e w f : sys w f -> allowed c cs e f ->
  exists w' os, run1 c cs held e w = Ok (fst (flat1 e f), w') /\ sys w' (snd (flat1 e f)) /\
    done (s_ w') = done (s_ w) ++ os /\ dk (s_ w') = exec (dk (s_ w)) os /\ crash_ok e f (dk (s_ w)) os.
Proof.
  intros Sy A. destruct e.
  - apply step_append; assumption.
  - apply step_read; assumption.
  - apply step_size; assumption.
  - apply step_dump; assumption.
  - apply step_flush; assumption.
  - apply step_begin; assumption.
  - apply step_commit; assumption.
  - apply step_abort; assumption.
  - apply step_reopen; assumption.
Qed.
Lemma steps l : forall w f, sys w f -> all_allowed c cs l f ->
  exists w', run c cs held l w = Ok (fst (flat_run l f), w') /\ sys w' (snd (flat_run l f)).
Proof.
  induction l as [|e l IH]; intros w f Sy A; [exists w; auto|]. destruct A as [A1 A2]. cbn [run flat_run].
  destruct (step e w f Sy A1) as (w1 & os & R & Sy1 & _). rewrite R. cbn [bind]. destruct (flat1 e f) as [a f1]. cbn [fst snd] in *.
  destruct (IH w1 f1 Sy1 A2) as (w2 & R2 & Sy2). rewrite R2. cbn [bind]. destruct (flat_run l f1) as [r f2]. exists w2. auto.
Qed.
Lemma resting_serves d t : resting d t -> lock d = false -> serves c cs held d t.
Proof.
  intros R K l A. destruct (opened_ok c cs held Hcs Hloss Hfit d t R K) as (w & O & Sy & _). destruct (steps l w _ Sy A) as (w' & E & _). eauto.
Qed.
Lemma blank_resting : resting blank [].
Proof. split; [left; auto|reflexivity]. Qed.
Lemma from_blank l : all_allowed c cs l (Flat [] None false) -> forall w0 a w, opened c cs held blank = Ok w0 -> run c cs held l w0 = Ok (a, w) ->
  a = fst (flat_run l (Flat [] None false)) /\ sys w (snd (flat_run l (Flat [] None false))).
Proof.
  intros A w0 a w O R. destruct (opened_ok c cs held Hcs Hloss Hfit blank [] blank_resting eq_refl) as (w1 & O1 & Sy & _).
  assert (w1 = w0) by congruence. subst w1. destruct (steps l w0 _ Sy A) as (w' & E & Sy'). rewrite E in R. injection R as <- <-. auto.
Qed.
End Steps.
