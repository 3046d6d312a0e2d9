(** The text store: opening, transactions, whole histories, crashes and readers. *)
From Verif Require Import Base Bytes CodecModel CodecSpec CodecProofs ChunkModel ChunkSpec ChunkFiles ChunkProofs ChunkOps.
Local Arguments settle : simpl never.

Lemma emits l : forall s, fold_left (fun s o => emit o s) l s = St (h s) (exec (dk s) l) (done s ++ l).
Proof.
  induction l as [|o l IH]; intros s; cbn; [rewrite app_nil_r; destruct s; reflexivity|].
  rewrite IH. cbn. rewrite <- app_assoc. reflexivity.
Qed.
Lemma exec_app d a b : exec d (a ++ b) = exec (exec d a) b.
Proof. unfold exec. apply fold_left_app. Qed.
Lemma crashed_app a : forall d b d', crashed d (a ++ b) d' -> crashed d a d' \/ crashed (exec d a) b d'.
Proof.
  induction a as [|o a IH]; intros d b d' H; [right; exact H|]. cbn [app] in H. inversion H; subst.
  - left. constructor.
  - left. constructor.
  - match goal with C : crashed _ _ _ |- _ => destruct (IH _ _ _ C) as [L|R] end; [left; constructor; exact L|right; exact R].
Qed.

Section Life.
Variable c : compressor.
Variable cs : Z.
Variable held : Z -> bool.
Hypothesis Hcs : 0 < cs.
Hypothesis Hloss : forall b, Forall is_byte b -> lossless c b.
Hypothesis Hfit : forall n, 0 <= n <= cs -> n + extra c n <= buffer_size c cs.
Notation bs := (buffer_size c cs).
Notation squash := (squash c cs).
Notation pre := (pre c cs).
Notation body := (body c cs).
Notation good_chunk := (good_chunk cs).
Notation good_last := (good_last cs).

(** ** Chunks are determined by the text *)
Lemma chunks_prefix F0 l0 x : forall F l, Forall good_chunk F0 -> 0 < len l0 -> Forall good_chunk F -> good_last l ->
  concat F ++ l = (concat F0 ++ l0) ++ x -> exists G, F = F0 ++ G.
Proof.
  clear held Hloss Hfit. induction F0 as [|k F0 IH]; intros F l H0 Hl0 HF Hl E; [exists F; reflexivity|].
  inversion H0 as [|? ? Gk H0']; subst. destruct Gk as [Lk _]. cbn [concat] in E.
  destruct F as [|k' F].
  - exfalso. cbn [concat app] in E. destruct Hl as [Hl _]. rewrite E, !len_app in Hl. pose proof (len_nonneg (concat F0)). pose proof (len_nonneg x). lia.
  - inversion HF as [|? ? Gk' HF']; subst. destruct Gk' as [Lk' _]. cbn [concat] in E. rewrite <- !app_assoc in E.
    assert (k' = k /\ concat F ++ l = concat F0 ++ l0 ++ x) as [-> E'].
    { assert (L : length k' = length k) by (unfold len in *; lia). clear - E L. revert k L E. induction k' as [|a k' IH]; intros [|b k] L E; cbn in *; try lia; auto.
      injection E as -> E. destruct (IH k ltac:(lia) E) as [-> E']. auto. }
    rewrite app_assoc in E'. destruct (IH F l H0' Hl0 HF' Hl E') as (G & ->). exists G. reflexivity.
Qed.

(** ** States of the files *)
(** The files hold these chunks. *)
Definition shape (d : disk) (t : bytes) : Prop :=
  (t = [] /\ cmap d = []) \/
  exists F l r, Forall good_chunk F /\ good_last l /\ t = concat F ++ l /\
    cmap d = ends 0 (map squash (F ++ [l])) /\ contents d = pre F ++ squash l ++ r.
Definition resting (d : disk) (t : bytes) : Prop := shape d t /\ limits d = None.
(** The files when a transaction that began with these chunks is open. *)
Record kept (F0 : list bytes) (l0 : bytes) (d : disk) : Prop := Kept {
  k_contents : exists r, contents d = pre F0 ++ r;
  k_cmap : exists e m, cmap d = ends 0 (map squash F0) ++ e :: m;
  k_limits : limits d = Some (Z.of_nat (S (length F0)), l0)
}.
Definition keeps (F0 : list bytes) (o : op) : Prop :=
  match o with
  | WriteAt p _ => len (pre F0) <= p
  | CutContents n => len (pre F0) <= n
  | CutMap n => Z.of_nat (S (length F0)) <= n
  | MapLast _ | MapPush _ | RmTemp | TakeLock => True
  | _ => False
  end.
Lemma safe_keeps F0 n o : len (pre F0) <= n -> safe n o -> keeps F0 o.
Proof. clear held Hcs Hloss Hfit. destruct o; cbn; auto; lia. Qed.
Lemma kept_exec1 F0 l0 d o : kept F0 l0 d -> keeps F0 o -> kept F0 l0 (exec1 d o).
Proof.
  clear held Hcs Hloss Hfit. intros [(r & C) (e & m & M) L] K. destruct o; cbn in K; try contradiction; constructor; cbn; eauto.
  - rewrite C. apply write_at_more. exact K.
  - rewrite C. destruct (resize_more n (pre F0) r K) as (x & -> & _). eauto.
  - rewrite M. exists (hd z (removelast (e :: m) ++ [z])), (tl (removelast (e :: m) ++ [z])).
    rewrite removelast_app by discriminate. rewrite <- app_assoc. f_equal.
    destruct (removelast (e :: m) ++ [z]) eqn:Q; [destruct (removelast (e :: m)); discriminate|reflexivity].
  - rewrite M. exists e, (m ++ [z]). rewrite <- app_assoc. reflexivity.
  - rewrite M. change (e :: m) with ([e] ++ m). rewrite app_assoc.
    destruct (resize_more n (ends 0 (map squash F0) ++ [e]) m) as (x & -> & _).
    { unfold len. rewrite app_length, len_ends, map_length. cbn [length]. lia. }
    exists e, x. rewrite <- app_assoc. reflexivity.
Qed.
Lemma kept_exec F0 l0 os : forall d, kept F0 l0 d -> Forall (keeps F0) os -> kept F0 l0 (exec d os).
Proof.
  induction os as [|o os IH]; intros d K H; [exact K|]. inversion H; subst. cbn. apply IH; [apply kept_exec1; auto|assumption].
Qed.
Lemma kept_crashed F0 l0 os d d' : kept F0 l0 d -> Forall (keeps F0) os -> crashed d os d' -> kept F0 l0 d'.
Proof.
  intros K H C. revert K H. induction C as [d l|d p b l k|d o l d' C IH]; intros K H; [exact K| |].
  - inversion H; subst. apply kept_exec1; [exact K|]. assumption.
  - inversion H; subst. apply IH; [apply kept_exec1; auto|assumption].
Qed.

Lemma shape_unlock d t o : shape d t -> In o unlock_ops -> shape (exec1 d o) t.
Proof. intros S [<-|[<-|[<-|[]]]]; exact S. Qed.
Lemma resting_unlock d t os d' : resting d t -> (forall o, In o os -> In o unlock_ops) -> crashed d os d' -> resting d' t.
Proof.
  intros R H C. revert R H. induction C as [d l|d p b l k|d o l d' C IH]; intros R H; [exact R| |].
  - destruct (H (WriteAt p b) (or_introl eq_refl)) as [E|[E|[E|[]]]]; discriminate.
  - apply IH; [|intros o' Ho'; apply H; right; exact Ho']. destruct R as [S L]. split.
    + apply shape_unlock; [exact S|apply H; left; reflexivity].
    + destruct (H o (or_introl eq_refl)) as [<-|[<-|[<-|[]]]]; cbn; auto.
Qed.
Lemma shape_unlocking d t os d' : shape d t -> (forall o, In o os -> In o unlock_ops) -> crashed d os d' -> shape d' t.
Proof.
  intros R H C. revert R H. induction C as [d l|d p b l k|d o l d' C IH]; intros R H; [exact R| |].
  - destruct (H (WriteAt p b) (or_introl eq_refl)) as [E|[E|[E|[]]]]; discriminate.
  - apply IH; [|intros o' Ho'; apply H; right; exact Ho'].
    apply shape_unlock; [exact R|apply H; left; reflexivity].
Qed.

(** What restoring does to the files of an open transaction. *)
Lemma restore_kept F0 l0 d : kept F0 l0 d -> Forall good_chunk F0 -> good_last l0 ->
  exists os r, restore c cs d = Ok os /\ Forall (keeps F0) os /\
    cmap (exec d os) = ends 0 (map squash (F0 ++ [l0])) /\ contents (exec d os) = pre F0 ++ squash l0 ++ r /\
    limits (exec d os) = limits d /\ lock (exec d os) = lock d.
Proof.
  intros [(r & C) (e & m & M) L] HF Hl. unfold restore. rewrite L.
  destruct (Z.eqb_spec (Z.of_nat (S (length F0))) 0); [lia|]. destruct (Z.ltb_spec (Z.of_nat (S (length F0))) 0); [lia|].
  assert (EM : resize (Z.of_nat (S (length F0))) (cmap d) = ends 0 (map squash F0) ++ [e]).
  { rewrite M. change (e :: m) with ([e] ++ m). rewrite app_assoc. apply resize_app.
    unfold len. rewrite app_length, len_ends, map_length. cbn [length]. lia. }
  rewrite EM.
  assert (W : (if Z.of_nat (S (length F0)) =? 1 then Ok 0 else idx (ends 0 (map squash F0) ++ [e]) (Z.of_nat (S (length F0)) - 2)) = Ok (len (pre F0))).
  { destruct (Z.eqb_spec (Z.of_nat (S (length F0))) 1) as [E1|N1].
    - assert (F0 = []) as -> by (destruct F0; [reflexivity|cbn [length] in E1; lia]). reflexivity.
    - pose proof (chunk_start_at (map squash F0) [e] (length F0)) as CS. rewrite map_length in CS. specialize (CS ltac:(lia)).
      rewrite (firstn_map_all c cs) in CS. destruct F0 as [|k F0]; [cbn in N1; lia|]. cbn [length chunk_start] in *.
      replace (Z.of_nat (S (S (length F0))) - 2) with (Z.of_nat (length F0)) by lia. exact CS. }
  rewrite W. cbn [bind]. destruct Hl as [Ll Bl].
  destruct (squash_ok c cs Hcs Hloss Hfit l0 Bl ltac:(lia)) as (Cr & _ & _). rewrite Cr. cbn [bind].
  pose proof (len_nonneg (squash l0)) as Nz.
  assert (X : exists r2, contents (exec d [CutMap (Z.of_nat (S (length F0))); CutContents (len (pre F0) + len (squash l0));
             WriteAt (len (pre F0)) (squash l0); MapLast (len (pre F0) + len (squash l0))]) = pre F0 ++ squash l0 ++ r2).
  { cbn. rewrite C. destruct (resize_more (len (pre F0) + len (squash l0)) (pre F0) r ltac:(lia)) as (x & -> & _).
    apply write_at_app. reflexivity. }
  destruct X as (r2 & X). eexists _, r2. split; [reflexivity|]. split.
  { repeat constructor; cbn; lia. }
  split; [|split; [exact X|split; [exact L|reflexivity]]].
  change (removelast (resize (Z.of_nat (S (length F0))) (cmap d)) ++ [len (pre F0) + len (squash l0)] = ends 0 (map squash (F0 ++ [l0]))).
  rewrite EM, removelast_last, map_app, ends_app. cbn [map ends]. rewrite Z.add_0_l. reflexivity.
Qed.

Lemma unlock_in : forall o, In o unlock_ops -> In o unlock_ops.
Proof. auto. Qed.
(** Recovery without commit. *)
Lemma recovers_resting b d t d' : resting d t -> recovers c cs b d d' -> resting d' t /\ lock d' = false.
Proof.
  intros R H. induction H as [d l E|d l d1 d2 E C H IH].
  - unfold recover in E. assert (l = unlock_ops) as ->.
    { destruct b; cbn in E; [congruence|]. unfold restore in E. destruct R as [_ L]. rewrite L in E. cbn in E. congruence. }
    destruct R as [S L]. repeat split. exact S.
  - apply IH. unfold recover in E. assert (l = unlock_ops) as ->.
    { destruct b; cbn in E; [congruence|]. unfold restore in E. destruct R as [_ L]. rewrite L in E. cbn in E. congruence. }
    exact (resting_unlock _ _ _ _ R unlock_in C).
Qed.
Lemma recovers_shape d t d' : shape d t -> recovers c cs true d d' -> resting d' t /\ lock d' = false.
Proof.
  intros R H. remember true as b. induction H as [d l E|d l d1 d2 E C H IH]; subst b; unfold recover in E; cbn in E; injection E as <-.
  - repeat split. exact R.
  - apply (IH (shape_unlocking _ _ _ _ R unlock_in C)).
Qed.
Lemma recovers_kept F0 l0 d d' : kept F0 l0 d -> Forall good_chunk F0 -> good_last l0 -> recovers c cs false d d' ->
  resting d' (concat F0 ++ l0) /\ lock d' = false.
Proof.
  intros K HF Hl H. remember false as b.
  induction H as [d l E|d l d1 d2 E C H IH]; subst b; unfold recover in E; cbn in E;
    destruct (restore_kept F0 l0 d K HF Hl) as (os & r & Er & Ks & M & Ct & Li & Lk); rewrite Er in E; cbn in E; injection E as <-.
  - rewrite exec_app. split; [|reflexivity]. split; [|reflexivity].
    right. exists F0, l0, r. repeat split; auto; apply Hl.
  - destruct (crashed_app _ _ _ _ C) as [C1|C2].
    + apply IH. exact (kept_crashed _ _ _ _ _ K Ks C1).
    + assert (Sh : shape (exec d os) (concat F0 ++ l0)).
      { right. exists F0, l0, r. repeat split; auto; apply Hl. }
      pose proof (kept_exec _ _ _ _ K Ks) as K1.
      inversion C2; subst; [apply IH; exact K1|].
      match goal with X : crashed (exec1 _ RmTemp) _ _ |- _ => inversion X; subst end; [apply IH; apply (kept_exec1 _ _ _ RmTemp K1); exact Logic.I|].
      assert (R2 : resting d1 (concat F0 ++ l0)).
      { apply (resting_unlock (exec1 (exec1 (exec d os) RmTemp) RmLimits) _ [RmLock]); [split; [exact Sh|reflexivity]| |assumption]. intros o [<-|[]]. right; right; left; reflexivity. }
      exact (recovers_resting false d1 _ d2 R2 H).
Qed.

(** ** Calls that leave the files alone *)
Definition quiet (s : st) : Prop := synced (h s) = true /\ pend (h s) = None.
Definition still (s s' : st) : Prop := quiet s' /\ dk s' = dk s /\ done s' = done s.
Lemma still_refl s : quiet s -> still s s.
Proof. repeat split; apply H. Qed.
Lemma still_trans a b d : still a b -> still b d -> still a d.
Proof. intros (_ & A & B) (Q & A' & B'). split; [exact Q|]. split; congruence. Qed.
Lemma get_quiet p n s b s' : quiet s -> get c cs p n s = Ok (b, s') -> s' = s.
Proof.
  intros [_ P]. unfold get. rewrite (settle_none s P). destruct (_ || _); [discriminate|]. congruence.
Qed.
Lemma fetch_quiet i s s' : quiet s -> fetch_chunk c cs held i s = Ok s' -> still s s'.
Proof.
  intros Q H. pose proof Q as [Sy P]. unfold fetch_chunk in H. destruct (negb _); [discriminate|].
  destruct (_ && _); [injection H as <-; apply still_refl, Q|].
  unfold sync_last_chunk in H. rewrite Sy in H. cbn [bind] in H.
  assert (G : (let* where_ := chunk_start (map_ (h s)) i in let* e := chunk_end (map_ (h s)) i in
               let* (b, s) := get c cs where_ (e - where_) s in let* t := tang c b (cs + 1) in
               if cs <? len t then UB else Ok (on_h (set_chunk true i (Some t)) s)) = Ok s' -> still s s').
  { intros H'. destruct (chunk_start _ _) as [w| |]; try discriminate. cbn [bind] in H'.
    destruct (chunk_end _ _) as [e| |]; try discriminate. cbn [bind] in H'.
    destruct (get c cs w (e - w) s) as [[b s1]| |] eqn:E; try discriminate. cbn [bind] in H'.
    apply get_quiet in E; [|exact Q]. subst s1. destruct (tang c b (cs + 1)) as [t| |]; try discriminate. cbn [bind] in H'.
    destruct (cs <? len t); [discriminate|]. injection H' as <-. repeat split; cbn; auto. }
  destruct (limited (h s)); [|exact (G H)].
  destruct (Nat.eqb _ _); [|exact (G H)]. destruct (_ <? _); [discriminate|]. injection H as <-. repeat split; cbn; auto.
Qed.
Lemma fetch_last_quiet s s' : quiet s -> fetch_last_chunk c cs held s = Ok s' -> still s s'.
Proof. apply fetch_quiet. Qed.
Lemma read_full_quiet fuel : forall n i s t m j s', quiet s -> read_full c cs fuel n i s = Ok (t, m, j, s') -> s' = s.
Proof.
  induction fuel as [|fuel IH]; intros n i s t m j s' Q H; cbn [read_full] in H; [discriminate|].
  destruct (cs <? n); [|congruence].
  destruct (chunk_start _ _) as [w| |]; try discriminate. cbn [bind] in H.
  destruct (chunk_end _ _) as [e| |]; try discriminate. cbn [bind] in H.
  destruct (get c cs w (e - w) s) as [[b s1]| |] eqn:E; try discriminate. cbn [bind] in H.
  apply get_quiet in E; [|exact Q]. subst s1. destruct (tang c b (cs + 1)) as [x| |]; try discriminate. cbn [bind] in H.
  destruct (negb _); [discriminate|]. destruct (read_full _ _ _ _ _ _) as [[[[r d'] j'] s2]| |] eqn:E; try discriminate. cbn [bind] in H.
  injection H as _ _ _ <-. exact (IH _ _ _ _ _ _ _ Q E).
Qed.
Lemma read_quiet p n s t s' : quiet s -> flushed (h s) = true -> read c cs held p n s = Ok (t, s') -> still s s'.
Proof.
  intros Q Fl H. unfold read in H. unfold flush in H at 1. rewrite Fl, orb_true_r in H. cbn [bind] in H.
  destruct (chk _) as [e| |]; try discriminate. cbn [bind] in H.
  set (dd := if size (h s) <? e then _ else n) in *. clearbody dd.
  destruct (dd <=? 0); [injection H as _ <-; apply still_refl, Q|].
  set (st0 := if p <? 0 then 0 else p) in *. clearbody st0.
  match type of H with bind ?X _ = _ => destruct X as [[[[t0 d0] i0] s1]| |] eqn:E; try discriminate end.
  assert (S1 : still s s1).
  { destruct (0 <? st0 mod cs); [|injection E as _ _ _ <-; apply still_refl, Q].
    destruct (fetch_chunk _ _ _ _ s) as [s2| |] eqn:E2; try discriminate. cbn [bind] in E.
    destruct (from_chunk _ _ _) as [x| |]; try discriminate. cbn [bind] in E. injection E as _ _ _ <-. exact (fetch_quiet _ _ _ Q E2). }
  cbn [bind] in H. destruct (d0 =? 0); [injection H as _ <-; exact S1|].
  destruct (read_full _ _ _ _ _ s1) as [[[[t1 d1] i1] s2]| |] eqn:E2; try discriminate. cbn [bind] in H.
  apply read_full_quiet in E2; [|apply S1]. subst s2.
  destruct (fetch_chunk _ _ _ i1 s1) as [s3| |] eqn:E3; try discriminate. cbn [bind] in H.
  destruct (from_chunk _ _ _) as [x| |]; try discriminate. cbn [bind] in H. injection H as _ <-.
  exact (still_trans _ _ _ S1 (fetch_quiet _ _ _ (proj1 S1) E3)).
Qed.
Lemma dump_from_quiet n : forall i s t s', quiet s -> dump_from c cs held n i s = Ok (t, s') -> still s s'.
Proof.
  induction n as [|n IH]; intros i s t s' Q H; cbn [dump_from] in H; [injection H as _ <-; apply still_refl, Q|].
  destruct (fetch_chunk _ _ _ i s) as [s1| |] eqn:E; try discriminate. cbn [bind] in H. apply fetch_quiet in E; [|exact Q].
  destruct (chunk (h s1)) as [k|]; [|discriminate]. destruct (dump_from _ _ _ n _ s1) as [[r s2]| |] eqn:E2; try discriminate.
  cbn [bind] in H. injection H as _ <-. exact (still_trans _ _ _ E (IH _ _ _ _ (proj1 E) E2)).
Qed.
Lemma dump_quiet s t s' : quiet s -> dump c cs held s = Ok (t, s') -> still s s'.
Proof. apply dump_from_quiet. Qed.
Lemma flush_quiet s s' : flushed (h s) = true -> flush c cs held s = Ok s' -> s' = s.
Proof. intros F H. unfold flush in H. rewrite F, orb_true_r in H. congruence. Qed.
Lemma body_quiet s F l : body s F l -> flushed (h s) = true -> quiet s.
Proof. intros B Fl. exact (b_flushed _ _ _ _ _ B Fl). Qed.

(** ** Opening *)
Lemma open_body m ro lim d F l : body (St (Io m false true true 0 None ro lim None 0) d []) F l ->
  exists s, fetch_last_chunk c cs held (St (Io m false true true 0 None ro lim None 0) d []) = Ok s /\
            measure cs s = Ok (len (concat F ++ l)) /\
            body (St (set_size (len (concat F ++ l)) (h s)) d []) F l /\ flushed (h s) = true /\ limited (h s) = lim.
Proof.
  intros B. destruct (fetch_last_ok c cs held Hcs Hloss Hfit _ F l B) as (s & E & B' & X & V & I & C & Fl & Sz & P).
  assert (St' : still (St (Io m false true true 0 None ro lim None 0) d []) s).
  { refine (fetch_last_quiet _ _ _ E). split; reflexivity. }
  destruct St' as (Q & D & _). cbn in D. destruct X as (os & _ & _ & _ & _ & _ & Li). cbn in Li.
  exists s. split; [exact E|]. split; [apply (measure_ok c cs); assumption|]. split; [|split; [exact Fl|exact Li]].
  assert (dk s = d) by exact D. subst d. destruct s as [h0 d0 o0]. cbn in *. destruct B' as [b1 b2 b3 b4 b5 b6 b7 b8 b9 b10 b11]. constructor; cbn in *; auto.
  intros L1 L2. specialize (b6 L1 L2). rewrite settle_none in b6 by apply Q. rewrite settle_none by apply Q. exact b6.
Qed.
Lemma body_shape s F l : body s F l -> limited (h s) = None -> flushed (h s) = true -> shape (dk s) (concat F ++ l).
Proof.
  intros B Li Fl. destruct (b_flushed _ _ _ _ _ B Fl) as [Sy P]. right.
  destruct (b_set _ _ _ _ _ B Li Sy) as (r & Er). rewrite settle_none in Er by exact P.
  exists F, l, r. split; [apply (b_fulls _ _ _ _ _ B)|]. split; [apply (b_last _ _ _ _ _ B)|]. split; [reflexivity|]. split; [|exact Er].
  rewrite (b_cmap _ _ _ _ _ B Li). destruct (b_map _ _ _ _ _ B) as (e & Em & Ee). rewrite Em, (Ee Li Sy), map_app, ends_app.
  cbn [map ends]. rewrite Z.add_0_l. reflexivity.
Qed.
Lemma shape_body d F l r : Forall good_chunk F -> good_last l -> cmap d = ends 0 (map squash (F ++ [l])) -> contents d = pre F ++ squash l ++ r ->
  forall h0 os, map_ h0 = cmap d -> valid h0 = false -> synced h0 = true -> read_only h0 = false -> limited h0 = None -> pend h0 = None ->
  body (St h0 d os) F l.
Proof.
  intros HF Hl M C h0 os E V Sy Ro Li P. constructor; cbn; auto.
  - exists (len (pre F) + len (squash l)). split; [|auto]. rewrite E, M, map_app, ends_app. cbn [map ends]. rewrite Z.add_0_l. reflexivity.
  - eauto.
  - intros _ _. rewrite settle_none by exact P. cbn. eauto.
  - rewrite P. discriminate.
  - congruence.
  - congruence.
Qed.
Lemma ends_nonnil F l : ends 0 (map squash (F ++ [l])) <> [].
Proof. destruct F; discriminate. Qed.

(** ** The store and the flat file *)
Definition tx (w : program) (f : flat) (F : list bytes) (l : bytes) : Prop :=
  match mark f with
  | None => started w = false /\ limits (dk (s_ w)) = None /\ lock (dk (s_ w)) = false
  | Some t0 => started w = true /\ exists F0 l0, t0 = concat F0 ++ l0 /\ Forall good_chunk F0 /\ good_last l0 /\
      kept F0 l0 (dk (s_ w)) /\ grown F0 l0 F l /\ (pend (h (s_ w)) <> None -> (length F0 < length F)%nat)
  end.
Definition sys (w : program) (f : flat) : Prop :=
  (f = Flat [] None false /\ empty_store (s_ w) /\ started w = false /\ limits (dk (s_ w)) = None /\ lock (dk (s_ w)) = false) \/
  exists F l, body (s_ w) F l /\ limited (h (s_ w)) = None /\ size (h (s_ w)) = len (text f) /\ text f = concat F ++ l /\
    (unflushed f = false -> flushed (h (s_ w)) = true) /\ tx w f F l.

Lemma opened_ok d t : resting d t -> lock d = false -> exists w, opened c cs held d = Ok w /\ sys w (Flat t None false) /\ dk (s_ w) = d.
Proof.
  intros [[[-> M]|(F & l & r & HF & Hl & -> & M & C)] L] K; unfold opened, make; rewrite L, M.
  - cbn [bind]. eexists. split; [reflexivity|]. split; [|reflexivity]. left. repeat split; auto.
  - pose proof (ends_nonnil F l) as NE. destruct (ends 0 (map squash (F ++ [l]))) as [|e m] eqn:Em; [congruence|].
    destruct (open_body (e :: m) false None d F l) as (s & E & Ms & B & Fl & Li).
    { apply (shape_body d F l r); auto. rewrite M, Em. reflexivity. }
    rewrite E. cbn [bind]. rewrite Ms. cbn [bind]. eexists. split; [reflexivity|]. split; [|reflexivity]. right. exists F, l. cbn.
    splits; auto.
Qed.
End Life.
