(** Proofs about Hazel index blobs: what is written is what every lookup answers. *)
From Verif Require Import Base HopperModel ArrayDefs GclSpec GclProofs UnaryModel UnaryProofs AnswerProofs VectorModel Bytes CodecModel CodecSpec CodecProofs
  PostingModel PostingSpec PostingProofs PostingIO ShardModel ShardSpec ShardProofs HazelModel HazelSpec.

(* ------------------------------------------------------------------ *)
(** * Plain lists *)
Lemma plain_at_ok p l : holds p l -> exists o, plain_at p = Ok o /\
  match o with Some a => l = [Iv a a 0] \/ l = [Iv a a minf] | None => ~ exists a v, l = [Iv a a v] /\ fzero v = true end.
Proof.
  intros H. unfold plain_at. rewrite (holds_psize _ _ H). destruct H as (_ & _ & H).
  destruct (Z.of_nat (length l) =? 1) eqn:E.
  - destruct l as [|x [|y l]]; try (cbn in E; lia). rewrite (H 0%nat). cbn [nth_error bind].
    eexists. split; [reflexivity|]. cbn.
    destruct (ip x =? iq x) eqn:E1; cbn [andb].
    + destruct (fzero (ivl x)) eqn:E2.
      * apply fzero_spec in E2. destruct x as [a b v]; cbn in *. assert (b = a) by lia. subst b. destruct E2 as [->| ->]; auto.
      * intros (a & v & K & F). injection K as ->. cbn in E2. congruence.
    + intros (a & v & K & _). injection K as ->. cbn in E1. lia.
  - eexists. split; [reflexivity|]. intros (a & v & -> & _). cbn in E. lia.
Qed.
Lemma plain_at_value p l o : holds p l -> Forall value_ok l -> plain_at p = Ok o ->
  match o with Some a => l = [Iv a a 0] | None => True end.
Proof.
  intros H V E. destruct (plain_at_ok p l H) as (o' & E' & K). rewrite E in E'. injection E' as <-.
  destruct o as [a|]; [|exact Logic.I]. destruct K as [K|K]; [exact K|]. rewrite K in V.
  apply Forall_inv in V. unfold value_ok in V. cbn in V. contradiction.
Qed.
Lemma plain_holds f a : holds (plain_posting f a) [Iv a a 0].
Proof. apply (push_holds _ [] (Iv a a 0) (feature_holds f)); cbn; [lia|unfold value_ok, minf; cbn; lia]. Qed.
Lemma plain_feature f a : feature (plain_posting f a) = f.
Proof. reflexivity. Qed.

(** What a list is when it comes back from a blob. *)
Definition as_read (p : posting) : posting :=
  match plain_at p with Ok (Some a) => plain_posting (feature p) a | _ => p end.
Lemma as_read_holds p l : holds p l -> Forall value_ok l -> holds (as_read p) l.
Proof.
  intros H V. unfold as_read. destruct (plain_at_ok p l H) as (o & E & _). rewrite E.
  pose proof (plain_at_value p l o H V E) as K. destruct o as [a|]; [|exact H]. rewrite K. apply plain_holds.
Qed.
Lemma as_read_feature p : feature (as_read p) = feature p.
Proof. unfold as_read. destruct (plain_at p) as [[a|]| |]; reflexivity. Qed.
Lemma plain_posting_eq f a : plain_posting f a = Posting f [a] [] [].
Proof. unfold plain_posting, push. cbn. rewrite Z.ltb_irrefl. reflexivity. Qed.
Lemma plain_at_plain f a : plain_at (plain_posting f a) = Ok (Some a).
Proof. rewrite plain_posting_eq. unfold plain_at, psize, len, get, idx. cbn. rewrite Z.ltb_irrefl. cbn. change (1 =? 1) with true. cbn. rewrite !Z.eqb_refl. reflexivity. Qed.
Lemma as_read_idem p : as_read (as_read p) = as_read p.
Proof.
  destruct (plain_at p) as [[a|]| |] eqn:E.
  1:{ assert (A : as_read p = plain_posting (feature p) a) by (unfold as_read; rewrite E; reflexivity).
      rewrite A. unfold as_read. rewrite plain_at_plain. reflexivity. }
  all: assert (A : as_read p = p) by (unfold as_read; rewrite E; reflexivity); rewrite !A; reflexivity.
Qed.

(* ------------------------------------------------------------------ *)
(** * Layout *)
Section Compressors.
Variables cp cf : compressor.

Inductive laid : Z -> index -> bytes -> list entry -> Prop :=
| laid_nil : forall b, laid b [] [] []
| laid_plain : forall b f p a r body d, plain_at p = Ok (Some a) -> laid b r body d ->
    laid b ((f, p) :: r) body (Entry f b a :: d)
| laid_list : forall b f p x r body d, plain_at p = Ok None -> write cp cf p = Ok x -> laid (b + len x) r body d ->
    laid b ((f, p) :: r) (x ++ body) (Entry f (b + len x) (psize p) :: d).

Definition good_row (r : Z * posting) : Prop :=
  feature (snd r) = fst r /\ storable cp cf (snd r) /\ exists l, holds (snd r) l /\ l <> [] /\ Forall value_ok l.

Lemma laid_exists ix : Forall good_row ix -> forall b, exists body d, laid b ix body d.
Proof.
  induction 1 as [|[f p] ix (Ff & S & l & H & N & V) _ IH]; intros b; [do 2 eexists; constructor|].
  cbn [fst snd] in *. destruct (plain_at_ok p l H) as ([a|] & E & _).
  - destruct (IH b) as (body & d & L). do 2 eexists. econstructor; eassumption.
  - destruct (write_ok cp cf p l H S) as (x & Ex & _). destruct (IH (b + len x)) as (body & d & L).
    do 2 eexists. eapply laid_list; eassumption.
Qed.
Lemma laid_fun b ix body d : laid b ix body d -> forall body' d', laid b ix body' d' -> body' = body /\ d' = d.
Proof.
  induction 1 as [b|b f p a r body d E _ IH|b f p x r body d E W _ IH]; intros body' d' L; inversion L; clear L; subst.
  - auto.
  - replace a0 with a by congruence. match goal with K : laid _ _ _ _ |- _ => destruct (IH _ _ K) as [-> ->] end. auto.
  - congruence.
  - congruence.
  - assert (x0 = x) as -> by congruence. match goal with K : laid _ _ _ _ |- _ => destruct (IH _ _ K) as [-> ->] end. auto.
Qed.
Lemma laid_features b ix body d : laid b ix body d -> map en_feature d = map fst ix.
Proof. induction 1; cbn; congruence. Qed.
Lemma laid_app_inv r1 : forall b r2 body d, laid b (r1 ++ r2) body d ->
  exists b1 d1 b2 d2, body = b1 ++ b2 /\ d = d1 ++ d2 /\ laid b r1 b1 d1 /\ laid (b + len b1) r2 b2 d2.
Proof.
  induction r1 as [|[f p] r1 IH]; intros b r2 body d L; cbn in L.
  - exists [], [], body, d. rewrite Z.add_0_r. repeat split; auto. constructor.
  - inversion L; clear L; subst.
    + match goal with K : laid _ _ _ _ |- _ => destruct (IH _ _ _ _ K) as (b1 & d1 & b2 & d2 & -> & -> & L1 & L2) end.
      exists b1, (Entry f b a :: d1), b2, d2. repeat split; auto. constructor; assumption.
    + match goal with K : laid _ _ _ _ |- _ => destruct (IH _ _ _ _ K) as (b1 & d1 & b2 & d2 & -> & -> & L1 & L2) end.
      exists (x ++ b1), (Entry f (b + len x) (psize p) :: d1), b2, d2. rewrite app_assoc. repeat split; auto.
      * constructor; assumption.
      * rewrite len_app, Z.add_assoc. exact L2.
Qed.
Lemma laid_app r1 b b1 d1 : laid b r1 b1 d1 -> forall r2 b2 d2, laid (b + len b1) r2 b2 d2 ->
  laid b (r1 ++ r2) (b1 ++ b2) (d1 ++ d2).
Proof.
  induction 1 as [b|b f p a r body d E _ IH|b f p x r body d E W _ IH]; intros r2 b2 d2 L; cbn in *.
  - rewrite Z.add_0_r in L. exact L.
  - constructor; auto.
  - rewrite <- app_assoc. constructor; auto. apply IH. rewrite len_app, Z.add_assoc in L. exact L.
Qed.
(** Ends rise from [b] to the end of the body. *)
Definition last_end (b : Z) (d : list entry) : Z := match last_of d with Some e => en_end e | None => b end.
Lemma last_of_app d e : last_of (d ++ [e]) = Some e.
Proof. unfold last_of. rewrite rev_unit. reflexivity. Qed.
Lemma last_end_cons b e d : last_end b (e :: d) = last_end (en_end e) d.
Proof.
  destruct (rev d) as [|x r] eqn:R.
  - assert (d = []) as -> by (rewrite <- (rev_involutive d), R; reflexivity). reflexivity.
  - assert (d = rev r ++ [x]) as -> by (rewrite <- (rev_involutive d), R; reflexivity).
    unfold last_end. rewrite app_comm_cons, !last_of_app. reflexivity.
Qed.
Lemma laid_last b ix body d : laid b ix body d -> last_end b d = b + len body.
Proof.
  induction 1 as [b|b f p a r body d E _ IH|b f p x r body d E W _ IH].
  - cbn. unfold len. cbn. lia.
  - rewrite last_end_cons. exact IH.
  - rewrite last_end_cons. cbn [en_end]. rewrite IH, len_app. lia.
Qed.
Lemma laid_bounded b ix body d : laid b ix body d -> forall hi, b + len body <= hi -> bounded b hi d = true.
Proof.
  induction 1 as [b|b f p a r body d E _ IH|b f p x r body d E W _ IH]; intros hi Hh; cbn [bounded en_end]; [reflexivity| |].
  - pose proof (len_nonneg body). rewrite (IH hi Hh). lia.
  - rewrite len_app in Hh. pose proof (len_nonneg body). pose proof (len_nonneg x).
    rewrite IH by lia. lia.
Qed.
Lemma laid_ends b ix body d : laid b ix body d -> Forall (fun e => b <= en_end e <= b + len body) d.
Proof.
  induction 1 as [b|b f p a r body d E _ IH|b f p x r body d E W _ IH]; constructor; cbn [en_end].
  - pose proof (len_nonneg body). lia.
  - exact IH.
  - rewrite len_app. pose proof (len_nonneg body). pose proof (len_nonneg x). lia.
  - rewrite len_app. pose proof (len_nonneg x). eapply Forall_impl; [|exact IH]. cbn. intros e K. lia.
Qed.
Lemma storable_psize p l : holds p l -> storable cp cf p -> 0 <= psize p <= maxf.
Proof.
  intros H (_ & _ & _ & _ & A & _ & B & _). pose proof (holds_psize _ _ H). unfold maxf in *. lia.
Qed.
Lemma laid_addrs b ix body d : laid b ix body d -> Forall good_row ix -> 0 <= b -> b + len body <= maxf ->
  Forall (fun e => is_addr (en_feature e) /\ is_addr (en_end e) /\ is_addr (en_val e)) d.
Proof.
  intros L G. induction L as [b|b f p a r body d E L IH|b f p x r body d E W L IH]; intros B M; [constructor| |].
  - inversion G as [|? ? (Ff & S & l & H & N & V) G']; subst. cbn in Ff, S, H. constructor; [|auto].
    cbn. destruct S as (A & B1 & _). split; [rewrite <- Ff; exact A|]. pose proof (len_nonneg body). split; [unfold is_addr, minf; lia|].
    pose proof (plain_at_value p l _ H V E) as K. rewrite K in H. apply rep_holds in H. pose proof (rep_ip _ _ H) as R. cbn in R.
    rewrite R in B1. apply Forall_inv in B1. exact B1.
  - inversion G as [|? ? (Ff & S & l & H & N & V) G']; subst. cbn in Ff, S, H. rewrite len_app in M.
    pose proof (len_nonneg x). pose proof (len_nonneg body). constructor; [|apply IH; [exact G'|lia|lia]].
    cbn. pose proof (storable_psize p l H S). destruct S as (A & _). split; [rewrite <- Ff; exact A|]. unfold is_addr, minf in *. split; lia.
Qed.

Lemma write_rows_laid start ix : forall b body d, laid b ix body d -> forall out, len out - start = b ->
  write_rows cp cf start out ix = Ok (out ++ body, d).
Proof.
  induction 1 as [b|b f p a r body d E _ IH|b f p x r body d E W _ IH]; intros out O; cbn [write_rows].
  - rewrite app_nil_r. reflexivity.
  - rewrite E. cbn [bind]. rewrite (IH out O). cbn [bind]. rewrite O. reflexivity.
  - rewrite E. cbn [bind]. rewrite W. cbn [bind].
    assert (O' : len (out ++ x) - start = b + len x) by (rewrite len_app; lia).
    rewrite (IH _ O'). cbn [bind]. rewrite O', <- app_assoc. reflexivity.
Qed.

Definition blob_of (body : bytes) (d : list entry) : bytes :=
  idx_magic ++ word_bytes [header_length + len body; len (dir_bytes d); len d] ++ body ++ dir_bytes d.

Lemma len_entry e : len (entry_bytes e) = 24.
Proof. unfold entry_bytes. rewrite len_word_bytes. reflexivity. Qed.
Lemma len_dir d : len (dir_bytes d) = 24 * len d.
Proof.
  induction d as [|e d IH]; [reflexivity|]. cbn [dir_bytes flat_map]. fold (dir_bytes d). rewrite len_app, len_entry, IH, len_cons. lia.
Qed.
Lemma dir_app a b : dir_bytes (a ++ b) = dir_bytes a ++ dir_bytes b.
Proof. apply flat_map_app. Qed.
Lemma header_len_eq : header_length = 45. Proof. reflexivity. Qed.
Lemma len_blob body d : len (blob_of body d) = header_length + len body + 24 * len d.
Proof. unfold blob_of. rewrite !len_app, len_word_bytes, len_dir. rewrite header_len_eq. change (len idx_magic) with 21. change (len [_; _; _]) with 3. lia. Qed.

Lemma patch_middle a x y r : len y = len x -> patch (a ++ x ++ r) (len a) y = a ++ y ++ r.
Proof.
  intros E. unfold patch. rewrite E. unfold len. rewrite Nat2Z.id.
  replace (Z.to_nat (Z.of_nat (length a) + Z.of_nat (length x))) with (length a + length x)%nat by lia.
  rewrite firstn_app, Nat.sub_diag, firstn_all, firstn_O, app_nil_r. f_equal. f_equal.
  rewrite skipn_app. rewrite (skipn_all2 a) by lia. replace (length a + length x - length a)%nat with (length x) by lia.
  rewrite skipn_app, skipn_all, Nat.sub_diag. reflexivity.
Qed.

Lemma write_blob_ok ix body d pre : laid header_length ix body d ->
  write_idx_blob cp cf pre ix = Ok (pre ++ blob_of body d, len pre, len (blob_of body d)).
Proof.
  intros L. unfold write_idx_blob.
  rewrite (write_rows_laid (len pre) ix _ _ _ L).
  2:{ rewrite !len_app, len_word_bytes. rewrite header_len_eq. change (len idx_magic) with 21. change (len [0; 0; 0]) with 3. lia. }
  cbn [bind]. f_equal. f_equal; [f_equal|].
  - replace (len ((pre ++ idx_magic ++ word_bytes [0; 0; 0]) ++ body) - len pre) with (header_length + len body)
      by (rewrite !len_app, len_word_bytes, header_len_eq; change (len idx_magic) with 21; change (len [0; 0; 0]) with 3; lia).
    replace (len (((pre ++ idx_magic ++ word_bytes [0; 0; 0]) ++ body) ++ dir_bytes d) - len pre - (header_length + len body))
      with (len (dir_bytes d))
      by (rewrite !len_app, len_word_bytes, header_len_eq; change (len idx_magic) with 21; change (len [0; 0; 0]) with 3; lia).
    replace (len pre + len idx_magic) with (len (pre ++ idx_magic)) by apply len_app.
    replace (((pre ++ idx_magic ++ word_bytes [0; 0; 0]) ++ body) ++ dir_bytes d)
      with ((pre ++ idx_magic) ++ word_bytes [0; 0; 0] ++ body ++ dir_bytes d) by (rewrite <- !app_assoc; reflexivity).
    rewrite patch_middle by (rewrite !len_word_bytes; reflexivity).
    unfold blob_of. rewrite <- !app_assoc. reflexivity.
  - rewrite len_blob. rewrite !len_app, len_word_bytes, len_dir, header_len_eq. change (len idx_magic) with 21. change (len [0; 0; 0]) with 3. lia.
Qed.

(* ------------------------------------------------------------------ *)
(** * Loading *)
Lemma file_read_app a b c o n : o = len a -> n = len b -> file_read (a ++ b ++ c) o n = Some b.
Proof.
  intros -> ->. unfold file_read. pose proof (len_nonneg b). pose proof (len_nonneg a). pose proof (len_nonneg c).
  replace (len b <? 0) with false by lia. destruct (len b =? 0) eqn:E.
  - destruct b; [reflexivity|]. rewrite len_cons in E. pose proof (len_nonneg b). lia.
  - rewrite !len_app. replace ((len a <? 0) || (len a + (len b + len c) <? len a + len b)) with false by lia.
    rewrite slice_app by reflexivity. reflexivity.
Qed.
Lemma triples_words d : Forall (fun e => is_addr (en_feature e) /\ is_addr (en_end e) /\ is_addr (en_val e)) d ->
  triples (words (dir_bytes d)) = d.
Proof.
  induction 1 as [|e d (A & B & C) _ IH]; [reflexivity|]. cbn [dir_bytes flat_map]. fold (dir_bytes d).
  unfold entry_bytes. rewrite (words_app [en_feature e; en_end e; en_val e]) by (constructor; [exact A|constructor; [exact B|constructor; [exact C|constructor]]]). cbn [app triples]. rewrite IH. destruct e; reflexivity.
Qed.

Lemma load_ok ix body d pre post : laid header_length ix body d -> Forall good_row ix ->
  len (blob_of body d) <= maxf ->
  load (pre ++ blob_of body d ++ post) (len pre) (len (blob_of body d)) = Ok (Some (Hidx (pre ++ blob_of body d ++ post) (len pre) d)).
Proof.
  intros L G M. pose proof M as M'. rewrite len_blob in M'. pose proof (len_nonneg body) as Nb. pose proof (len_nonneg d) as Nd.
  unfold load. rewrite len_blob. rewrite header_len_eq in *. 
  replace (45 + len body + 24 * len d <? 45) with false by lia.
  set (hdr := word_bytes [header_length + len body; len (dir_bytes d); len d]).
  assert (Eb : blob_of body d = (idx_magic ++ hdr) ++ body ++ dir_bytes d) by (unfold blob_of, hdr; rewrite <- !app_assoc; reflexivity).
  assert (Lh : len (idx_magic ++ hdr) = 45) by (unfold hdr; rewrite len_app, len_word_bytes; reflexivity).
  rewrite Eb at 1. rewrite <- (app_assoc (idx_magic ++ hdr)).
  rewrite file_read_app by (symmetry; exact Lh || reflexivity).
  unfold len at 1. rewrite Nat2Z.id. rewrite firstn_app, firstn_all, Nat.sub_diag, firstn_O, app_nil_r.
  rewrite eqb_bytes_refl. cbn [negb]. unfold len at 1. rewrite Nat2Z.id, skipn_app, skipn_all, Nat.sub_diag. cbn [skipn app].
  assert (Wh : words hdr = [header_length + len body; len (dir_bytes d); len d]).
  { unfold hdr. apply words_bytes. rewrite len_dir, header_len_eq. unfold is_addr, minf, maxf in *. repeat constructor; lia. }
  rewrite Wh. rewrite header_len_eq, len_dir.
  replace ((45 + len body <? 45) || (24 * len d <? 0) || (len d <? 0)) with false by lia.
  unfold chk, minf. unfold maxf in M'. 
  replace ((-9223372036854775808 <=? 45 + len body + 24 * len d) && (45 + len body + 24 * len d <=? maxf)) with true by (unfold maxf; lia).
  cbn [bind]. rewrite Z.ltb_irrefl.
  replace ((-9223372036854775808 <=? len d * 24) && (len d * 24 <=? maxf)) with true by (unfold maxf; lia).
  cbn [bind]. replace (24 * len d =? len d * 24) with true by lia. cbn [negb].
  assert (Er : pre ++ blob_of body d ++ post = (pre ++ (idx_magic ++ hdr) ++ body) ++ dir_bytes d ++ post)
    by (rewrite Eb, <- !app_assoc; reflexivity).
  rewrite Er at 1. rewrite file_read_app; [| |symmetry; apply len_dir].
  2:{ rewrite !len_app. rewrite len_app in Lh. lia. }
  rewrite triples_words. 2:{ eapply laid_addrs; [exact L|exact G|lia|unfold maxf; lia]. }
  pose proof (laid_bounded _ _ _ _ L (45 + len body)) as B. rewrite B by lia. reflexivity.
Qed.

(* ------------------------------------------------------------------ *)
(** * Looking up *)
Lemma map_order_tail f fs : map_order (f :: fs) -> map_order fs.
Proof. destruct fs; cbn; tauto. Qed.
Lemma map_order_head f fs : map_order (f :: fs) -> Forall (fun g => f < g) fs.
Proof.
  revert f. induction fs as [|g fs IH]; intros f H; constructor; [apply H|].
  destruct H as [H1 H2]. eapply Forall_impl; [|exact (IH g H2)]. cbn. intros a K. lia.
Qed.
Lemma partitioned_ok d f : map_order (map en_feature d) -> partitioned d f = true.
Proof.
  unfold partitioned. induction d as [|e d IH]; intros M; [reflexivity|]. cbn [below].
  destruct (en_feature e <? f) eqn:E.
  - cbn [skipn]. apply IH. exact (map_order_tail _ _ M).
  - cbn [skipn forallb]. rewrite E. cbn. cbn [map] in M. apply map_order_head in M. rewrite Forall_map in M.
    apply forallb_forall. intros x Hx. rewrite Forall_forall in M. specialize (M x Hx). cbn in M. lia.
Qed.
Lemma nth_below_cons e d f : nth_error (e :: d) (below (e :: d) f) =
  if en_feature e <? f then nth_error d (below d f) else Some e.
Proof. cbn [below]. destruct (en_feature e <? f); reflexivity. Qed.

(** The row of [f] in the layout. *)
Lemma laid_find b ix body d : laid b ix body d -> map_order (map fst ix) -> forall f,
  match find_posting ix f with
  | None => match nth_error d (below d f) with Some e => en_feature e <> f | None => True end
  | Some p => exists r1 r2 b1 d1 b2 d2 e, ix = r1 ++ (f, p) :: r2 /\ body = b1 ++ b2 /\ d = d1 ++ e :: d2 /\
      below d f = length d1 /\ laid b r1 b1 d1 /\ laid (b + len b1) ((f, p) :: r2) b2 (e :: d2)
  end.
Proof.
  intros L M f. revert b body d L. induction ix as [|[g p] ix IH]; intros b body d L.
  - inversion L; subst. cbn. exact Logic.I.
  - assert (L0 := L). assert (M' := map_order_tail _ _ M). cbn [map fst] in M. pose proof (map_order_head _ _ M) as Lt. cbn [find_posting].
    assert (C : exists e d' b' x, d = e :: d' /\ en_feature e = g /\ laid (b + len x) ix b' d' /\ body = x ++ b' /\ laid b [(g, p)] x [e]).
    { inversion L; subst.
      - exists (Entry g b a), d0, body, []. rewrite Z.add_0_r. repeat split; auto. constructor; [assumption|constructor].
      - exists (Entry g (b + len x) (psize p)), d0, body0, x. repeat split; auto. pose proof (laid_list b g p x [] [] [] H3 H6 (laid_nil _)) as Q. rewrite app_nil_r in Q. exact Q. }
    destruct C as (e & d' & b' & x & -> & Eg & L' & -> & L1).
    destruct (Z.eqb_spec g f) as [<-|Ngf].
    + exists [], ix, [], [], (x ++ b'), d', e. rewrite Z.add_0_r.
      split; [reflexivity|]. split; [reflexivity|]. split; [reflexivity|].
      split; [cbn [below]; rewrite Eg, Z.ltb_irrefl; reflexivity|]. split; [constructor|exact L0].
    + specialize (IH M' _ _ _ L'). rewrite nth_below_cons, Eg.
      destruct (find_posting ix f) as [q|] eqn:F.
      * assert (g < f). { rewrite Forall_forall in Lt. apply Lt. exact (find_some_in _ _ _ F). }
        destruct IH as (r1 & r2 & b1 & d1 & b2 & d2 & e2 & -> & -> & -> & Eb & K1 & K2).
        exists ((g, p) :: r1), r2, (x ++ b1), (e :: d1), b2, d2, e2.
        split; [reflexivity|]. split; [rewrite app_assoc; reflexivity|]. split; [reflexivity|].
        split; [cbn [below]; rewrite Eg; replace (g <? f) with true by lia; rewrite Eb; reflexivity|].
        split; [exact (laid_app [(g, p)] b x [e] L1 r1 b1 d1 K1)|]. rewrite len_app, Z.add_assoc. exact K2.
      * destruct (g <? f) eqn:E; [exact IH|]. rewrite Eg. exact Ngf.
Qed.

Lemma start_of_last d1 e d2 : start_of (d1 ++ e :: d2) (length d1) = last_end header_length d1.
Proof.
  unfold last_end, last_of. destruct (rev d1) as [|x r] eqn:R.
  - assert (d1 = []) as -> by (rewrite <- (rev_involutive d1), R; reflexivity). reflexivity.
  - assert (Ed : d1 = rev r ++ [x]) by (rewrite <- (rev_involutive d1), R; reflexivity).
    rewrite Ed, app_length, Nat.add_1_r. cbn [start_of]. rewrite <- app_assoc, nth_error_app2 by lia.
    rewrite Nat.sub_diag. reflexivity.
Qed.

(** What is known of the entry of a feature. *)
Inductive entry_is (h : hidx) (f : Z) (p : posting) (i : nat) (e : entry) : Prop :=
| Entry_plain : forall a, plain_at p = Ok (Some a) -> start_of (hx_dir h) i = en_end e -> en_val e = a -> entry_is h f p i e
| Entry_list : forall x, plain_at p = Ok None -> write cp cf p = Ok x -> start_of (hx_dir h) i < en_end e ->
    file_read (hx_file h) (hx_offset h + start_of (hx_dir h) i) (en_end e - start_of (hx_dir h) i) = Some x ->
    en_val e = psize p -> entry_is h f p i e.

Lemma written_long p l x : holds p l -> storable cp cf p -> write cp cf p = Ok x -> 40 <= len x.
Proof.
  intros H S W. destruct (write_ok cp cf p l H S) as (b & E & K). rewrite W in E. injection E as <-.
  destruct K as [K A|bp bq bf K A P Q R]; rewrite ?len_app, len_word_bytes; change (len [_; _; _; _; _]) with 5;
    pose proof (len_nonneg (@nil Z)); [lia|]. pose proof (len_nonneg bp). pose proof (len_nonneg bq). pose proof (len_nonneg bf). lia.
Qed.

Definition hidx_of (pre post body : bytes) (d : list entry) : hidx := Hidx (pre ++ blob_of body d ++ post) (len pre) d.

Lemma blob_slice pre post b1 x b2 d :
  file_read (pre ++ blob_of (b1 ++ x ++ b2) d ++ post) (len pre + (header_length + len b1)) (len x) = Some x.
Proof.
  assert (Er : pre ++ blob_of (b1 ++ x ++ b2) d ++ post
     = (pre ++ idx_magic ++ word_bytes [header_length + len (b1 ++ x ++ b2); len (dir_bytes d); len d] ++ b1) ++ x ++ (b2 ++ dir_bytes d ++ post))
    by (unfold blob_of; rewrite <- !app_assoc; reflexivity).
  rewrite Er. apply file_read_app; [|reflexivity].
  rewrite !len_app, len_word_bytes, header_len_eq. change (len idx_magic) with 21. change (len [_; _; _]) with 3. lia.
Qed.

Lemma locate_ok ix body d pre post : laid header_length ix body d -> writable cp cf ix ->
  let h := hidx_of pre post body d in
  forall f, match find_posting ix f with
  | None => locate (hx_dir h) f = Ok None
  | Some p => exists i e, locate (hx_dir h) f = Ok (Some (i, e)) /\ en_feature e = f /\ nth_error (hx_dir h) i = Some e /\ entry_is h f p i e
  end.
Proof.
  intros L [M G] h f. pose proof (laid_find _ _ _ _ L M f) as K.
  assert (P : partitioned d f = true) by (apply partitioned_ok; rewrite (laid_features _ _ _ _ L); exact M).
  unfold locate, h. cbn [hx_dir hidx_of]. rewrite P. cbn [negb].
  destruct (find_posting ix f) as [p|] eqn:F.
  - destruct K as (r1 & r2 & b1 & d1 & b2 & d2 & e & Eix & Ebd & Ed & Eb & L1 & L2).
    rewrite Eb. assert (Nt : nth_error d (length d1) = Some e) by (rewrite Ed, nth_error_app2, Nat.sub_diag by lia; reflexivity).
    rewrite Nt.
    assert (Ef : en_feature e = f) by (inversion L2; subst; reflexivity).
    rewrite Ef, Z.eqb_refl. exists (length d1), e. split; [reflexivity|]. split; [exact Ef|]. split; [exact Nt|].
    assert (St : start_of (hx_dir (hidx_of pre post body d)) (length d1) = header_length + len b1).
    { cbn [hx_dir hidx_of]. rewrite Ed, start_of_last. apply (laid_last _ _ _ _ L1). }
    assert (Gp : good_row (f, p)) by (rewrite Forall_forall in G; apply G; rewrite Eix; apply in_or_app; right; left; reflexivity).
    destruct Gp as (Ff & S & l & H & N & V). cbn [fst snd] in *.
    inversion L2; subst.
    + econstructor; [eassumption| |reflexivity]. rewrite St. reflexivity.
    + match goal with K : write cp cf p = Ok x |- _ => pose proof (written_long p l x H S K) end. eapply Entry_list; [eassumption|eassumption| | |reflexivity].
      * rewrite St. cbn [en_end]. lia.
      * rewrite St. cbn [en_end hx_file hx_offset hidx_of].
        replace (header_length + len b1 + len x - (header_length + len b1)) with (len x) by lia.
        apply blob_slice.
  - destruct (nth_error d (below d f)) as [e|]; [|reflexivity]. apply Z.eqb_neq in K. rewrite K. reflexivity.
Qed.

Lemma append_new p l : holds p l -> append (posting_from_feature (feature p)) p = Ok p.
Proof.
  intros H. unfold append, posting_from_feature. cbn [feature postings qostings fostings app length repeat]. rewrite Z.eqb_refl. cbn [negb].
  destruct p as [f ps qs fs]. cbn. destruct qs, fs; reflexivity.
Qed.

Section Entry.
Variables (h : hidx) (f : Z) (p : posting) (l : list iv) (i : nat) (e : entry).
Hypothesis (Ff : feature p = f) (S : storable cp cf p) (H : holds p l) (N : l <> []) (V : Forall value_ok l).
Hypothesis (E : entry_is h f p i e) (Ee : en_feature e = f) (Lc : locate (hx_dir h) f = Ok (Some (i, e))).

Lemma entry_posting_at : posting_at cp cf h i e = Ok (Some (as_read p)).
Proof.
  unfold posting_at, as_read. destruct E as [a P St Va|x P W St Rd Va]; rewrite P.
  - rewrite St, Z.eqb_refl, Ee, Va, Ff. reflexivity.
  - replace (start_of (hx_dir h) i =? en_end e) with false by lia.
    replace (en_end e <? start_of (hx_dir h) i) with false by lia. rewrite Rd.
    destruct (write_read cp cf p l H S) as (b & Eb & _ & Rb & _). rewrite W in Eb. injection Eb as <-. rewrite Rb. cbn [bind].
    rewrite Ff, Ee, Z.eqb_refl. reflexivity.
Qed.
Lemma entry_posting : hazel_posting cp cf h f = Ok (Some (as_read p)).
Proof.
  unfold hazel_posting, as_read. rewrite Lc. cbn [bind]. destruct E as [a P St Va|x P W St Rd Va]; rewrite P.
  - rewrite St, Z.eqb_refl, Va, Ff. reflexivity.
  - replace (start_of (hx_dir h) i =? en_end e) with false by lia.
    replace (en_end e <? start_of (hx_dir h) i) with false by lia. unfold fill. rewrite Rd.
    destruct (write_read cp cf p l H S) as (b & Eb & _ & Rb & _). rewrite W in Eb. injection Eb as <-. rewrite Rb. cbn [bind].
    rewrite Ff, Va, !Z.eqb_refl. cbn [andb]. rewrite <- Ff, (append_new p l H). reflexivity.
Qed.
Lemma entry_count : hazel_count h f = Ok (psize p).
Proof.
  unfold hazel_count. rewrite Lc. cbn [bind]. destruct E as [a P St Va|x P W St Rd Va].
  - rewrite St, Z.eqb_refl. pose proof (plain_at_value p l _ H V P) as K. rewrite (holds_psize _ _ H), K. reflexivity.
  - replace (start_of (hx_dir h) i =? en_end e) with false by lia. rewrite Va. reflexivity.
Qed.
Lemma entry_hopper : gcdup l -> Z.of_nat (length l) <= max_len ->
  exists o, hazel_hopper cp cf h f = Ok o /\ answers (projT1 o) (projT2 o) (set_of l).
Proof.
  intros G M. unfold hazel_hopper. rewrite Lc. cbn [bind]. destruct E as [a P St Va|x P W St Rd Va].
  - rewrite St, Z.eqb_refl. eexists. split; [reflexivity|]. cbn [projT1 projT2 singleton_obj].
    pose proof (plain_at_value p l _ H V P) as K. rewrite Va. rewrite K in *.
    apply (answers_eqs _ _ (eq (Iv a a 0))); [intros y; unfold set_of; cbn; tauto|]. apply singleton_answers, G.
  - replace (start_of (hx_dir h) i =? en_end e) with false by lia.
    replace (en_end e <? start_of (hx_dir h) i) with false by lia. unfold fill. rewrite Rd.
    destruct (write_read cp cf p l H S) as (b & Eb & _ & Rb & _). rewrite W in Eb. injection Eb as <-. rewrite Rb. cbn [bind].
    rewrite Ff, Va, !Z.eqb_refl. cbn [andb]. rewrite <- Ff, (append_new p l H). cbn [bind]. apply array_obj_ok; assumption.
Qed.
End Entry.

Lemma find_good ix f p : Forall good_row ix -> find_posting ix f = Some p -> good_row (f, p).
Proof.
  induction 1 as [|[g q] ix G _ IH]; cbn; [discriminate|]. destruct (Z.eqb_spec g f) as [<-|]; [|exact IH].
  intros K. injection K as <-. exact G.
Qed.

Lemma answers_as_ok ix body d pre post : laid header_length ix body d -> writable cp cf ix ->
  answers_as cp cf (hidx_of pre post body d) ix.
Proof.
  intros L Wr. pose proof Wr as [M G]. split.
  - unfold hazel_vocab. cbn. pose proof (laid_features _ _ _ _ L) as E. apply (f_equal (@length Z)) in E. rewrite !map_length in E. unfold len. rewrite E. reflexivity.
  - intros f. pose proof (locate_ok ix body d pre post L Wr f) as K. cbn zeta in K. unfold fiver_count.
    destruct (find_posting ix f) as [p|] eqn:F.
    + destruct K as (i & e & Lc & Ee & _ & En). destruct (find_good ix f p G F) as (Ff & S & l & H & N & V). cbn [fst snd] in *.
      split; [exact (entry_count _ _ _ _ _ _ H V En Lc)|]. split.
      * exists (as_read p). split; [exact (entry_posting _ _ _ _ _ _ Ff S H En Lc)|].
        split; [symmetry; apply as_read_feature|]. intros j. pose proof (as_read_holds p l H V) as (_ & _ & Ra). destruct H as (_ & _ & Rb).
        rewrite Ra, Rb. reflexivity.
      * intros (_ & l' & H' & N' & G' & V') Sz. rewrite (holds_psize _ _ H') in Sz.
        assert (Lm : Z.of_nat (length l') <= max_len) by (unfold max_len; lia).
        destruct (entry_hopper _ _ _ _ _ _ Ff S H' N' V' En Lc G' Lm) as (o & Eo & Ao).
        exists o. split; [exact Eo|]. apply (answers_eqs _ _ (set_of l')); [|exact Ao].
        intros x. unfold set_of. rewrite <- (holds_In p l' x H'). unfold stored_in. rewrite F.
        split; [intros [j Hj]; eauto|intros (q & j & Q & Hj); injection Q as <-; eauto].
    + split; [unfold hazel_count; rewrite K; reflexivity|].
      split; [unfold hazel_posting; rewrite K; reflexivity|unfold hazel_hopper; rewrite K; reflexivity].
Qed.

Theorem blob_answers ix : writable cp cf ix ->
  exists blob, (forall before, write_idx_blob cp cf before ix = Ok (before ++ blob, len before, len blob)) /\
    (len blob <= maxf -> forall before after, exists h,
       load (before ++ blob ++ after) (len before) (len blob) = Ok (Some h) /\ answers_as cp cf h ix).
Proof.
  intros Wr. pose proof Wr as [M G]. destruct (laid_exists ix G header_length) as (body & d & L).
  exists (blob_of body d). split; [intros pre; exact (write_blob_ok ix body d pre L)|].
  intros B pre post. exists (hidx_of pre post body d). split; [exact (load_ok ix body d pre post L G B)|].
  exact (answers_as_ok ix body d pre post L Wr).
Qed.
Lemma shelved_laid ix h : writable cp cf ix -> shelved cp cf ix h ->
  exists pre post body d, laid header_length ix body d /\ h = hidx_of pre post body d /\ len (blob_of body d) <= maxf.
Proof.
  intros Wr (pre & post & blob & W & M & Ld). pose proof Wr as [_ G]. destruct (laid_exists ix G header_length) as (body & d & L).
  rewrite (write_blob_ok ix body d pre L) in W. injection W as W _. apply app_inv_head in W. subst blob.
  exists pre, post, body, d. split; [exact L|]. rewrite (load_ok ix body d pre post L G M) in Ld. injection Ld as <-. auto.
Qed.
End Compressors.
