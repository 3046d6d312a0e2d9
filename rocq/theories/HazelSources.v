(** What the sources of a Hazel merge answer, and the row of one feature. *)
From Verif Require Import Base HopperModel ArrayDefs GclSpec GclProofs UnaryModel UnaryProofs AnswerProofs VectorModel Bytes CodecModel CodecSpec CodecProofs
  PostingModel PostingSpec PostingProofs PostingIO ShardModel ShardSpec ShardProofs HazelModel HazelSpec HazelProofs.

(* ------------------------------------------------------------------ *)
(** * Lists that read back as they were *)
Lemma drain_inv {T} (P : T -> Prop) f : (forall t x t', P t -> f t x = Ok t' -> P t') ->
  forall n q t t', P t -> drain n f q t = Ok t' -> P t'.
Proof.
  intros K n. induction n as [|n IH]; intros [|e0 r] t t' H E; cbn in E; try congruence; try discriminate.
  destruct (f t (el_cur (first_of e0 r))) as [t1| |] eqn:F; cbn in E; try discriminate.
  exact (IH _ _ _ (K _ _ _ H F) E).
Qed.
Definition pushed (f : Z) (m : posting) : Prop := exists xs, m = fold_left push xs (posting_from_feature f).
Lemma pushed_push f m x : pushed f m -> pushed f (push m x).
Proof. intros [xs ->]. exists (xs ++ [x]). rewrite fold_left_app. reflexivity. Qed.
Lemma pushed_feature f m : pushed f m -> feature m = f.
Proof.
  intros [xs ->]. assert (K : forall s, feature (fold_left push xs s) = feature s); [|apply (K (posting_from_feature f))].
  induction xs as [|x xs IH]; intros s; [reflexivity|]. cbn. rewrite IH. reflexivity.
Qed.
Lemma push_length xs : forall s, length (postings (fold_left push xs s)) = (length (postings s) + length xs)%nat.
Proof. induction xs as [|x xs IH]; intros s; cbn [fold_left length]; [lia|]. rewrite IH. cbn. rewrite app_length. cbn. lia. Qed.
Lemma pushed_as_read f m : pushed f m -> as_read m = m.
Proof.
  intros [xs E]. unfold as_read. destruct (plain_at m) as [[a|]| |] eqn:P; try reflexivity.
  assert (L : length xs = 1%nat).
  { unfold plain_at in P. destruct (psize m =? 1) eqn:S; [|discriminate]. unfold psize, len in S.
    rewrite E, push_length in S. cbn in S. lia. }
  destruct xs as [|x [|y xs]]; try discriminate. cbn in E. subst m. rewrite plain_posting_eq. cbn [feature push posting_from_feature].
  unfold plain_at, push, posting_from_feature in P. cbn in P. unfold psize, len in P. cbn in P.
  unfold push. cbn [posting_from_feature qostings postings fostings feature app length repeat]. cbn in P.
  unfold get in P. cbn in P. unfold idx in P. cbn in P. change (Z.of_nat 1 =? 1) with true in P. change (1 =? 1) with true in P. change (0 <? 0) with false in P.
  cbn in P. destruct (ip x <? iq x) eqn:Q; cbn in P.
  - exfalso. destruct (fzero (ivl x)) eqn:Fz; cbn in P; change (0 <? 0) with false in P; cbn in P;
      destruct (ip x =? iq x) eqn:Q2; cbn in P; try discriminate; lia.
  - destruct (fzero (ivl x)) eqn:Fz; cbn in P.
    + rewrite Z.eqb_refl in P. cbn in P. injection P as <-. reflexivity.
    + rewrite Z.eqb_refl, Fz in P. discriminate.
Qed.
Lemma merge_as_read ps m : Forall (fun p => as_read p = p) ps -> posting_from_merge ps = Ok (Some m) -> as_read m = m.
Proof.
  intros H E. unfold posting_from_merge in E. destruct ps as [|p [|q ps]]; [discriminate| |].
  - injection E as <-. apply Forall_inv in H. exact H.
  - destruct (forallb (fun p0 => feature p0 =? feature p) (p :: q :: ps)); cbn [negb] in E; [|discriminate].
    destruct (all_contents (p :: q :: ps)) as [ls| |]; cbn [bind] in E; try discriminate.
    destruct (can_append ls).
    + injection E as <-. apply (pushed_as_read (feature p)). eexists. reflexivity.
    + destruct (drain (total ls) merge_body (enqueue 0 ls) (minf, posting_from_feature (feature p))) as [[k m']| |] eqn:D; cbn [bind] in E; try discriminate.
      injection E as <-. apply (pushed_as_read (feature p)).
      refine (drain_inv (fun t => pushed (feature p) (snd t)) _ _ _ _ _ _ _ D); [|exists []; reflexivity].
      intros [k1 m1] x [k2 m2] P F. cbn in *. destruct (k1 <? ip x); injection F as <- <-; [apply pushed_push|]; exact P.
Qed.

(* ------------------------------------------------------------------ *)
(** * The index as it is read *)
Definition read_ix (ix : index) : index := map (fun r => (fst r, as_read (snd r))) ix.
Lemma find_read ix f : find_posting (read_ix ix) f = option_map as_read (find_posting ix f).
Proof. induction ix as [|[g p] ix IH]; cbn; [reflexivity|]. destruct (g =? f); [reflexivity|exact IH]. Qed.
Lemma lst_read f ix l : lst_of f ix l -> lst_of f (read_ix ix) l.
Proof.
  intros [E|p l' E Ff H N G V].
  - constructor. rewrite find_read, E. reflexivity.
  - econstructor; [rewrite find_read, E; reflexivity|rewrite as_read_feature; exact Ff|exact (as_read_holds p l' H V)|exact N|exact G|exact V].
Qed.
Lemma postings_read ixs f : postings_of (map read_ix ixs) f = map as_read (postings_of ixs f).
Proof.
  induction ixs as [|ix ixs IH]; [reflexivity|]. cbn [map postings_of flat_map]. fold (postings_of (map read_ix ixs) f). fold (postings_of ixs f).
  rewrite find_read, IH. destruct (find_posting ix f); reflexivity.
Qed.

Section Sources.
Variables cp cf : compressor.
Inductive source (ix : index) (h : hidx) : Prop :=
| Source : forall pre post body d, writable cp cf ix -> laid cp cf header_length ix body d -> h = hidx_of pre post body d -> source ix h.

Lemma source_locate ix h : source ix h -> forall f,
  match find_posting ix f with
  | None => locate (hx_dir h) f = Ok None
  | Some p => exists i e, locate (hx_dir h) f = Ok (Some (i, e)) /\ posting_at cp cf h i e = Ok (Some (as_read p))
  end.
Proof.
  intros [pre post body d W L ->] f. pose proof (locate_ok cp cf ix body d pre post L W f) as K. cbn zeta in K.
  destruct (find_posting ix f) as [p|] eqn:F; [|exact K]. destruct K as (i & e & Lc & Ee & _ & En). exists i, e. split; [exact Lc|].
  destruct W as [M G]. destruct (find_good cp cf ix f p G F) as (Ff & S & l & H & N & V). cbn [fst snd] in *.
  exact (entry_posting_at cp cf _ _ _ _ _ _ Ff S H En Ee).
Qed.
Lemma source_features ix h : source ix h -> map en_feature (hx_dir h) = map fst ix.
Proof. intros [pre post body d W L ->]. exact (laid_features _ _ _ _ _ _ L). Qed.

Lemma has_feature_ok ixs hs f : Forall2 source ixs hs ->
  exists b, has_feature hs f = Ok b /\ (b = true <-> exists ix, In ix ixs /\ In f (map fst ix)).
Proof.
  induction 1 as [|ix h ixs hs S _ IH]; cbn [has_feature].
  - exists false. split; [reflexivity|]. split; [discriminate|intros (ix & [] & _)].
  - pose proof (source_locate ix h S f) as K. destruct (find_posting ix f) as [p|] eqn:F.
    + destruct K as (i & e & -> & _). cbn [bind]. exists true. split; [reflexivity|]. split; [|reflexivity].
      intros _. exists ix. split; [left; reflexivity|exact (find_some_in _ _ _ F)].
    + rewrite K. cbn [bind]. destruct IH as (b & -> & Hb). exists b. split; [reflexivity|]. rewrite Hb.
      split; intros (x & Hx & Hf); [exists x; split; [right; exact Hx|exact Hf]|].
      destruct Hx as [<-|Hx]; [|exists x; auto]. exfalso. clear -F Hf. induction ix as [|[g q] ix IH]; cbn in *; [exact Hf|].
      destruct (Z.eqb_spec g f); [discriminate|]. destruct Hf as [Hf|Hf]; [contradiction|auto].
Qed.
Lemma postings_for_ok ixs hs f : Forall2 source ixs hs ->
  postings_for cp cf hs f = Ok (Some (postings_of (map read_ix ixs) f)).
Proof.
  induction 1 as [|ix h ixs hs S _ IH]; [reflexivity|]. cbn [postings_for map postings_of flat_map].
  fold (postings_of (map read_ix ixs) f). rewrite find_read. pose proof (source_locate ix h S f) as K.
  destruct (find_posting ix f) as [p|]; cbn [option_map].
  - destruct K as (i & e & -> & Pa). cbn [bind]. rewrite Pa. cbn [bind]. rewrite IH. reflexivity.
  - rewrite K. cbn [bind]. exact IH.
Qed.

(* ------------------------------------------------------------------ *)
(** * The text chunks *)
Definition shift (n : Z) (x : iv) : iv := Iv (ip x) (iq x) (ivl x + n).
Fixpoint moved (b : Z) (lengths : list Z) (ls : list (list iv)) : list iv :=
  match ls, lengths with
  | l :: r, n :: s => map (shift b) l ++ moved (b + n) s r
  | _, _ => []
  end.
Lemma push_shifted_ok n l : Forall (fun x => is_addr (ivl x + n)) l -> forall m,
  push_shifted n l m = Ok (fold_left push (map (shift n) l) m).
Proof.
  induction 1 as [|x l A _ IH]; intros m; [reflexivity|]. cbn [push_shifted map fold_left].
  unfold chk. unfold is_addr in A. replace ((minf <=? ivl x + n) && (ivl x + n <=? maxf)) with true by lia. cbn [bind]. apply IH.
Qed.
Lemma chunk_posting_ok chunk ixs hs : Forall2 source ixs hs -> forall ls, Forall2 (lst_of chunk) ixs ls ->
  forall b lengths m, length lengths = length ixs -> Forall (fun x => is_addr (ivl x)) (moved b lengths ls) ->
  chunk_posting cp cf chunk hs (bases b lengths) m =
    Ok (let m' := fold_left push (moved b lengths ls) m in if psize m' =? 0 then None else Some m').
Proof.
  induction 1 as [|ix h ixs hs S _ IH]; intros ls Hls b lengths m El A; inversion Hls as [|? l ? ls' Hl Hls']; subst; destruct lengths as [|n lengths]; try discriminate.
  - reflexivity.
  - cbn [bases chunk_posting moved] in *. pose proof (source_locate ix h S chunk) as K.
    apply Forall_app in A. destruct A as [A1 A2]. injection El as El. rewrite fold_left_app.
    destruct Hl as [F|p l F Ff H N G V]; rewrite F in K.
    + rewrite K. cbn [bind map fold_left]. apply IH; assumption.
    + destruct K as (i & e & -> & Pa). cbn [bind]. rewrite Pa. cbn [bind].
      rewrite (contents_ok _ _ (as_read_holds p l H V)). cbn [bind]. rewrite push_shifted_ok.
      * cbn [bind]. apply IH; assumption.
      * rewrite Forall_map in A1. exact A1.
Qed.
Lemma moved_in chunk ixs ls : Forall2 (lst_of chunk) ixs ls -> forall b lengths x, length lengths = length ixs ->
  (In x (moved b lengths ls) <-> moved_chunks chunk ixs lengths b x).
Proof.
  induction 1 as [|ix l ixs ls Hl _ IH]; intros b [|n lengths] x El; try discriminate; cbn [moved moved_chunks]; [reflexivity|].
  injection El as El. rewrite in_app_iff, (IH _ _ _ El). apply or_iff_compat_r. rewrite in_map_iff. split.
  - intros (y & <- & Hy). exists (ivl y). split; [reflexivity|]. apply (lst_stored _ _ _ Hl). destruct y. exact Hy.
  - intros (v & Ev & Hv). apply (lst_stored _ _ _ Hl) in Hv. exists (Iv (ip x) (iq x) v). split; [|exact Hv].
    unfold shift. cbn. rewrite <- Ev. destruct x; reflexivity.
Qed.
(** gcdup of a concatenation. *)
Lemma gcdup_app l1 l2 : gcdup l1 -> gcdup l2 -> (forall x y, In x l1 -> In y l2 -> ip x < ip y /\ iq x < iq y) -> gcdup (l1 ++ l2).
Proof.
  intros G1 G2 K. induction l1 as [|x l1 IH]; [exact G2|]. cbn [app gcdup] in *. destruct G1 as (A & B & C).
  split; [exact A|]. split; [|apply IH; [exact C|intros a b Ha; apply K; right; exact Ha]].
  destruct l1 as [|y l1]; cbn [app]; [|exact B]. destruct l2 as [|z l2]; [exact Logic.I|]. left. apply K; left; reflexivity.
Qed.
Lemma gcdup_shift n l : gcdup l -> gcdup (map (shift n) l).
Proof.
  induction l as [|x l IH]; [trivial|]. cbn [gcdup map]. intros (A & B & C). split; [exact A|]. split; [|apply IH, C].
  destruct l as [|y l]; cbn [map]; [exact Logic.I|]. destruct B as [B| ->]; [left; exact B|right; reflexivity].
Qed.
Lemma chunks_apart_tail chunk ix ixs : chunks_apart chunk (ix :: ixs) -> chunks_apart chunk ixs /\
  forall y x z, In y ixs -> stored_in ix chunk x -> stored_in y chunk z -> ip x < ip z /\ iq x < iq z.
Proof.
  intros H. split.
  - intros i j a b x y L A B. apply (H (S i) (S j) a b x y); [lia|exact A|exact B].
  - intros y x z Hy. apply In_nth_error in Hy. destruct Hy as [j Hj]. apply (H 0%nat (S j)); [lia|reflexivity|exact Hj].
Qed.
Lemma moved_gcdup chunk ixs ls : Forall2 (lst_of chunk) ixs ls -> chunks_apart chunk ixs ->
  forall b lengths, length lengths = length ixs -> gcdup (moved b lengths ls).
Proof.
  intros H. induction H as [|ix l ixs ls Hl Hls IH]; intros Ap b [|n lengths] El; try discriminate; cbn [moved]; [exact Logic.I|].
  injection El as El. apply chunks_apart_tail in Ap. destruct Ap as [Ap1 Ap2].
  apply gcdup_app; [apply gcdup_shift, (lst_gcdup _ _ _ Hl)|apply IH; assumption|].
  intros x y Hx Hy. apply in_map_iff in Hx. destruct Hx as (x0 & <- & Hx).
  assert (Q : exists y0 w, In w ixs /\ stored_in w chunk y0 /\ ip y0 = ip y /\ iq y0 = iq y).
  { apply (moved_in chunk ixs ls Hls _ _ _ El) in Hy. clear -Hy El. revert lengths El b n Hy.
    induction ixs as [|w ixs IH]; intros [|m lengths] El b n Hy; try discriminate; cbn in Hy; [destruct Hy|].
    injection El as El. destruct Hy as [(v & _ & Hy)|Hy].
    - eexists _, w. split; [left; reflexivity|]. split; [exact Hy|]. auto.
    - destruct (IH lengths El (b + n) m Hy) as (y0 & w0 & A & B). exists y0, w0. split; [right; exact A|exact B]. }
  destruct Q as (y0 & w & Hw & Sy & <- & <-). cbn. apply (Ap2 w x0 y0 Hw); [|exact Sy]. apply (lst_stored _ _ _ Hl). exact Hx.
Qed.
Lemma moved_length ls : forall b lengths, (length (moved b lengths ls) <= length (concat ls))%nat.
Proof.
  induction ls as [|l ls IH]; intros b [|n lengths]; cbn; try lia. rewrite !app_length, map_length. specialize (IH (b + n) lengths). lia.
Qed.
End Sources.
