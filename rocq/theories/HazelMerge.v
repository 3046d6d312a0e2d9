(** A Hazel merge that crashes any number of times ends with the same blob, and the
    blob holds what the sources hold. *)
From Verif Require Import Base HopperModel ArrayDefs GclSpec GclProofs UnaryModel UnaryProofs AnswerProofs VectorModel Bytes CodecModel CodecSpec CodecProofs
  PostingModel PostingSpec PostingProofs PostingIO ShardModel ShardSpec ShardProofs HazelModel HazelSpec HazelProofs HazelSources HazelLoop.

Definition clean_at (x : iv) : Prop := 0 <= ip x /\ is_addr (ivl x).
Lemma find_row ix f p : find_posting ix f = Some p -> In (f, p) ix.
Proof.
  induction ix as [|[g q] ix IH]; cbn; [discriminate|]. destruct (Z.eqb_spec g f) as [<-|]; [|auto].
  intros E. injection E as ->. auto.
Qed.
Lemma find_none ix f : find_posting ix f = None -> ~ In f (map fst ix).
Proof.
  induction ix as [|[g q] ix IH]; cbn; [auto|]. destruct (Z.eqb_spec g f) as [<-|N]; [discriminate|].
  intros E [K|K]; [contradiction|exact (IH E K)].
Qed.
Lemma index_lst ix f : index_ok ix -> exists l, lst_of f ix l /\ Forall clean_at l.
Proof.
  intros [_ R]. destruct (find_posting ix f) as [p|] eqn:F; [|exists []; split; [constructor; exact F|constructor]].
  rewrite Forall_forall in R. destruct (R _ (find_row _ _ _ F)) as (_ & (Ff & l & H & N & G & V) & C). cbn [fst snd] in *.
  exists l. split; [econstructor; eassumption|]. rewrite Forall_forall. intros x Hx. apply (holds_In p l x H) in Hx.
  destruct Hx as [i Hi]. exact (C i x Hi).
Qed.
Lemma index_lsts ixs f : Forall index_ok ixs -> exists ls, Forall2 (lst_of f) ixs ls /\ Forall (Forall clean_at) ls.
Proof.
  induction 1 as [|ix ixs H _ IH]; [exists []; split; constructor|]. destruct (index_lst ix f H) as (l & A & B).
  destruct IH as (ls & C & D). exists (l :: ls). split; constructor; assumption.
Qed.
Lemma lsts_read f ixs ls : Forall2 (lst_of f) ixs ls -> Forall2 (lst_of f) (map read_ix ixs) ls.
Proof. induction 1; cbn; constructor; [apply lst_read|]; assumption. Qed.
Lemma index_writable cp cf ix : stores_lists cp cf -> index_ok ix -> (forall f, fiver_count ix f <= 288230376151711743) -> writable cp cf ix.
Proof.
  intros SL I Ct. pose proof I as [M R]. split; [exact M|]. rewrite Forall_forall in *. intros [f p] Hr.
  assert (Fp : find_posting ix f = Some p).
  { clear -M Hr. induction ix as [|[g q] ix IH]; [destruct Hr|]. cbn [find_posting]. cbn [map fst] in M. destruct Hr as [E|Hr].
    - injection E as -> ->. rewrite Z.eqb_refl. reflexivity.
    - pose proof (map_order_head _ _ M) as L. rewrite Forall_forall in L. specialize (L f (in_map fst _ _ Hr)). cbn in L.
      replace (g =? f) with false by lia. apply IH; [exact (map_order_tail _ _ M)|exact Hr]. }
  destruct (R _ Hr) as (B & (Ff & l & H & N & G & V) & C). cbn [fst snd] in *. split; [exact Ff|]. split; [|exists l; auto].
  apply (SL p l H G).
  - rewrite Forall_forall. intros x Hx. apply (holds_In p l x H) in Hx. destruct Hx as [i Hi]. exact (C i x Hi).
  - rewrite Ff. unfold is_addr, minf, maxf in *. lia.
  - specialize (Ct f). unfold fiver_count in Ct. rewrite Fp, (holds_psize _ _ H) in Ct. exact Ct.
Qed.
Lemma count_each ixs f ix : In ix ixs -> Forall index_ok ixs -> fiver_count ix f <= bigwig_count ixs f.
Proof.
  intros Hi H. assert (P : forall w, fiver_count w f >= 0) by (intros w; unfold fiver_count; destruct (find_posting w f); [unfold psize; pose proof (len_nonneg (postings p)); lia|lia]).
  clear H. induction ixs as [|w ixs IH]; [destruct Hi|]. cbn. fold (bigwig_count ixs f). 
  assert (Q : bigwig_count ixs f >= 0) by (clear -P; induction ixs as [|v ixs IH]; cbn; [lia|]; fold (bigwig_count ixs f); specialize (P v); lia).
  destruct Hi as [->|Hi]; [lia|]. specialize (IH Hi). specialize (P w). lia.
Qed.
Lemma takes_length rem fs : takes rem fs -> (length fs <= length (concat rem))%nat.
Proof.
  induction 1 as [|rem f fs Nf Nm _ IH]; cbn [length]; [lia|]. pose proof (advance_shorter rem f Nf Nm). lia.
Qed.
Lemma find_rows R fs f : (forall g p, R g = Some p -> True) ->
  find_posting (rows_of R fs) f = if in_dec Z.eq_dec f fs then R f else None.
Proof.
  intros _. induction fs as [|g fs IH]; [reflexivity|]. cbn [rows_of flat_map]. fold (rows_of R fs). rewrite find_app, IH.
  destruct (Z.eq_dec g f) as [->|N].
  - destruct (in_dec Z.eq_dec f (f :: fs)) as [_|K]; [|exfalso; apply K; left; reflexivity].
    destruct (R f) as [p|] eqn:E; cbn [find_posting]; [rewrite Z.eqb_refl; reflexivity|]. destruct (in_dec Z.eq_dec f fs); reflexivity.
  - assert (Q : find_posting match R g with Some p => [(g, p)] | None => [] end f = None)
      by (destruct (R g); cbn; [replace (g =? f) with false by lia|]; reflexivity). rewrite Q.
    destruct (in_dec Z.eq_dec f fs) as [K|K], (in_dec Z.eq_dec f (g :: fs)) as [K'|K']; try reflexivity.
    + exfalso. apply K'. right. exact K.
    + destruct K' as [K'|K']; contradiction.
Qed.
Lemma rows_in R fs f p : In (f, p) (rows_of R fs) <-> In f fs /\ R f = Some p.
Proof.
  unfold rows_of. rewrite in_flat_map. split.
  - intros (g & Hg & K). destruct (R g) as [q|] eqn:E; [|destruct K]. destruct K as [K|[]]. injection K as -> ->. auto.
  - intros [Hf E]. exists f. split; [exact Hf|]. rewrite E. left. reflexivity.
Qed.
Lemma rows_order R fs : map_order fs -> map_order (map fst (rows_of R fs)).
Proof.
  intros M. assert (E : map fst (rows_of R fs) = filter (fun f => match R f with Some _ => true | None => false end) fs).
  { clear M. induction fs as [|f fs IH]; [reflexivity|]. cbn [rows_of flat_map filter]. fold (rows_of R fs). rewrite map_app, IH.
    destruct (R f); reflexivity. }
  rewrite E. apply map_order_filter, M.
Qed.
Lemma rows_filter R t fs : rows_of R (filter (fun f => t <? f) fs) = filter (fun r => t <? fst r) (rows_of R fs).
Proof.
  assert (C : forall f l, rows_of R (f :: l) = match R f with Some p => [(f, p)] | None => [] end ++ rows_of R l) by reflexivity.
  induction fs as [|f fs IH]; [reflexivity|]. rewrite C, filter_app, <- IH. cbn [filter].
  destruct (t <? f) eqn:E; [rewrite C|]; destruct (R f); cbn [filter fst]; rewrite ?E; reflexivity.
Qed.
Lemma ordered_after (rows : index) a f p b : map_order (map fst rows) -> rows = a ++ (f, p) :: b ->
  filter (fun r => f <? fst r) rows = b.
Proof.
  intros M ->. induction a as [|[g q] a IH]; cbn [app map fst] in M; cbn [app filter fst].
  - rewrite Z.ltb_irrefl. pose proof (map_order_head _ _ M) as L. rewrite Forall_map in L.
    clear M. induction L as [|[g q] b Lg _ IH]; [reflexivity|]. cbn [filter fst] in *. replace (f <? g) with true by lia. rewrite IH. reflexivity.
  - pose proof (map_order_head _ _ M) as L. rewrite Forall_forall in L. specialize (L f). 
    assert (K : g < f) by (apply L; rewrite map_app; apply in_or_app; right; left; reflexivity).
    replace (f <? g) with false by lia. apply IH. exact (map_order_tail _ _ M).
Qed.
Lemma filter_none {A} (P : A -> bool) l : (forall x, In x l -> P x = true) -> filter P l = l.
Proof. induction l as [|a l IH]; intros H; [reflexivity|]. cbn. rewrite (H a (or_introl eq_refl)), IH; [reflexivity|]. intros x Hx. apply H. right. exact Hx. Qed.

Section Merge.
Variables (cp cf : compressor) (chunk : Z) (ixs : list index) (hs : list hidx) (lengths : list Z).
Hypothesis SL : stores_lists cp cf.
Hypothesis IX : Forall index_ok ixs.
Hypothesis Src : Forall2 (source cp cf) ixs hs.
Hypothesis Nc : null_feature <> chunk.
Hypothesis Ap : chunks_apart chunk ixs.
Hypothesis Fit : merge_fits chunk ixs lengths.
Notation big := 288230376151711743.

Lemma dirs_among f : among (map hx_dir hs) f <-> exists ix, In ix ixs /\ In f (map fst ix).
Proof.
  unfold among. pose proof Src as S0; clear -S0; induction S0 as [|ix h ixs' hs' S _ IH]; cbn [map].
  - split; [intros (d & [] & _)|intros (ix & [] & _)].
  - pose proof (source_features _ _ _ _ S) as E. split.
    + intros (d & [<-|Hd] & Hf); [exists ix; rewrite <- E; split; [left; reflexivity|exact Hf]|].
      destruct (proj1 IH (ex_intro _ d (conj Hd Hf))) as (w & Hw & K). exists w. split; [right; exact Hw|exact K].
    + intros (w & [<-|Hw] & Hf); [exists (hx_dir h); rewrite E; split; [left; reflexivity|exact Hf]|].
      destruct (proj2 IH (ex_intro _ w (conj Hw Hf))) as (d & Hd & K). exists d. split; [right; exact Hd|exact K].
Qed.
Lemma feature_range f ix : In ix ixs -> In f (map fst ix) -> 0 <= f < maxf.
Proof.
  intros Hi Hf. rewrite Forall_forall in IX. destruct (IX ix Hi) as [_ R]. rewrite Forall_forall in R.
  apply in_map_iff in Hf. destruct Hf as ([g p] & <- & Hr). destruct (R _ Hr) as [B _]. exact B.
Qed.
Lemma dirs_ok : Forall rem_ok (map hx_dir hs).
Proof.
  assert (K : Forall (fun d => exists ix, In ix ixs /\ map en_feature d = map fst ix) (map hx_dir hs)).
  { pose proof Src as S0; clear -S0; induction S0 as [|ix h ixs' hs' S _ IH]; cbn [map]; constructor.
    - exists ix. split; [left; reflexivity|exact (source_features _ _ _ _ S)].
    - eapply Forall_impl; [|exact IH]. intros d (w & Hw & E). exists w. split; [right; exact Hw|exact E]. }
  eapply Forall_impl; [|exact K]. intros d (ix & Hi & E). split.
  - rewrite E. rewrite Forall_forall in IX. apply (IX ix Hi).
  - rewrite Forall_forall. intros e He. apply (feature_range _ ix Hi). rewrite <- E. apply in_map, He.
Qed.
Lemma no_source f : (~ exists ix, In ix ixs /\ In f (map fst ix)) -> forall ix, In ix ixs -> find_posting ix f = None.
Proof.
  intros N ix Hi. destruct (find_posting ix f) as [p|] eqn:F; [|reflexivity]. exfalso. apply N. exists ix. split; [exact Hi|exact (find_some_in _ _ _ F)].
Qed.
Lemma no_source_lsts f ls : (~ exists ix, In ix ixs /\ In f (map fst ix)) -> Forall2 (lst_of f) ixs ls -> concat ls = [].
Proof.
  intros N H. assert (K : forall ix, In ix ixs -> find_posting ix f = None) by (apply no_source, N). clear -K H.
  induction H as [|ix l ixs ls Hl _ IH]; [reflexivity|]. cbn. rewrite IH by (intros w Hw; apply K; right; exact Hw). rewrite app_nil_r.
  destruct Hl as [|p l F]; [reflexivity|]. rewrite (K ix (or_introl eq_refl)) in F. discriminate.
Qed.

(** The merged list of a feature can be stored. *)
Lemma good_of f o l : good_opt f o l -> Forall clean_at l -> Z.of_nat (length l) <= big -> 0 <= f < maxf ->
  match o with None => True | Some p => good_row cp cf (f, p) /\ row_ok (f, p) end.
Proof.
  destruct o as [p|]; [|trivial]. intros (Ff & H & N & G & V) C Ln Rg. split.
  - split; [exact Ff|]. cbn [fst snd]. split; [|exists l; auto]. apply (SL p l H G); [exact C|rewrite Ff; unfold is_addr, minf, maxf in *; lia|exact Ln].
  - split; [exact Rg|]. split; [split; [exact Ff|exists l; auto]|]. intros i x Hx. cbn [snd] in Hx.
    rewrite Forall_forall in C. apply C. apply (holds_In p l x H). exists i. exact Hx.
Qed.
Lemma inner_clean ls l : Forall (Forall clean_at) ls -> (forall x, In x l -> In x (concat ls)) -> Forall clean_at l.
Proof.
  intros C S. rewrite Forall_forall. intros x Hx. specialize (S x Hx). apply in_concat in S. destruct S as (a & Ha & Hx').
  rewrite Forall_forall in C. specialize (C a Ha). rewrite Forall_forall in C. exact (C x Hx').
Qed.

(** The merged erased ranges. *)
Lemma erased_ok : exists ex le b, posting_from_merge (postings_of (map read_ix ixs) null_feature) = Ok ex /\
  good_opt null_feature ex le /\ eqs (set_of le) (innermost_of ixs null_feature) /\ Forall clean_at le /\
  Z.of_nat (length le) <= bigwig_count ixs null_feature /\ match ex with Some e => as_read e = e | None => True end /\
  has_feature hs null_feature = Ok b /\ b = match ex with Some _ => true | None => false end.
Proof.
  destruct (index_lsts ixs null_feature IX) as (ls & Hls & Cl).
  destruct (merge_lsts null_feature _ ls (lsts_read _ _ _ Hls)) as (ex & le & Em & Gx & Sx & Lx).
  destruct (has_feature_ok cp cf ixs hs null_feature Src) as (b & Eb & Hb).
  exists ex, le, b. split; [exact Em|]. split; [exact Gx|].
  split; [exact (eqs_trans _ _ _ Sx (eqs_sym _ _ (lsts_inner _ _ _ Hls)))|].
  split; [apply (inner_clean ls); [exact Cl|]; intros x Hx; apply inner_in, Sx, Hx|].
  split. { rewrite (lsts_count _ _ _ Hls). lia. }
  split.
  { destruct ex as [e|]; [|exact Logic.I]. refine (merge_as_read _ _ _ Em). rewrite postings_read, Forall_map, Forall_forall. intros p _. apply as_read_idem. }
  split; [exact Eb|]. destruct b.
  - destruct (proj1 Hb eq_refl) as (ix & Hi & Hf). destruct ex as [e|]; [reflexivity|]. exfalso. cbn in Gx. subst le.
    refine (merge_nonempty ls [] (lsts_gcdup _ _ _ Hls) _ (fun x => _) eq_refl); [|exact (Sx x)].
    clear -Hls Hi Hf. induction Hls as [|w l ixs ls Hl _ IH]; [destruct Hi|]. destruct Hi as [->|Hi].
    + exists l. split; [left; reflexivity|]. destruct Hl as [F|p l F _ _ N _ _]; [|exact N]. exfalso. exact (find_none _ _ F Hf).
    + destruct (IH Hi) as (a & A & B). exists a. split; [right; exact A|exact B].
  - destruct ex as [e|]; [|reflexivity]. exfalso.
    assert (Nn : ~ exists ix, In ix ixs /\ In null_feature (map fst ix)) by (intros K; apply Hb in K; discriminate).
    rewrite postings_read in Em. assert (Q : postings_of ixs null_feature = []).
    { unfold postings_of. pose proof (no_source _ Nn) as K. clear -K. induction ixs as [|w l IH]; [reflexivity|]. cbn. rewrite (K w (or_introl eq_refl)). apply IH. intros x Hx. apply K. right. exact Hx. }
    rewrite Q in Em. discriminate.
Qed.

Section Erased.
Variables (ex : option posting) (le : list iv).
Hypothesis Em : posting_from_merge (postings_of (map read_ix ixs) null_feature) = Ok ex.
Hypothesis Gx : good_opt null_feature ex le.
Hypothesis Sx : eqs (set_of le) (innermost_of ixs null_feature).
Hypothesis Cx : Forall clean_at le.
Hypothesis Lx : Z.of_nat (length le) <= bigwig_count ixs null_feature.
Hypothesis Ax : match ex with Some e => as_read e = e | None => True end.
Hypothesis Hx : has_feature hs null_feature = Ok (match ex with Some _ => true | None => false end).

(** The row of a feature. *)
Definition R (f : Z) : option posting :=
  match row cp cf chunk hs (bases 0 lengths) ex f with Ok (Some r) => r | _ => None end.
Definition wanted (f : Z) : iv -> Prop :=
  if f =? chunk then moved_chunks chunk ixs lengths 0 else sem_nin (innermost_of ixs f) (innermost_of ixs null_feature).
Lemma row_is f : row cp cf chunk hs (bases 0 lengths) ex f = Ok (Some (R f)) /\
  exists l, good_opt f (R f) l /\ eqs (set_of l) (wanted f) /\ Forall clean_at l /\ Z.of_nat (length l) <= bigwig_count ixs f.
Proof.
  assert (K : exists r, row cp cf chunk hs (bases 0 lengths) ex f = Ok (Some r) /\
    exists l, good_opt f r l /\ eqs (set_of l) (wanted f) /\ Forall clean_at l /\ Z.of_nat (length l) <= bigwig_count ixs f);
    [|destruct K as (r & E & K); unfold R; rewrite E; split; [reflexivity|exact K]].
  destruct Fit as (Ct & Ln & Mv). destruct (index_lsts ixs f IX) as (ls & Hls & Cl). specialize (Ct f).
  rewrite (lsts_count _ _ _ Hls) in *. unfold row, wanted. destruct (Z.eqb_spec f chunk) as [->|Nf].
  - assert (Mi : forall x, In x (moved 0 lengths ls) <-> moved_chunks chunk ixs lengths 0 x) by (intros x; apply (moved_in chunk ixs ls Hls); exact Ln).
    assert (Gm : gcdup (moved 0 lengths ls)) by (apply (moved_gcdup chunk ixs ls Hls Ap); exact Ln).
    assert (Vm : Forall (fun x => is_addr (ivl x) /\ value_ok x) (moved 0 lengths ls)) by (rewrite Forall_forall; intros x H; apply Mv, Mi, H).
    rewrite (chunk_posting_ok cp cf chunk ixs hs Src ls Hls).
    2: exact Ln. 2:{ eapply Forall_impl; [|exact Vm]. intros x [H _]. exact H. }
    cbn [bind]. destruct (has_feature_ok cp cf ixs hs chunk Src) as (b & Eb & Hb). rewrite Eb. cbn [bind].
    assert (Pv : Forall (fun x => ip x <= iq x /\ value_ok x) (moved 0 lengths ls)).
    { rewrite Forall_forall in *. intros x H. split; [exact (proj1 (proj2 (ArrayProofs.gcdup_finite _ x Gm H)))|apply Vm, H]. }
    destruct (fold_push_holds _ Pv _ _ (feature_holds chunk)) as [Hm Fm]. cbn [app] in Hm.
    set (m := fold_left push (moved 0 lengths ls) (posting_from_feature chunk)) in *. cbn zeta.
    rewrite (holds_psize _ _ Hm).
    assert (Cm : Forall clean_at (moved 0 lengths ls)).
    { rewrite Forall_forall in *. intros x H. split; [|apply Vm, H].
      assert (Q : forall b ns, In x (moved b ns ls) -> 0 <= ip x); [|exact (Q _ _ H)].
      clear -Cl. induction ls as [|l ls IH]; intros b [|n ns] H; try destruct H. cbn [moved] in H.
      apply in_app_iff in H. destruct H as [H|H].
      - apply in_map_iff in H. destruct H as (y & <- & Hy). cbn. pose proof (Cl l (or_introl eq_refl)) as C. rewrite Forall_forall in C. apply (C y Hy).
      - exact (IH (fun a Ha => Cl a (or_intror Ha)) _ _ H). }
    assert (Lm : Z.of_nat (length (moved 0 lengths ls)) <= Z.of_nat (length (concat ls))) by (pose proof (moved_length ls 0 lengths); lia).
    destruct (moved 0 lengths ls) as [|a t] eqn:Et.
    + cbn [length]. change (Z.of_nat 0 =? 0) with true. cbn iota.
      assert (b = false) as ->.
      { destruct b; [|reflexivity]. exfalso. destruct (proj1 Hb eq_refl) as (ix & Hi & Hf).
        clear -Et Hls Ln Hi Hf. revert Et. generalize 0 as b. revert lengths Ln.
        induction Hls as [|w l ixs ls Hl _ IH]; intros [|n lengths] Ln b Et; try discriminate; [destruct Hi|]. cbn [moved] in Et. apply app_eq_nil in Et. destruct Et as [E1 E2].
        destruct Hi as [->|Hi]; [|exact (IH Hi lengths ltac:(cbn in Ln; lia) _ E2)].
        destruct Hl as [F|p l F _ _ N _ _]; [exact (find_none _ _ F Hf)|]. destruct l; [contradiction|discriminate]. }
      cbn iota. exists None. split; [reflexivity|]. exists []. split; [reflexivity|]. split; [exact Mi|]. split; [constructor|cbn; lia].
    + replace (Z.of_nat (length (a :: t)) =? 0) with false by (cbn [length]; lia). cbn iota. exists (Some m). split; [reflexivity|].
      exists (a :: t). split; [split; [exact Fm|]; split; [exact Hm|]; split; [discriminate|]; split; [exact Gm|]|].
      * eapply Forall_impl; [|exact Vm]. intros x [_ H]. exact H.
      * split; [exact Mi|]. split; assumption.
  - rewrite (postings_for_ok cp cf ixs hs f Src). cbn [bind].
    destruct (exclude_lsts f _ ls ex le (lsts_read _ _ _ Hls) Gx) as (o & l & Eo & Go & So & Lo); [pose proof (proj1 Fit null_feature); unfold max_len; lia|].
    rewrite Eo. cbn [bind]. exists o. split; [reflexivity|]. exists l. split; [exact Go|].
    split. { intros x. rewrite (So x). unfold sem_nin. rewrite (lsts_inner _ _ _ Hls x).
      split; intros [A B]; (split; [exact A|]); intros (y & Hy & K); apply B; exists y; (split; [apply Sx, Hy|exact K]). }
    split; [|lia]. apply (inner_clean ls); [exact Cl|]. intros x H. apply So in H. destruct H as [H _]. apply inner_in, H.
Qed.

Section Features.
Variable fs : list Z.
Hypothesis T : takes (map (after null_feature) (map hx_dir hs)) fs.
Lemma fs_spec : map_order fs /\ forall f, In f fs <-> among (map hx_dir hs) f /\ 0 < f.
Proof.
  pose proof dirs_ok as O.
  assert (O' : Forall rem_ok (map (after null_feature) (map hx_dir hs))) by (rewrite Forall_map; eapply Forall_impl; [|exact O]; intros d; apply after_ok).
  destruct (takes_spec _ _ T O') as [M I]. split; [exact M|]. intros f. rewrite I. rewrite Forall_forall in O. split.
  - intros (d & Hd & Hf). apply in_map_iff in Hd. destruct Hd as (d0 & <- & Hd). apply (after_in null_feature d0 f (O _ Hd)) in Hf.
    split; [exists d0; tauto|]. unfold null_feature in Hf. tauto.
  - intros ((d & Hd & Hf) & P). exists (after null_feature d). split; [apply in_map, Hd|]. apply (after_in null_feature d f (O _ Hd)). auto.
Qed.
Definition head_row : index := match ex with Some e => [(null_feature, e)] | None => [] end.
Definition all_rows : index := head_row ++ rows_of R fs.
Lemma R_good f : In f fs -> match R f with None => True | Some p => good_row cp cf (f, p) /\ row_ok (f, p) end.
Proof.
  intros Hf. destruct (row_is f) as (_ & l & G & _ & C & L). apply (good_of f (R f) l G C); [destruct Fit as [Ct _]; specialize (Ct f); lia|].
  destruct fs_spec as [_ I]. apply I in Hf. destruct Hf as [A _]. apply dirs_among in A. destruct A as (ix & Hi & A). exact (feature_range f ix Hi A).
Qed.
Lemma rows_good : Forall (fun r => good_row cp cf r /\ row_ok r) all_rows.
Proof.
  unfold all_rows, head_row. apply Forall_app. split.
  - pose proof (good_of null_feature ex le Gx Cx ltac:(destruct Fit as [Ct _]; specialize (Ct null_feature); lia)) as K. destruct ex as [e|]; constructor; [|constructor]. apply K. unfold null_feature, maxf. lia.
  - rewrite Forall_forall. intros [f p] H. apply rows_in in H. destruct H as [Hf E]. pose proof (R_good f Hf) as K. rewrite E in K. exact K.
Qed.
Lemma rows_ordered : map_order (map fst all_rows).
Proof.
  destruct fs_spec as [M I]. unfold all_rows, head_row. pose proof (rows_order R fs M) as O. destruct ex as [e|]; [|exact O].
  cbn [app map fst]. destruct (map fst (rows_of R fs)) as [|g r] eqn:E; [exact Logic.I|]. split; [|exact O].
  assert (K : In g (map fst (rows_of R fs))) by (rewrite E; left; reflexivity). apply in_map_iff in K. destruct K as ([g' p] & <- & K).
  apply rows_in in K. destruct K as [K _]. apply I in K. unfold null_feature. cbn. tauto.
Qed.
Lemma rows_index : index_ok all_rows.
Proof. split; [exact rows_ordered|]. eapply Forall_impl; [|exact rows_good]. intros r [_ K]. exact K. Qed.
Lemma find_all f : find_posting all_rows f = if f =? null_feature then ex else if in_dec Z.eq_dec f fs then R f else None.
Proof.
  unfold all_rows, head_row. rewrite find_app, find_rows by trivial. destruct (Z.eqb_spec f null_feature) as [->|Nf].
  - destruct ex as [e|]; [reflexivity|]. cbn [find_posting].
    destruct (in_dec Z.eq_dec null_feature fs) as [K|]; [|reflexivity]. apply (proj2 fs_spec) in K. unfold null_feature in K. lia.
  - destruct ex as [e|]; [|reflexivity]. cbn [find_posting]. replace (null_feature =? f) with false by lia. reflexivity.
Qed.
Lemma rows_count f : fiver_count all_rows f <= bigwig_count ixs f.
Proof.
  assert (Z0 : 0 <= bigwig_count ixs f) by (destruct (index_lsts ixs f IX) as (ls & Hls & _); rewrite (lsts_count _ _ _ Hls); lia).
  assert (K : exists l, (good_opt f (find_posting all_rows f) l \/ find_posting all_rows f = None) /\ Z.of_nat (length l) <= bigwig_count ixs f).
  { rewrite find_all. destruct (Z.eqb_spec f null_feature) as [->|Nf]; [exists le; auto|].
    destruct (in_dec Z.eq_dec f fs); [|exists []; cbn; auto]. destruct (row_is f) as (_ & l & G & _ & _ & Q). exists l. auto. }
  destruct K as (l & [G|F] & Q).
  - rewrite (lst_count f all_rows l (good_lst _ _ _ G)). exact Q.
  - unfold fiver_count. rewrite F. exact Z0.
Qed.
Lemma rows_stored_null : eqs (stored_in all_rows null_feature) (innermost_of ixs null_feature).
Proof.
  assert (F : find_posting all_rows null_feature = ex).
  { unfold all_rows, head_row. rewrite find_app. destruct ex as [e|]; [reflexivity|]. cbn [find_posting]. rewrite find_rows by trivial.
    destruct (in_dec Z.eq_dec null_feature fs) as [K|]; [|reflexivity]. apply (proj2 fs_spec) in K. unfold null_feature in K. lia. }
  refine (eqs_trans _ _ _ _ Sx). apply lst_stored, good_lst. rewrite F. exact Gx.
Qed.
Lemma rows_stored f : f <> null_feature -> eqs (stored_in all_rows f) (wanted f).
Proof.
  intros Nf. destruct (row_is f) as (_ & l & G & S & _).
  assert (F : find_posting all_rows f = if in_dec Z.eq_dec f fs then R f else None).
  { unfold all_rows, head_row. rewrite find_app. rewrite find_rows by trivial. destruct ex as [e|]; [|reflexivity]. cbn [find_posting]. replace (null_feature =? f) with false by lia. reflexivity. }
  destruct (in_dec Z.eq_dec f fs) as [K|K].
  - refine (eqs_trans _ _ _ _ S). apply lst_stored, good_lst. rewrite F. exact G.
  - assert (N : ~ exists ix, In ix ixs /\ In f (map fst ix)).
    { intros (ix & Hi & Hf). apply K. apply (proj2 fs_spec). split; [apply dirs_among; eauto|]. pose proof (feature_range f ix Hi Hf). unfold null_feature in Nf. lia. }
    assert (E : forall x, ~ wanted f x).
    { intros x W. unfold wanted in W. destruct (Z.eqb_spec f chunk) as [->|_].
      - pose proof (no_source _ N) as Q. clear -W Q. revert W. generalize 0 as b. revert lengths.
        induction ixs as [|w l IH]; intros [|n lengths] b W; cbn in W; try contradiction. destruct W as [(v & _ & p & i & F & _)|W].
        + rewrite (Q w (or_introl eq_refl)) in F. discriminate.
        + exact (IH (fun a Ha => Q a (or_intror Ha)) lengths _ W).
      - destruct W as [W _]. apply innermost_stored in W. destruct W as (w & Hw & p & i & F2 & _). rewrite (no_source _ N w Hw) in F2. discriminate. }
    intros x. split; [|intros W; destruct (E x W)]. intros (p & i & Q & _). rewrite F in Q. discriminate.
Qed.

(* ------------------------------------------------------------------ *)
Variables (P : bytes) (d : list entry).
Hypothesis L : laid cp cf header_length all_rows P d.
Hypothesis M : header_length + len P <= maxf.
Notation D := (dir_bytes d).
Notation stage := (stage cp cf all_rows P d).

Lemma G_rows : Forall (good_row cp cf) all_rows.
Proof. eapply Forall_impl; [|exact rows_good]. intros r [K _]. exact K. Qed.
Lemma stage_0 : stage 0 [].
Proof. split; [lia|]. cbn [firstn skipn]. split; [constructor|]. split; [apply pre_nil|]. exists P. split; [reflexivity|]. rewrite Z.add_0_r. exact L. Qed.
Lemma reset_safe s : part P D s -> exec s [Reset_pst; Reset_dct] = Files (Some []) (Some []) /\ safe (part P D) s [Reset_pst; Reset_dct].
Proof.
  intros H. split; [reflexivity|]. apply safe_step; [exact Logic.I|exact H|]. apply safe_step; [exact Logic.I|split; [apply pre_nil|apply H]|].
  apply safe_nil. split; apply pre_nil.
Qed.
Lemma establish_ok s b : part P D s -> exists k p acts, establish s b = (acts, firstn k d) /\ stage k p /\
  exec s acts = Files (Some p) (Some (dir_bytes (firstn k d))) /\ safe (part P D) s acts.
Proof.
  intros H. unfold establish. pose proof (repair_ok cp cf all_rows P d L G_rows M s H) as K.
  destruct (repair s) as [[acts d']|].
  - destruct K as (k & p & -> & St & X & Sf & W).
    destruct ((b && _) || _).
    + exists 0%nat, [], (acts ++ [Reset_pst; Reset_dct]). split; [reflexivity|]. split; [exact stage_0|].
      destruct (reset_safe _ (safe_end _ _ _ Sf)) as [X2 S2]. split; [rewrite exec_app; exact X2|]. apply safe_app; assumption.
    + exists k, p, (acts ++ [Trunc_pst (len p)]). split; [rewrite W; reflexivity|]. split; [exact St|].
      assert (X2 : exec (exec s acts) [Trunc_pst (len p)] = Files (Some p) (Some (dir_bytes (firstn k d)))).
      { rewrite X. cbn [exec fold_left exec1 pst dct]. rewrite cut_part by (pose proof (len_nonneg p); lia). unfold len. rewrite Nat2Z.id, firstn_all. reflexivity. }
      split; [rewrite exec_app; exact X2|]. apply safe_app; [exact Sf|]. rewrite X. rewrite X in X2.
      assert (Q : part P D (Files (Some p) (Some (dir_bytes (firstn k d))))) by (split; [apply St|apply (stage_dir d)]).
      apply safe_step; [exact Logic.I|exact Q|]. apply safe_nil.
      match goal with |- part _ _ (exec1 ?a ?b) => change (exec1 a b) with (exec a [b]) end. rewrite X2. exact Q.
  - exists 0%nat, [], [Reset_pst; Reset_dct]. split; [reflexivity|]. split; [exact stage_0|]. exact (reset_safe s H).
Qed.
Lemma case_ex : (exists e, ex = Some e) \/ ex = None.
Proof. destruct ex; eauto. Qed.
Lemma erasures_ok k p : stage k p -> let s1 := Files (Some p) (Some (dir_bytes (firstn k d))) in
  exists k' p' acts, erasures cp cf hs s1 (firstn k d) (match ex with Some _ => true | None => false end) = Ok (Some (acts, firstn k' d, ex)) /\
    stage k' p' /\ exec s1 acts = Files (Some p') (Some (dir_bytes (firstn k' d))) /\ safe (part P D) s1 acts /\
    (ex = None \/ (0 < k')%nat).
Proof.
  intros St s1. assert (Q1 : part P D s1) by (split; [apply St|apply (stage_dir d)]).
  unfold erasures. destruct k as [|k].
  - cbn [firstn]. cbn [bind andb]. destruct St as (_ & L0 & _). cbn [firstn] in L0. assert (p = []) as -> by (inversion L0; reflexivity).
    destruct case_ex as [[e Ex]|Ex].
    + replace (match ex with Some _ => true | None => false end) with true by (rewrite Ex; reflexivity). rewrite (postings_for_ok cp cf ixs hs null_feature Src). cbn [bind]. rewrite Em. cbn [bind].
      destruct (stage_at cp cf all_rows P d L 1) as (p1 & S1); [unfold all_rows, head_row; rewrite Ex; cbn; lia|].
      pose proof S1 as (_ & L1 & Pp & _). unfold all_rows, head_row in L1. rewrite Ex in L1. cbn [app firstn] in L1.
      assert (Gr : good_row cp cf (null_feature, e)) by (pose proof G_rows as K; unfold all_rows, head_row in K; rewrite Ex in K; inversion K; assumption).
      destruct (good_psize cp cf _ _ Gr) as [Z1 Z2].
      destruct (append_grows cp cf null_feature e [] (dir_bytes []) header_length p1 (firstn 1 d) Z2 Z1 (proj1 Gr)) as (acts & Ea & Ga); [reflexivity|destruct d; exact L1|].
      subst s1. cbn [firstn exec fold_left dir_bytes flat_map] in *. match goal with |- context [append_posting cp cf ?st ex] => replace (append_posting cp cf st ex) with (Ok (acts, firstn 1 d)) by (rewrite Ex; symmetry; destruct d; exact Ea) end. cbn [bind app]. exists 1%nat, p1, acts. split; [destruct d; reflexivity|]. split; [exact S1|].
      destruct Ga as (_ & X & Sf). split; [exact X|]. split; [|right; lia].
      refine (safe_weaken _ _ _ _ _ Sf). intros [a c] [A C]. split.
      * destruct a; [|exact Logic.I]. exact (pre_trans _ _ _ A Pp).
      * destruct c; [|exact Logic.I]. refine (pre_trans _ _ _ C _). apply (stage_dir d 1).
    + exists 0%nat, [], []. split; [rewrite Ex; reflexivity|]. split; [exact stage_0|]. split; [reflexivity|]. split; [apply safe_nil; exact Q1|left; exact Ex].
  - assert (Keep : forall r, r = Ok (Some ([], firstn (S k) d, ex)) -> exists k' p' acts, r = Ok (Some (acts, firstn k' d, ex)) /\
      stage k' p' /\ exec s1 acts = Files (Some p') (Some (dir_bytes (firstn k' d))) /\ safe (part P D) s1 acts /\ (ex = None \/ (0 < k')%nat)).
    { intros r ->. exists (S k), p, []. split; [reflexivity|]. split; [exact St|]. split; [reflexivity|]. split; [apply safe_nil; exact Q1|right; lia]. }
    apply Keep. pose proof St as (Lk & L1 & Pp & _).
    assert (Hr : exists r0 rows', all_rows = r0 :: rows') by (destruct all_rows as [|r0 rows']; [cbn in Lk; lia|eauto]).
    destruct Hr as ([f0 q0] & rows' & Er). rewrite Er in L1. cbn [firstn] in L1.
    destruct d as [|e0 d0] eqn:Ed; [inversion L1|]. cbn [firstn].
    assert (Ef : en_feature e0 = f0) by (pose proof (laid_features _ _ _ _ _ _ L) as K; rewrite Er in K; cbn in K; congruence).
    rewrite Ef. destruct case_ex as [[e Ex]|Ex].
    + assert (f0 = null_feature /\ q0 = e) as [-> ->] by (unfold all_rows, head_row in Er; rewrite Ex in Er; cbn in Er; injection Er as <- <- _; auto).
      rewrite Z.eqb_refl.
      assert (Gr : good_row cp cf (null_feature, e)) by (pose proof G_rows as K; rewrite Er in K; inversion K; assumption).
      destruct Gr as (Ff & Sto & l & Hl & N & V). cbn [fst snd] in *.
      assert (Cp : checkpoint_posting cp cf s1 e0 = Ok (Some e)).
      { unfold checkpoint_posting. cbn [firstn] in L1. inversion L1; subst.
        - cbn [en_end en_feature en_val]. rewrite Z.eqb_refl. pose proof Ax as Ax'; rewrite Ex in Ax'; unfold as_read in Ax'.
          match goal with K : plain_at e = _ |- _ => rewrite K in Ax' end. rewrite Ff in Ax'. rewrite Ax'. reflexivity.
        - cbn [en_end en_feature].
          match goal with K : write cp cf e = Ok ?y |- _ => pose proof (written_long cp cf e l y Hl Sto K) as W end.
          replace (header_length + len x =? header_length) with false by lia. replace (header_length + len x <? header_length) with false by lia.
          cbn [pst s1]. replace (header_length + len x - header_length) with (len x) by lia.
          pose proof (file_read_app [] x body 0 (len x) eq_refl eq_refl) as Fr. cbn [app] in Fr. subst s1. cbn [pst]. rewrite Fr.
          destruct (write_read cp cf e l Hl Sto) as (y & Ey & _ & Rb & _).
          match goal with K : write cp cf e = Ok x |- _ => rewrite K in Ey; injection Ey as <- end. rewrite Rb. cbn [bind]. rewrite Ff, Z.eqb_refl. reflexivity. }
      rewrite Cp. cbn [bind andb]. rewrite Ex. reflexivity.
    + assert (Nf : 0 < f0).
      { assert (K : In (f0, q0) all_rows) by (rewrite Er; left; reflexivity). unfold all_rows, head_row in K. rewrite Ex in K. cbn [app] in K. apply rows_in in K. destruct K as [K _]. apply (proj2 fs_spec) in K. tauto. }
      replace (f0 =? null_feature) with false by (unfold null_feature; lia). cbn [bind andb]. rewrite Ex. reflexivity.
Qed.

Lemma rest_rows k p : stage k p -> (ex = None \/ (0 < k)%nat) ->
  let last := match last_of (firstn k d) with None => null_feature | Some e => en_feature e end in
  null_feature <= last /\ rows_of R (filter (fun f => last <? f) fs) = skipn k all_rows.
Proof.
  intros (Lk & L1 & _) Hk last. rewrite rows_filter. pose proof (laid_features _ _ _ _ _ _ L1) as Fe.
  assert (Pos : forall f q, In (f, q) all_rows -> 0 <= f) by (intros f q H; pose proof rows_good as K; rewrite Forall_forall in K; destruct (K _ H) as [_ [B _]]; cbn in B; lia).
  destruct k as [|k].
  - destruct Hk as [Ex|Hk]; [|lia]. subst last. cbn [firstn last_of rev skipn]. split; [lia|].
    unfold all_rows, head_row. rewrite Ex. cbn [app]. apply filter_none. intros [f q] H. apply rows_in in H. destruct H as [H _]. apply (proj2 fs_spec) in H. unfold null_feature. cbn. lia.
  - assert (Nn : firstn (S k) all_rows <> []) by (destruct all_rows; [cbn in Lk; lia|discriminate]).
    destruct (exists_last Nn) as (a & [f q] & Ea). rewrite Ea, map_app in Fe. cbn [map fst] in Fe.
    assert (El : last = f).
    { subst last. destruct (firstn (S k) d) as [|e0 d0] eqn:Ed; [cbn in Fe; destruct (map fst a); discriminate|].
      assert (Nd : e0 :: d0 <> []) by discriminate. destruct (exists_last Nd) as (d1 & e1 & Ed1). rewrite Ed1 in *. rewrite last_of_app.
      rewrite map_app in Fe. cbn [map] in Fe. apply app_inj_tail in Fe. destruct Fe as [_ Fe]. exact Fe. }
    assert (Eall : all_rows = a ++ (f, q) :: skipn (S k) all_rows).
    { rewrite <- (firstn_skipn (S k) all_rows) at 1. rewrite Ea, <- app_assoc. reflexivity. }
    assert (Pf : 0 <= f) by (apply (Pos f q); rewrite Eall; apply in_or_app; right; left; reflexivity).
    rewrite El. split; [exact Pf|].
    transitivity (filter (fun r : Z * posting => f <? fst r) all_rows); [|exact (ordered_after all_rows a f q _ rows_ordered Eall)].
    unfold all_rows. rewrite filter_app.
    assert (Hn : filter (fun r : Z * posting => f <? fst r) head_row = []).
    { clear -Pf. unfold head_row. destruct ex; [|reflexivity]. cbn [filter fst]. unfold null_feature. replace (f <? 0) with false by lia. reflexivity. }
    rewrite Hn. reflexivity.
Qed.

Lemma attempt_from s k p acts1 : establish s (match ex with Some _ => true | None => false end) = (acts1, firstn k d) -> stage k p ->
  exec s acts1 = Files (Some p) (Some (dir_bytes (firstn k d))) -> safe (part P D) s acts1 ->
  exists acts, idx_merge cp cf chunk hs lengths s = Ok (Some (acts, blob_of P d)) /\ safe (part P D) s acts.
Proof.
  intros E1 St X1 S1. unfold idx_merge. rewrite Hx. cbn [bind]. rewrite E1.
  rewrite X1. destruct (erasures_ok k p St) as (k2 & p2 & acts2 & E2 & St2 & X2 & S2 & Hk). cbn zeta in E2. rewrite E2. cbn [bind].
  cbn zeta in X2, S2. rewrite X2.
  set (last := match last_of (firstn k2 d) with None => null_feature | Some e => en_feature e end).
  destruct (rest_rows k2 p2 St2 Hk) as [Ll Er]. fold last in Ll, Er.
  set (rem := map (fun h => after last (hx_dir h)) hs).
  assert (Erem : rem = map (after last) (map hx_dir hs)) by (unfold rem; rewrite map_map; reflexivity).
  destruct (takes_exists (S (length (concat rem))) rem ltac:(lia)) as (fs' & T').
  assert (Efs : fs' = filter (fun f => last <? f) fs).
  { apply (takes_after null_feature last (map hx_dir hs) fs fs' dirs_ok Ll T). rewrite <- Erem. exact T'. }
  pose proof St2 as (_ & _ & _ & b2 & Eb2 & L2).
  assert (Row : forall f, among (map hx_dir hs) f -> 0 < f -> row cp cf chunk hs (bases 0 lengths) ex f = Ok (Some (R f)) /\
    match R f with None => True | Some p => good_row cp cf (f, p) end).
  { intros f A Pf. split; [apply row_is|]. pose proof (R_good f (proj2 (proj2 fs_spec f) (conj A Pf))) as K. destruct (R f); [apply K|exact Logic.I]. }
  destruct (loop_grows cp cf chunk hs (bases 0 lengths) ex R Row fs' rem (S (length (concat rem))) p2 (dir_bytes (firstn k2 d)) (header_length + len p2) b2 (skipn k2 d)) as (acts3 & E3 & G3).
  - exact T'.
  - pose proof (takes_length _ _ T'). lia.
  - rewrite Forall_forall. intros f Hf. rewrite Efs in Hf. apply filter_In in Hf. apply (proj2 fs_spec), Hf.
  - reflexivity.
  - rewrite Efs, Er. exact L2.
  - match goal with |- context [merge_loop ?a1 ?a2 ?a3 ?a4 ?a5 ?a6 ?a7 ?a8 ?a9] => replace (merge_loop a1 a2 a3 a4 a5 a6 a7 a8 a9) with (Ok (Some acts3)) by (symmetry; exact E3) end.
    cbn [bind]. destruct G3 as (_ & X3 & S3). match goal with |- context [exec ?a acts3] => replace (exec a acts3) with (Files (Some P) (Some D)) by (symmetry; rewrite Eb2; rewrite <- (firstn_skipn k2 d) at 2; rewrite dir_app; exact X3) end.
    rewrite <- Eb2, <- dir_app, firstn_skipn in S3.
    unfold finish. cbn [pst dct]. rewrite len_dir. replace (24 * len d mod 24) with 0 by (rewrite Z.mul_comm, Z.mod_mul; lia).
    change (0 =? 0) with true. cbn [negb]. replace (24 * len d / 24) with (len d) by (rewrite Z.mul_comm, Z.div_mul; lia).
    eexists. split; [unfold blob_of; rewrite len_dir; reflexivity|].
    apply safe_app; [exact S1|]. rewrite X1. apply safe_app; [exact S2|]. rewrite X2. exact S3.
Qed.
Lemma attempt s : part P D s -> exists acts, idx_merge cp cf chunk hs lengths s = Ok (Some (acts, blob_of P d)) /\ safe (part P D) s acts.
Proof.
  intros H. destruct (establish_ok s (match ex with Some _ => true | None => false end) H) as (k & p & acts1 & E1 & St & X1 & S1).
  exact (attempt_from s k p acts1 E1 St X1 S1).
Qed.
Lemma attempt_fresh : exists acts, idx_merge cp cf chunk hs lengths (Files None None) = Ok (Some (acts, blob_of P d)).
Proof.
  destruct (reset_safe (Files None None)) as [X S]; [split; exact Logic.I|].
  destruct (attempt_from (Files None None) 0 [] [Reset_pst; Reset_dct]) as (acts & E & _); [reflexivity|exact stage_0|exact X|exact S|].
  exists acts. exact E.
Qed.
Lemma attempts_part s : attempts cp cf chunk hs lengths s -> part P D s.
Proof.
  induction 1 as [|s acts b s' _ IH E C|s s' _ IH [L1 L2]].
  - split; exact Logic.I.
  - destruct (attempt s IH) as (acts' & E' & Sf). rewrite E in E'. injection E' as <- _. exact (Sf s' C).
  - destruct IH as [A B]. split.
    + unfold part1, lost1 in *. destruct (pst s') as [y|]; [|exact Logic.I]. destruct L1 as (x & Ex1 & z & ->). rewrite Ex1 in A. exact (pre_left _ _ _ A).
    + unfold part1, lost1 in *. destruct (dct s') as [y|]; [|exact Logic.I]. destruct L2 as (x & Ex1 & z & ->). rewrite Ex1 in B. exact (pre_left _ _ _ B).
Qed.
End Features.
End Erased.
End Merge.

Theorem resume cp cf chunk ixs hs lengths : stores_lists cp cf -> Forall index_ok ixs -> Forall2 (shelved cp cf) ixs hs ->
  null_feature <> chunk -> chunks_apart chunk ixs -> merge_fits chunk ixs lengths ->
  exists rows blob, index_ok rows /\ (forall f, fiver_count rows f <= bigwig_count ixs f) /\
    (forall x, stored_in rows null_feature x <-> innermost_of ixs null_feature x) /\
    (forall f x, f <> null_feature -> f <> chunk ->
       (stored_in rows f x <-> sem_nin (innermost_of ixs f) (innermost_of ixs null_feature) x)) /\
    (forall x, stored_in rows chunk x <-> moved_chunks chunk ixs lengths 0 x) /\
    (forall before, write_idx_blob cp cf before rows = Ok (before ++ blob, len before, len blob)) /\
    (exists acts, idx_merge cp cf chunk hs lengths (Files None None) = Ok (Some (acts, blob))) /\
    (len blob <= maxf -> forall s, attempts cp cf chunk hs lengths s ->
       exists acts, idx_merge cp cf chunk hs lengths s = Ok (Some (acts, blob))).
Proof.
  intros SL IX Sh Nc Ap Fit.
  assert (Src : Forall2 (source cp cf) ixs hs).
  { pose proof Fit as [Ct _]. assert (Wr : forall ix, In ix ixs -> writable cp cf ix).
    { intros ix Hi. apply index_writable; [exact SL|rewrite Forall_forall in IX; auto|]. intros f. specialize (Ct f). pose proof (count_each ixs f ix Hi IX). lia. }
    clear -Sh Wr. induction Sh as [|ix h ixs hs S _ IH]; constructor.
    - destruct (shelved_laid cp cf ix h (Wr ix (or_introl eq_refl)) S) as (pre & post & body & d & L & E & _).
      exact (Source cp cf ix h pre post body d (Wr ix (or_introl eq_refl)) L E).
    - apply IH. intros w Hw. apply Wr. right. exact Hw. }
  destruct (erased_ok cp cf ixs hs IX Src) as (ex & le & b & Em & Gx & Sx & Cx & Lx & Ax & Hx & ->).
  destruct (takes_exists (S (length (concat (map (after null_feature) (map hx_dir hs))))) (map (after null_feature) (map hx_dir hs)) ltac:(lia)) as (fs & T).
  set (rows := all_rows cp cf chunk hs lengths ex fs).
  assert (G : Forall (good_row cp cf) rows).
  { eapply Forall_impl; [|eapply (rows_good cp cf chunk ixs hs lengths); eassumption]. intros r [K _]. exact K. }
  destruct (laid_exists cp cf rows G header_length) as (P & d & L).
  exists rows, (blob_of P d).
  split; [eapply (rows_index cp cf chunk ixs hs lengths); eassumption|].
  split; [intros f; eapply (rows_count cp cf chunk ixs hs lengths); eassumption|].
  split; [intros x; eapply (rows_stored_null cp cf chunk ixs hs lengths); eassumption|].
  split.
  { intros f x Nf Nk. assert (K : eqs (stored_in rows f) (wanted chunk ixs lengths f)) by (eapply (rows_stored cp cf chunk ixs hs lengths); eassumption).
    specialize (K x). unfold wanted in K. replace (f =? chunk) with false in K by lia. exact K. }
  split.
  { intros x. assert (K : eqs (stored_in rows chunk) (wanted chunk ixs lengths chunk)) by (eapply (rows_stored cp cf chunk ixs hs lengths); try eassumption; congruence).
    specialize (K x). unfold wanted in K. rewrite Z.eqb_refl in K. exact K. }
  split; [intros pre; exact (write_blob_ok cp cf rows P d pre L)|].
  split; [eapply (attempt_fresh cp cf chunk ixs hs lengths); eassumption|].
  intros M s A. assert (M' : header_length + len P <= maxf) by (rewrite len_blob in M; pose proof (len_nonneg d); lia).
  assert (Hp : part P (dir_bytes d) s) by (eapply (attempts_part cp cf chunk ixs hs lengths); eassumption).
  assert (K : exists acts, idx_merge cp cf chunk hs lengths s = Ok (Some (acts, blob_of P d)) /\ safe (part P (dir_bytes d)) s acts) by (eapply (attempt cp cf chunk ixs hs lengths); eassumption).
  destruct K as (acts & E & _). exists acts. exact E.
Qed.
