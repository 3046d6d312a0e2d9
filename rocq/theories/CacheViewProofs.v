(** Proofs: the shared lists of a snapshot are what a single thread would compute. *)
From Verif Require Import Base HopperModel ArrayDefs GclSpec HopperProofs ArrayProofs UnaryModel VectorModel
  Bytes CodecModel CodecSpec PostingModel PostingSpec PostingProofs ShardModel ShardSpec ShardProofs
  HazelModel HazelSpec HazelProofs HazelSources OwslaModel OwslaIdx OwslaLater CacheModel CacheSpec CacheInv CacheAll CacheLive CacheView CacheViewSpec.

Section View.
Variables cp cf : compressor.
Variable os : list owsla.
Notation value := (value (alone os) (parts os) (made cp cf os) level).

Lemma parts_lower k k' : In k' (parts os k) -> (level k' < level k)%nat.
Proof.
  unfold parts, level. destruct k as [[|i] f]; cbn [fst snd]; [|intros []].
  intros H. apply in_map_iff in H as (i & <- & _). cbn. lia.
Qed.

Lemma shard_value i o f p : nth_error os i = Some o -> owsla_posting cp cf o f = Ok (Some p) -> feature p = f ->
  value (S i, f) = p.
Proof.
  intros Ho Hp Hf. unfold CacheSpec.value, level. cbn [fst value_at]. unfold alone. cbn [fst snd]. rewrite Ho.
  destruct o as [w t|h x s]; cbn [owsla_posting] in Hp.
  - injection Hp as Hp. rewrite Hp. reflexivity.
  - unfold hazel_posting in Hp. destruct (locate (hx_dir h) f) as [[[j e]|]| |] eqn:El; cbn [bind] in Hp; try discriminate.
    destruct (start_of (hx_dir h) j =? en_end e) eqn:Es; [congruence|].
    destruct (en_end e <? start_of (hx_dir h) j) eqn:Et; [discriminate|].
    unfold made. cbn [fst snd]. rewrite Ho, El.
    destruct (fill cp cf h f (hx_offset h + start_of (hx_dir h) j) (en_end e - start_of (hx_dir h) j) (en_val e)) as [q| |];
      cbn [bind] in Hp; try discriminate. injection Hp as ->.
    unfold labelled. cbn [snd]. rewrite <- Hf. destruct p; reflexivity.
Qed.

Lemma lst_count_some f w l : lst_of f w l -> (0 <? fiver_count w f) = match find_posting w f with Some _ => true | None => false end.
Proof.
  intros H. pose proof (lst_count f w l H) as E. destruct H as [Q|p l Q F Ho N G V]; rewrite Q.
  - unfold fiver_count. rewrite Q. reflexivity.
  - rewrite E. destruct l; [congruence|]. cbn. lia.
Qed.
Lemma values_of f : forall os2 os1 ws ls, os = os1 ++ os2 -> Forall2 (answering cp cf) os2 ws -> Forall2 (lst_of f) ws ls ->
  map (fun i => value (S i, f)) (filter (contributes os f) (seq (length os1) (length os2))) = postings_of ws f /\
  length (filter (contributes os f) (seq (length os1) (length os2))) = length (filter full ls).
Proof.
  induction os2 as [|o os2 IH]; intros os1 ws ls E A L.
  - inversion A; subst ws. inversion L; subst ls. split; reflexivity.
  - destruct ws as [|w ws']; [inversion A|]. destruct ls as [|l ls']; [inversion L|].
    assert (A1 : answering cp cf o w) by (inversion A; assumption). assert (A2 : Forall2 (answering cp cf) os2 ws') by (inversion A; assumption).
    assert (L1 : lst_of f w l) by (inversion L; assumption). assert (L2 : Forall2 (lst_of f) ws' ls') by (inversion L; assumption).
    assert (Hn : nth_error os (length os1) = Some o) by (rewrite E, nth_error_app2, Nat.sub_diag by lia; reflexivity).
    assert (E' : os = (os1 ++ [o]) ++ os2) by (rewrite <- app_assoc; exact E).
    specialize (IH (os1 ++ [o]) ws' ls' E' A2 L2). rewrite app_length, Nat.add_1_r in IH.
    cbn [length seq filter]. assert (Hc : contributes os f (length os1) = match find_posting w f with Some _ => true | None => false end).
    { unfold contributes. rewrite Hn, (an_count _ _ _ _ A1). exact (lst_count_some f w l L1). }
    rewrite Hc. unfold postings_of. cbn [flat_map]. fold (postings_of ws' f).
    destruct L1 as [Q|p l Q Fp Hp Np Gp Vp].
    + rewrite Q. cbn [full app]. exact IH.
    + rewrite Q. cbn [map length app]. destruct IH as (IH1 & IH2). split.
      * rewrite IH1. f_equal. apply (shard_value _ o); [exact Hn| |exact Fp]. rewrite (an_posting _ _ _ _ A1), Q. reflexivity.
      * destruct l as [|x l]; [congruence|]. cbn [full length]. f_equal. exact IH2.
Qed.

Lemma nothing_holds f : PostingSpec.holds (posting_from_feature f) [].
Proof. split; [left; reflexivity|]. split; [left; reflexivity|]. intros [|i]; reflexivity. Qed.

Lemma route_value f ws ls : Forall2 (answering cp cf) os ws -> Forall2 (lst_of f) ws ls ->
  exists l, feature (value (route os f)) = f /\ PostingSpec.holds (value (route os f)) l /\ gcdup l /\ eqs (set_of l) (sem_inner (map set_of ls)).
Proof.
  intros A L. destruct (values_of f os [] ws ls eq_refl A L) as (Ev & El). cbn [length] in Ev, El.
  fold (contributing os f) in Ev, El.
  pose proof (inner_lists_drop_empty ls) as D. fold full in D.
  unfold route. destruct (contributing os f) as [|i [|j r]] eqn:Ec.
  - exists []. unfold CacheSpec.value, level. cbn [fst value_at]. unfold alone. cbn [fst snd]. rewrite Ec.
    split; [reflexivity|]. split; [apply nothing_holds|]. split; [exact I|].
    destruct (filter full ls); [|discriminate]. apply eqs_sym. exact (eqs_trans _ _ _ D inner_nil).
  - cbn [map] in Ev. destruct (lsts_postings f ws ls L) as (P & F & _ & G & _). rewrite <- Ev in P, F.
    destruct (filter full ls) as [|l [|]]; try discriminate. inversion P as [|? ? ? ? H]; subst.
    apply Forall_inv in F, G. exists l. split; [exact F|]. split; [exact H|]. split; [exact G|].
    apply eqs_sym. exact (eqs_trans _ _ _ D (inner_one l G)).
  - destruct (merge_lsts f ws ls L) as (o & l & Em & Go & Eq & _).
    assert (Hl : l <> []).
    { apply (merge_nonempty ls); [exact (lsts_gcdup f ws ls L)| |intros x; apply Eq].
      destruct (filter full ls) as [|a t] eqn:Ef; [discriminate|].
      assert (Ha : In a (filter full ls)) by (rewrite Ef; left; reflexivity). apply filter_In in Ha as (Ha & Fa).
      exists a. split; [exact Ha|]. intros ->. discriminate. }
    destruct o as [p|]; [|congruence]. destruct Go as (F & H & N & G & V).
    assert (Ev' : value (O, f) = p).
    { rewrite (value_eq _ _ _ _ parts_lower). unfold alone at 1. cbn [fst snd]. rewrite Ec.
      replace (parts os (O, f)) with (map (fun i => (S i, f)) (contributing os f)) by reflexivity. rewrite Ec, map_map.
      rewrite Ev. unfold made. cbn [fst snd]. rewrite Em. cbn [bind]. rewrite <- F, (append_new p l H).
      unfold labelled. cbn [snd]. destruct p; reflexivity. }
    rewrite Ev'. exists l. split; [exact F|]. split; [exact H|]. split; [exact G|exact Eq].
Qed.
End View.

(** What a shard of a snapshot answers as. *)
Lemma read_list cp cf ix f : index_ok ix -> writable cp cf ix -> exists l, lst_of f (read_ix ix) l /\ eqs (stored_in ix f) (set_of l).
Proof.
  intros (_ & R) (_ & W). destruct (find_posting ix f) as [p|] eqn:E.
  - assert (Hin : In (f, p) ix).
    { clear - E. induction ix as [|[g q] ix IH]; [discriminate|]. cbn in E. destruct (Z.eqb_spec g f) as [->|]; [injection E as ->; left; reflexivity|right; exact (IH E)]. }
    rewrite Forall_forall in R, W. destruct (R _ Hin) as (_ & (Fp & l & H & N & G & V) & _). cbn [fst snd] in *.
    exists l. split.
    + apply (Lst_some f (read_ix ix) (as_read p)); [rewrite find_read, E; reflexivity|rewrite as_read_feature; exact Fp|exact (as_read_holds p l H V)|exact N|exact G|exact V].
    + exact (lst_stored f ix l (Lst_some f ix p l E Fp H N G V)).
  - exists []. split; [apply Lst_none; rewrite find_read, E; reflexivity|]. exact (lst_stored f ix [] (Lst_none f ix E)).
Qed.
Lemma shard_list cp cf chunk f o ix : shard_of cp cf o ix -> ShardSpec.sound chunk ix -> f <> chunk ->
  exists w l, answering cp cf o w /\ lst_of f w l /\ eqs (stored_in ix f) (set_of l).
Proof.
  intros [w t|h x s ix' Io Wr Sh] So Nf.
  - destruct (lst_exists chunk (f_index w) f So Nf) as (l & L). exists (f_index w), l. split; [apply memory_answering|]. split; [exact L|exact (lst_stored _ _ _ L)].
  - destruct (read_list cp cf ix' f Io Wr) as (l & L & Q). exists (read_ix ix'), l. split; [|split; assumption].
    apply disk_answering. destruct (shelved_laid cp cf ix' h Wr Sh) as (pre & post & body & d & La & E & _). exact (Source cp cf ix' h pre post body d Wr La E).
Qed.
Lemma shard_lists cp cf chunk f os ixs : Forall2 (shard_of cp cf) os ixs -> Forall (ShardSpec.sound chunk) ixs -> f <> chunk ->
  exists ws ls, Forall2 (answering cp cf) os ws /\ Forall2 (lst_of f) ws ls /\ Forall2 eqs (map (fun ix => stored_in ix f) ixs) (map set_of ls).
Proof.
  intros F So Nf. induction F as [|o ix os ixs H F IH]; [exists [], []; repeat constructor|].
  inversion_clear So as [|? ? S1 S2]. destruct (IH S2) as (ws & ls & A & L & Q). destruct (shard_list cp cf chunk f o ix H S1 Nf) as (w & l & A1 & L1 & Q1).
  exists (w :: ws), (l :: ls). split; [constructor; assumption|]. split; [constructor; assumption|]. cbn [map]. constructor; assumption.
Qed.
Theorem view_seen fallback cp cf chunk os ixs ps turns s i p t f d :
  Forall2 (shard_of cp cf) os ixs -> Forall (ShardSpec.sound chunk) ixs -> f <> chunk ->
  run fallback (alone os) (parts os) (made cp cf os) (start ps) turns = Some s ->
  nth_error ps i = Some p -> nth_error (threads s) i = Some t -> In (route os f, d) (seen t) ->
  exists l, feature d = f /\ PostingSpec.holds d l /\ gcdup l /\ forall x, In x l <-> innermost_of ixs f x.
Proof.
  intros F So Nf R Hp Ht Hi. destruct (shard_lists cp cf chunk f os ixs F So Nf) as (ws & ls & A & L & Q).
  destruct (seen_ok fallback _ _ _ level (parts_lower os) ps turns s i p R Hp) as (t' & Ht' & (later & El) & _).
  rewrite Ht in Ht'. injection Ht' as <-.
  assert (Hin : In (route os f, d) (answers (alone os) (parts os) (made cp cf os) level p)) by (rewrite El; apply in_or_app; left; exact Hi).
  apply in_map_iff in Hin as (k & Ek & _). injection Ek as -> <-.
  destruct (route_value cp cf os f ws ls A L) as (l & Ff & H & G & E). exists l. split; [exact Ff|]. split; [exact H|]. split; [exact G|].
  intros x. unfold innermost_of. rewrite (sem_inner_ext _ _ Q x). exact (E x).
Qed.
