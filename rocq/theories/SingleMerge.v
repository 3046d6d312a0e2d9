(** Merging the files of lists of a single-file index. *)
From Verif Require Import Base HopperModel ArrayDefs GclSpec ArrayProofs UnaryProofs Bytes CodecModel CodecSpec CodecProofs PostingModel PostingSpec PostingProofs PostingIO
  ShardModel ShardSpec ShardProofs HazelSpec HazelProofs SingleModel SingleSpec SingleLookup.

Section Merge.
Variables cp cf : compressor.
Hypothesis stores : stores_lists cp cf.

Lemma filed_shift o ix m out : filed cp cf o ix m out -> forall o', exists m', filed cp cf o' ix m' out.
Proof. induction 1 as [|o f p b ix m out W F IH]; intros o'; [exists []; constructor|]. destruct (IH (o' + len b)) as (m' & F'). eexists. constructor; eassumption. Qed.
Lemma filed_app o a m out : filed cp cf o a m out -> forall b m' out', filed cp cf (o + len out) b m' out' -> filed cp cf o (a ++ b) (m ++ m') (out ++ out').
Proof.
  induction 1 as [|o f p b ix m out W F IH]; intros c m' out' K; cbn [app]; [replace (o + len []) with o in K by (cbn; lia); exact K|].
  rewrite <- app_assoc. constructor; [exact W|]. apply IH. rewrite len_app in K. rewrite <- Z.add_assoc. exact K.
Qed.

Definition small (ix : index) : Prop := forall f, fiver_count ix f <= 288230376151711743.
Lemma row_storable ix f p : index_ok ix -> small ix -> find_posting ix f = Some p -> storable cp cf p.
Proof.
  intros [M R] Sm E. assert (Rp : row_ok (f, p)).
  { clear M Sm. induction R as [|[g q] ix Rq _ IH]; [discriminate|]. cbn in E. destruct (Z.eqb_spec g f) as [->|]; [injection E as ->; exact Rq|exact (IH E)]. }
  destruct Rp as (B & (Ff & l & H & N & G & V) & A). cbn [fst snd] in *. apply (stores p l H G).
  - rewrite Forall_forall. intros x Hx. apply In_nth_error in Hx. destruct Hx as [i Hx]. apply (A i). destruct H as (_ & _ & H). rewrite H, Hx. reflexivity.
  - rewrite Ff. unfold is_addr, minf, maxf in *. lia.
  - specialize (Sm f). unfold fiver_count in Sm. rewrite E, (holds_psize _ _ H) in Sm. exact Sm.
Qed.
Lemma index_tail r ix : index_ok (r :: ix) -> index_ok ix.
Proof. intros [M R]. split; [exact (map_order_tail _ _ M)|inversion R; assumption]. Qed.
Lemma find_head f p ix : find_posting ((f, p) :: ix) f = Some p.
Proof. cbn. rewrite Z.eqb_refl. reflexivity. Qed.
Lemma find_later f ix g : Forall (fun h => f < h) (map fst ix) -> g <= f -> find_posting ix g = None.
Proof.
  intros H L. destruct (find_posting ix g) eqn:E; [|reflexivity]. apply find_some_in in E. rewrite Forall_forall in H. specialize (H g E). lia.
Qed.
Lemma small_tail f p ix : index_ok ((f, p) :: ix) -> small ((f, p) :: ix) -> small ix.
Proof.
  intros [M R] Sm g. specialize (Sm g). unfold fiver_count in *. cbn [find_posting] in Sm. destruct (Z.eqb_spec f g) as [E|]; [|exact Sm].
  rewrite (find_later f ix g); [lia|exact (map_order_head _ _ M)|lia].
Qed.
Lemma index_writable ix : index_ok ix -> small ix -> writable cp cf ix.
Proof.
  intros O Sm. split; [apply O|]. rewrite Forall_forall. intros [f p] H. assert (F : find_posting ix f = Some p).
  { destruct O as [M _]. clear Sm. induction ix as [|[g q] ix IH]; [destruct H|]. cbn. destruct H as [E|H]; [injection E as -> ->; rewrite Z.eqb_refl; reflexivity|].
    pose proof (map_order_head _ _ M) as Hd. rewrite Forall_forall in Hd. specialize (Hd f (in_map fst _ _ H)). cbn [fst] in Hd. replace (g =? f) with false by lia. exact (IH (map_order_tail _ _ M) H). }
  cbn [fst snd]. pose proof (row_storable ix f p O Sm F) as S. destruct O as [_ R]. rewrite Forall_forall in R. destruct (R _ H) as (_ & (Ff & l & Hl & N & G & V) & _).
  cbn [fst snd] in *. split; [exact Ff|]. split; [exact S|]. eauto.
Qed.

(** A stream that reads the rest of an index. *)
Definition reads (R : index) (s : stream) : Prop :=
  match R with
  | [] => fst s = None
  | (f, p) :: r => fst s = Some p /\ feature p = f /\ exists o m, filed cp cf o r m (snd s)
  end.
Lemma advance_ok R o m out : index_ok R -> small R -> filed cp cf o R m out -> exists s, advance cp cf out = Ok s /\ reads R s.
Proof.
  intros O Sm F. unfold advance. inversion F as [o'|o' f p b r m' out' W F']; subst.
  - eexists. split; [reflexivity|]. reflexivity.
  - assert (S := row_storable _ f p O Sm (find_head _ _ _)). destruct O as [_ R]. inversion R as [|? ? (_ & (Ff & l & H & _) & _) _]; subst. cbn [fst snd] in *.
    destruct (write_read cp cf p l H S) as (b' & Wb & Rf & _). rewrite W in Wb. injection Wb as <-. rewrite Rf. cbn [bind]. eexists. split; [reflexivity|]. cbn. eauto.
Qed.
Lemma advance_all_ok Rs bs : Forall index_ok Rs -> Forall small Rs -> Forall2 (fun R b => exists o m, filed cp cf o R m b) Rs bs ->
  exists ss, advance_all cp cf bs = Ok ss /\ Forall2 reads Rs ss.
Proof.
  intros O Sm F. induction F as [|R b Rs bs (o & m & F) _ IH]; [exists []; split; [reflexivity|constructor]|]. inversion O; inversion Sm; subst.
  destruct (advance_ok R o m b) as (s & E & Rd); try assumption. destruct IH as (ss & Es & Rs'); try assumption. cbn. rewrite E. cbn [bind]. rewrite Es. cbn [bind].
  eexists. split; [reflexivity|]. constructor; assumption.
Qed.
Definition drop_head (f : Z) (R : index) : index := match R with (g, p) :: r => if g =? f then r else R | [] => [] end.
Lemma step_ok f Rs ss : Forall index_ok Rs -> Forall small Rs -> Forall2 reads Rs ss ->
  exists ss', step_streams cp cf f ss = Ok ss' /\ Forall2 reads (map (drop_head f) Rs) ss'.
Proof.
  intros O Sm F. induction F as [|R s Rs ss Rd _ IH]; [exists []; split; [reflexivity|constructor]|]. inversion O as [|? ? O1 O2]; inversion Sm as [|? ? S1 S2]; subst.
  destruct (IH O2 S2) as (ss' & E & Fs). destruct s as [o b]. destruct R as [|[g p] r]; cbn in Rd.
  - subst o. cbn. rewrite E. cbn [bind]. eexists. split; [reflexivity|]. constructor; [reflexivity|exact Fs].
  - destruct Rd as (-> & Fp & o' & m & Fd). cbn [step_streams]. rewrite Fp. cbn [map drop_head]. destruct (g =? f).
    + cbn [snd] in Fd. destruct (advance_ok r o' m b (index_tail _ _ O1) (small_tail _ _ _ O1 S1) Fd) as (s' & E' & Rd'). rewrite E'. cbn [bind]. rewrite E. cbn [bind].
      eexists. split; [reflexivity|]. constructor; assumption.
    + cbn [bind]. rewrite E. cbn [bind]. eexists. split; [reflexivity|]. constructor; [|exact Fs]. cbn. eauto.
Qed.
(** The least of the next features. *)
Definition heads (Rs : list index) : list Z := flat_map (fun R => match R with (f, _) :: _ => [f] | [] => [] end) Rs.
Lemma least_ok Rs ss : Forall2 reads Rs ss -> forall o, match least_feature o ss with
  | None => o = None /\ heads Rs = []
  | Some f => (o = Some f \/ In f (heads Rs)) /\ (forall g, o = Some g -> f <= g) /\ forall g, In g (heads Rs) -> f <= g
  end.
Proof.
  induction 1 as [|R s Rs ss Rd _ IH]; intros o; cbn [least_feature].
  - destruct o as [f|]; cbn; [|auto]. split; [left; reflexivity|]. split; [intros g K; injection K as ->; lia|intros g []].
  - destruct s as [x b]. destruct R as [|[g p] r]; cbn in Rd; [subst x; cbn; apply IH|]. destruct Rd as (-> & Fp & _). rewrite Fp. cbn [heads flat_map app]. fold (heads Rs).
    specialize (IH (match o with Some f => Some (if g <? f then g else f) | None => Some g end)). destruct (least_feature _ ss) as [f|].
    + destruct IH as (A & B & C). assert (Hg : f <= g) by (destruct o as [h|]; [destruct (g <? h) eqn:E; specialize (B _ eq_refl); lia|apply B; reflexivity]).
      split; [|split].
      * destruct A as [A|A]; [|right; right; exact A]. destruct o as [h|]; [|injection A as ->; right; left; reflexivity]. destruct (g <? h); injection A as ->; [right; left; reflexivity|left; reflexivity].
      * intros k ->. destruct (g <? k) eqn:E; specialize (B _ eq_refl); lia.
      * intros k [<-|K]; [exact Hg|exact (C k K)].
    + destruct IH as [A _]. destruct o as [h|]; [destruct (g <? h)|]; discriminate.
Qed.
Lemma heads_min Rs f : Forall index_ok Rs -> (forall g, In g (heads Rs) -> f <= g) -> forall R g, In R Rs -> In g (map fst R) -> f <= g.
Proof.
  intros O H R g HR Hg. rewrite Forall_forall in O. destruct (O R HR) as [M _]. destruct R as [|[h p] r]; [destruct Hg|].
  assert (f <= h) by (apply H; unfold heads; apply in_flat_map; exists ((h, p) :: r); split; [exact HR|left; reflexivity]).
  destruct Hg as [<-|Hg]; [exact H0|]. pose proof (map_order_head _ _ M) as Hd. rewrite Forall_forall in Hd. specialize (Hd g Hg). cbn [fst] in *. lia.
Qed.
Lemma with_feature_ok Rs ss f : Forall2 reads Rs ss -> Forall index_ok Rs -> (forall g, In g (heads Rs) -> f <= g) -> with_feature f ss = postings_of Rs f.
Proof.
  intros F. induction F as [|R s Rs ss Rd _ IH]; intros O H; [reflexivity|]. inversion O as [|? ? O1 O2]; subst. cbn [with_feature postings_of flat_map].
  change (flat_map _ ss) with (with_feature f ss). change (flat_map _ Rs) with (postings_of Rs f). rewrite (IH O2) by (intros g K; apply H; unfold heads; cbn [flat_map]; apply in_or_app; right; exact K). f_equal.
  destruct s as [x b]. destruct R as [|[g p] r]; cbn in Rd; [subst x; reflexivity|]. destruct Rd as (-> & Fp & _). cbn [fst find_posting]. rewrite Fp.
  destruct (Z.eqb_spec g f) as [->|Ne]; [reflexivity|]. assert (f <= g) by (apply H; left; reflexivity). destruct O1 as [M _].
  rewrite (find_later g r f); [reflexivity|exact (map_order_head _ _ M)|lia].
Qed.
Lemma drop_find f R g : index_ok R -> find_posting (drop_head f R) g = if g =? f then (match R with (h, _) :: _ => if h =? f then None else find_posting R g | [] => None end) else find_posting R g.
Proof.
  intros [M _]. destruct R as [|[h p] r]; [cbn; destruct (g =? f); reflexivity|]. cbn [drop_head]. pose proof (map_order_head _ _ M) as Hd. cbn [map fst] in Hd.
  destruct (Z.eqb_spec h f) as [->|Nh]; [|destruct (g =? f); reflexivity]. destruct (Z.eqb_spec g f) as [->|Ng]; [apply (find_later f); [exact Hd|lia]|]. cbn. replace (f =? g) with false by lia. reflexivity.
Qed.
Lemma lst_find f R R' l : find_posting R' f = find_posting R f -> lst_of f R l -> lst_of f R' l.
Proof. intros E [N|p l' Fp A B C D V]; [constructor; congruence|econstructor; [rewrite E; exact Fp|..]; assumption]. Qed.
Lemma drop_ok f R : index_ok R -> index_ok (drop_head f R).
Proof. intros O. destruct R as [|[h p] r]; [exact O|]. cbn. destruct (h =? f); [exact (index_tail _ _ O)|exact O]. Qed.
Lemma drop_count f R g : index_ok R -> fiver_count (drop_head f R) g <= fiver_count R g.
Proof.
  intros O. unfold fiver_count. rewrite (drop_find f R g O). destruct (Z.eqb_spec g f) as [->|]; [|lia]. destruct R as [|[h p] r]; [cbn; lia|].
  destruct (Z.eqb_spec h f) as [->|]; [|lia]. rewrite find_head. unfold psize, len. lia.
Qed.
Lemma drop_small f R : index_ok R -> small R -> small (drop_head f R).
Proof. intros O Sm g. pose proof (drop_count f R g O). specialize (Sm g). lia. Qed.
Lemma sorted_ok l : gcdup l -> is_sorted (map ip l) = true /\ is_sorted (map iq l) = true.
Proof.
  induction l as [|x l IH]; intros G; [split; reflexivity|]. pose proof (gcdup_tail _ _ G) as G'. destruct (IH G') as [A B].
  destruct l as [|y l]; [split; reflexivity|]. cbn [map is_sorted] in *. rewrite A, B. destruct (gcdup_head x (y :: l) y G (or_introl eq_refl)) as [K|<-]; lia.
Qed.
Lemma invariants_ok p l : holds p l -> gcdup l -> invariants p = true.
Proof.
  intros H G. destruct (sorted_ok l G) as [A B]. apply rep_holds in H as R. destruct H as (H1 & H2 & _). pose proof (rep_ip p l R) as E1. pose proof (rep_iq p l R) as E2. unfold ends in E2.
  unfold invariants. rewrite E1, A. assert (C1 : match qostings p with [] => true | l0 => Nat.eqb (length l0) (length (postings p)) end = true) by (destruct (qostings p) as [|x r]; [reflexivity|]; destruct H1 as [H1|H1]; [discriminate|]; rewrite H1; apply Nat.eqb_refl).
  assert (C2 : match fostings p with [] => true | l0 => Nat.eqb (length l0) (length (postings p)) end = true) by (destruct (fostings p) as [|x r]; [reflexivity|]; destruct H2 as [H2|H2]; [discriminate|]; rewrite H2; apply Nat.eqb_refl).
  rewrite <- E1, C1, C2. cbn [andb]. destruct (qostings p) as [|x r] eqn:Q; [rewrite combine_nil; reflexivity|]. rewrite E2, B. cbn [andb]. rewrite E1. apply forallb_forall.
  intros [a b] K. clear -G K. induction l as [|y l IH]; [destruct K|]. cbn in K. destruct K as [K|K]; [injection K as <- <-; destruct G as [(_ & K & _) _]; cbn; lia|exact (IH (gcdup_tail _ _ G) K)].
Qed.
Lemma postings_drop Rs f g : g <> f -> Forall index_ok Rs -> forall ls, Forall2 (lst_of g) Rs ls -> Forall2 (lst_of g) (map (drop_head f) Rs) ls.
Proof.
  intros N O ls H. induction H as [|R l Rs ls L _ IH]; [constructor|]. inversion O; subst. cbn. constructor; [|apply IH; assumption].
  apply (lst_find g R); [|exact L]. rewrite drop_find by assumption. replace (g =? f) with false by lia. reflexivity.
Qed.
Lemma rows_lst Rs f : Forall index_ok Rs -> exists ls, Forall2 (lst_of f) Rs ls.
Proof.
  induction 1 as [|R Rs O _ (ls & IH)]; [exists []; constructor|]. destruct (find_posting R f) as [p|] eqn:E; [|exists ([] :: ls); constructor; [constructor; exact E|exact IH]].
  destruct O as [_ O]. assert (Rp : row_ok (f, p)).
  { clear IH. induction O as [|[g q] ix Rq _ IH]; [discriminate|]. cbn in E. destruct (Z.eqb_spec g f) as [->|]; [injection E as ->; exact Rq|exact (IH E)]. }
  destruct Rp as (_ & (Ff & l & H & N & G & V) & _). exists (l :: ls). constructor; [|exact IH]. econstructor; eassumption.
Qed.
Lemma rows_range Rs f ls x : Forall index_ok Rs -> Forall2 (lst_of f) Rs ls -> In x (concat ls) -> 0 <= f < maxf /\ 0 <= ip x /\ is_addr (ivl x).
Proof.
  intros O H Hx. induction H as [|R l Rs ls L _ IH]; [destruct Hx|]. inversion O as [|? ? O1 O2]; subst. cbn in Hx. apply in_app_or in Hx. destruct Hx as [Hx|Hx]; [|exact (IH O2 Hx)].
  destruct L as [|p l E Ff H N G V]; [destruct Hx|]. clear O. destruct O1 as [_ O]. assert (Rp : row_ok (f, p)).
  { clear IH. induction O as [|[g q] ix Rq _ IH]; [discriminate|]. cbn in E. destruct (Z.eqb_spec g f) as [->|]; [injection E as ->; exact Rq|exact (IH E)]. }
  destruct Rp as (A & _ & B). cbn [fst snd] in *. split; [exact A|]. apply In_nth_error in Hx. destruct Hx as [i Hx]. apply (B i). destruct H as (_ & _ & H). rewrite H, Hx. reflexivity.
Qed.
Definition rows (Rs : list index) : nat := length (concat Rs).
Lemma rows_drop f Rs : (rows (map (drop_head f) Rs) <= rows Rs)%nat /\ (In f (heads Rs) -> (rows (map (drop_head f) Rs) < rows Rs)%nat).
Proof.
  unfold rows. induction Rs as [|R Rs [IH1 IH2]]; [split; [cbn; lia|intros []]|]. cbn [map concat]. rewrite !app_length.
  destruct R as [|[g p] r]; cbn [drop_head heads flat_map app length]; [split; [lia|intros H; specialize (IH2 H); lia]|].
  destruct (Z.eqb_spec g f) as [->|Ne]; cbn [length]; (split; [lia|]); intros [H|H]; try lia; try (specialize (IH2 H)); lia.
Qed.
Lemma bigwig_drop f Rs g : Forall index_ok Rs -> bigwig_count (map (drop_head f) Rs) g <= bigwig_count Rs g.
Proof. induction 1 as [|R Rs O _ IH]; [cbn; lia|]. cbn [map]. rewrite !count_cons. pose proof (drop_count f R g O). lia. Qed.
Lemma postings_none Rs f : postings_of Rs f = [] -> forall R, In R Rs -> find_posting R f = None.
Proof.
  intros H R HR. destruct (find_posting R f) as [p|] eqn:E; [|reflexivity]. assert (K : In p (postings_of Rs f)); [|rewrite H in K; destruct K].
  unfold postings_of. apply in_flat_map. exists R. rewrite E. split; [exact HR|left; reflexivity].
Qed.
(** The result of the loop. *)
Definition merged (Rs : list index) (ix : index) : Prop :=
  index_ok ix /\ (forall f, fiver_count ix f <= bigwig_count Rs f) /\
  (forall f, In f (map fst ix) -> exists R, In R Rs /\ In f (map fst R)) /\
  forall f ls, Forall2 (lst_of f) Rs ls -> exists l, good_opt f (find_posting ix f) l /\ eqs (set_of l) (sem_inner (map set_of ls)).
Lemma order_cons f fs : map_order fs -> (forall g, In g fs -> f < g) -> map_order (f :: fs).
Proof. intros M H. destruct fs as [|g fs]; [exact Logic.I|]. split; [apply H; left; reflexivity|exact M]. Qed.
Lemma merge_some ps : ps <> [] -> posting_from_merge ps <> Ok None.
Proof.
  intros N. destruct ps as [|p [|q r]]; [congruence|discriminate|]. cbn [posting_from_merge]. destruct (negb _); [discriminate|].
  destruct (all_contents _) as [ls| |]; cbn [bind]; [|discriminate|discriminate]. destruct (can_append ls); [discriminate|]. destruct (drain _ _ _ _) as [[x y]| |]; cbn [bind]; discriminate.
Qed.
Lemma choose_ok ps p l : posting_from_merge ps = Ok (Some p) -> holds p l -> gcdup l -> choose ps = Ok (Some p).
Proof.
  intros E H G. destruct ps as [|q [|r ps]]; [discriminate|exact E|]. unfold choose. rewrite E. cbn [bind]. rewrite (invariants_ok p l H G). reflexivity.
Qed.
Lemma no_heads Rs : heads Rs = [] -> forall R, In R Rs -> R = [].
Proof.
  intros H R HR. destruct R as [|[f p] r]; [reflexivity|]. assert (K : In f (heads Rs)); [|rewrite H in K; destruct K]. apply in_flat_map. eexists. split; [exact HR|left; reflexivity].
Qed.
Lemma merged_nil Rs : heads Rs = [] -> merged Rs [].
Proof.
  intros H. pose proof (no_heads Rs H) as E. clear H. split; [split; constructor|]. split; [|split; [intros f []|]].
  - intros f. cbn. induction Rs as [|R Rs IH]; [reflexivity|]. rewrite count_cons, (E R (or_introl eq_refl)). cbn. apply IH. intros R' H. apply E. right. exact H.
  - intros f ls F. exists []. split; [reflexivity|]. intros x. split; [intros []|]. intros K. apply inner_in in K.
    induction F as [|R l Rs ls L _ IH]; [destruct K|]. cbn in K. apply in_app_or in K. destruct K as [K|K].
    + destruct L as [|p l Fp]; [destruct K|]. rewrite (E R (or_introl eq_refl)) in Fp. discriminate.
    + apply IH; [|exact K]. intros R' H. apply E. right. exact H.
Qed.
Lemma small_each Rs : Forall index_ok Rs -> (forall f, bigwig_count Rs f <= 288230376151711743) -> Forall small Rs.
Proof.
  intros O H. induction O as [|R Rs O _ IH]; [constructor|]. constructor.
  - intros f. specialize (H f). rewrite count_cons in H. assert (0 <= bigwig_count Rs f); [|lia]. clear. induction Rs as [|R Rs IH]; [cbn; lia|]. rewrite count_cons. unfold fiver_count. destruct (find_posting R f); unfold psize, len; lia.
  - apply IH. intros f. specialize (H f). rewrite count_cons in H. assert (0 <= fiver_count R f) by (unfold fiver_count; destruct (find_posting R f); unfold psize, len; lia). lia.
Qed.
Lemma drop_above Rs f : Forall index_ok Rs -> (forall g, In g (heads Rs) -> f <= g) -> forall R g, In R (map (drop_head f) Rs) -> In g (map fst R) -> f < g /\ exists R', In R' Rs /\ In g (map fst R').
Proof.
  intros O H R g HR Hg. apply in_map_iff in HR. destruct HR as (R' & <- & HR). assert (I' : In g (map fst R')).
  { destruct R' as [|[h p] r]; [destruct Hg|]. cbn in Hg. destruct (h =? f); [right; exact Hg|exact Hg]. }
  split; [|exists R'; split; assumption]. pose proof (heads_min Rs f O H R' g HR I') as Le. destruct (Z.eq_dec g f) as [->|]; [exfalso|lia].
  rewrite Forall_forall in O. destruct (O R' HR) as [M _]. destruct R' as [|[h p] r]; [destruct Hg|]. pose proof (map_order_head _ _ M) as Hd. rewrite Forall_forall in Hd. cbn [fst] in Hd.
  cbn [drop_head] in Hg. destruct (Z.eqb_spec h f) as [->|Ne]; [specialize (Hd f Hg); lia|]. destruct Hg as [E|Hg]; [cbn in E; lia|]. specialize (Hd f Hg).
  assert (f <= h); [|lia]. apply H. apply in_flat_map. eexists. split; [exact HR|left; reflexivity].
Qed.
Lemma count_lst Rs f : Forall index_ok Rs -> forall ls, Forall2 (lst_of f) Rs ls -> bigwig_count Rs f = Z.of_nat (length (concat ls)).
Proof. intros _ ls H. exact (lsts_count f Rs ls H). Qed.
Lemma merge_loop_ok n : forall Rs ss m out, (rows Rs <= n)%nat -> Forall index_ok Rs -> (forall f, bigwig_count Rs f <= 288230376151711743) -> Forall2 reads Rs ss ->
  exists ix m' out', merge_loop cp cf n ss m out = Ok (Some (m ++ m', out ++ out')) /\ filed cp cf (len out) ix m' out' /\ merged Rs ix.
Proof.
  induction n as [|n IH]; intros Rs ss m out L O Sm F; pose proof (least_ok Rs ss F None) as Lf; cbn [merge_loop]; destruct (least_feature None ss) as [f|] eqn:El.
  - exfalso. destruct Lf as ([A|A] & _ & _); [discriminate|]. destruct (rows_drop f Rs) as [_ K]. specialize (K A). lia.
  - exists [], [], []. rewrite !app_nil_r. split; [reflexivity|]. split; [constructor|]. apply merged_nil. apply Lf.
  - destruct Lf as ([A|A] & _ & Mn); [discriminate|]. rewrite (with_feature_ok Rs ss f F O Mn).
    destruct (rows_lst Rs f O) as (ls & Ls). destruct (merge_lsts f Rs ls Ls) as (o & l & Em & Go & Eq & Ll).
    assert (Np : postings_of Rs f <> []).
    { intros E. apply in_flat_map in A. destruct A as (R & HR & A). pose proof (postings_none Rs f E R HR) as K. destruct R as [|[g q] r]; [destruct A|]. destruct A as [->|[]]. rewrite find_head in K. discriminate. }
    destruct o as [p|]; [|destruct (merge_some _ Np Em)]. destruct Go as (Fp & Hp & Nl & Gl & Vl). rewrite (choose_ok _ p l Em Hp Gl). cbn [bind].
    assert (Rg : forall x, In x l -> 0 <= f < maxf /\ 0 <= ip x /\ is_addr (ivl x)) by (intros x Hx; apply (rows_range Rs f ls x O Ls); apply inner_in; apply Eq; exact Hx).
    assert (Hf : 0 <= f < maxf) by (destruct l as [|x l0]; [congruence|apply (Rg x (or_introl eq_refl))]).
    assert (Cl : Z.of_nat (length l) <= bigwig_count Rs f) by (rewrite (lsts_count f Rs ls Ls); lia).
    assert (St : storable cp cf p).
    { apply (stores p l Hp Gl); [rewrite Forall_forall; intros x Hx; apply (Rg x Hx)|rewrite Fp; unfold is_addr, minf, maxf in *; lia|]. specialize (Sm f). unfold len. lia. }
    destruct (write_read cp cf p l Hp St) as (b & Wb & _). rewrite Wb. cbn [bind].
    destruct (step_ok f Rs ss O (small_each Rs O Sm) F) as (ss' & Es & Fs). rewrite Es. cbn [bind].
    assert (O' : Forall index_ok (map (drop_head f) Rs)) by (rewrite Forall_map; eapply Forall_impl; [|exact O]; intros R; apply drop_ok).
    destruct (IH (map (drop_head f) Rs) ss' (m ++ [(f, len (out ++ b))]) (out ++ b)) as (ix & m' & out' & El' & Fd & Mo & Mc & Mf & Ms); [destruct (rows_drop f Rs) as [_ K]; specialize (K A); lia|exact O'|intros g; pose proof (bigwig_drop f Rs g O); specialize (Sm g); lia|exact Fs|].
    exists ((f, p) :: ix), ((f, len (out ++ b)) :: m'), (b ++ out'). split; [rewrite El', <- !app_assoc; reflexivity|].
    split; [rewrite len_app; constructor; [exact Wb|rewrite <- len_app; exact Fd]|].
    pose proof (drop_above Rs f O Mn) as Ab.
    split; [split|split; [|split]].
    + destruct Mo as [Mo _]. apply order_cons; [exact Mo|]. intros g Hg. destruct (Mf g Hg) as (R & HR & HgR). apply (Ab R g HR HgR).
    + constructor; [|apply Mo]. split; [exact Hf|]. cbn [fst snd]. split; [split; [exact Fp|exists l; auto]|]. intros i x Hx. destruct Hp as (_ & _ & Hp). rewrite Hp in Hx. injection Hx as Hx. apply (Rg x). exact (nth_error_In _ _ Hx).
    + intros g. unfold fiver_count. cbn [find_posting]. destruct (Z.eqb_spec f g) as [->|Ne]; [rewrite (holds_psize _ _ Hp); unfold len; exact Cl|].
      specialize (Mc g). unfold fiver_count in Mc. pose proof (bigwig_drop f Rs g O). lia.
    + intros g [<-|Hg]; [apply in_flat_map in A; destruct A as (R & HR & A); exists R; split; [exact HR|]; destruct R as [|[h q] r]; [destruct A|]; destruct A as [->|[]]; left; reflexivity|].
      destruct (Mf g Hg) as (R & HR & HgR). apply (Ab R g HR HgR).
    + intros g ks Ks. cbn [find_posting]. destruct (Z.eqb_spec f g) as [->|Ne].
      * destruct (merge_lsts g Rs ks Ks) as (o' & l' & Em' & Go' & Eq' & _). rewrite Em in Em'. injection Em' as <-. exists l'. split; assumption.
      * apply Ms. apply postings_drop; [lia|exact O|exact Ks].
  - exists [], [], []. rewrite !app_nil_r. split; [reflexivity|]. split; [constructor|]. apply merged_nil. apply Lf.
Qed.
Lemma filed_rows o ix m out : index_ok ix -> small ix -> filed cp cf o ix m out -> (length ix <= length out)%nat.
Proof.
  intros O Sm F. induction F as [|o f p b ix m out W F IH]; [cbn; lia|]. specialize (IH (index_tail _ _ O) (small_tail _ _ _ O Sm)).
  assert (S := row_storable _ f p O Sm (find_head _ _ _)). destruct O as [_ R]. inversion R as [|? ? (_ & (Ff & l & H & _) & _) _]; subst. cbn [fst snd] in *.
  pose proof (written_long cp cf p l b H S W) as K. rewrite app_length. unfold len in K. cbn [length]. lia.
Qed.
Theorem merge_updates_ok Rs bs : Forall index_ok Rs -> (forall f, bigwig_count Rs f <= 288230376151711743) -> Forall2 (fun R b => exists o m, filed cp cf o R m b) Rs bs ->
  exists ix m out, merge_updates cp cf bs = Ok (Some (map_bytes m, out)) /\ filed cp cf 0 ix m out /\ merged Rs ix.
Proof.
  intros O Sm F. pose proof (small_each Rs O Sm) as S. destruct (advance_all_ok Rs bs O S F) as (ss & Ea & Fs). unfold merge_updates. rewrite Ea. cbn [bind].
  destruct (merge_loop_ok (length (concat bs)) Rs ss [] []) as (ix & m & out & E & Fd & M); try assumption.
  - clear -O S F stores. unfold rows. induction F as [|R b Rs bs (o & m & F) _ IH]; [cbn; lia|]. inversion O; inversion S; subst. cbn [concat]. rewrite !app_length. pose proof (filed_rows o R m b) as K. specialize (K ltac:(assumption) ltac:(assumption) F). specialize (IH ltac:(assumption) ltac:(assumption)). lia.
  - rewrite E. cbn [bind app]. exists ix, m, out. split; [reflexivity|]. split; assumption.
Qed.
End Merge.
