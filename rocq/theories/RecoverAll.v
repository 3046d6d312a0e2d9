(** Recovery of a whole directory. *)
From Verif Require Import Base Bytes NameModel NameSpec NameProofs RecoverProofs.
From Coq Require Import Sorting.Permutation Sorting.Sorted.

Lemma names_range_prefix p n s e : names_range p n s e -> has_prefix p n = true.
Proof.
  intros (_ & _ & ds & de & _ & _ & ->). unfold has_prefix. replace (strip p _) with (Some ([46] ++ ds ++ [46] ++ de)); [reflexivity|].
  symmetry. apply strip_spec. reflexivity.
Qed.
Lemma has_prefix_spec p n : has_prefix p n = true <-> exists r, n = p ++ r.
Proof.
  unfold has_prefix. destruct (strip p n) as [r|] eqn:E.
  - apply strip_spec in E. split; [exists r; exact E|reflexivity].
  - split; [discriminate|]. intros [r ->]. assert (K : strip p (p ++ r) = Some r) by (apply strip_spec; reflexivity). congruence.
Qed.
Lemma ls_in names p n : In n (ls names p) <-> (In n names /\ has_prefix p n = true).
Proof. unfold ls. apply filter_In. Qed.
Lemma prefix_clash p q n r : has_prefix p n = true -> n = q ++ r -> (exists k, nth_error p k <> None /\ nth_error q k <> None /\ nth_error p k <> nth_error q k) -> False.
Proof.
  intros H -> (k & A & B & C). apply has_prefix_spec in H. destruct H as [t E].
  assert (K : nth_error (q ++ r) k = nth_error (p ++ t) k) by (rewrite E; reflexivity).
  rewrite !nth_error_app1 in K by (apply nth_error_Some; assumption). congruence.
Qed.
Lemma fiver_not p n s e : names_range (lit "fiver") n s e -> has_prefix p n = true -> hd 0 p <> 102 -> p <> [] -> False.
Proof.
  intros H Hp N E. apply names_range_prefix, has_prefix_spec in H. destruct H as [r ->]. apply (prefix_clash p (lit "fiver") _ r Hp eq_refl).
  exists 0%nat. destruct p as [|c p]; [contradiction|]. cbn in N |- *. repeat split; congruence.
Qed.
Lemma hazel_not p n s e : names_range (lit "hazel") n s e -> has_prefix p n = true -> hd 0 p <> 104 -> p <> [] -> False.
Proof.
  intros H Hp N E. apply names_range_prefix, has_prefix_spec in H. destruct H as [r ->]. apply (prefix_clash p (lit "hazel") _ r Hp eq_refl).
  exists 0%nat. destruct p as [|c p]; [contradiction|]. cbn in N |- *. repeat split; congruence.
Qed.
Lemma shard_not names p x : shard_file names x -> has_prefix p (s_name x) = true -> hd 0 p <> 102 -> hd 0 p <> 104 -> p <> [] -> False.
Proof. intros [_ [H|H]] Hp A B C; [eapply fiver_not|eapply hazel_not]; eauto. Qed.

(** * Hazel shards *)
Definition parses (n : bytes) : bool := match parse_shard_name n (lit "hazel") with Some _ => true | None => false end.
Lemma parses_spec n : parses n = true <-> exists s e, names_range (lit "hazel") n s e.
Proof.
  unfold parses. destruct (parse_shard_name n (lit "hazel")) as [[s e]|] eqn:E.
  - apply parse_exact in E. split; [eauto|reflexivity].
  - split; [discriminate|]. intros (s & e & K). apply parse_exact in K. congruence.
Qed.
Lemma hazel_found_ok names : forall f o, hazel_found names = Some (f, o) ->
  parse_all (lit "hazel") (filter parses names) = Some f /\ o = filter (fun n => negb (parses n)) names /\ Forall (fun n => parses n = true \/ old_sidecar n = true) names.
Proof.
  induction names as [|n names IH]; intros f o H; cbn [hazel_found] in H.
  { injection H as <- <-. repeat split; constructor. }
  unfold parses at 1 2. cbn [filter]. destruct (parse_shard_name n (lit "hazel")) as [[s e]|] eqn:Ep.
  - destruct (hazel_found names) as [[f' o']|]; [|discriminate]. injection H as <- <-. destruct (IH f' o' eq_refl) as (A & B & C).
    cbn [parse_all negb]. fold parses. rewrite Ep, A. split; [reflexivity|]. split; [exact B|]. constructor; [|exact C]. left. unfold parses. rewrite Ep. reflexivity.
  - destruct (old_sidecar n) eqn:Eo; [|discriminate]. destruct (hazel_found names) as [[f' o']|]; [|discriminate]. injection H as <- <-.
    destruct (IH f' o' eq_refl) as (A & B & C). cbn [negb]. split; [exact A|]. split; [f_equal; exact B|]. constructor; [right; exact Eo|exact C].
Qed.
Lemma hazel_found_some names : Forall (fun n => parses n = true \/ old_sidecar n = true) names -> exists f o, hazel_found names = Some (f, o).
Proof.
  induction 1 as [|n names H _ (f & o & IH)]; cbn [hazel_found]; [eauto|]. unfold parses in H. destruct (parse_shard_name n (lit "hazel")) as [[s e]|].
  - rewrite IH. eauto.
  - destruct H as [H|H]; [discriminate|]. rewrite H, IH. eauto.
Qed.
(** The shards among the names that start with hazel. *)
Lemma hazel_named names x : named (lit "hazel") (filter parses (ls names (lit "hazel"))) x <->
  (In (s_name x) names /\ names_range (lit "hazel") (s_name x) (s_start x) (s_end x)).
Proof.
  unfold named. rewrite filter_In, ls_in. split; [tauto|]. intros [A B]. split; [|exact B]. split; [split; [exact A|]|].
  - eapply names_range_prefix. exact B.
  - apply parses_spec. eauto.
Qed.
Lemma fiver_named names x : named (lit "fiver") (ls names (lit "fiver")) x <->
  (In (s_name x) names /\ names_range (lit "fiver") (s_name x) (s_start x) (s_end x)).
Proof. unfold named. rewrite ls_in. split; [tauto|]. intros [A B]. split; [|exact B]. split; [exact A|]. eapply names_range_prefix. exact B. Qed.

Lemma group_from_ok e : forall hs next acc g, group_from hs next e acc = Found g ->
  exists l post, hs = l ++ post /\ g = acc ++ l /\ chain l next e /\ (2 <= length g)%nat.
Proof.
  induction hs as [|h hs IH]; intros next acc g H; cbn [group_from] in H; [discriminate|].
  destruct (Z.eqb_spec (s_start h) next) as [En|En]; [|discriminate]. destruct (Z.ltb_spec e (s_end h)) as [L|L]; [discriminate|]. cbn [negb orb] in H.
  destruct (Z.eqb_spec (s_end h) e) as [Ee|Ee].
  - destruct (Nat.ltb_spec (length (acc ++ [h])) 2) as [K|K]; [discriminate|]. injection H as <-. exists [h], hs. repeat split; auto.
  - destruct (Z.eqb_spec (s_end h) maxf) as [Em|Em]; [discriminate|]. destruct (IH _ _ _ H) as (l & post & -> & -> & C & G).
    exists (h :: l), post. split; [reflexivity|]. split; [rewrite <- app_assoc; reflexivity|]. split; [|exact G].
    cbn [chain]. destruct l as [|x l]; [destruct C|]. repeat split; try assumption. lia.
Qed.
Lemma source_group_ok s e : forall hs g, source_group hs s e = Some g -> exists pre post, hs = pre ++ g ++ post /\ chain g s e /\ (2 <= length g)%nat.
Proof.
  induction hs as [|h hs IH]; intros g H; cbn [source_group] in H; [discriminate|].
  assert (Rec : source_group hs s e = Some g -> exists pre post, h :: hs = pre ++ g ++ post /\ chain g s e /\ (2 <= length g)%nat).
  { intros K. destruct (IH _ K) as (pre & post & -> & C). exists (h :: pre), post. split; [reflexivity|exact C]. }
  destruct (negb (s_start h =? s)); [apply Rec; exact H|]. destruct (group_from (h :: hs) s e []) as [g'| |] eqn:Eg; [|discriminate|apply Rec; exact H].
  injection H as <-. apply group_from_ok in Eg. destruct Eg as (l & post & E & -> & C & L). exists [], post. cbn [app] in *. auto.
Qed.
(** A merge that can be resumed is found. *)
Lemma chain_from e : forall l next acc post, chain l next e -> Forall range_ok l -> e <= maxf -> (2 <= length (acc ++ l))%nat -> group_from (l ++ post) next e acc = Found (acc ++ l).
Proof.
  induction l as [|x l IH]; intros next acc post C O M L; [destruct C|]. cbn [group_from app]. inversion O as [|? ? Ox O']; subst. destruct l as [|y l].
  - destruct C as [<- <-]. rewrite !Z.eqb_refl, Z.ltb_irrefl. cbn [negb orb]. destruct (Nat.ltb_spec (length (acc ++ [x])) 2); [lia|reflexivity].
  - destruct C as (<- & C1 & C2). rewrite Z.eqb_refl. destruct (Z.ltb_spec e (s_end x)); [lia|]. cbn [negb orb]. destruct (Z.eqb_spec (s_end x) e); [lia|].
    destruct (Z.eqb_spec (s_end x) maxf); [lia|]. rewrite (IH _ (acc ++ [x]) post); [rewrite <- app_assoc; reflexivity|assumption..|]. rewrite <- app_assoc. exact L.
Qed.
Lemma source_group_found s e g pre post : apart (pre ++ g ++ post) -> Forall range_ok (pre ++ g ++ post) -> chain g s e -> e <= maxf -> (2 <= length g)%nat ->
  source_group (pre ++ g ++ post) s e = Some g.
Proof.
  intros A O C M L. induction pre as [|x pre IH].
  - cbn [app] in *. destruct g as [|h g]; [destruct C|]. assert (Es : s_start h = s) by (destruct g; apply C).
    cbn [app source_group]. rewrite Es, Z.eqb_refl. cbn [negb]. rewrite app_comm_cons, (chain_from e (h :: g) s [] post); [reflexivity|exact C| |exact M|exact L].
    exact (proj1 (proj1 (Forall_app range_ok (h :: g) post) O)).
  - cbn [app] in *. inversion A as [|? ? A' F]; inversion O as [|? ? Ox O']; subst. cbn [source_group].
    assert (s_end x < s).
    { rewrite Forall_forall in F. destruct g as [|h g]; [destruct C|]. assert (Es : s_start h = s) by (destruct g; apply C). rewrite <- Es. apply F.
      apply in_or_app. right. left. reflexivity. }
    unfold range_ok in Ox. destruct (Z.eqb_spec (s_start x) s); [lia|]. cbn [negb]. apply IH; assumption.
Qed.
Lemma step_names names living k n : In n (fst (sidecar_step names living k)) -> In n names /\ (has_prefix (lit "mrg") n = true \/ has_prefix (lit "pst") n = true \/ has_prefix (lit "dct") n = true).
Proof.
  assert (K : forall p, In n (sidecars names p k) -> In n names /\ has_prefix p n = true).
  { intros p H. unfold sidecars in H. apply filter_In in H. destruct H as [H _]. apply ls_in in H. exact H. }
  unfold sidecar_step.
  assert (Al : In n (sidecars names (lit "mrg") k ++ sidecars names (lit "pst") k ++ sidecars names (lit "dct") k) -> In n names /\ (has_prefix (lit "mrg") n = true \/ has_prefix (lit "pst") n = true \/ has_prefix (lit "dct") n = true)).
  { intros H. apply in_app_or in H. destruct H as [H|H]; [apply K in H; tauto|]. apply in_app_or in H. destruct H as [H|H]; apply K in H; tauto. }
  destruct (existsb _ living); [exact Al|].
  destruct (sidecars names (lit "pst") k) as [|a l] eqn:E1; [exact Al|]. destruct (sidecars names (lit "dct") k) as [|a' l'] eqn:E2; [exact Al|].
  destruct (source_group living (fst k) (snd k)); [|exact Al]. intros H. apply K in H. tauto.
Qed.
Theorem hazel_sanitize_some : forall sort names living merges removed, sorts shard_lt sort ->
  hazel_sanitize sort names = Some (living, merges, removed) ->
  exists dead, sanitize_names sort (lit "hazel") (filter parses (ls names (lit "hazel"))) = Some (living, dead) /\
  Forall (fun n => parses n = true \/ old_sidecar n = true) (ls names (lit "hazel")) /\
  (forall n, In n removed -> In n names) /\
  (forall x, shard_file names x -> In (s_name x) removed -> In (s_name x) dead) /\
  (forall k g, In (k, g) merges -> exists pre post, living = pre ++ g ++ post /\ chain g (fst k) (snd k) /\ (2 <= length g)%nat).
Proof.
  intros sort names living merges removed Hs H. unfold hazel_sanitize in H. destruct (hazel_found (ls names (lit "hazel"))) as [[found old]|] eqn:Ef; [|discriminate].
  destruct (normalize sort found) as [[l d]|] eqn:En; [|discriminate]. destruct (verify_dead l d) eqn:Ev; [|discriminate]. injection H as <- <- <-.
  destruct (hazel_found_ok _ _ _ Ef) as (A & B & C). exists (map s_name d). split; [unfold sanitize_names; rewrite A, En, Ev; reflexivity|]. split; [exact C|].
  assert (Hd : forall n, In n (map s_name d) -> In n names).
  { intros n Hn. apply in_map_iff in Hn. destruct Hn as (x & <- & Hx). destruct (normalize_some sort found l d Hs (parsed_ok _ _ _ A) En) as [P _].
    assert (K : In x found) by (apply (Permutation_in _ (Permutation_sym P)), in_or_app; right; exact Hx).
    apply (parsed_in _ _ _ A) in K. destruct K as [K _]. apply filter_In in K. destruct K as [K _]. apply ls_in in K. apply K. }
  split; [|split].
  - intros n Hn. apply in_app_or in Hn. destruct Hn as [Hn|Hn].
    + apply in_flat_map in Hn. destruct Hn as (st & Hst & Hn). apply in_map_iff in Hst. destruct Hst as (k & <- & _). apply step_names in Hn. apply Hn.
    + apply in_app_or in Hn. destruct Hn as [Hn|Hn]; [apply Hd; exact Hn|]. rewrite B in Hn. apply filter_In in Hn. destruct Hn as [Hn _]. apply ls_in in Hn. apply Hn.
  - intros x Hx Hn. apply in_app_or in Hn. destruct Hn as [Hn|Hn].
    + exfalso. apply in_flat_map in Hn. destruct Hn as (st & Hst & Hn). apply in_map_iff in Hst. destruct Hst as (k & <- & _). apply step_names in Hn.
      destruct Hn as [_ [Hn|[Hn|Hn]]]; apply (shard_not _ _ _ Hx Hn); cbn; lia || discriminate.
    + apply in_app_or in Hn. destruct Hn as [Hn|Hn]; [exact Hn|]. exfalso. rewrite B in Hn. apply filter_In in Hn. destruct Hn as [Hn Np]. apply ls_in in Hn. destruct Hn as [_ Hp].
      destruct Hx as [_ [Hx|Hx]].
      * apply (fiver_not (lit "hazel") _ _ _ Hx Hp); [cbn; lia|discriminate].
      * assert (K : parses (s_name x) = true) by (apply parses_spec; eauto). rewrite K in Np. discriminate.
  - intros k g Hk. apply in_flat_map in Hk. destruct Hk as (st & Hst & Hk). apply in_map_iff in Hst. destruct Hst as (k' & <- & _).
    unfold sidecar_step in Hk. destruct (existsb _ l); [destruct Hk|]. destruct (sidecars names (lit "pst") k'); [destruct Hk|].
    destruct (sidecars names (lit "dct") k'); [destruct Hk|]. destruct (source_group l (fst k') (snd k')) as [g'|] eqn:Eg; [|destruct Hk].
    destruct Hk as [Hk|[]]. injection Hk as <- <-. apply source_group_ok. exact Eg.
Qed.

(** * The whole directory *)
Lemma nodup_names (living : list shard) removed x : NoDup (map s_name living ++ removed) -> In x living -> ~ In (s_name x) removed.
Proof.
  intros Nd Hx H. induction living as [|y living IH]; [destruct Hx|]. cbn in Nd. inversion Nd as [|? ? N1 N2]; subst. destruct Hx as [->|Hx]; [|apply IH; assumption].
  apply N1. apply in_or_app. right. exact H.
Qed.
Lemma nodup_split (a b : list shard) x : NoDup (map s_name (a ++ b)) -> In x a -> ~ In (s_name x) (map s_name b).
Proof. rewrite map_app. intros Nd Hx. apply (nodup_names a); assumption. Qed.
Lemma both_kinds n s e s' e' : names_range (lit "fiver") n s e -> names_range (lit "hazel") n s' e' -> False.
Proof. intros A B. apply (fiver_not (lit "hazel") n s e A); [eapply names_range_prefix; exact B|cbn; lia|discriminate]. Qed.
Lemma shard_file_ok names x : shard_file names x -> range_ok x.
Proof. intros [_ [H|H]]; apply H. Qed.
Lemma nodup_left (a b : list bytes) : NoDup (a ++ b) -> NoDup a.
Proof. induction a as [|x a IH]; cbn; intros H; [constructor|]. inversion H as [|? ? N1 N2]; subst. constructor; [intros K; apply N1, in_or_app; left; exact K|auto]. Qed.
Lemma without_in names gone n : In n (without names gone) <-> In n names /\ ~ In n gone.
Proof. unfold without. rewrite filter_In. destruct (in_dec (list_eq_dec Z.eq_dec) n gone); split; intros [A B]; auto; try discriminate; contradiction. Qed.
Lemma apart_filter f l : apart l -> apart (filter f l).
Proof.
  induction 1 as [|x l HS IH F]; cbn [filter]; [constructor|]. destruct (f x); [|exact IH]. constructor; [exact IH|].
  rewrite Forall_forall in *. intros y Hy. apply filter_In in Hy. apply F. apply Hy.
Qed.
Lemma firstn_case {A} k (a b : list A) : (forall x, In x (firstn k (a ++ b)) -> In x a) \/ (forall x, In x a -> In x (firstn k (a ++ b))).
Proof.
  rewrite firstn_app. destruct (Nat.le_gt_cases k (length a)) as [L|L].
  - left. replace (k - length a)%nat with 0%nat by lia. cbn. rewrite app_nil_r. intros x Hx. rewrite <- (firstn_skipn k a). apply in_or_app. left. exact Hx.
  - right. intros x Hx. apply in_or_app. left. rewrite firstn_all2 by lia. exact Hx.
Qed.
Lemma range_in (l l' : list shard) x : map range l = map range l' -> In x l -> exists y, In y l' /\ range y = range x.
Proof. intros E Hx. apply (in_map range) in Hx. rewrite E in Hx. apply in_map_iff in Hx. destruct Hx as (y & E' & Hy). eauto. Qed.
Lemma has_prefix_app p r : has_prefix p (p ++ r) = true.
Proof. unfold has_prefix. rewrite (proj2 (strip_spec p (p ++ r) r)); reflexivity. Qed.
Lemma old_working_ok n : old_working n -> old_sidecar n = true.
Proof.
  intros (m & ext & s & e & -> & He & R). unfold old_sidecar.
  assert (S : has_suffix ext (m ++ ext) = true) by (unfold has_suffix; rewrite rev_app_distr; apply has_prefix_app).
  assert (D : drop_end 4 (m ++ ext) = m).
  { unfold drop_end. rewrite app_length. replace (length m + length ext - 4)%nat with (length m) by (destruct He as [<-|[<-|[<-|[]]]]; cbn; lia).
    rewrite firstn_app, Nat.sub_diag, firstn_all. cbn. apply app_nil_r. }
  rewrite D, (proj2 (parse_exact _ _ _ _) R). destruct He as [<-|[<-|[<-|[]]]]; rewrite S; rewrite ?orb_true_r; reflexivity.
Qed.
Lemma map_key_in k x l : In x (map_key k l) <-> k = x \/ In x l.
Proof.
  induction l as [|y l IH]; cbn [map_key]; [cbn; tauto|]. destruct (key_eq_dec k y) as [->|N]; [cbn; tauto|]. destruct (_ || _); [cbn; tauto|].
  cbn [In]. rewrite IH. tauto.
Qed.
Lemma fold_map_key x : forall ks l, In x (fold_left (fun l k => map_key k l) ks l) <-> In x l \/ In x ks.
Proof. induction ks as [|k ks IH]; intros l; cbn [fold_left]; [cbn; tauto|]. rewrite IH, map_key_in. cbn [In]. tauto. Qed.
Section Recover.
Variables (sort merge : list shard -> list shard).
Hypothesis Hs : sorts shard_lt sort.
Hypothesis Hm : sorts owsla_lt merge.
Theorem recover_some : forall names shards merges removed, recover sort merge names = Some (shards, merges, removed) ->
  apart shards /\ (forall x, In x shards -> shard_file names x) /\
  (forall x, shard_file names x -> exists y, In y shards /\ within x y) /\
  (forall n, In n removed -> In n names) /\
  (NoDup names -> forall y, In y shards -> ~ In (s_name y) removed) /\
  (forall k g, In (k, g) merges -> chain g (fst k) (snd k) /\ (2 <= length g)%nat /\
     forall x, In x g -> In x shards /\ names_range (lit "hazel") (s_name x) (s_start x) (s_end x)).
Proof.
  intros names shards merges removed H. unfold recover in H.
  destruct (sanitize_names sort (lit "fiver") (ls names (lit "fiver"))) as [[fivers dead]|] eqn:Ef; [|discriminate].
  destruct (hazel_sanitize sort names) as [[[hazels ms] gone]|] eqn:Eh; [|discriminate].
  destruct (combine merge fivers hazels) as [[sh cov]|] eqn:Ec; [|discriminate]. injection H as <- <- <-.
  destruct (sanitize_some _ _ _ _ _ Hs Ef) as (Pf & Af & Bf & Cf & Df).
  destruct (hazel_sanitize_some _ _ _ _ _ Hs Eh) as (hdead & Eh' & Fh & Gh & Rh & Mh).
  destruct (sanitize_some _ _ _ _ _ Hs Eh') as (Ph & Ah & Bh & Ch & Dh).
  destruct (combine_some _ _ _ _ _ Hm Ec) as (A & O & (kept & Pk & Psh) & G).
  assert (Fin : forall x, In x fivers -> In (s_name x) names /\ names_range (lit "fiver") (s_name x) (s_start x) (s_end x)).
  { intros x Hx. apply (proj1 (fiver_named names x)). apply Bf. exact Hx. }
  assert (Hin : forall x, In x hazels -> In (s_name x) names /\ names_range (lit "hazel") (s_name x) (s_start x) (s_end x)).
  { intros x Hx. apply (proj1 (hazel_named names x)). apply Bh. exact Hx. }
  assert (KinF : forall x, In x kept -> In x fivers) by (intros x Hx; apply (Permutation_in _ (Permutation_sym Pk)), in_or_app; left; exact Hx).
  assert (CinF : forall x, In x cov -> In x fivers) by (intros x Hx; apply (Permutation_in _ (Permutation_sym Pk)), in_or_app; right; exact Hx).
  assert (Hsh : forall x, In x hazels -> In x sh) by (intros x Hx; apply (Permutation_in _ Psh), in_or_app; left; exact Hx).
  assert (Ksh : forall x, In x kept -> In x sh) by (intros x Hx; apply (Permutation_in _ Psh), in_or_app; right; exact Hx).
  assert (Shin : forall x, In x sh -> In x hazels \/ In x kept) by (intros x Hx; apply (Permutation_in _ (Permutation_sym Psh)) in Hx; apply in_app_or; exact Hx).
  split; [exact A|]. split; [|split; [|split; [|split]]].
  - intros x Hx. destruct (Shin x Hx) as [K|K]; [destruct (Hin x K)|destruct (Fin x (KinF x K))]; split; auto.
  - intros x [Hn [Hx|Hx]].
    + destruct (Df x (proj2 (fiver_named names x) (conj Hn Hx))) as (y & Hy & W).
      assert (K := Permutation_in _ Pk Hy). apply in_app_or in K. destruct K as [K|K]; [exists y; auto|].
      destruct (G y K) as (h & Hh & W'). exists h. split; [apply Hsh; exact Hh|]. unfold within in *. lia.
    + destruct (Dh x (proj2 (hazel_named names x) (conj Hn Hx))) as (y & Hy & W). exists y. auto.
  - intros n Hn. apply in_app_or in Hn. destruct Hn as [Hn|Hn]; [apply ls_in in Hn; apply Hn|]. apply in_app_or in Hn. destruct Hn as [Hn|Hn].
    + assert (K : In n (ls names (lit "fiver"))) by (apply (Permutation_in _ (Permutation_sym Pf)), in_or_app; right; exact Hn). apply ls_in in K. apply K.
    + apply in_app_or in Hn. destruct Hn as [Hn|Hn]; [apply Gh; exact Hn|]. apply in_map_iff in Hn. destruct Hn as (x & <- & Hx). apply Fin, CinF, Hx.
  - intros Nd y Hy Hn. assert (NdF : NoDup (map s_name fivers ++ dead)) by (apply (Permutation_NoDup Pf); apply NoDup_filter; exact Nd).
    assert (NdH : NoDup (map s_name hazels ++ hdead)) by (apply (Permutation_NoDup Ph); apply NoDup_filter, NoDup_filter; exact Nd).
    assert (Sy : shard_file names y). { destruct (Shin y Hy) as [K|K]; [destruct (Hin y K)|destruct (Fin y (KinF y K))]; split; auto. }
    assert (Dead : forall n, In n dead -> exists s e, names_range (lit "fiver") n s e).
    { intros n Hd. apply Af. apply (Permutation_in _ (Permutation_sym Pf)), in_or_app. right. exact Hd. }
    assert (HDead : forall n, In n hdead -> exists s e, names_range (lit "hazel") n s e).
    { intros n Hd. apply Ah. apply (Permutation_in _ (Permutation_sym Ph)), in_or_app. right. exact Hd. }
    apply in_app_or in Hn. destruct Hn as [Hn|Hn]; [apply ls_in in Hn; apply (shard_not _ _ _ Sy (proj2 Hn)); cbn; lia || discriminate|].
    destruct (Shin y Hy) as [K|K].
    + destruct (Hin y K) as [_ Ry]. apply in_app_or in Hn. destruct Hn as [Hn|Hn]; [destruct (Dead _ Hn) as (s & e & R); exact (both_kinds _ _ _ _ _ R Ry)|].
      apply in_app_or in Hn. destruct Hn as [Hn|Hn]; [exact (nodup_names _ _ _ NdH K (Rh _ Sy Hn))|].
      apply in_map_iff in Hn. destruct Hn as (x & E & Hx). destruct (Fin x (CinF x Hx)) as [_ R]. rewrite E in R. exact (both_kinds _ _ _ _ _ R Ry).
    + destruct (Fin y (KinF y K)) as [_ Ry]. apply in_app_or in Hn. destruct Hn as [Hn|Hn]; [exact (nodup_names _ _ _ NdF (KinF y K) Hn)|].
      apply in_app_or in Hn. destruct Hn as [Hn|Hn]; [destruct (HDead _ (Rh _ Sy Hn)) as (s & e & R); exact (both_kinds _ _ _ _ _ Ry R)|].
      apply nodup_left in NdF. apply (Permutation_NoDup (Permutation_map s_name Pk)) in NdF. exact (nodup_split _ _ _ NdF K Hn).
  - intros k g Hk. destruct (Mh k g Hk) as (pre & post & E & C & L). split; [exact C|]. split; [exact L|]. intros x Hx.
    assert (K : In x hazels) by (rewrite E; apply in_or_app; right; apply in_or_app; left; exact Hx). split; [apply Hsh; exact K|]. apply Hin. exact K.
Qed.

(** A merge with both of its sidecars, whose inputs are in the index, is restarted. *)
Lemma chain_after e : forall g y s, chain (y :: g) s e -> (forall v, In v (y :: g) -> range_ok v) -> forall w, In w g -> s_end y < s_start w.
Proof.
  induction g as [|v g IH]; intros y s C Ok w Hw; [destruct Hw|]. cbn [chain] in C. destruct C as (_ & L & C).
  assert (Sv : s_start v = s_end y + 1) by (destruct g; apply C). destruct Hw as [<-|Hw]; [lia|].
  assert (Q : forall q, In q (v :: g) -> range_ok q) by (intros q Hq; apply Ok; right; exact Hq).
  specialize (IH v (s_end y + 1) C Q w Hw). specialize (Ok v (or_intror (or_introl eq_refl))). unfold range_ok in Ok. lia.
Qed.
Lemma chain_next : forall g x r s e, apart (x :: r) -> Forall range_ok (x :: r) -> chain (x :: g) s e -> (forall y, In y g -> In y (x :: r)) -> exists post, r = g ++ post.
Proof.
  induction g as [|y g IH]; intros x r s e A O C Sub; [exists r; reflexivity|]. cbn [chain] in C. destruct C as (E1 & L & C).
  assert (Sy : s_start y = s_end x + 1) by (destruct g; apply C). inversion A as [|? ? A' F]; inversion O as [|? ? Ox O']; subst.
  assert (Hy : In y r). { destruct (Sub y (or_introl eq_refl)) as [<-|H]; [unfold range_ok in Ox; lia|exact H]. }
  destruct r as [|z r]; [destruct Hy|]. inversion A' as [|? ? A2 F2]; inversion O' as [|? ? Oz O2]; subst. rewrite Forall_forall in *.
  assert (z = y) as ->. { destruct Hy as [H|Hy]; [exact H|]. specialize (F2 y Hy). specialize (F z (or_introl eq_refl)). unfold range_ok in Oz. lia. }
  destruct (IH y r (s_end x + 1) e A') as [post ->]; [rewrite Forall_forall; exact O'|exact C| |exists post; reflexivity].
  intros w Hw. destruct (Sub w (or_intror Hw)) as [E|H]; [|exact H]. exfalso.
  assert (W : s_end y < s_start w).
  { apply (chain_after e g y (s_end x + 1) C); [|exact Hw]. intros v [<-|Hv]; [apply O'; left; reflexivity|apply O, Sub; right; exact Hv]. }
  subst w. specialize (F y (or_introl eq_refl)). unfold range_ok in *. specialize (O' y (or_introl eq_refl)). lia.
Qed.
Theorem recover_restart : forall names shards merges removed a b s e g, recover sort merge names = Some (shards, merges, removed) ->
  In (lit "pst." ++ a) names -> In (lit "dct." ++ b) names -> names_range (lit "hazel") a s e -> names_range (lit "hazel") b s e ->
  chain g s e -> (2 <= length g)%nat -> (forall x, In x g -> In x shards /\ names_range (lit "hazel") (s_name x) (s_start x) (s_end x)) ->
  In ((s, e), g) merges.
Proof.
  intros names shards merges removed a b s e g H Ha Hb Ra Rb C L Hg. unfold recover in H.
  destruct (sanitize_names sort (lit "fiver") (ls names (lit "fiver"))) as [[fivers dead]|] eqn:Ef; [|discriminate].
  destruct (hazel_sanitize sort names) as [[[hazels ms] gone]|] eqn:Eh; [|discriminate].
  destruct (combine merge fivers hazels) as [[sh cov]|] eqn:Ec; [|discriminate]. injection H as <- <- <-.
  destruct (sanitize_some _ _ _ _ _ Hs Ef) as (Pf & Af & Bf & Cf & Df).
  destruct (hazel_sanitize_some _ _ _ _ _ Hs Eh) as (hdead & Eh' & Fh & Gh & Rh & Mh).
  destruct (sanitize_some _ _ _ _ _ Hs Eh') as (Ph & Ah & Bh & Ch & Dh).
  destruct (combine_some _ _ _ _ _ Hm Ec) as (A & O & (kept & Pk & Psh) & G).
  assert (Gz : forall x, In x g -> In x hazels).
  { intros x Hx. destruct (Hg x Hx) as [Hx' R]. apply (Permutation_in _ (Permutation_sym Psh)) in Hx'. apply in_app_or in Hx'. destruct Hx' as [K|K]; [exact K|].
    exfalso. assert (K' : In x fivers) by (apply (Permutation_in _ (Permutation_sym Pk)), in_or_app; left; exact K).
    apply Bf in K'. apply (proj1 (fiver_named names x)) in K'. exact (both_kinds _ _ _ _ _ (proj2 K') R). }
  assert (Oh : Forall range_ok hazels) by (rewrite Forall_forall; intros x Hx; apply (Bh x Hx)).
  destruct g as [|x g]; [destruct C|]. destruct (in_split x hazels (Gz x (or_introl eq_refl))) as (pre & r & Er).
  assert (Ap : apart (x :: r)).
  { clear - Er Ch. subst hazels. induction pre as [|p pre IH]; [exact Ch|]. cbn in Ch. inversion Ch; subst. apply IH. assumption. }
  assert (Op : Forall range_ok (x :: r)) by (rewrite Er in Oh; apply Forall_app in Oh; apply Oh).
  assert (Up : forall y, In y g -> In y (x :: r)).
  { intros y Hy. pose proof (Gz y (or_intror Hy)) as Hz. rewrite Er in Hz. apply in_app_or in Hz. destruct Hz as [Hz|Hz]; [|exact Hz]. exfalso.
    assert (B1 : s_end y < s_start x).
    { clear - Er Ch Hz. subst hazels. induction pre as [|p pre IH]; [destruct Hz|]. cbn in Ch. inversion Ch as [|? ? C1 C2]; subst. destruct Hz as [->|Hz]; [|apply IH; assumption].
      rewrite Forall_forall in C2. apply C2. apply in_or_app. right. left. reflexivity. }
    rewrite Forall_forall in Oh. assert (Okg : forall v, In v (x :: g) -> range_ok v) by (intros v Hv; apply Oh, Gz, Hv).
    pose proof (chain_after e g x s C Okg y Hy) as B2. pose proof (Okg x (or_introl eq_refl)). pose proof (Okg y (or_intror Hy)). unfold range_ok in *. lia. }
  destruct (chain_next g x r s e Ap Op C Up) as [post Ep]. subst r.
  assert (Sg : source_group hazels s e = Some (x :: g)).
  { rewrite Er. change (x :: g ++ post) with ((x :: g) ++ post). apply source_group_found.
    - change ((x :: g) ++ post) with (x :: g ++ post). rewrite <- Er. exact Ch.
    - change ((x :: g) ++ post) with (x :: g ++ post). rewrite <- Er. exact Oh.
    - exact C.
    - apply Ra.
    - exact L. }
  (* the step of this key *)
  assert (Pa : In (lit "pst." ++ a) (sidecars names (lit "pst") (s, e))).
  { unfold sidecars. apply filter_In. split; [apply ls_in; split; [exact Ha|reflexivity]|]. unfold is_sidecar.
    rewrite (proj2 (sidecar_exact (lit "pst." ++ a) (lit "pst") s e)); [|exists a; split; [reflexivity|exact Ra]]. destruct (key_eq_dec (s, e) (s, e)); [reflexivity|contradiction]. }
  assert (Pb : In (lit "dct." ++ b) (sidecars names (lit "dct") (s, e))).
  { unfold sidecars. apply filter_In. split; [apply ls_in; split; [exact Hb|reflexivity]|]. unfold is_sidecar.
    rewrite (proj2 (sidecar_exact (lit "dct." ++ b) (lit "dct") s e)); [|exists b; split; [reflexivity|exact Rb]]. destruct (key_eq_dec (s, e) (s, e)); [reflexivity|contradiction]. }
  assert (Kin : In (s, e) (sidecar_keys names)).
  { unfold sidecar_keys. apply fold_map_key. right. apply in_flat_map. exists (lit "pst"). split; [right; left; reflexivity|]. apply in_flat_map.
    exists (lit "pst." ++ a). split; [apply ls_in; split; [exact Ha|reflexivity]|].
    rewrite (proj2 (sidecar_exact (lit "pst." ++ a) (lit "pst") s e)); [left; reflexivity|]. exists a. split; [reflexivity|exact Ra]. }
  unfold hazel_sanitize in Eh. destruct (hazel_found (ls names (lit "hazel"))) as [[found old]|]; [|discriminate].
  destruct (normalize sort found) as [[l d]|]; [|discriminate]. destruct (verify_dead l d); [|discriminate]. injection Eh as -> <- _.
  apply in_flat_map. exists (sidecar_step names hazels (s, e)). split; [apply in_map; exact Kin|]. unfold sidecar_step.
  destruct (existsb (fun h => (s_start h =? fst (s, e)) && (s_end h =? snd (s, e))) hazels) eqn:Ex.
  - exfalso. apply existsb_exists in Ex. destruct Ex as (h & Hh & K). apply andb_true_iff in K. rewrite !Z.eqb_eq in K. cbn [fst snd] in K. destruct K as [K1 K2].
    destruct g as [|y g]; [cbn in L; lia|]. cbn [chain] in C. destruct C as (E1 & Le & C).
    rewrite Forall_forall in Oh. pose proof (Oh _ Hh) as Oh1. pose proof (Oh _ (Gz x (or_introl eq_refl))) as Oh2.
    destruct (apart_two hazels h x Ch Hh (Gz x (or_introl eq_refl)) Oh1 Oh2) as [E|E]; unfold range_ok in *; [subst h; lia|lia].
  - cbn [fst snd]. rewrite Sg. destruct (sidecars names (lit "pst") (s, e)); [destruct Pa|]. destruct (sidecars names (lit "dct") (s, e)); [destruct Pb|].
    left. reflexivity.
Qed.
(** When the files are consistent, recovery succeeds. *)
Theorem recover_total : forall names,
  (forall r, In (lit "fiver" ++ r) names -> exists s e, names_range (lit "fiver") (lit "fiver" ++ r) s e) ->
  (forall r, In (lit "hazel" ++ r) names -> (exists s e, names_range (lit "hazel") (lit "hazel" ++ r) s e) \/ old_working (lit "hazel" ++ r)) ->
  (forall x y p, In (s_name x) names -> In (s_name y) names -> In p [lit "fiver"; lit "hazel"] ->
     names_range p (s_name x) (s_start x) (s_end x) -> names_range p (s_name y) (s_start y) (s_end y) -> within x y \/ within y x \/ separate x y) ->
  (forall f h, In (s_name f) names -> In (s_name h) names -> names_range (lit "fiver") (s_name f) (s_start f) (s_end f) ->
     names_range (lit "hazel") (s_name h) (s_start h) (s_end h) -> within f h \/ separate f h) ->
  exists shards merges removed, recover sort merge names = Some (shards, merges, removed).
Proof.
  intros names Nf' Nh' Same Cross.
  assert (Nf : forall n, In n names -> has_prefix (lit "fiver") n = true -> exists s e, names_range (lit "fiver") n s e).
  { intros n Hn Hp. apply has_prefix_spec in Hp. destruct Hp as [r ->]. apply Nf'. exact Hn. }
  assert (Nh : forall n, In n names -> has_prefix (lit "hazel") n = true -> (exists s e, names_range (lit "hazel") n s e) \/ old_working n).
  { intros n Hn Hp. apply has_prefix_spec in Hp. destruct Hp as [r ->]. apply Nh'. exact Hn. }
  unfold recover.
  destruct (sanitize_names sort (lit "fiver") (ls names (lit "fiver"))) as [[fivers dead]|] eqn:Ef.
  2:{ exfalso. destruct (sanitize_clash _ _ _ Hs Ef) as [(n & Hn & N)|(b & x & Hb & Hx & L1 & L2 & L3)].
      - apply ls_in in Hn. destruct (Nf n (proj1 Hn) (proj2 Hn)) as (s & e & R). exact (N s e R).
      - apply (proj1 (fiver_named names _)) in Hb, Hx. destruct Hb as [Hb Rb], Hx as [Hx Rx].
        destruct (Same b x (lit "fiver") Hb Hx (or_introl eq_refl) Rb Rx) as [W|[W|W]]; unfold within in *; [lia|lia|].
        apply (W (s_start x)). unfold covers. lia. }
  destruct (hazel_sanitize sort names) as [[[hazels ms] gone]|] eqn:Eh.
  2:{ exfalso. assert (Fh : Forall (fun n => parses n = true \/ old_sidecar n = true) (ls names (lit "hazel"))).
      { apply Forall_forall. intros n Hn. apply ls_in in Hn. destruct (Nh n (proj1 Hn) (proj2 Hn)) as [(s & e & R)|W]; [left; apply parses_spec; eauto|right].
        apply old_working_ok. exact W. }
      destruct (hazel_found_some _ Fh) as (f & o & Efo). destruct (hazel_found_ok _ _ _ Efo) as (Ep & _ & _).
      assert (E : sanitize_names sort (lit "hazel") (filter parses (ls names (lit "hazel"))) = None).
      { unfold hazel_sanitize in Eh. rewrite Efo in Eh. unfold sanitize_names. rewrite Ep. destruct (normalize sort f) as [[l d]|]; [|reflexivity].
        destruct (verify_dead l d); [discriminate|reflexivity]. }
      destruct (sanitize_clash _ _ _ Hs E) as [(n & Hn & N)|(b & x & Hb & Hx & L1 & L2 & L3)].
      - apply filter_In in Hn. destruct Hn as [_ Hp]. apply parses_spec in Hp. destruct Hp as (s & e & R). exact (N s e R).
      - apply (proj1 (hazel_named names _)) in Hb, Hx. destruct Hb as [Hb Rb], Hx as [Hx Rx].
        destruct (Same b x (lit "hazel") Hb Hx (or_intror (or_introl eq_refl)) Rb Rx) as [W|[W|W]]; unfold within in *; [lia|lia|].
        apply (W (s_start x)). unfold covers. lia. }
  destruct (combine merge fivers hazels) as [[sh cov]|] eqn:Ec; [eauto|]. exfalso.
  destruct (sanitize_some _ _ _ _ _ Hs Ef) as (Pf & Af & Bf & Cf & Df).
  destruct (hazel_sanitize_some _ _ _ _ _ Hs Eh) as (hdead & Eh' & Fh & Gh & Rh & Mh).
  destruct (sanitize_some _ _ _ _ _ Hs Eh') as (Ph & Ah & Bh & Ch & Dh).
  assert (Of : Forall range_ok fivers) by (rewrite Forall_forall; intros x Hx; apply (Bf x Hx)).
  assert (Oh : Forall range_ok hazels) by (rewrite Forall_forall; intros x Hx; apply (Bh x Hx)).
  destruct (combine_none merge fivers hazels Cf Of Ch Oh Ec) as (f & h & Hf & Hh & NW & n & C1 & C2).
  apply Bf in Hf. apply Bh in Hh. apply (proj1 (fiver_named names _)) in Hf. apply (proj1 (hazel_named names _)) in Hh. destruct Hf as [Hf Rf], Hh as [Hh Rhh].
  destruct (Cross f h Hf Hh Rf Rhh) as [W|W]; [exact (NW W)|exact (W n (conj C1 C2))].
Qed.
(** Stop while the files are removed, and start again. *)
Theorem recover_again : forall names shards merges removed k, NoDup names -> recover sort merge names = Some (shards, merges, removed) ->
  exists shards' merges' removed', recover sort merge (without names (firstn k removed)) = Some (shards', merges', removed') /\
    map range shards' = map range shards.
Proof.
  intros names shards merges removed k Nd H. destruct (recover_some _ _ _ _ H) as (RA & RB & RC & RD & RE & _). specialize (RE Nd).
  set (names' := without names (firstn k removed)).
  assert (Sub : forall n, In n names' -> In n names) by (intros n Hn; apply without_in in Hn; apply Hn).
  assert (Rem : forall n, In n (firstn k removed) -> In n removed) by (intros n Hn; rewrite <- (firstn_skipn k removed); apply in_or_app; left; exact Hn).
  assert (Live : forall x, In x shards -> shard_file names' x).
  { intros x Hx. destruct (RB x Hx) as [K1 K2]. split; [|exact K2]. apply without_in. split; [exact K1|]. intros K. apply (RE x Hx), Rem, K. }
  assert (Goal' : exists shards' merges' removed', recover sort merge names' = Some (shards', merges', removed')).
  2:{ destruct Goal' as (sh' & ms' & rm' & E). exists sh', ms', rm'. split; [exact E|]. destruct (recover_some _ _ _ _ E) as (RA' & RB' & RC' & _).
      symmetry. apply (picks_same (shard_file names) (shard_file names')).
      - apply shard_file_ok.
      - split; [exact RB|split; assumption].
      - split; [exact RB'|split; assumption].
      - intros x [K1 K2]. split; [apply Sub; exact K1|exact K2].
      - exact Live. }
  unfold recover in H.
  destruct (sanitize_names sort (lit "fiver") (ls names (lit "fiver"))) as [[fivers dead]|] eqn:Ef; [|discriminate].
  destruct (hazel_sanitize sort names) as [[[hazels ms] gone]|] eqn:Eh; [|discriminate].
  destruct (combine merge fivers hazels) as [[sh cov]|] eqn:Ec; [|discriminate]. injection H as <- <- <-.
  destruct (sanitize_some _ _ _ _ _ Hs Ef) as (Pf & Af & Bf & Cf & Df).
  destruct (hazel_sanitize_some _ _ _ _ _ Hs Eh) as (hdead & Eh' & Fh & Gh & Rh & Mh).
  destruct (sanitize_some _ _ _ _ _ Hs Eh') as (Ph & Ah & Bh & Ch & Dh).
  destruct (combine_some _ _ _ _ _ Hm Ec) as (A & O & (kept & Pk & Psh) & G).
  assert (Fin : forall x, In x fivers -> In (s_name x) names /\ names_range (lit "fiver") (s_name x) (s_start x) (s_end x)).
  { intros x Hx. apply (proj1 (fiver_named names x)). apply Bf. exact Hx. }
  assert (Hin : forall x, In x hazels -> In (s_name x) names /\ names_range (lit "hazel") (s_name x) (s_start x) (s_end x)).
  { intros x Hx. apply (proj1 (hazel_named names x)). apply Bh. exact Hx. }
  assert (CinF : forall x, In x cov -> In x fivers) by (intros x Hx; apply (Permutation_in _ (Permutation_sym Pk)), in_or_app; right; exact Hx).
  assert (Hsh : forall x, In x hazels -> In x sh) by (intros x Hx; apply (Permutation_in _ Psh), in_or_app; left; exact Hx).
  assert (Ksh : forall x, In x kept -> In x sh) by (intros x Hx; apply (Permutation_in _ Psh), in_or_app; right; exact Hx).
  set (gonel := ls names (lit "kitten") ++ dead ++ gone ++ map s_name cov) in *.
  assert (Dec : forall n, In n names -> ~ In n names' -> In n (firstn k gonel)).
  { intros n K1 K2. destruct (in_dec (list_eq_dec Z.eq_dec) n (firstn k gonel)) as [I|I]; [exact I|]. exfalso. apply K2, without_in. auto. }
  (* the hazels *)
  assert (HZ : exists hazels' merges' gone', hazel_sanitize sort names' = Some (hazels', merges', gone') /\ map range hazels' = map range hazels).
  { assert (NdH : NoDup (filter parses (ls names (lit "hazel")))) by (apply NoDup_filter, NoDup_filter; exact Nd).
    destruct (sanitize_again sort (lit "hazel") _ (filter parses (ls names' (lit "hazel"))) _ _ Hs Eh') as (hz' & hd' & E & R & _).
    - intros n Hn. apply filter_In in Hn. destruct Hn as [Hn Hp]. apply ls_in in Hn. apply filter_In. split; [apply ls_in; split; [apply Sub; apply Hn|apply Hn]|exact Hp].
    - intros n Hn Hn'. apply filter_In in Hn. destruct Hn as [Hn Hp]. apply ls_in in Hn. destruct Hn as [Hn Hpre].
      assert (X : ~ In n names') by (intros K; apply Hn', filter_In; split; [apply ls_in; auto|exact Hp]).
      pose proof (proj1 (parses_spec n) Hp) as (s & e & Rn).
      assert (Sx : shard_file names (Shard s e n)) by (split; [exact Hn|right; exact Rn]).
      specialize (Rem _ (Dec n Hn X)). unfold gonel in Rem. apply in_app_or in Rem. destruct Rem as [Q|Q].
      { exfalso. apply ls_in in Q. apply (shard_not _ _ _ Sx (proj2 Q)); cbn; lia || discriminate. }
      apply in_app_or in Q. destruct Q as [Q|Q].
      { exfalso. destruct (Af n) as (s' & e' & Rf); [apply (Permutation_in _ (Permutation_sym Pf)), in_or_app; right; exact Q|]. exact (both_kinds _ _ _ _ _ Rf Rn). }
      apply in_app_or in Q. destruct Q as [Q|Q]; [exact (Rh _ Sx Q)|].
      exfalso. apply in_map_iff in Q. destruct Q as (x & E & Hx). destruct (Fin x (CinF x Hx)) as [_ Rf]. rewrite E in Rf. exact (both_kinds _ _ _ _ _ Rf Rn).
    - exact NdH.
    - assert (Fh' : Forall (fun n => parses n = true \/ old_sidecar n = true) (ls names' (lit "hazel"))).
      { rewrite Forall_forall in *. intros n Hn. apply ls_in in Hn. apply Fh, ls_in. split; [apply Sub; apply Hn|apply Hn]. }
      destruct (hazel_found_some _ Fh') as (f & o & Efo). destruct (hazel_found_ok _ _ _ Efo) as (Ep & _ & _).
      unfold hazel_sanitize. rewrite Efo. unfold sanitize_names in E. rewrite Ep in E. destruct (normalize sort f) as [[l d]|]; [|discriminate].
      destruct (verify_dead l d); [|discriminate]. injection E as <- <-. eauto. }
  (* the fivers *)
  assert (FZ : exists fivers' dead', sanitize_names sort (lit "fiver") (ls names' (lit "fiver")) = Some (fivers', dead') /\
                 forall x, In x fivers' -> exists y, In y fivers /\ range y = range x).
  { unfold gonel in Dec. rewrite (app_assoc dead), (app_assoc (ls names (lit "kitten"))) in Dec.
    destruct (firstn_case k (ls names (lit "kitten") ++ dead ++ gone) (map s_name cov)) as [Cs|Cs].
    - destruct (sanitize_again sort (lit "fiver") _ (ls names' (lit "fiver")) _ _ Hs Ef) as (f' & d' & E & R & _).
      + intros n Hn. apply ls_in in Hn. apply ls_in. split; [apply Sub; apply Hn|apply Hn].
      + intros n Hn Hn'. pose proof (Af n Hn) as (s & e & Rn). apply ls_in in Hn. destruct Hn as [Hn Hpre].
        assert (X : ~ In n names') by (intros K; apply Hn', ls_in; auto). assert (Sx : shard_file names (Shard s e n)) by (split; [exact Hn|left; exact Rn]).
        pose proof (Cs _ (Dec n Hn X)) as Q. apply in_app_or in Q. destruct Q as [Q|Q].
        { exfalso. apply ls_in in Q. apply (shard_not _ _ _ Sx (proj2 Q)); cbn; lia || discriminate. }
        apply in_app_or in Q. destruct Q as [Q|Q]; [exact Q|]. exfalso. specialize (Rh _ Sx Q).
        destruct (Ah n) as (s' & e' & Rz); [apply (Permutation_in _ (Permutation_sym Ph)), in_or_app; right; exact Rh|]. exact (both_kinds _ _ _ _ _ Rn Rz).
      + apply NoDup_filter. exact Nd.
      + exists f', d'. split; [exact E|]. intros x Hx. apply (range_in f'); assumption.
    - assert (InL : forall x, named (lit "fiver") (ls names' (lit "fiver")) x -> In x fivers).
      { intros x [Hx Rx]. apply ls_in in Hx. destruct Hx as [Hx Hp]. assert (Y : In (s_name x) (ls names (lit "fiver"))) by (apply ls_in; auto).
        apply (Permutation_in _ Pf), in_app_or in Y. destruct Y as [Y|Y].
        - apply in_map_iff in Y. destruct Y as (y & E & Hy). destruct (Fin y Hy) as [_ Ry]. rewrite E in Ry. destruct (range_unique _ _ _ _ _ _ Rx Ry) as [E1 E2].
          replace x with y; [exact Hy|]. destruct x, y; cbn in *; congruence.
        - exfalso. apply without_in in Hx. apply (proj2 Hx). unfold gonel. rewrite (app_assoc dead), (app_assoc (ls names (lit "kitten"))).
          apply Cs, in_or_app. right. apply in_or_app. left. exact Y. }
      destruct (sanitize_names sort (lit "fiver") (ls names' (lit "fiver"))) as [[f' d']|] eqn:E.
      + exists f', d'. split; [reflexivity|]. intros x Hx. destruct (sanitize_some _ _ _ _ _ Hs E) as (_ & _ & B' & _). exists x. split; [apply InL, B', Hx|reflexivity].
      + exfalso. destruct (sanitize_none _ _ _ Hs E) as [(n & Hn & N)|N].
        * apply ls_in in Hn. destruct (Af n) as (s & e & R); [apply ls_in; split; [apply Sub; apply Hn|apply Hn]|]. exact (N _ _ R).
        * destruct (N (filter (fun x => if in_dec (list_eq_dec Z.eq_dec) (s_name x) names' then true else false) fivers)) as (x & Hx & W).
          -- apply apart_filter. exact Cf.
          -- intros x Hx. apply filter_In in Hx. destruct Hx as [Hx Hn]. destruct (in_dec (list_eq_dec Z.eq_dec) (s_name x) names') as [I|I]; [|discriminate].
             destruct (Fin x Hx) as [_ R]. apply (proj2 (fiver_named names' x)). auto.
          -- apply (W x); [|unfold within; lia]. apply filter_In. split; [apply InL; exact Hx|]. destruct (in_dec (list_eq_dec Z.eq_dec) (s_name x) names') as [I|I]; [reflexivity|].
             exfalso. apply I. destruct Hx as [Hx _]. apply ls_in in Hx. apply Hx. }
  destruct HZ as (hz & mz & gz & Ez & Rz). destruct FZ as (fz & dz & Ez' & Rf).
  unfold recover. rewrite Ez', Ez. destruct (combine merge fz hz) as [[s' c']|] eqn:Ec'; [eauto|]. exfalso.
  destruct (sanitize_some _ _ _ _ _ Hs Ez') as (_ & _ & Bz & Cz & _).
  destruct (hazel_sanitize_some _ _ _ _ _ Hs Ez) as (hdz & Eh'' & _). destruct (sanitize_some _ _ _ _ _ Hs Eh'') as (_ & _ & Bz' & Cz' & _).
  assert (Ofz : Forall range_ok fz) by (rewrite Forall_forall; intros x Hx; apply (Bz x Hx)).
  assert (Ohz : Forall range_ok hz) by (rewrite Forall_forall; intros x Hx; apply (Bz' x Hx)).
  destruct (combine_none merge fz hz Cz Ofz Cz' Ohz Ec') as (f & h & Hf & Hh & NW & n & Cn1 & Cn2).
  destruct (Rf f Hf) as (f0 & Hf0 & Ef0). destruct (range_in _ _ h Rz Hh) as (h0 & Hh0 & Eh0).
  unfold range in Ef0, Eh0. injection Ef0 as Ea Eb. injection Eh0 as Ec1 Ec2. unfold covers, within in *.
  assert (Oh0 : range_ok h0) by (apply (shard_file_ok names), RB, Hsh, Hh0).
  pose proof (Permutation_in _ Pk Hf0) as Q. apply in_app_or in Q. destruct Q as [Q|Q].
  - destruct (apart_two sh f0 h0 A (Ksh _ Q) (Hsh _ Hh0)) as [E|E]; [apply (shard_file_ok names), RB, Ksh, Q|exact Oh0| |lia].
    subst h0. exact (both_kinds _ _ _ _ _ (proj2 (Fin _ Hf0)) (proj2 (Hin _ Hh0))).
  - destruct (G f0 Q) as (h2 & Hh2 & W). assert (Oh2 : range_ok h2) by (apply (shard_file_ok names), RB, Hsh, Hh2).
    destruct (apart_two hazels h2 h0 Ch Hh2 Hh0 Oh2 Oh0) as [E|E]; [subst; lia|lia].
Qed.
End Recover.
