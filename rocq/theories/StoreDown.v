(** The invariant of a directory with no process, and opening it. *)
From Verif Require Import Base Bytes NameModel NameSpec NameProofs RecoverProofs RecoverAll StoreModel StoreSpec StoreDir StoreInv StoreFacts StoreClone StoreCommit StoreInstall.
From Coq Require Import Sorting.Sorted Sorting.Permutation.

(** A shard file that holds the transaction. *)
Definition stored (d : dir) (q : Z) : Prop :=
  exists k s e f, (k = FiverK \/ k = HazelK) /\ find d (shard_name (kname k) s e) = Some f /\ s <= q <= e.
Record DI (d : dir) (g : list txn) : Prop := {
  d_nd : NoDup (names d);
  d_g : NoDup (map t_seq g) /\ forall x, In x g -> 0 <= t_seq x < maxf;
  d_sh : forall n f, find d n = Some f -> first n = 102 \/ first n = 104 -> exists k s e l, n = shard_name (kname k) s e /\ (k = FiverK \/ k = HazelK) /\
           0 <= s <= e /\ e < maxf /\ f = Shard_ s e l /\ holds g s e l;
  d_lam : forall k s e f k' s' e' f', find d (shard_name (kname k) s e) = Some f -> find d (shard_name (kname k') s' e') = Some f' ->
            (k = FiverK \/ k = HazelK) -> (k' = FiverK \/ k' = HazelK) -> fits k s e k' s' e';
  d_scr : forall n f, find d n = Some f -> first n = 99 -> exists k seqs, n = script_name k /\ f = Script seqs /\
            forall q h, In q seqs -> find d (shard_name (lit "kitten") q q) = Some h ->
              exists x, In x g /\ t_seq x = q /\ h = xfile x /\ (find d (fiver_name x) <> None \/ ~ stored d q);
  d_dur : forall x, In x g -> stored d (t_seq x) \/ exists k seqs, find d (script_name k) = Some (Script seqs) /\ In (t_seq x) seqs /\ find d (kitten_name x) = Some (xfile x)
}.

(** * A crash *)
Lemma crash_inv m d g : Inv m d g -> DI d g.
Proof.
  intros I. constructor; try apply I.
  - split; [apply I|]. intros x Hx. apply (i_g _ _ _ I) in Hx. pose proof (i_seq _ _ _ I). lia.
  - intros n f F K. destruct (i_sh _ _ _ I n f F K) as (k & s & e & l & A1 & A2 & A3 & A4 & A5 & A6 & _). exists k, s, e, l. do 5 (split; [assumption|]). exact A6.
  - intros n f F K. destruct (i_scr _ _ _ I n f F K) as (k & is & tmp & seqs & st & A & B & C & D). exists k, seqs. split; [exact C|]. split; [exact D|].
    intros q h Hq Fk. apply (i_kit _ _ _ I) in Fk. destruct Fk as (i & x & K1 & K2 & K3). exists x. destruct (kit_owner _ _ K1) as [id Oi].
    pose proof (i_jb _ _ _ I k) as J. rewrite A in J, B. destruct J as (_ & _ & _ & _ & J). rewrite <- K2 in Hq. pose proof (J i id x Oi Hq) as Cj.
    assert (Le : lead m (m_clones m i) = Some x).
    { destruct (m_clones m i) as [| |id' y|id' y p|id' y [j|]|id' y|id' y j]; try discriminate; cbn in *; injection Oi as _ <-; [|reflexivity]. injection Cj as Cj. subst j. rewrite A. cbn. rewrite B. reflexivity. }
    split; [apply (i_lead _ _ _ I i _ Le)|]. split; [exact K2|]. split; [exact K3|].
    destruct (m_clones m i) as [| |id' y|id' y p|id' y [j|]|id' y|id' y j] eqn:E; try discriminate; cbn in Oi; injection Oi as <- <-.
    + right. intros (k' & s & e & f' & S1 & S2 & S3). destruct (sh_cover _ _ _ I _ _ _ _ S2 S1) as (_ & _ & Cv & _).
      destruct (own_covered _ _ _ I i id' y k' s e) as ((j' & Ej) & _); [rewrite E; reflexivity|exact Cv|lia|]. congruence.
    + left. pose proof (proj2 (i_cl _ _ _ I i)) as Ck. rewrite E in Ck. destruct Ck as (_ & _ & Ck & _). congruence.
  - intros x Hx. destruct (i_dur _ _ _ I x Hx) as [(v & Hv & V & R)|(i & L)].
    + left. destruct (i_vis _ _ _ I v Hv V) as [_ F]. exists (e_kind v), (e_start v), (e_end v). eexists. split; [apply visible_kind; exact V|]. split; [exact F|exact R].
    + pose proof (i_cl _ _ _ I i) as [_ Ck]. destruct (m_clones m i) as [| |id y|id y p|id y [j|]|id y|id y j] eqn:E; try discriminate; cbn in L.
      * destruct (linked (m_jobs m j)) eqn:Lk; [|discriminate]. injection L as <-. right. destruct Ck as (Dy & is & tmp & seqs & st & J & _ & Hs).
        pose proof (i_jb _ _ _ I j) as Jo. rewrite J in Jo, Lk. destruct Jo as (_ & _ & Jo & _). exists j, seqs. split; [apply Jo; exact Lk|]. split; [exact Hs|].
        apply (i_kit _ _ _ I). exists i, y. rewrite E. cbn. destruct (t_data y); [contradiction|auto].
      * injection L as <-. left. destruct Ck as (_ & _ & Ck & _). exists FiverK, (t_seq y), (t_seq y). eexists. split; [auto|]. split; [exact Ck|lia].
Qed.

(** * Runs of file system actions *)
Lemma run_app a b d : run (a ++ b) d = run b (run a d).
Proof. unfold run. apply fold_left_app. Qed.
Lemma run_remove l : forall d n, find (run (map Remove l) d) n = if in_dec bytes_eq_dec n l then None else find d n.
Proof.
  induction l as [|a l IH]; intros d n; [reflexivity|]. cbn [map run fold_left run1]. change (find (run (map Remove l) (erase a d)) n = if in_dec bytes_eq_dec n (a :: l) then None else find d n).
  rewrite IH, find_erase. destruct (in_dec bytes_eq_dec n l) as [H|H], (in_dec bytes_eq_dec n (a :: l)) as [H'|H'], (bytes_eq_dec a n) as [E|E]; auto; exfalso; cbn in H'; tauto.
Qed.
Lemma run_remove_nodup l : forall d, NoDup (names d) -> NoDup (names (run (map Remove l) d)).
Proof. induction l as [|a l IH]; intros d H; [exact H|]. apply (IH (erase a d)), nodup_erase, H. Qed.

Lemma temps_di d g l : DI d g -> (forall n, In n l -> first n = 116) -> DI (run (map Remove l) d) g.
Proof.
  intros D Hl. assert (Se : forall n, first n <> 116 -> find (run (map Remove l) d) n = find d n).
  { intros n Hn. rewrite run_remove. destruct (in_dec _ n l) as [H|H]; [apply Hl in H; contradiction|reflexivity]. }
  assert (Sk : forall k s e, find (run (map Remove l) d) (shard_name (kname k) s e) = find d (shard_name (kname k) s e)) by (intros k s e; apply Se; rewrite first_shard; destruct k; discriminate).
  constructor; try apply D.
  - apply run_remove_nodup, D.
  - intros n f F K. rewrite Se in F by (intros X; rewrite X in K; destruct K; discriminate). apply (d_sh _ _ D n f F K).
  - intros k s e f k' s' e' f' F F' K K'. rewrite Sk in F, F'. apply (d_lam _ _ D _ _ _ _ _ _ _ _ F F' K K').
  - intros n f F K. rewrite Se in F by (rewrite K; discriminate). destruct (d_scr _ _ D n f F K) as (k & seqs & A & B & C). exists k, seqs. split; [exact A|]. split; [exact B|].
    intros q h Hq Fk. rewrite (Sk Kitten) in Fk. destruct (C q h Hq Fk) as (x & C1 & C2 & C3 & C4). exists x. do 3 (split; [assumption|]). unfold fiver_name in *; rewrite (Sk FiverK).
    destruct C4 as [C4|C4]; [left; exact C4|right]. intros (k' & s & e & f' & S1 & S2 & S3). apply C4. exists k', s, e, f'. rewrite Sk in S2. auto.
  - intros x Hx. destruct (d_dur _ _ D x Hx) as [(k & s & e & f & S1 & S2 & S3)|(k & seqs & A & B & C)].
    + left. exists k, s, e, f. rewrite Sk. auto.
    + right. exists k, seqs. rewrite Se by discriminate. split; [exact A|]. split; [exact B|]. rewrite Se by discriminate. exact C.
Qed.

(** * The commit scripts *)
Definition kname1 (q : Z) : bytes := shard_name (lit "kitten") q q.
Definition fname1 (q : Z) : bytes := shard_name (lit "fiver") q q.
Lemma kname1_inj a b : kname1 a = kname1 b -> a = b.
Proof. intros E. apply shard_name_inj in E. tauto. Qed.
Lemma erase_kitten_di d g q : DI d g -> (forall x, In x g -> t_seq x = q -> find d (kname1 q) <> None -> stored d q) -> DI (erase (kname1 q) d) g.
Proof.
  intros D Hs. assert (Se : forall n, first n <> 107 -> find (erase (kname1 q) d) n = find d n) by (intros n Hn; apply find_erase_other; intros <-; apply Hn; reflexivity).
  assert (Sk : forall k s e, k = FiverK \/ k = HazelK -> find (erase (kname1 q) d) (shard_name (kname k) s e) = find d (shard_name (kname k) s e)) by (intros k s e K; apply Se; rewrite first_shard; destruct K; subst k; discriminate).
  assert (St : forall c, stored d c <-> stored (erase (kname1 q) d) c).
  { intros c. split; intros (k & s & e & f & S1 & S2 & S3); exists k, s, e, f; [rewrite Sk by exact S1|rewrite Sk in S2 by exact S1]; auto. }
  constructor; try apply D.
  - apply nodup_erase, D.
  - intros n f F K. rewrite Se in F by (intros X; rewrite X in K; destruct K; discriminate). apply (d_sh _ _ D n f F K).
  - intros k s e f k' s' e' f' F F' K K'. rewrite Sk in F, F' by assumption. apply (d_lam _ _ D _ _ _ _ _ _ _ _ F F' K K').
  - intros n f F K. rewrite Se in F by (rewrite K; discriminate). destruct (d_scr _ _ D n f F K) as (k & seqs & A & B & C). exists k, seqs. split; [exact A|]. split; [exact B|].
    intros c h Hc Fk. rewrite find_erase in Fk. destruct (bytes_eq_dec _ _) as [X|X]; [discriminate|]. destruct (C c h Hc Fk) as (x & C1 & C2 & C3 & C4). exists x. do 3 (split; [assumption|]).
    unfold fiver_name in *; rewrite (Sk FiverK) by auto. destruct C4 as [C4|C4]; [left; exact C4|right; rewrite <- St; exact C4].
  - intros x Hx. destruct (d_dur _ _ D x Hx) as [K|(k & seqs & A & B & C)]; [left; apply St; exact K|].
    destruct (Z.eq_dec (t_seq x) q) as [E|E].
    + left. apply St. rewrite E. apply (Hs x Hx E). rewrite <- E. change (kname1 (t_seq x)) with (kitten_name x). congruence.
    + right. exists k, seqs. rewrite Se by discriminate. split; [exact A|]. split; [exact B|]. rewrite find_erase_other; [exact C|]. intros X. apply E. symmetry. apply kname1_inj. exact X.
Qed.
Lemma put_fiver_di d g k seqs q f : DI d g -> find d (script_name k) = Some (Script seqs) -> In q seqs -> find d (kname1 q) = Some f -> find d (fname1 q) = None -> DI (put (fname1 q) f d) g.
Proof.
  intros D Fs Hq Fk Ff. destruct (d_scr _ _ D _ _ Fs eq_refl) as (k' & seqs' & E1 & E2 & C). injection E2 as <-. destruct (C q f Hq Fk) as (x & C1 & C2 & C3 & C4). clear k' E1 C.
  assert (Nst : ~ stored d q). { destruct C4 as [C4|C4]; [|exact C4]. exfalso. apply C4. unfold fiver_name. rewrite C2. exact Ff. } clear C4.
  pose proof (proj2 (d_g _ _ D) x C1) as Rx. pose proof (proj1 (d_g _ _ D)) as Ng. subst q f.
  assert (Mo : forall n h, find d n = Some h -> find (put (fname1 (t_seq x)) (xfile x) d) n = Some h) by (intros n h F; rewrite find_put_other; [exact F|]; intros <-; congruence).
  assert (Se : forall n, first n <> 102 -> find (put (fname1 (t_seq x)) (xfile x) d) n = find d n) by (intros n Hn; apply find_put_other; intros <-; apply Hn; reflexivity).
  assert (Q : forall k s e h, k = FiverK \/ k = HazelK -> find d (shard_name (kname k) s e) = Some h -> e < t_seq x \/ t_seq x < s).
  { intros c s e h K F. destruct (Z.lt_ge_cases e (t_seq x)) as [L|L]; [auto|]. destruct (Z.lt_ge_cases (t_seq x) s) as [L'|L']; [auto|]. exfalso. apply Nst. exists c, s, e, h. repeat split; auto; lia. }
  constructor; try apply D.
  - apply nodup_put, D.
  - intros n h F K. rewrite find_put in F. destruct (bytes_eq_dec _ n) as [<-|Nn]; [|apply (d_sh _ _ D n h F K)].
    injection F as <-. exists FiverK, (t_seq x), (t_seq x), [x]. split; [reflexivity|]. split; [auto|]. split; [lia|]. split; [lia|]. split; [reflexivity|]. apply holds_one; assumption.
  - intros k1 s e h k' s' e' h' F F' K K'. rewrite find_put in F, F'. unfold fits.
    destruct (bytes_eq_dec (fname1 (t_seq x)) (shard_name (kname k1) s e)) as [X|X]; destruct (bytes_eq_dec (fname1 (t_seq x)) (shard_name (kname k') s' e')) as [X'|X'].
    + apply (shard_inj FiverK) in X, X'. destruct X as (<- & <- & <-), X' as (<- & <- & <-). right. right. left. repeat split; auto; lia.
    + apply (shard_inj FiverK) in X. destruct X as (<- & <- & <-). destruct (Q _ _ _ _ K' F'); [right; left|left]; assumption.
    + apply (shard_inj FiverK) in X'. destruct X' as (<- & <- & <-). destruct (Q _ _ _ _ K F); [left|right; left]; assumption.
    + apply (d_lam _ _ D _ _ _ _ _ _ _ _ F F' K K').
  - intros n h F K. rewrite Se in F by (rewrite K; discriminate). destruct (d_scr _ _ D n h F K) as (c & sq & A & B & C). exists c, sq. split; [exact A|]. split; [exact B|].
    intros q h' Hc Fk'. rewrite Se in Fk' by discriminate. destruct (C q h' Hc Fk') as (y & D1 & D2 & D3 & D4). exists y. do 3 (split; [assumption|]).
    destruct (Z.eq_dec (t_seq y) (t_seq x)) as [E|E].
    + left. unfold fiver_name. rewrite E. change (find (put (fname1 (t_seq x)) (xfile x) d) (fname1 (t_seq x)) <> None). rewrite find_put_same. discriminate.
    + destruct D4 as [D4|D4].
      * left. unfold fiver_name in *. rewrite find_put_other; [exact D4|]. intros X. apply shard_name_inj in X. lia.
      * right. intros (k1 & s & e & f & S1 & S2 & S3). rewrite find_put in S2. destruct (bytes_eq_dec _ _) as [X|X]; [|apply D4; exists k1, s, e, f; auto].
        apply (shard_inj FiverK) in X. lia.
  - intros y Hy. destruct (d_dur _ _ D y Hy) as [(k1 & s & e & f & S1 & S2 & S3)|(c & sq & A & B & C)].
    + left. exists k1, s, e, f. split; [exact S1|]. split; [apply Mo; exact S2|exact S3].
    + right. exists c, sq. split; [apply Mo; exact A|]. split; [exact B|apply Mo; exact C].
Qed.
Lemma erase_script_di d g k seqs : DI d g -> find d (script_name k) = Some (Script seqs) -> (forall q, In q seqs -> find d (kname1 q) = None) -> DI (erase (script_name k) d) g.
Proof.
  intros D Fs Hq. assert (Se : forall n, first n <> 99 -> find (erase (script_name k) d) n = find d n) by (intros n Hn; apply find_erase_other; intros <-; apply Hn; reflexivity).
  assert (Sk : forall k' s e, find (erase (script_name k) d) (shard_name (kname k') s e) = find d (shard_name (kname k') s e)) by (intros k' s e; apply Se; rewrite first_shard; destruct k'; discriminate).
  constructor; try apply D.
  - apply nodup_erase, D.
  - intros n f F K. rewrite Se in F by (intros X; rewrite X in K; destruct K; discriminate). apply (d_sh _ _ D n f F K).
  - intros k0 s e f k' s' e' f' F F' K K'. rewrite Sk in F, F'. apply (d_lam _ _ D _ _ _ _ _ _ _ _ F F' K K').
  - intros n f F K. rewrite find_erase in F. destruct (bytes_eq_dec _ n) as [|Nn]; [discriminate|]. destruct (d_scr _ _ D n f F K) as (c & sq & A & B & C). exists c, sq. split; [exact A|]. split; [exact B|].
    intros q h Hc Fk. rewrite (Sk Kitten) in Fk. destruct (C q h Hc Fk) as (x & C1 & C2 & C3 & C4). exists x. do 3 (split; [assumption|]). unfold fiver_name in *; rewrite (Sk FiverK).
    destruct C4 as [C4|C4]; [left; exact C4|right]. intros (k' & s & e & f' & S1 & S2 & S3). apply C4. exists k', s, e, f'. rewrite Sk in S2. auto.
  - intros x Hx. destruct (d_dur _ _ D x Hx) as [(k' & s & e & f & S1 & S2 & S3)|(c & sq & A & B & C)].
    + left. exists k', s, e, f. rewrite Sk. auto.
    + destruct (Nat.eq_dec c k) as [->|N].
      * exfalso. rewrite Fs in A. injection A as <-. pose proof (Hq _ B) as X. change (kname1 (t_seq x)) with (kitten_name x) in X. congruence.
      * right. exists c, sq. rewrite find_erase_other by (intros X; apply script_inj in X; congruence). split; [exact A|]. split; [exact B|]. rewrite Se by discriminate. exact C.
Qed.

Definition pair_acts (q : Z) : list act := [Move (kname1 q) (fname1 q); Remove (kname1 q)].
Lemma move_case q d : (exists f, find d (kname1 q) = Some f /\ find d (fname1 q) = None /\ run1 (Move (kname1 q) (fname1 q)) d = erase (kname1 q) (put (fname1 q) f d)) \/
  (run1 (Move (kname1 q) (fname1 q)) d = d /\ (find d (kname1 q) = None \/ find d (fname1 q) <> None)).
Proof.
  unfold run1. destruct (find d (kname1 q)) as [f|] eqn:E1; [|right; auto]. destruct (find d (fname1 q)) eqn:E2; [right; split; [reflexivity|right; discriminate]|].
  left. exists f. auto.
Qed.
Lemma pair_di d g k seqs q : DI d g -> find d (script_name k) = Some (Script seqs) -> In q seqs ->
  let d1 := run1 (Move (kname1 q) (fname1 q)) d in let d2 := run1 (Remove (kname1 q)) d1 in
  DI d1 g /\ DI d2 g /\ (forall n, first n = 99 -> find d2 n = find d n) /\ find d2 (kname1 q) = None /\ (forall c, find d (kname1 c) = None -> find d2 (kname1 c) = None).
Proof.
  intros D Fs Hq. cbn zeta. cbn [run1]. change (match find d (kname1 q), find d (fname1 q) with Some f, None => erase (kname1 q) (put (fname1 q) f d) | _, _ => d end) with (run1 (Move (kname1 q) (fname1 q)) d).
  assert (K : DI (run1 (Move (kname1 q) (fname1 q)) d) g /\ (find (run1 (Move (kname1 q) (fname1 q)) d) (kname1 q) <> None -> stored (run1 (Move (kname1 q) (fname1 q)) d) q) /\
    (forall n, first n <> 107 -> first n <> 102 -> find (run1 (Move (kname1 q) (fname1 q)) d) n = find d n) /\ (forall c, find d (kname1 c) = None -> find (run1 (Move (kname1 q) (fname1 q)) d) (kname1 c) = None)).
  { destruct (move_case q d) as [(f & F1 & F2 & ->)|[-> C]].
    - split; [|split; [|split]].
      + apply erase_kitten_di; [apply (put_fiver_di d g k seqs); assumption|]. intros _ _ _ _. exists FiverK, q, q, f. split; [auto|]. split; [apply (find_put_same (fname1 q))|lia].
      + rewrite find_erase_same. congruence.
      + intros n N1 N2. rewrite find_erase_other by (intros <-; apply N1; reflexivity). apply find_put_other. intros <-. apply N2. reflexivity.
      + intros c H. rewrite find_erase. destruct (bytes_eq_dec _ _); [reflexivity|]. rewrite find_put_other; [exact H|]. intros X. apply (f_equal first) in X. discriminate.
    - split; [exact D|]. split; [|split; auto]. intros H. destruct C as [C|C]; [contradiction|]. destruct (find d (fname1 q)) as [f|] eqn:E; [|contradiction].
      exists FiverK, q, q, f. repeat split; auto; lia. }
  destruct K as (K1 & K2 & K3 & K4). split; [exact K1|]. split; [|split; [|split]].
  - apply erase_kitten_di; [exact K1|]. intros x Hx Ex H. apply K2. exact H.
  - intros n Hn. rewrite find_erase_other by (intros <-; discriminate). apply K3; rewrite Hn; discriminate.
  - apply find_erase_same.
  - intros c H. rewrite find_erase. destruct (bytes_eq_dec _ _); [reflexivity|]. apply K4, H.
Qed.
Lemma pairs_di g k seqs : forall l d, DI d g -> find d (script_name k) = Some (Script seqs) -> (forall q, In q l -> In q seqs) ->
  (forall j, DI (run (firstn j (flat_map pair_acts l)) d) g) /\ (forall n, first n = 99 -> find (run (flat_map pair_acts l) d) n = find d n) /\
  (forall c, In c l \/ find d (kname1 c) = None -> find (run (flat_map pair_acts l) d) (kname1 c) = None).
Proof.
  induction l as [|q l IH]; intros d D Fs Hl.
  - split; [intros j; rewrite firstn_nil; exact D|]. split; [reflexivity|]. intros c [[]|H]. exact H.
  - destruct (pair_di d g k seqs q D Fs (Hl q (or_introl eq_refl))) as (P1 & P2 & P3 & P4 & P5). set (d1 := run1 (Move (kname1 q) (fname1 q)) d) in *. set (d2 := run1 (Remove (kname1 q)) d1) in *.
    destruct (IH d2 P2) as (Q1 & Q2 & Q3); [rewrite P3 by reflexivity; exact Fs|intros c Hc; apply Hl; right; exact Hc|]. split; [|split].
    + intros [|[|j]]; [exact D|exact P1|]. exact (Q1 j).
    + intros n Hn. rewrite <- P3 by exact Hn. exact (Q2 n Hn).
    + intros c [[E|H]|H]; apply (Q3 c); [right; subst c; exact P4|left; exact H|right; apply P5; exact H].
Qed.
Lemma run_nodup l : forall d, NoDup (names d) -> NoDup (names (run l d)).
Proof.
  induction l as [|a l IH]; intros d H; [exact H|]. apply IH. destruct a as [n|a b]; cbn; [apply nodup_erase, H|].
  destruct (find d a); [|exact H]. destruct (find d b); [exact H|]. apply nodup_erase, nodup_put, H.
Qed.
Lemma script_di d g n : DI d g -> first n = 99 -> find d n <> None ->
  (forall j, DI (run (firstn j (script_acts d n)) d) g) /\ find (run (script_acts d n) d) n = None /\ (forall n', first n' = 99 -> n' <> n -> find (run (script_acts d n) d) n' = find d n').
Proof.
  intros D Fn Hn. destruct (find d n) as [f|] eqn:F; [|contradiction]. destruct (d_scr _ _ D n f F Fn) as (k & seqs & -> & -> & _).
  unfold script_acts. rewrite F. change (flat_map _ seqs) with (flat_map pair_acts seqs).
  destruct (pairs_di g k seqs seqs d D F (fun q H => H)) as (P1 & P2 & P3). set (d1 := run (flat_map pair_acts seqs) d) in *.
  assert (D1 : DI d1 g). { specialize (P1 (length (flat_map pair_acts seqs))). rewrite firstn_all in P1. exact P1. }
  assert (D2 : DI (erase (script_name k) d1) g). { apply (erase_script_di d1 g k seqs); [exact D1|rewrite P2 by reflexivity; exact F|]. intros q Hq. apply P3. auto. }
  rewrite run_app. fold d1. cbn [run fold_left run1]. split; [|split].
  - intros j. rewrite firstn_app, run_app. destruct (Nat.le_gt_cases j (length (flat_map pair_acts seqs))) as [L|L].
    + replace (j - length (flat_map pair_acts seqs))%nat with 0%nat by lia. cbn. apply P1.
    + rewrite (firstn_all2 (flat_map pair_acts seqs)) by lia. fold d1. replace (j - length (flat_map pair_acts seqs))%nat with (S (j - length (flat_map pair_acts seqs) - 1)) by lia. cbn.
      rewrite firstn_nil. exact D2.
  - apply find_erase_same.
  - intros n' Hn' N. rewrite find_erase_other by congruence. apply P2, Hn'.
Qed.
Lemma scripts_di g d0 : forall ns d, DI d g -> NoDup ns -> (forall n, In n ns -> first n = 99 /\ find d n <> None /\ find d n = find d0 n) ->
  (forall j, DI (run (firstn j (flat_map (script_acts d0) ns)) d) g) /\ (forall n, In n ns -> find (run (flat_map (script_acts d0) ns) d) n = None) /\
  (forall n, first n = 99 -> ~ In n ns -> find (run (flat_map (script_acts d0) ns) d) n = find d n).
Proof.
  induction ns as [|n ns IH]; intros d D N Hn.
  - split; [intros j; rewrite firstn_nil; exact D|]. split; [intros n []|]. intros n _ _. reflexivity.
  - inversion N as [|? ? N1 N2]; subst. destruct (Hn n (or_introl eq_refl)) as (H1 & H2 & H3). cbn [flat_map].
    assert (Ea : script_acts d0 n = script_acts d n) by (unfold script_acts; rewrite H3; reflexivity). rewrite Ea.
    destruct (script_di d g n D H1 H2) as (P1 & P2 & P3). set (d1 := run (script_acts d n) d) in *.
    assert (D1 : DI d1 g) by (specialize (P1 (length (script_acts d n))); rewrite firstn_all in P1; exact P1).
    destruct (IH d1 D1 N2) as (Q1 & Q2 & Q3).
    { intros n' H'. destruct (Hn n' (or_intror H')) as (K1 & K2 & K3). rewrite P3; [auto|exact K1|]. intros ->. contradiction. }
    split; [|split].
    + intros j. rewrite firstn_app, run_app. destruct (Nat.le_gt_cases j (length (script_acts d n))) as [L|L].
      * replace (j - length (script_acts d n))%nat with 0%nat by lia. cbn. apply P1.
      * rewrite (firstn_all2 (script_acts d n)) by lia. fold d1. apply Q1.
    + rewrite run_app. fold d1. intros n' [<-|H']; [|apply Q2; exact H']. rewrite Q3 by assumption. exact P2.
    + rewrite run_app. fold d1. intros n' K1 K2. rewrite Q3; [|exact K1|intros X; apply K2; right; exact X]. apply P3; [exact K1|]. intros ->. apply K2. left. reflexivity.
Qed.
