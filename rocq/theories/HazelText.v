(** The text of a Hazel. *)
From Verif Require Import Base Bytes HopperModel GclSpec VectorModel UnaryProofs CodecModel CodecSpec CodecProofs PostingModel ShardModel TokenModel
  TextModel TextSpec TextProofs HazelModel FileModel FileSpec LexCut.

(** * Lists *)
Lemma between_len t a b : 0 <= a <= b -> b <= len t -> len (between t a b) = b - a.
Proof. intros H K. unfold between, len in *. rewrite firstn_length, skipn_length. lia. Qed.
Lemma between_cat t a b c : 0 <= a <= b -> b <= c -> between t a b ++ between t b c = between t a c.
Proof.
  intros H K. unfold between. replace (Z.to_nat (c - a)) with (Z.to_nat (b - a) + Z.to_nat (c - b))%nat by lia.
  assert (F : forall n m (l : bytes), firstn n l ++ firstn m (skipn n l) = firstn (n + m) l).
  { induction n as [|n IH]; intros m l; [reflexivity|]. destruct l as [|x l]; [cbn; rewrite firstn_nil; reflexivity|]. cbn [firstn skipn app plus]. f_equal. apply IH. }
  rewrite <- F. f_equal. rewrite skipn_skipn. f_equal. f_equal. lia.
Qed.
Lemma between_between t a b c d : 0 <= a -> 0 <= c <= d -> a + d <= b -> between (between t a b) c d = between t (a + c) (a + d).
Proof.
  intros Ha Hc Hd. unfold between. rewrite <- (Nat2Z.id (Z.to_nat c)) at 1.
  replace (Z.to_nat (b - a)) with (Z.to_nat c + Z.to_nat (b - a - c))%nat by lia. rewrite Nat2Z.id, <- firstn_skipn_comm, skipn_skipn, firstn_firstn.
  replace (Nat.min (Z.to_nat (d - c)) (Z.to_nat (b - a - c))) with (Z.to_nat (d - c)) by lia. f_equal; [lia|]. f_equal. lia.
Qed.
Lemma between_all t : between t 0 (len t) = t.
Proof. unfold between, len. rewrite Z.sub_0_r, Nat2Z.id. cbn [skipn Z.to_nat]. apply firstn_all. Qed.
Lemma between_to_end t o : 0 <= o <= len t -> between t o (len t) = skipn (Z.to_nat o) t.
Proof. intros H. unfold between, len in *. apply firstn_all2. rewrite skipn_length. lia. Qed.
Lemma slice_between t o n : slice t o n = between t o (o + n).
Proof. unfold slice, between. f_equal. lia. Qed.
Lemma ascending_nth os : forall o n i j, ascending o os n -> (i < j)%nat -> (j < length os)%nat -> nth i os n < nth j os n.
Proof.
  induction os as [|x r IH]; intros o n i j H L Lj; [cbn in Lj; lia|]. cbn [ascending length] in *. destruct H as [_ H]. destruct j as [|j]; [lia|]. cbn [nth].
  destruct i as [|i]; [|apply (IH _ _ _ _ H); lia]. pose proof (ascending_in _ _ _ _ H (nth_In r n (n := j) ltac:(lia))). lia.
Qed.

(** * The map of the chunks *)
Definition rb (p : Z) (d : list tentry) (k : nat) : Z :=
  match k with O => p | S j => match nth_error d j with Some e => te_raw e | None => 0 end end.
Fixpoint ends (p : Z) (d : list tentry) (hi : Z) : Prop :=
  match d with [] => p = hi | e :: r => p < te_raw e /\ ends (te_raw e) r hi end.
Lemma rb_cons p e r k : rb p (e :: r) (S k) = rb (te_raw e) r k.
Proof. destruct k; reflexivity. Qed.
Lemma ends_le d : forall p hi, ends p d hi -> p <= hi.
Proof. induction d as [|e r IH]; intros p hi H; cbn in H; [lia|]. destruct H as [H K]. apply IH in K. lia. Qed.
Lemma ends_last d : forall p hi, ends p d hi -> rb p d (length d) = hi.
Proof. induction d as [|e r IH]; intros p hi H; cbn in H; [exact H|]. destruct H as [_ H]. cbn [length]. rewrite rb_cons. exact (IH _ _ H). Qed.
Lemma ends_range d : forall p hi k, ends p d hi -> (k <= length d)%nat -> p <= rb p d k <= hi.
Proof.
  induction d as [|e r IH]; intros p hi k H L.
  - cbn in *. replace k with 0%nat by lia. cbn. lia.
  - destruct k as [|k]; [cbn [rb]; pose proof (ends_le _ _ _ H); lia|]. rewrite rb_cons. cbn in H, L. destruct H as [H K]. specialize (IH _ _ k K ltac:(lia)). lia.
Qed.
Lemma ends_mono d : forall p hi i j, ends p d hi -> (i < j)%nat -> (j <= length d)%nat -> rb p d i < rb p d j.
Proof.
  induction d as [|e r IH]; intros p hi i j H L Lj; [cbn in Lj; lia|]. cbn in H, Lj. destruct H as [H K]. destruct j as [|j]; [lia|]. rewrite rb_cons. destruct i as [|i].
  - cbn [rb]. pose proof (ends_range _ _ _ j K ltac:(lia)). lia.
  - rewrite rb_cons. apply (IH _ _ _ _ K); lia.
Qed.
Lemma rb_entry p d k e : nth_error d k = Some e -> rb p d (S k) = te_raw e.
Proof. intros H. cbn [rb]. rewrite H. reflexivity. Qed.
Lemma upper_ok d : forall p hi b, ends p d hi -> p <= b < hi -> (upper d b < length d)%nat /\ rb p d (upper d b) <= b < rb p d (S (upper d b)).
Proof.
  induction d as [|e r IH]; intros p hi b H Hb; cbn in H; [lia|]. destruct H as [H K]. cbn [upper length]. destruct (Z.ltb_spec b (te_raw e)) as [L|L].
  - cbn [rb nth_error]. lia.
  - destruct (IH _ _ b K ltac:(lia)) as (A & B). rewrite !rb_cons. lia.
Qed.
Lemma upper_at d p hi b k : ends p d hi -> (k < length d)%nat -> rb p d k <= b < rb p d (S k) -> upper d b = k.
Proof.
  intros H L K. pose proof (ends_range _ _ _ k H ltac:(lia)). pose proof (ends_range _ _ _ (S k) H ltac:(lia)). destruct (upper_ok d p hi b H ltac:(lia)) as (A & B).
  destruct (Nat.lt_trichotomy (upper d b) k) as [M|[M|M]]; [|exact M|].
  - destruct (Nat.eq_dec (S (upper d b)) k) as [E|E]; [rewrite E in B; lia|]. pose proof (ends_mono _ _ _ (S (upper d b)) k H ltac:(lia) ltac:(lia)). lia.
  - destruct (Nat.eq_dec (S k) (upper d b)) as [E|E]; [rewrite <- E in B; lia|]. pose proof (ends_mono _ _ _ (S k) (upper d b) H ltac:(lia) ltac:(lia)). lia.
Qed.

Section Text.
Variable ct : compressor.
(** [x] is a file in which the compressed text [t] stands. *)
Record shows (x : htxt) (t : bytes) : Prop := {
  sw_raw : ht_raw x = len t;
  sw_ends : ends 0 (ht_map x) (len t);
  sw_room : len t <= maxf;
  sw_chunks : forall k e, nth_error (ht_map x) k = Some e -> comp_before x k <= te_comp e /\
    exists z, file_read (ht_file x) (ht_start x + comp_before x k) (te_comp e - comp_before x k) = Some z /\
              tang ct z (te_raw e - raw_before x k) = Ok (between t (raw_before x k) (te_raw e)) }.
(** What is in the cache is the text. *)
Definition cached (x : htxt) (t : bytes) (c : list (option bytes)) : Prop :=
  length c = length (ht_map x) /\
  forall k e b, nth_error (ht_map x) k = Some e -> nth_error c k = Some (Some b) -> b = between t (raw_before x k) (te_raw e).
Lemma raw_rb x k : raw_before x k = rb 0 (ht_map x) k. Proof. reflexivity. Qed.
Lemma put_at_length {A} (y : A) l : forall k, length (put_at k y l) = length l.
Proof. induction l as [|z l IH]; intros [|k]; cbn; auto. Qed.
Lemma put_at_nth {A} (y : A) l : forall k j, (k < length l)%nat -> nth_error (put_at k y l) j = if (j =? k)%nat then Some y else nth_error l j.
Proof.
  induction l as [|z l IH]; intros k j L; [cbn in L; lia|]. destruct k as [|k], j as [|j]; cbn [put_at nth_error]; try reflexivity. cbn [length] in L. rewrite (IH k j) by lia. reflexivity.
Qed.
Lemma fresh_cached x t : cached x t (map (fun _ => None) (ht_map x)).
Proof. split; [apply map_length|]. intros k e b E H. rewrite nth_error_map, E in H. discriminate. Qed.

Context (x : htxt) (t : bytes) (Sw : shows x t).
Notation R := (rb 0 (ht_map x)).
Lemma En : ends 0 (ht_map x) (len t). Proof. exact (sw_ends x t Sw). Qed.
Lemma obtain_ok k c : (k < length (ht_map x))%nat -> cached x t c ->
  exists c', obtain ct x k c = Ok (c', Some (between t (R k) (R (S k)))) /\ cached x t c'.
Proof.
  intros L [Lc Hc]. destruct (nth_error (ht_map x) k) as [e|] eqn:Ee; [|apply nth_error_None in Ee; lia]. rewrite (rb_entry _ _ _ _ Ee).
  unfold obtain. destruct (nth_error c k) as [[b|]|] eqn:Eb; [| |apply nth_error_None in Eb; lia].
  - rewrite (Hc k e b Ee Eb), raw_rb. exists c. split; [reflexivity|split; assumption].
  - rewrite Ee. destruct (sw_chunks x t Sw k e Ee) as (C & z & F & T). pose proof (ends_mono _ _ _ k (S k) En ltac:(lia) ltac:(lia)) as M. rewrite (rb_entry _ _ _ _ Ee) in M.
    pose proof (ends_range _ _ _ k En ltac:(lia)) as M1. pose proof (ends_range _ _ _ (S k) En ltac:(lia)) as M2. rewrite (rb_entry _ _ _ _ Ee) in M2.
    rewrite raw_rb in *. replace ((te_raw e - R k <? 0) || (te_comp e - comp_before x k <? 0)) with false by lia. rewrite F, T. cbn [bind].
    rewrite between_len by lia. rewrite Z.eqb_refl. cbn [negb]. eexists. split; [reflexivity|]. split; [rewrite put_at_length; exact Lc|].
    intros j e' b Ej Hj. rewrite put_at_nth in Hj by lia. destruct (Nat.eqb_spec j k) as [->|N]; [|exact (Hc j e' b Ej Hj)]. injection Hj as <-. rewrite Ee in Ej. injection Ej as <-. rewrite raw_rb. reflexivity.
Qed.
Lemma gather_ok from to n : forall k c, (k + n <= length (ht_map x))%nat -> cached x t c -> from <= R k -> R (k + n) <= to ->
  exists c', gather ct x from to n k c = Ok (c', Some (between t (R k) (R (k + n)))) /\ cached x t c'.
Proof.
  induction n as [|n IH]; intros k c L H Hf Ht.
  - exists c. cbn [gather]. rewrite Nat.add_0_r. unfold between. rewrite Z.sub_diag. auto.
  - cbn [gather]. destruct (obtain_ok k c ltac:(lia) H) as (c1 & E1 & H1). rewrite E1. cbn [bind].
    destruct (nth_error (ht_map x) k) as [e|] eqn:Ee; [|apply nth_error_None in Ee; lia]. cbn [bind]. pose proof (rb_entry 0 _ _ _ Ee) as Er.
    pose proof (ends_range _ _ _ k En ltac:(lia)) as M0. pose proof (ends_mono _ _ _ k (S k) En ltac:(lia) ltac:(lia)) as M1.
    assert (M2 : R (S k) <= R (k + S n)). { destruct n; [rewrite Nat.add_1_r; lia|]. pose proof (ends_mono _ _ _ (S k) (k + S (S n)) En ltac:(lia) ltac:(lia)). lia. }
    pose proof (ends_range _ _ _ (k + S n) En ltac:(lia)) as M3.
    destruct (IH (S k) c1 ltac:(lia) H1 ltac:(lia) ltac:(replace (S k + n)%nat with (k + S n)%nat by lia; exact Ht)) as (c2 & E2 & H2). rewrite E2. cbn [bind]. exists c2. split; [|exact H2].
    rewrite raw_rb, <- Er. replace (Z.max from (R k)) with (R k) by lia. replace (Z.min to (R (S k))) with (R (S k)) by lia. replace (R k <? R (S k)) with true by lia.
    rewrite Z.sub_diag, slice_between, between_between by lia. f_equal. f_equal. f_equal. replace (R k + (0 + (R (S k) - R k))) with (R (S k)) by lia. rewrite Z.add_0_r.
    replace (S k + n)%nat with (k + S n)%nat by lia. apply between_cat; lia.
Qed.
Lemma containing_at b k : (k < length (ht_map x))%nat -> R k <= b < R (S k) -> chunk_containing x b = k.
Proof.
  intros L H. pose proof (ends_range _ _ _ (S k) En ltac:(lia)). unfold chunk_containing. rewrite (sw_raw x t Sw). replace (b =? len t) with false by lia. cbn [andb]. exact (upper_at _ _ _ _ _ En L H).
Qed.
Lemma containing_ok b : 0 <= b < len t -> (chunk_containing x b < length (ht_map x))%nat /\ R (chunk_containing x b) <= b < R (S (chunk_containing x b)).
Proof. intros H. destruct (upper_ok _ _ _ b En H) as (A & B). rewrite (containing_at b _ A B). auto. Qed.
Lemma raw_bytes_ok first last c : (first <= last)%nat -> (last < length (ht_map x))%nat -> cached x t c ->
  exists c', raw_bytes ct x (R first) (R (S last)) c = Ok (c', between t (R first) (R (S last))) /\ cached x t c'.
Proof.
  intros L1 L2 H. pose proof (ends_range _ _ _ first En ltac:(lia)) as M1. pose proof (ends_range _ _ _ (S last) En ltac:(lia)) as M2. pose proof (ends_mono _ _ _ first (S last) En ltac:(lia) ltac:(lia)) as M3.
  unfold raw_bytes. rewrite (sw_raw x t Sw). replace ((R first <? 0) || (R (S last) <? R first) || (len t <? R (S last)) || (R first =? R (S last))) with false by lia.
  assert (Nm : forall (A : Type) (u v : A), match ht_map x with [] => u | _ => v end = v) by (intros A u v; clear -L2; destruct (ht_map x); [cbn in L2; lia|reflexivity]). rewrite Nm.
  pose proof (ends_mono _ _ _ first (S first) En ltac:(lia) ltac:(lia)). pose proof (ends_mono _ _ _ last (S last) En ltac:(lia) ltac:(lia)).
  rewrite (containing_at (R first) first) by lia. rewrite (containing_at (R (S last) - 1) last) by lia.
  replace ((length (ht_map x) <=? first)%nat || (length (ht_map x) <=? last)%nat || (last <? first)%nat) with false by lia.
  destruct (gather_ok (R first) (R (S last)) (last - first + 1) first c ltac:(lia) H ltac:(lia) ltac:(replace (first + (last - first + 1))%nat with (S last) by lia; lia)) as (c' & E & H').
  exists c'. rewrite E. cbn [bind]. replace (first + (last - first + 1))%nat with (S last) by lia. auto.
Qed.
End Text.

(** * Translating *)
Section Translate.
Context (tokenize : bytes -> list token) (skip : bytes -> Z -> Z) (stop : bytes -> Prop) (starts : bytes -> list Z).
Context (Laws : tokenizer_laws tokenize skip stop starts) (Cut : cut_law starts).
Variable ct : compressor.
Context (t : bytes) (os : list Z) (base : Z) (first : Z -> option Z) (cs : list iv).
Hypothesis Hc : chunked starts t os base first cs.
(** Only the first transaction may start before its first token. *)
Hypothesis Early : forall a o, base < a < base + Z.of_nat (length os) -> first a = Some o -> o = token_start t os base a.
Let E := base + Z.of_nat (length os).

Lemma text_start_later a : base < a < E -> text_start t os base first a = token_start t os base a.
Proof. intros H. unfold text_start. destruct (first a) as [o|] eqn:F; [exact (Early a o H F)|reflexivity]. Qed.
Lemma token_start_nth a : base <= a < E -> nth_error os (Z.to_nat (a - base)) = Some (token_start t os base a).
Proof. intros H. apply nth_error_nth'. unfold E in H. lia. Qed.
Lemma inside : ascending 0 os (len t).
Proof. rewrite <- (ch_starts _ _ _ _ _ _ Hc). apply (law_inside _ _ _ _ Laws). Qed.
Lemma token_start_range a : base <= a < E -> 0 <= token_start t os base a < len t.
Proof. intros H. pose proof (ascending_in _ _ _ _ inside (nth_error_In _ _ (token_start_nth a H))). lia. Qed.
Lemma token_start_mono a b : base <= a < b -> b < E -> token_start t os base a < token_start t os base b.
Proof. intros H K. apply (ascending_nth os 0 (len t)); [exact inside|lia|unfold E in K; lia]. Qed.
Lemma text_start_le a : base <= a < E -> 0 <= text_start t os base first a <= token_start t os base a.
Proof.
  intros H. destruct (start_resumes tokenize skip stop starts Laws t os base first cs Hc a H) as [R1 R2]. split; [lia|].
  pose proof (law_inside _ _ _ _ Laws (skipn (Z.to_nat (text_start t os base first a)) t)) as Ain. rewrite R2 in Ain.
  assert (Nn : nth_error (map (fun z => z - text_start t os base first a) (skipn (Z.to_nat (a - base)) os)) 0 = Some (token_start t os base a - text_start t os base first a)).
  { rewrite nth_error_map. replace (nth_error (skipn (Z.to_nat (a - base)) os) 0) with (nth_error os (Z.to_nat (a - base))); [rewrite (token_start_nth a H); reflexivity|].
    clear. generalize (Z.to_nat (a - base)) as n. induction os as [|y l IH]; intros [|n]; try reflexivity. cbn. apply IH. }
  pose proof (ascending_in _ _ _ _ Ain (nth_error_In _ _ Nn)). lia.
Qed.
Lemma text_start_mono a b : base <= a < b -> b < E -> text_start t os base first a < text_start t os base first b.
Proof. intros H K. rewrite (text_start_later b) by lia. pose proof (text_start_le a ltac:(lia)). pose proof (token_start_mono a b H K). lia. Qed.
(** Skipping in a part of the text. *)
Lemma skip_cover a o k from to : resumes starts t os base a o -> base <= a -> 0 <= k -> 0 <= from <= o -> o <= to <= len t ->
  (to = len t \/ exists b, b < E /\ to = token_start t os base b /\ a + k <= b) ->
  skip_at skip (between t from to) (o - from) k = Ok (token_start t os base (a + k) - from) /\ o <= token_start t os base (a + k) <= to.
Proof.
  intros Rs Ha Hk Hf Ho Ht. pose proof (skip_resumes tokenize skip stop starts Laws t os base a o k Rs Ha Hk) as [Sk Bd].
  unfold skip_at in *. rewrite between_len by lia. replace ((o - from <? 0) || (to - from <? o - from)) with false by lia. replace ((o <? 0) || (len t <? o)) with false in Sk by lia.
  assert (Sc : skipn (Z.to_nat (o - from)) (between t from to) = between t o to).
  { rewrite <- (between_to_end (between t from to) (o - from)) by (rewrite between_len by lia; lia). rewrite between_len, between_between by lia. f_equal; lia. }
  rewrite Sc. destruct Ht as [->|(b & Hb & -> & Hab)].
  - rewrite between_to_end by lia. injection Sk as Sk. split; [f_equal; lia|lia].
  - assert (Tb : o <= token_start t os base (a + k) <= token_start t os base b).
    { split; [lia|]. destruct (Z.eq_dec (a + k) b) as [->|N]; [lia|]. pose proof (token_start_mono (a + k) b ltac:(lia) Hb). lia. }
    split; [|exact Tb]. f_equal.
    destruct Rs as [_ R2]. set (l := map (fun z => z - o) (skipn (Z.to_nat (a - base)) os)) in *.
    assert (Nb : nth_error (starts (skipn (Z.to_nat o) t)) (Z.to_nat (b - a)) = Some (token_start t os base b - o)).
    { rewrite R2. unfold l. rewrite nth_error_map. replace (nth_error (skipn (Z.to_nat (a - base)) os) (Z.to_nat (b - a))) with (nth_error os (Z.to_nat (b - base))); [rewrite token_start_nth by lia; reflexivity|].
      replace (Z.to_nat (b - base)) with (Z.to_nat (a - base) + Z.to_nat (b - a))%nat by lia. clear. generalize (Z.to_nat (a - base)) as n. induction os as [|y l IH]; intros [|n]; try reflexivity; cbn; [destruct (Z.to_nat (b - a)); reflexivity|apply IH]. }
    pose proof (Cut _ _ _ Nb) as Ec. fold (between t o (token_start t os base b)) in Ec. rewrite (law_skip _ _ _ _ Laws _ k Hk), Ec, R2, between_len by lia.
    assert (Ll : length l = (length os - Z.to_nat (a - base))%nat) by (unfold l; rewrite map_length, skipn_length; reflexivity).
    destruct (Z.eq_dec (a + k) b) as [Eb|Nab].
    + rewrite nth_overflow by (rewrite firstn_length; lia). subst b. lia.
    + assert (Lk : (Z.to_nat k < Z.to_nat (b - a))%nat) by lia. assert (Lk2 : (Z.to_nat k < length l)%nat) by (unfold E in Hb; lia).
      assert (Nf : nth (Z.to_nat k) (firstn (Z.to_nat (b - a)) l) (token_start t os base b - o) = nth (Z.to_nat k) l (token_start t os base b - o)).
      { rewrite <- (firstn_skipn (Z.to_nat (b - a)) l) at 2. rewrite app_nth1; [reflexivity|]. rewrite firstn_length. lia. }
      rewrite Nf. rewrite (nth_indep l (token_start t os base b - o) (len t - o)) by exact Lk2. unfold l. rewrite nth_map_sub, nth_skipn. unfold token_start.
      replace (Z.to_nat (a - base) + Z.to_nat k)%nat with (Z.to_nat (a + k - base)) by lia. lia.
Qed.

(** [x] is the text [t] with its chunks [cs]. *)
Record hazel_text (x : htxt) : Prop := {
  hz_shows : shows ct x t;
  hz_align : Forall (fun e => te_raw e = len t \/ exists a, base < a < E /\ te_raw e = token_start t os base a /\ exists c, In c cs /\ ip c = a) (ht_map x);
  hz_range : if base <? E then ht_first x = base /\ ht_last x = E - 1 else ht_first x = maxf }.
Theorem hazel_chunked (x : htxt) (o : hobj) c p q : hazel_text x -> answers (projT1 o) (projT2 o) (set_of cs) -> cached x t c ->
  exists o' c', hazel_translate ct skip x (o, c) p q = Ok ((o', c'), expected t os base first p q) /\
    answers (projT1 o') (projT2 o') (set_of cs) /\ cached x t c'.
Proof.
  intros [Sw Al Rg] [G I] Hca. destruct o as [C s0]. cbn [projT1 projT2] in *. unfold hazel_translate. cbn [projT1 projT2].
  pose proof (ch_base _ _ _ _ _ _ Hc) as B0. pose proof (ch_room _ _ _ _ _ _ Hc) as Rm. pose proof (ch_contig _ _ _ _ _ _ Hc) as Ct. fold E in Rm, Ct.
  unfold expected. fold E.
  destruct (Z.ltb_spec base E) as [Ne|Ne].
  2:{ rewrite Rg, Z.eqb_refl. replace (Z.min q (E - 1) <? Z.max p base) with true by lia. exists (existT _ C s0), c. split; [reflexivity|]. split; [exact (conj G I)|exact Hca]. }
  destruct Rg as [Rf Rl]. rewrite Rf, Rl. replace (base =? maxf) with false by lia.
  replace (if p <? base then base else p) with (Z.max p base) by (destruct (Z.ltb_spec p base); lia).
  replace (if E - 1 <? q then E - 1 else q) with (Z.min q (E - 1)) by (destruct (Z.ltb_spec (E - 1) q); lia).
  set (k := Z.max p base). set (m := Z.min q (E - 1)).
  destruct (Z.ltb_spec m k) as [Lmk|Lmk].
  { rewrite orb_true_r. exists (existT _ C s0), c. split; [reflexivity|]. split; [exact (conj G I)|exact Hca]. }
  replace (k =? maxf) with false by lia. cbn [orb].
  pose proof (implements_step C (set_of cs) s0 Mrho k I ltac:(unfold minf, maxf in *; lia)) as H1. apply wp_exists in H1.
  destruct H1 as ([s1 x0] & H1 & I1 & A1). cbn [call] in H1. rewrite H1. cbn [bind]. cbn [answer] in A1.
  destruct A1 as [[A1 _]|[_ A1]]; [unfold minf in A1; lia|].
  destruct (contig_find _ _ _ k Ct ltac:(lia)) as (cx & Hx & Kx). pose proof (contig_in _ _ _ _ Ct Hx) as Cx.
  assert (x0 = cx) as ->.
  { destruct A1 as [(S0 & Q0 & M0)|[_ N0]]; [|specialize (N0 cx Hx); lia].
    pose proof (contig_in _ _ _ _ Ct S0) as C0. specialize (M0 cx Hx ltac:(lia)).
    destruct (contig_order _ _ _ x0 cx Ct S0 Hx) as [K|[K|K]]; [exact K|lia|lia]. }
  replace ((ip cx =? maxf) || (m <? ip cx)) with false by lia.
  pose proof (implements_step C (set_of cs) s1 Mohr m I1 ltac:(unfold minf, maxf in *; lia)) as H2. apply wp_exists in H2.
  destruct H2 as ([s2 x1] & H2 & I2 & A2). cbn [call] in H2. rewrite H2. cbn [bind]. cbn [answer] in A2.
  destruct A2 as [[A2 _]|[_ A2]]; [lia|].
  destruct (contig_find _ _ _ m Ct ltac:(lia)) as (y & Hy & Ky). pose proof (contig_in _ _ _ _ Ct Hy) as Cy.
  assert (x1 = y) as ->.
  { destruct A2 as [(S0 & Q0 & M0)|[_ N0]]; [|specialize (N0 y Hy); lia].
    pose proof (contig_in _ _ _ _ Ct S0) as C0. specialize (M0 y Hy ltac:(lia)).
    destruct (contig_order _ _ _ x1 y Ct S0 Hy) as [K|[K|K]]; [exact K|lia|lia]. }
  replace ((ip y =? minf) || (ip y =? maxf)) with false by (unfold minf; lia).
  rewrite (ch_offset _ _ _ _ _ _ Hc cx Hx), (ch_offset _ _ _ _ _ _ Hc y Hy).
  set (left := text_start t os base first (ip cx)). set (right := text_start t os base first (ip y)).
  pose proof (text_start_le (ip cx) ltac:(lia)) as Lx. pose proof (token_start_range (ip cx) ltac:(lia)) as Lx2. fold left in Lx.
  pose proof (text_start_le (ip y) ltac:(lia)) as Ly. pose proof (token_start_range (ip y) ltac:(lia)) as Ly2. fold right in Ly.
  assert (Lxy : left <= right).
  { destruct (Z.eq_dec (ip cx) (ip y)) as [Q|Q]; [unfold left, right; rewrite Q; lia|]. destruct (contig_order _ _ _ cx y Ct Hx Hy) as [K|[K|K]]; [subst y; lia| |lia].
    pose proof (text_start_mono (ip cx) (ip y) ltac:(lia) ltac:(lia)). unfold left, right. lia. }
  rewrite (sw_raw _ _ _ Sw). replace ((left <? 0) || (len t <? left) || (right <? 0) || (len t <? right)) with false by lia.
  replace (iq y <? m) with false by lia. cbv iota. replace (right <? left) with false by lia. cbn [orb].
  pose proof (sw_ends _ _ _ Sw) as En.
  destruct (containing_ok ct x t Sw left ltac:(lia)) as (F1 & F2). destruct (containing_ok ct x t Sw right ltac:(lia)) as (L1 & L2).
  set (fi := chunk_containing x left) in *. set (la := chunk_containing x right) in *.
  assert (Nm : match ht_map x with [] => true | _ => false end = false) by (destruct (ht_map x); [cbn in F1; lia|reflexivity]). rewrite Nm.
  assert (Fl : (fi <= la)%nat).
  { destruct (le_lt_dec fi la) as [K|K]; [exact K|exfalso]. destruct (Nat.eq_dec (S la) fi) as [Q|Q]; [rewrite <- Q in F2; lia|].
    pose proof (ends_mono _ _ _ (S la) fi En ltac:(lia) ltac:(lia)). lia. }
  replace ((length (ht_map x) <=? fi)%nat || (length (ht_map x) <=? la)%nat || (la <? fi)%nat) with false by lia.
  rewrite !raw_rb. set (from := rb 0 (ht_map x) fi) in *. set (to := rb 0 (ht_map x) (S la)) in *.
  pose proof (ends_range _ _ _ fi En ltac:(lia)) as Fr. fold from in Fr. pose proof (ends_range _ _ _ (S la) En ltac:(lia)) as Tr. fold to in Tr.
  replace ((left <? from) || (to <? right)) with false by lia.
  destruct (raw_bytes_ok ct x t Sw fi la c Fl L1 Hca) as (c' & Ec & Hc'). fold from to in Ec. rewrite Ec. cbn [bind].
  rewrite between_len by lia. rewrite Z.eqb_refl. cbn [negb].
  (* where the part ends *)
  assert (To : to = len t \/ exists b, b < E /\ to = token_start t os base b /\ iq y < b).
  { destruct (nth_error (ht_map x) la) as [e|] eqn:Ee; [|apply nth_error_None in Ee; lia]. assert (Te : to = te_raw e) by exact (rb_entry _ _ _ _ Ee).
    rewrite Forall_forall in Al. destruct (Al e (nth_error_In _ _ Ee)) as [K|(a & Ha & Ka & z & Hz & Ez)]; [left; lia|right]. exists a. split; [lia|]. split; [lia|]. subst a.
    destruct (contig_order _ _ _ y z Ct Hy Hz) as [K|[K|K]]; [|exact K|].
    - exfalso. subst z. rewrite <- text_start_later in Ka by lia. fold right in Ka. lia.
    - exfalso. pose proof (contig_in _ _ _ _ Ct Hz). pose proof (text_start_mono (ip z) (ip y) ltac:(lia) ltac:(lia)) as Tm. rewrite (text_start_later (ip z)) in Tm by lia. fold right in Tm. lia. }
  assert (To2 : forall z, z <= iq y + 1 -> to = len t \/ exists b, b < E /\ to = token_start t os base b /\ z <= b).
  { intros z Hz. destruct To as [K|(b & K1 & K2 & K3)]; [left; exact K|right; exists b; split; [exact K1|]; split; [exact K2|lia]]. }
  pose proof (start_resumes tokenize skip stop starts Laws t os base first cs Hc (ip cx) ltac:(unfold E in *; lia)) as Rx. fold left in Rx.
  pose proof (start_resumes tokenize skip stop starts Laws t os base first cs Hc (ip y) ltac:(unfold E in *; lia)) as Ry. fold right in Ry.
  pose proof (start_resumes tokenize skip stop starts Laws t os base first cs Hc k ltac:(unfold E in *; lia)) as Rk.
  set (ks := text_start t os base first k) in *.
  assert (Es : (if ip cx <? k then skip_at skip (between t from to) (left - from) (k - ip cx) else Ok (left - from)) = Ok (ks - from) /\ from <= ks <= to).
  { destruct (Z.ltb_spec (ip cx) k) as [L|L].
    - destruct (skip_cover (ip cx) left (k - ip cx) from to Rx ltac:(lia) ltac:(lia) ltac:(lia) ltac:(lia) (To2 (ip cx + (k - ip cx)) ltac:(lia))) as [-> Bd].
      replace (ip cx + (k - ip cx)) with k in * by lia. unfold ks. rewrite text_start_later by lia. split; [reflexivity|lia].
    - unfold ks. replace k with (ip cx) by lia. fold left. split; [reflexivity|lia]. }
  destruct Es as [-> Bs]. cbn [bind]. replace (if ip cx <? k then k else ip cx) with k by (destruct (Z.ltb_spec (ip cx) k); lia).
  assert (Ck : forall z, minf <= z <= maxf -> chk z = Ok z).
  { intros z Hz. unfold chk. replace (minf <=? z) with true by lia. replace (z <=? maxf) with true by lia. reflexivity. }
  destruct (skip_cover k ks (m - k + 1) from to Rk ltac:(lia) ltac:(lia) ltac:(lia) ltac:(lia) (To2 (k + (m - k + 1)) ltac:(lia))) as [Ek Bk]. replace (k + (m - k + 1)) with (m + 1) in * by lia.
  assert (Ee : (if iq cx =? iq y then let* j := chk (m - k + 1) in let* e := skip_at skip (between t from to) (ks - from) j in Ok (Some e)
                else if (right - from <? 0) || (to - from <? right - from) then Ok None
                else let* j := chk (m - ip y + 1) in let* e := skip_at skip (between t from to) (right - from) j in Ok (Some e)) = Ok (Some (token_start t os base (m + 1) - from))).
  { destruct (Z.eqb_spec (iq cx) (iq y)) as [Q|Q].
    - rewrite Ck by (unfold minf; lia). cbn [bind]. rewrite Ek. reflexivity.
    - replace ((right - from <? 0) || (to - from <? right - from)) with false by lia. rewrite Ck by (unfold minf; lia). cbn [bind].
      destruct (skip_cover (ip y) right (m - ip y + 1) from to Ry ltac:(lia) ltac:(lia) ltac:(lia) ltac:(lia) (To2 (ip y + (m - ip y + 1)) ltac:(lia))) as [-> _].
      replace (ip y + (m - ip y + 1)) with (m + 1) by lia. reflexivity. }
  rewrite Ee. cbn [bind]. replace ((ks - from <? 0) || (token_start t os base (m + 1) - from <? ks - from) || (to - from <? token_start t os base (m + 1) - from)) with false by lia.
  exists (existT _ C s2), c'. split; [|split; [exact (conj G I2)|exact Hc']]. rewrite slice_between, between_between by lia. f_equal. f_equal. f_equal; lia.
Qed.
Theorem hazel_history (x : htxt) l : hazel_text x -> forall (o : hobj) c, answers (projT1 o) (projT2 o) (set_of cs) -> cached x t c ->
  hazel_translate_all ct skip x (o, c) l = Ok (map (fun pq => expected t os base first (fst pq) (snd pq)) l).
Proof.
  intros H. induction l as [|[p q] r IH]; intros o c A Ca; [reflexivity|]. cbn [hazel_translate_all map fst snd].
  destruct (hazel_chunked x o c p q H A Ca) as (o' & c' & Et & A' & Ca'). rewrite Et. cbn [bind]. rewrite (IH o' c' A' Ca'). reflexivity.
Qed.
Lemma hazel_counts x : hazel_text x -> hazel_tokens x = Ok (E - base) /\ hazel_range x = if base <? E then Some (base, E - 1) else None.
Proof.
  intros [_ _ Rg]. pose proof (ch_base _ _ _ _ _ _ Hc) as B0. pose proof (ch_room _ _ _ _ _ _ Hc) as Rm. fold E in Rm. unfold hazel_tokens, hazel_range.
  destruct (Z.ltb_spec base E) as [Ne|Ne].
  - destruct Rg as [-> ->]. replace (base =? maxf) with false by lia. unfold chk. replace (minf <=? E - 1 - base) with true by (unfold minf; lia). replace (E - 1 - base <=? maxf) with true by lia. cbn [andb bind].
    replace (minf <=? E - 1 - base + 1) with true by (unfold minf; lia). replace (E - 1 - base + 1 <=? maxf) with true by lia. cbn [andb]. split; [f_equal; lia|reflexivity].
  - rewrite Rg. rewrite Z.eqb_refl. split; [f_equal; unfold E in *; lia|reflexivity].
Qed.
End Translate.
